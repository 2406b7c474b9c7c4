{"id": "C01", "title": "Resolved packages form one tree with unique locations", "statement": "Whatever the order in which registry responses arrive, and whatever lockfile is supplied, resolution never overwrites an already placed package: when it finishes, every package other than the root sits in exactly one parent's node_modules under its own name, that parent is older than it, and two different packages never share a node_modules path.", "quantifier": "all root manifests, all registries, all lockfiles, all fetch completion orders and chunkings, every intermediate state", "why_tests_cant": "the 'clobbered' branch is reachable or not depending on interleavings of hundreds of fetches; a test picks one interleaving", "anchors": ["crates/node-maintainer/src/resolver.rs:place_child", "crates/node-maintainer/src/graph.rs:Node"]}
{"id": "C02", "title": "Node-style lookup finds the right version", "statement": "When resolution succeeds, for every package and every dependency it declares, walking up the node_modules directories from that package finds a package that satisfies the declared spec (or the very package the registry returned for that spec).", "quantifier": "all manifests, registries, lockfiles, fetch schedules", "why_tests_cant": "a shadowing placement appears only for particular response orders on nested trees", "anchors": ["crates/node-maintainer/src/resolver.rs:run_resolver", "crates/node-maintainer/src/resolver.rs:satisfy_dependency", "crates/node-maintainer/src/resolver.rs:place_child", "crates/node-maintainer/src/graph.rs:resolve_dep"]}
{"id": "C03", "title": "No dependency is dropped by the concurrent fetch bookkeeping", "statement": "While resolution is unfinished there is always queued work or an outstanding fetch; each declared dependency of each placed package is looked up exactly once, and when resolution succeeds every one of them has been linked to a package. Requests that share a spec share one fetch without losing any of the requesters.", "quantifier": "all manifests, registries, fetch schedules", "why_tests_cant": "lost wake-ups and miscounted in-flight entries depend on the interleaving of completion with queueing", "anchors": ["crates/node-maintainer/src/resolver.rs:run_resolver"]}
{"id": "C04", "title": "Resolution terminates", "statement": "Resolving a package.json against a registry with finitely many packages terminates (given that every fetch answers).", "quantifier": "all finite registries and root manifests", "why_tests_cant": "non-termination cannot be observed by a finite test, and depends on cyclic dependency shapes", "anchors": ["crates/node-maintainer/src/resolver.rs:run_resolver", "crates/node-maintainer/src/resolver.rs:place_child", "crates/nassun/src/resolver.rs:PackageResolution::satisfies"]}
{"id": "C05", "title": "The resolved tree does not depend on network timing", "statement": "Two resolutions of the same package.json against the same registry produce the same node_modules tree regardless of the order in which metadata fetches complete.", "quantifier": "all manifests and registries, all pairs of fetch schedules", "why_tests_cant": "needs a comparison over all pairs of schedules", "anchors": ["crates/node-maintainer/src/resolver.rs:run_resolver"]}
{"id": "C06", "title": "A lockfile pins the tree", "statement": "Re-resolving an unchanged package.json with the lockfile produced by a previous successful resolution reproduces exactly the same tree.", "quantifier": "all resolved graphs, all fetch schedules", "why_tests_cant": "depends on shapes of the tree (redundant nested copies, dist-tag requests) outside any fixed fixture", "anchors": ["crates/node-maintainer/src/resolver.rs:satisfy_from_lockfile", "crates/node-maintainer/src/resolver.rs:place_child", "crates/node-maintainer/src/graph.rs:to_lockfile"]}
{"id": "C07", "title": "--locked accepts exactly the up-to-date lockfile", "statement": "With locked set, resolution fails with a lockfile mismatch if and only if the tree resolved differs from the lockfile supplied.", "quantifier": "all lockfiles and resolved graphs", "why_tests_cant": "equality of whole documents over all graphs", "anchors": ["crates/node-maintainer/src/resolver.rs:run_resolver (locked)", "crates/node-maintainer/src/lockfile.rs:Lockfile::from_kdl", "crates/node-maintainer/src/graph.rs:to_lockfile"]}
{"id": "C08", "title": "KDL lockfile round-trip", "statement": "Writing a lockfile and reading it back yields an equal lockfile: same root, same packages at same paths, same resolved URL, version, integrity and dependency maps.", "quantifier": "all lockfiles obtained from a graph", "why_tests_cant": "a codec law over unbounded data", "anchors": ["crates/node-maintainer/src/lockfile.rs:to_kdl", "crates/node-maintainer/src/lockfile.rs:from_kdl"]}
{"id": "C09", "title": "Lockfile packages are keyed uniquely and completely", "statement": "The lockfile written for a resolved graph has exactly one entry per installed package, keyed by its node_modules path; no package is dropped because of a key collision.", "quantifier": "all graphs reached by resolution", "why_tests_cant": "collisions depend on arbitrary trees", "anchors": ["crates/node-maintainer/src/graph.rs:to_lockfile", "crates/node-maintainer/src/graph.rs:node_path"]}
{"id": "C10", "title": "A lockfile entry is only used when it satisfies the request", "statement": "A package taken from a lockfile (or from the previously installed tree) is only used when it is found by walk-up from the dependent and satisfies the spec being resolved; otherwise the registry is asked.", "quantifier": "all lockfiles, graphs, requests", "why_tests_cant": "for all stale or hand-edited lockfiles", "anchors": ["crates/node-maintainer/src/resolver.rs:satisfy_from_lockfile"]}
{"id": "C11", "title": "Install scripts run after the scripts of everything they depend on", "statement": "During rebuild, a package's install script for an event starts only after that script has finished for every package it transitively depends on that also has to run it.", "quantifier": "all dependency graphs, all script completion orders, all concurrency limits", "why_tests_cant": "orderings under concurrency", "anchors": ["crates/node-maintainer/src/linkers/mod.rs:run_scripts"]}
{"id": "C12", "title": "Every pending install script runs exactly once", "statement": "When rebuild succeeds, each package that has to run a script has run it exactly once; no package runs it twice.", "quantifier": "all acyclic dependency graphs and completion orders", "why_tests_cant": "exactly-once over all interleavings", "anchors": ["crates/node-maintainer/src/linkers/mod.rs:run_scripts"]}
{"id": "C13", "title": "Rebuild terminates", "statement": "Provided each script finishes, running the scripts of a rebuild terminates.", "quantifier": "all dependency graphs, including cyclic ones", "why_tests_cant": "a deadlock is visible only on cyclic script graphs, and as a hang", "anchors": ["crates/node-maintainer/src/linkers/mod.rs:run_scripts"]}
{"id": "C14", "title": "Optional failures are tolerated, others are not", "statement": "A failing install script makes the rebuild fail iff the package is a non-optional dependency of something; failing scripts of optional-only packages never fail the rebuild.", "quantifier": "all graphs, all script outcomes", "why_tests_cant": "for all graphs including transitively optional packages", "anchors": ["crates/node-maintainer/src/linkers/mod.rs:run_dep_script", "crates/node-maintainer/src/graph.rs:is_optional"]}
{"id": "C15", "title": "Hoisted apply leaves exactly the resolved tree", "statement": "After a successful prune and extract with the hoisted linker, node_modules holds each package of the resolved tree at its path and nothing that belongs to no package of the tree.", "quantifier": "all previous node_modules contents and all resolved trees", "why_tests_cant": "all histories of previous installs, including scoped and nested packages", "anchors": ["crates/node-maintainer/src/linkers/hoisted.rs:prune", "crates/node-maintainer/src/linkers/hoisted.rs:extract"]}
{"id": "C16", "title": "Hoisted prune keeps only up-to-date packages", "statement": "Prune never removes a package directory that the new tree keeps unchanged at the same path, and removes top-level packages whose resolution changed or that are no longer wanted.", "quantifier": "all previous and new trees", "why_tests_cant": "all pairs of trees", "anchors": ["crates/node-maintainer/src/linkers/hoisted.rs:prune"]}
{"id": "C17", "title": "Crash safety of apply", "statement": "If a process is killed at any point of an apply and apply is run again, the final node_modules is the same as with an uninterrupted run.", "quantifier": "all crash points, all histories of trees applied before and after the crash", "why_tests_cant": "crash points times histories", "anchors": ["crates/node-maintainer/src/linkers/hoisted.rs:prune", "crates/node-maintainer/src/linkers/hoisted.rs:extract", "crates/node-maintainer/src/linkers/isolated.rs:prune", "crates/node-maintainer/src/linkers/isolated.rs:extract", "crates/node-maintainer/src/maintainer.rs"]}
{"id": "C18", "title": "Isolated linker installs the resolved version", "statement": "After a successful apply with the isolated linker, the store directory of each package holds the files of the package version that was resolved.", "quantifier": "all pairs of previous and new trees", "why_tests_cant": "depends on upgrade histories", "anchors": ["crates/node-maintainer/src/linkers/isolated.rs:extract", "crates/node-maintainer/src/linkers/isolated.rs:package_dir_name"]}
{"id": "C19", "title": "Isolated store directories do not collide", "statement": "Distinct packages of the tree get distinct store directories.", "quantifier": "all trees", "why_tests_cant": "hash-truncation over unbounded trees", "anchors": ["crates/node-maintainer/src/linkers/isolated.rs:package_dir_name"]}
{"id": "C20", "title": "Isolated linker links exactly the declared dependencies", "statement": "In an isolated install a package can see exactly its declared dependencies in its node_modules, each pointing at the package its dependency edge resolved to.", "quantifier": "all graphs", "why_tests_cant": "all graphs", "anchors": ["crates/node-maintainer/src/linkers/isolated.rs:link_deps"]}
{"id": "C21", "title": "Nothing is extracted from a tarball with the wrong integrity", "statement": "If the bytes received do not match the expected integrity, extraction reports an error and writes no file of the package, however the stream is chunked.", "quantifier": "all byte streams, chunkings, integrities", "why_tests_cant": "all chunkings and contents", "anchors": ["crates/nassun/src/tarball.rs:Tarball", "crates/nassun/src/tarball.rs:TempTarball", "crates/nassun/src/tarball.rs:extract_from_tarball_data"]}
{"id": "C22", "title": "Tarball extraction stays inside the destination", "statement": "Extracting a package never creates or modifies a file outside the destination directory.", "quantifier": "all tarballs", "why_tests_cant": "adversarial archives", "anchors": ["crates/nassun/src/tarball.rs:extract_from_tarball_data", "crates/nassun/src/tarball.rs:strip_one"]}
{"id": "C23", "title": "Memory spill does not change tarball contents", "statement": "The bytes read back from the temporary tarball are those received, whether kept in memory or spilled to disk.", "quantifier": "all streams and chunk sizes", "why_tests_cant": "boundary of 5 MiB over all chunkings", "anchors": ["crates/nassun/src/tarball.rs:TempTarball", "crates/nassun/src/tarball.rs:into_temp"]}
{"id": "C24", "title": "Cached and fresh extraction agree", "statement": "Extracting a package from the local cache produces the same files, contents and modes as extracting it from its tarball.", "quantifier": "all packages and bin maps", "why_tests_cant": "all archives", "anchors": ["crates/nassun/src/tarball.rs:extract_from_tarball_data", "crates/nassun/src/package.rs:extract_from_cache"]}
{"id": "C25", "title": "Corrupt cache falls back to the network", "statement": "If extraction from the cache fails, the cache entry is dropped and the package is fetched again; the result is the same as without a cache.", "quantifier": "all cache states", "why_tests_cant": "all failure points", "anchors": ["crates/nassun/src/package.rs:extract_to_dir"]}
{"id": "C26", "title": "Bin names cannot escape the bin directory", "statement": "Whatever a package's bin field contains, every bin link is created directly inside node_modules/.bin: its name is a single path component that is neither '.' nor '..'.", "quantifier": "all bin fields and package names", "why_tests_cant": "adversarial manifests", "anchors": ["crates/oro-common/src/build_manifest.rs:normalize"]}
{"id": "C27", "title": "Bin targets stay inside the package", "statement": "Whatever a package's bin field contains, every bin target is a path inside that package.", "quantifier": "all bin fields", "why_tests_cant": "adversarial manifests", "anchors": ["crates/oro-common/src/build_manifest.rs:normalize"]}
{"id": "C28", "title": "Version selection", "statement": "An exact request resolves to that version or fails; a tag request to the tagged version; a range request to the default tag's version when in range, else to the highest published version in range, and it fails when there is none; no published version satisfying the range is ever ignored.", "quantifier": "all packuments, specs, default tags", "why_tests_cant": "all packuments", "anchors": ["crates/nassun/src/resolver.rs:get_resolution", "crates/nassun/src/resolver.rs:max_satisfying"]}
{"id": "C29", "title": "A range request yields a version in the range", "statement": "Whenever a range request succeeds, the version chosen satisfies the range.", "quantifier": "all packuments, ranges", "why_tests_cant": "all packuments", "anchors": ["crates/nassun/src/resolver.rs:get_resolution"]}
{"id": "C30", "title": "Package spec display round-trip", "statement": "Printing a parsed package spec and parsing it again gives an equal spec.", "quantifier": "all strings accepted by the parser", "why_tests_cant": "unbounded grammar", "anchors": ["crates/oro-package-spec/src/lib.rs", "crates/oro-package-spec/src/parsers", "crates/oro-package-spec/src/gitinfo.rs"]}
{"id": "C31", "title": "Spec classification is unambiguous and aliases resolve", "statement": "The target of any spec is never an alias; a spec string accepted as npm, git, dir or alias is classified by its prefix, and resolving any parsed spec never crashes.", "quantifier": "all strings", "why_tests_cant": "unbounded grammar", "anchors": ["crates/oro-package-spec/src/lib.rs", "crates/oro-package-spec/src/parsers/package.rs", "crates/nassun/src/fetch/dir.rs", "crates/nassun/src/fetch/git.rs"]}
{"id": "C32", "title": "Credentials are only sent to their registry", "statement": "Credentials configured for a registry are attached only to requests to that registry's host under that registry's path.", "quantifier": "all registries, credentials, request URLs", "why_tests_cant": "adversarial URLs", "anchors": ["crates/oro-client/src/auth_middleware.rs"]}
{"id": "C33", "title": "Stored credentials are read back", "statement": "Credentials saved for a registry by login are returned for the same registry, with the same kind, until replaced or cleared, and saving or clearing for one registry leaves the others unchanged.", "quantifier": "all config documents and operation sequences", "why_tests_cant": "all histories", "anchors": ["crates/oro-npm-account/src/config.rs"]}
{"id": "C34", "title": "Command-line key/value options round-trip", "statement": "A map option coming from configuration is passed on so that parsing the generated argument gives back the same key and value; malformed arguments are reported as errors rather than crashing.", "quantifier": "all keys and values", "why_tests_cant": "unbounded strings", "anchors": ["src/lib.rs:parse_key_value", "src/lib.rs:parse_nested_key_value", "src/lib.rs:layered_args"]}
{"id": "C35", "title": "Configuration precedence", "statement": "An option's value is taken from the command line if given there, else from the project oro.kdl, else from the environment, else from the global config file, else from the default.", "quantifier": "all combinations of sources", "why_tests_cant": "all combinations", "anchors": ["src/lib.rs:layered_command_args", "crates/oro-config/src/lib.rs"]}
{"id": "C36", "title": "Log retention", "statement": "Cleaning old logs deletes only debug logs, never deletes a log newer than one it keeps, and leaves at most the retained number.", "quantifier": "all log directories", "why_tests_cant": "all directory contents", "anchors": ["src/lib.rs:clean_old_logs"]}
{"id": "C37", "title": "remove removes the named dependencies and nothing else", "statement": "After remove, the named packages are in no dependency section of package.json; every other dependency and every other field is unchanged.", "quantifier": "all manifests and name lists", "why_tests_cant": "all manifests", "anchors": ["src/commands/remove.rs"]}
{"id": "C38", "title": "add records each dependency in exactly one section", "statement": "After add, each requested package is in exactly the requested dependency section with the prefix-adjusted spec; every other entry is unchanged.", "quantifier": "all manifests and requests", "why_tests_cant": "all manifests", "anchors": ["src/commands/add.rs"]}
{"id": "C39", "title": "Lockfile and package.json are written only after a successful install", "statement": "If any phase of an apply fails or is interrupted, the lockfile on disk is the old one; and add/remove never leave package.json naming packages that were not installed.", "quantifier": "all failure points", "why_tests_cant": "all failure points", "anchors": ["src/apply_args.rs", "src/commands/add.rs", "src/commands/remove.rs"]}
{"id": "C40", "title": "package.json formatting is preserved", "statement": "Parsing a package.json for formatting and writing back an unchanged document preserves its indentation, line endings and trailing newline.", "quantifier": "all documents", "why_tests_cant": "all documents", "anchors": ["crates/oro-pretty-json/src/lib.rs"]}
{"id": "C41", "title": "Script PATH order", "statement": "A package script sees the .bin directories of its own package and every enclosing package up to the workspace root, nearest first, and no directory above the workspace root.", "quantifier": "all directory layouts", "why_tests_cant": "all layouts", "anchors": ["crates/oro-script/src/lib.rs"]}
{"id": "C42", "title": "Paths map back to the package that owns them", "statement": "Looking up a file path under the project's node_modules returns the package whose directory contains it, and nothing for paths in no package.", "quantifier": "all graphs and paths", "why_tests_cant": "all paths, including missing nested and scoped ones", "anchors": ["crates/node-maintainer/src/graph.rs:node_at_path"]}
{"id": "C43", "title": "Lockfile source precedence", "statement": "An explicitly supplied lockfile wins over on-disk ones, KDL over npm formats, package-lock over npm-shrinkwrap; an unreadable lockfile is reported rather than silently ignored.", "quantifier": "all combinations of present, absent and malformed lockfiles", "why_tests_cant": "all combinations", "anchors": ["crates/node-maintainer/src/maintainer.rs:get_lockfile"]}
{"id": "C44", "title": "Every declared bin is linked under its name", "statement": "For every bin field a package declares, the set of commands linked is exactly the declared ones (a scoped package's single bin under its unscoped name), and it does not depend on the iteration order of a hash map.", "quantifier": "all bin fields and all hash map iteration orders", "why_tests_cant": "a test run sees one hash seed and a few bin fields; two names with one base name make the result random", "anchors": ["crates/oro-common/src/build_manifest.rs BuildManifest::normalize"]}
{"id": "C45", "title": "directories.bin means the package's own directory", "statement": "A package declaring directories.bin gets one command per file of that directory inside the package.", "quantifier": "all packages and all current directories of the orogene process", "why_tests_cant": "depends on the directory orogene is started from and its contents", "anchors": ["crates/oro-common/src/build_manifest.rs BuildManifest::normalize", "crates/node-maintainer/src/linkers/hoisted.rs link_bins"]}
{"id": "C46", "title": "Registry routing and packument memory", "statement": "A scoped package is looked up in the registry configured for its scope, every other package in the default registry; nothing other registries or other names serve changes a result; and remembering packuments between lookups changes no result.", "quantifier": "all registry configurations, package specs, registry contents and sequences of lookups", "why_tests_cant": "depends on the configuration, on every order of lookups and on what every registry serves; a test fixes one mock registry", "anchors": ["crates/nassun/src/client.rs: NassunOpts::build, Nassun::resolve_spec", "crates/nassun/src/fetch/npm.rs: NpmFetcher::pick_registry, packument, corgi_packument"]}
{"id": "C47", "title": "package-lock.json is imported faithfully", "statement": "Reading an npm package-lock.json gives, for every installed package it lists, one entry at that package's path with the same name, version, origin, integrity and requirements, and nothing else.", "quantifier": "all package-lock.json documents", "why_tests_cant": "tests import a few fixture lockfiles; keys, scopes, nesting depth and field combinations are unbounded", "anchors": ["crates/node-maintainer/src/lockfile.rs: Lockfile::from_npm, LockfileNode::from_npm"]}
{"id": "C48", "title": "Packages with install scripts own their files", "statement": "After extracting a package that has install scripts, none of its files shares storage (is a hard link) with the local cache, whatever extraction mode was asked for; so scripts that write to them cannot change the cache or other installs.", "quantifier": "all packages with install scripts, all extraction modes, cold and warm cache", "why_tests_cant": "Entry order, mode and cache state decide which files were already linked when the scripts are discovered; tests cover one order.", "anchors": ["crates/nassun/src/tarball.rs: extract_to_dir", "crates/nassun/src/package.rs: extract_from_cache"]}
{"id": "C49", "title": "An intact tarball is always extracted", "statement": "Extraction of an intact tarball of a package into an empty destination succeeds and yields exactly the package's files, in every extraction mode and with every cache content that lacks this package.", "quantifier": "all intact tarballs, destinations, extraction modes, caches without the package", "why_tests_cant": "Success depends on directory creation order, fallbacks between link and copy and on shared contents; only a proof covers all archives.", "anchors": ["crates/nassun/src/tarball.rs: extract_to_dir, mkdirp, extract_from_cache, set_bin_mode"]}
{"id": "C50", "title": "Nothing is installed that was not asked for", "statement": "At every moment of a resolution, every package of the tree except the project itself was requested, under the name it is installed as, by a package the project depends on directly or indirectly, and is exactly what the registry answered to that request or what the lockfile holds for that name (and then it satisfies the request).", "quantifier": "all manifests, registries, lockfiles and orders of registry responses", "why_tests_cant": "Extraneous or mismatched packages appear only for particular interleavings of shared fetches, hoisting and lockfile hits; no set of test trees covers them.", "anchors": ["crates/node-maintainer/src/resolver.rs: run_resolver, place_child, satisfy_dependency, satisfy_from_lockfile"]}
{"id": "C51", "title": "A request for a package name gets that package", "statement": "A dependency on the registry package N is always given a package published as N, never a different package that happens to be installed under the name N.", "quantifier": "all manifests (with and without npm: aliases), registries, lockfiles and schedules", "why_tests_cant": "It depends on which packages are installed under which names higher in the tree, for all trees.", "anchors": ["crates/nassun/src/resolver.rs: PackageResolution::satisfies", "crates/node-maintainer/src/resolver.rs: satisfy_dependency"]}
{"id": "C52", "title": "Linking executables never fails on an intact tree", "statement": "After the packages of a tree have been extracted, linking their executables into the .bin directories never returns an error and always finishes.", "quantifier": "all resolved trees, all sets of executables, all concurrency limits and interleavings of the file system calls of packages linked at the same time", "why_tests_cant": "The outcome depends on the interleaving of check-then-create and remove-then-link file system calls of concurrently linked packages.", "anchors": ["crates/node-maintainer/src/linkers/hoisted.rs: link_bins", "crates/node-maintainer/src/linkers/mod.rs: mkdirp, link_bin"]}
{"id": "C53", "title": "After apply, every package's executables are linked", "statement": "When apply returns successfully (hoisted layout), every executable of every package of the tree has a link in the .bin directory of the node_modules the package is in, and nothing outside .bin directories was changed by the linking.", "quantifier": "all resolved trees, all previous states of node_modules, all interleavings of the linking of different packages, any number of successive applies", "why_tests_cant": "It depends on the history of applies on the same directory and on the interleaving of linking tasks.", "anchors": ["crates/node-maintainer/src/linkers/hoisted.rs: link_bins, extract", "crates/node-maintainer/src/linkers/mod.rs: link_bin"]}
{"id": "C54", "title": "package.json as written reads back as the edited manifest", "statement": "Whatever JSON package.json contains and however it is formatted, the file written after adding or removing dependencies (or none) is valid JSON whose value is exactly the edited manifest: no name, version text or other field is corrupted by escaping, re-indentation or line-end conversion.", "quantifier": "all JSON texts, all indentation styles and line endings, all lists of dependencies added or removed", "why_tests_cant": "All texts: escapes, control characters, line ends inside strings, nesting and mixed indentation.", "anchors": ["crates/oro-pretty-json/src/lib.rs: from_str, to_string_pretty", "src/commands/add.rs", "src/commands/remove.rs"]}
{"id": "C55", "title": "Telemetry is opt-in and the answer is remembered", "statement": "Telemetry is sent only if the user agreed when asked; the answer given on the first run is obeyed in that run and every later one and the user is not asked again; --no-telemetry and a configured 'telemetry false' are always obeyed; first-time setup changes nothing else in the configuration file and never crashes.", "quantifier": "all sequences of starts, command lines, configuration files, environments (CI, terminal or not) and answers", "why_tests_cant": "a history of runs, each reading the file the previous one wrote, with arbitrary options in between", "anchors": ["src/lib.rs:first_time_setup", "src/lib.rs:setup_telemetry", "src/lib.rs:load", "crates/oro-config/src/lib.rs:layered_args", "crates/oro-config/src/lib.rs:with_negations"]}
{"id": "C56", "title": "What add and remove write is what the next command reads and installs", "statement": "If package.json could be read before `add` or `remove`, the text they write can be read by every command; the manifest read from it asks for each added package in the chosen section with the recorded text and for no removed package, and for everything else as before; and resolving from that text links each added package to one that answers the recorded text.", "quantifier": "all package.json texts, arguments, sections, registries, lockfiles and schedules of the following resolution", "why_tests_cant": "composes an arbitrary edit of an arbitrary document, two different readers of it, and every schedule of the resolver", "anchors": ["crates/oro-common/src/manifest.rs:CorgiManifest", "src/commands/add.rs", "src/commands/remove.rs", "src/commands/apply.rs", "crates/node-maintainer/src/graph.rs:Node::new"]}
{"id": "C57", "title": "The login conversation: where the password goes, and what ends it", "statement": "`oro login` sends the user name, password and one-time password only in a PUT to the user's own document on the chosen registry, at most twice, the second time only after a 401 and after asking for the one-time password, and never in a web login; it contacts nothing but the registry's login addresses and the result address the registry named; it succeeds only with a token from the last answer, it asks the result address once more after each answer that tells to wait, after the pause asked for; it never crashes; and the configuration changes only when it succeeds, to hold exactly that token (and scope).", "quantifier": "all registries, scopes, stored credentials, inputs typed by the user, and all finite sequences of answers of any length (any status, headers, body)", "why_tests_cant": "ranges over arbitrarily long conversations with an arbitrary, possibly hostile, registry", "anchors": ["crates/oro-npm-account/src/login.rs:login", "crates/oro-client/src/api/login.rs:login_web,login_couch,fetch_done_url", "src/commands/login.rs:LoginCmd::execute"]}
{"id": "C58", "title": "Isolated linker: the commands that packages declare", "statement": "After an apply with the isolated linker, each command a dependency declares in its bin field is in the .bin directory of every package that depends on it, running it runs the file the dependency declares, the .bin directories hold nothing else, no other path changes while bins are linked, and linking bins does not fail.", "quantifier": "all resolved trees, package contents and bin fields, file systems the apply starts from, schedules of the extraction, and sets of packages whose bins are linked", "why_tests_cant": "ranges over all trees, bin fields, earlier installs and extraction schedules; a bin goes missing only when its name is not a dependency's name, and the failure needs a second apply", "anchors": ["crates/node-maintainer/src/linkers/isolated.rs:link_bins,link_dep_bins", "crates/node-maintainer/src/linkers/mod.rs:link_bin,mkdirp"]}
{"id": "C59", "title": "Applying an unchanged project again changes nothing", "statement": "When a project has been applied and neither package.json nor package-lock.kdl changes, applying it again contacts no registry, does not fail, finds the same tree, changes no file in node_modules at any moment, records the same metadata and writes the same lockfile text.", "quantifier": "all projects, resolution schedules of both applies, registry contents at the time of the second apply, file systems the first apply leaves (with extra files that install scripts made inside packages), and moments at which the second apply may be interrupted", "why_tests_cant": "ranges over all trees, both applies' schedules and every interruption point; a test fixes one project and one schedule", "anchors": ["crates/node-maintainer/src/linkers/hoisted.rs:prune,extract", "crates/node-maintainer/src/resolver.rs:run_resolver", "crates/node-maintainer/src/maintainer.rs:write_lockfile", "crates/node-maintainer/src/graph.rs:to_lockfile"]}
{"id": "C60", "title": "A registry package is what the registry's document says", "statement": "What a request for a registry package is answered with is what the registry's document says: the version is npm's choice among the listed versions, and tarball, integrity and dependencies are those of its entry; a request succeeds whenever the document has a suitable entry; what a package in the tree depends on is what its entry in the document declares.", "quantifier": "all response texts (any JSON document, any order and number of versions and members), all requests (exact, range, tag, alias), all histories of responses during a resolution and all schedules", "why_tests_cant": "ranges over every document a registry may serve, every request and every sequence of responses; tests use a few mocked packuments", "anchors": ["crates/oro-common/src/packument.rs:CorgiPackument,CorgiVersionMetadata,CorgiDist,deserialize_deprecation_info", "crates/oro-client/src/api/packument.rs:corgi_packument", "crates/nassun/src/resolver.rs:resolve,get_resolution", "crates/nassun/src/fetch/npm.rs:corgi_metadata", "crates/node-maintainer/src/resolver.rs:run_resolver"]}
{"id": "C61", "title": "Proxy and retry settings do what they say", "statement": "Proxying is opt-in: unless a proxy is asked for (or after it is switched off), every host is contacted directly whatever the environment says. With a proxy URL every request goes through that proxy with the URL's credentials, except to hosts on the no-proxy list (the option, else NO_PROXY); an unusable proxy URL stops the command. A request is repeated only while its outcome is transient, at most --retries times, and the last outcome is the one reported.", "quantifier": "all sequences of builder settings, all command lines, all environments, all hosts, all sequences of outcomes", "why_tests_cant": "ranges over every order of settings, environment and host; tests check one mock server without proxies", "anchors": ["crates/oro-client/src/client.rs:OroClientBuilder::proxy,proxy_url,no_proxy_domain,retries,build,get_no_proxy_domain", "src/client_args.rs:TryFrom<ClientArgs>", "src/nassun_args.rs:to_nassun"]}
{"id": "C62", "title": "oro view prints what the registry's document says", "statement": "oro view of a registry package shows the entry listed under the version npm would choose (the one oro add would take): uninterpreted members as they are, texts, lists and maps unchanged, nothing invented; the page's name, version, license, description, tarball, keywords, number of releases and dependencies are those of that entry and that document, the dependencies in order, each once, cut after 25 with the rest counted; with --json the output is a JSON document again with each member once. It does not crash, and prints something whenever the document is well formed. The commands it names are those installing the package links.", "quantifier": "all requests, all texts of the three registry responses, all members of an entry", "why_tests_cant": "ranges over every document a registry may serve, member by member; tests fix one document", "anchors": ["src/commands/view.rs:execute", "crates/oro-common/src/packument.rs:Packument,VersionMetadata,Dist", "crates/oro-common/src/manifest.rs:Manifest", "crates/nassun/src/fetch/npm.rs:metadata,packument", "crates/nassun/src/fetch/dir.rs:into_metadata"]}
{"id": "C63", "title": "Node finds each dependency on disk", "statement": "After an install completes, a module anywhere inside an installed package (or the project) that requires a name the package declares gets, by Node's own lookup on the file system the linker left (node_modules of each directory upwards, node_modules directories themselves skipped, scoped names two levels deep, links followed), the files, exactly and all of them, of a package that is acceptable for the request: the one the resolved tree shows there (hoisted linker) or the one the dependency was resolved to (isolated linker).", "quantifier": "all resolutions that finish (any answers in any order), all previous node_modules, interrupted attempts and repeated applies, all extraction schedules, all packages, all directories inside them, all names", "why_tests_cant": "joins the resolver's tree, the linker's concurrent run and Node's lookup over every tree, schedule and directory; tests check single paths of single trees", "anchors": ["crates/node-maintainer/src/graph.rs:Graph::find_by_name,node_path", "crates/node-maintainer/src/linkers/hoisted.rs:extract_packages,prune", "crates/node-maintainer/src/linkers/isolated.rs:link_dep,extract_packages,package_dir"]}
{"id": "C64", "title": "A recorded integrity is enforced, so the same lockfile gives the same files", "statement": "Whenever a package with a recorded integrity has been extracted, the files below its directory are exactly those of an archive matching that integrity, whatever the registry sent, whatever was extracted on this machine before, successfully or not, and whatever became of the cache since. So two machines that install from the same lockfile and package.json get the same version, URL and integrity at every path and, where they do not fail, the same files with the same contents.", "quantifier": "all histories of extractions starting with an empty cache (any registries, archives, modes, file systems, damage to the cache and changes to the files in between), all lockfile-pinned trees, all registries and response orders at the second installation", "why_tests_cant": "ranges over every history of a machine's cache and over what two registries may send; tests start from one cache", "anchors": ["crates/nassun/src/package.rs:extract_to_dir,extract_to_dir_inner", "crates/nassun/src/resolver.rs:integrity", "crates/nassun/src/tarball.rs:extract_to_dir", "crates/node-maintainer/src/linkers/hoisted.rs:extract", "crates/node-maintainer/src/resolver.rs:run"]}
{"id": "C65", "title": "A script's outcome is its exit status, its output is passed on line by line, and it cannot hang on its output", "statement": "When an install script that starts no background processes has run, it counts as successful exactly when it exited with success and wrote valid UTF-8, and then the script-line handler got exactly the lines of each stream, in order, however the processes, the reading tasks and the wait were scheduled and however small the pipes are. While it runs, what was passed on is always the beginning of the lines written. Success is reported only after the script and every process sharing its output have ended. Nothing hangs: filling one stream's pipe never blocks the script forever, and every run ends. For an optional package nothing but an unreadable package.json fails the installation.", "quantifier": "all scripts (any sequence of writes to the two streams, any background processes, any exit status), pipe sizes, and schedules of processes, readers and the join; all byte texts", "why_tests_cant": "ranges over all outputs and over all interleavings of writers, two readers and a waiter with bounded pipes; a test sees one schedule and small outputs that never fill a pipe", "anchors": ["crates/node-maintainer/src/linkers/mod.rs:run_dep_script", "crates/oro-script/src/lib.rs:spawn,wait"]}
{"id": "C66", "title": "A git dependency is at the commit it asks for", "statement": "Fetching a git dependency gives the work tree of the commit its spec names: for a semver range the tag with the highest version in range, for a committish the tag, commit or branch of that name, otherwise the tip of the default branch. If the repository has no such commit it fails, rather than using another one, and what was fetched can be installed.", "quantifier": "all repositories (tags, branches, files), version parsers, ranges and committishes", "why_tests_cant": "ranges over all sets and spellings of tags and over what else in a repository a name can mean to git; tests use one repository with two plain tags", "anchors": ["crates/nassun/src/fetch/git.rs:fetch_clone,tarball", "crates/nassun/src/fetch/dir.rs:tarball", "crates/nassun/src/package.rs:extract_to_dir_inner"]}
