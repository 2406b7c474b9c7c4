# Formal model of orogene in Rocq (Coq 8.16.1)

The plan per property was written before the proofs (see git history); this file is kept current as the model grows.

## Method

* One model file per area (`*Model.v`, and `Kdl.v`, `StdPath.v`, `Fs.v`, `JsonRead.v`, `LockSource.v`, `ScriptEnv.v`, `PathLookup.v`):
  small total Gallina functions and step relations, each definition citing the file and lines of `/repo` it models and the
  simplifications made.
* Vocabulary in which the properties are stated is in separate specification files (`*Spec.v`), which use the model's data
  types and not its functions.
* Proof files (`*Proofs.v`, `*Thms.v`, ...) hold invariants and lemmas.
* `Props*.v` hold the property theorems, each followed by `Print Assumptions`, and beside them `Example`s showing that a
  concrete non-trivial case meets the hypotheses.
* Where the full property is false of the faithful model we prove `..._refuted` (an explicit counterexample: a reachable state,
  a registry and schedule, a file) and, where useful, a `..._partial` theorem with the guard under which the property holds.
* External behaviour (semver range matching, the network, the OS, hash functions) enters as Section variables, that is as
  universally quantified arguments of every theorem, or as nondeterministic inputs (schedules, chunkings, crash points).
* No axioms, no functors, no module types; recursion that Rust leaves unbounded is either a step relation or has fuel proved
  sufficient.

## Per property: what is modelled, how it is proved, what is false

| id | model | proof and result |
|----|-------|------------------|
| C01 | ResolverModel: graph, queue, sink, in-flight map; a schedule is any list of pulls and result chunks | state invariant of every reachable state, any registry, lockfile, schedule |
| C02 | same | refuted (a late nested placement shadows a link); proved: links always lead to acceptable packages; walk-up lookup is right for calm schedules, barrier schedules, lockfile-only runs, and for every schedule for each name without conflicting requests (C02_name, ResolverSeen.v) |
| C03 | same | counting invariant, one pending entry per (package, name); completeness at the end; what a package declares is what its manifest says |
| C04 | same, runs counted | a name occurs at most once on the way to a package unless versions of a name on a dependency cycle conflict, so the tree is bounded: `C04_cycles_partial` (with or without a lockfile); refuted by a dist-tag cycle and by four exact versions (`C04_refuted_versions`) |
| C05 | same | refuted by two schedules of one registry; for conflict-free registries C05_text_partial: same packages, links and lockfile text whatever the order; with conflicts, C05_name_partial: the same for every name without conflicts needed through such names |
| C06 | resolver + LockfileModel codec | refuted (a redundant nested copy is not restored); proved for registry trees in which every dependency is linked to the copy Node loads and no hidden copy satisfies it; `C06_text_partial` has the real spec parser in it; both also conclude that the replayed tree has the same packages, dependencies and links at the same paths |
| C07 | lockfile comparison on top of the codec | refuted for every tree: the root read back has no `resolved`, so `--locked` always fails; success iff the compared values are equal |
| C08 | KDL documents, to_kdl/from_kdl, `requested` | refuted for the root and for aliases; every other package entry round-trips; rewriting is stable; requests read back |
| C09 | to_lockfile on reachable graphs | from the C01 invariant and injectivity of joined paths, for names without a part `node_modules` (`C09_any_names_partial`); one entry per package iff the path texts are distinct (`C09_exact`); refuted for names with `/node_modules/` in them (`C09_refuted`) |
| C10 | satisfy_from_lockfile, to_package | the entry used is the deepest usable one on the path and satisfies; what each entry gives |
| C11-C13 | ScriptsModel: the scheduler as a transition system | invariant over all interleavings; bounded; no deadlock when acyclic; a cycle never succeeds (refuted on a resolver-produced tree) |
| C14 | run_dep_script outcome | exact; the transitive reading is refuted |
| C15-C17 | Fs machine (system calls, torn files, torn metadata, crash anywhere), HoistedModel | invariant of all runs; fresh installs exact; upgrades exact under a guard; refuted: nested stale copies, scoped packages, crash then another tree |
| C18-C20 | IsolatedModel, IsoMkdirModel (mkdirp with its cache, failing calls) | histories of applies; refuted: upgrade in place, kill during an upgrade, second package of a scope, hash collisions for any 8-digit hash, dangling links |
| C21-C23 | TarModel: stream, checker, spill; extraction call by call | for all chunkings and limits; `..` escape refuted |
| C24-C25 | TarModel: cache index, blobs, inodes, hard links | fresh and warm extraction agree on files and contents; modes refuted in general; damaged caches: sound, fallback partial |
| C26, C27, C44, C45 | BinModel over StdPath | single-component theorem for every hash order; escape by `..` refuted; base-name clashes refuted; directories.bin refuted |
| C28-C29 | VersionModel | equals the documented rule; order is semver 2.0.0 section 11; `*` with only pre-releases refuted |
| C30-C31 | SpecModel: nom parser, Display, URL/SCP git specs | round trip for plain specs; classification by marker; crashes characterised exactly; refuted otherwise |
| C32-C33 | AuthModel: middleware, request URLs, KDL account file, login/logout | all histories of configuration; confinement to host and path prefix; refuted: scheme, port, segment boundary, kind swap, `=` |
| C34-C36 | CliModel | exactness of KEY=VALUE, layering for every visiting order, retention; refutations as noted |
| C37-C38 | JsonModel: serde_json objects, add/remove | functional theorems |
| C39 | CmdModel: commands as phases with failures and crashes anywhere | relation on endings; torn package.json and --no-apply refuted |
| C40, C54 | JsonModel printer, JsonRead (RFC 8259 reader) | layout kept if the second line is indented; what is written reads back as the edited value |
| C41 | ScriptEnv | exact for a canonical workspace root and a set PATH; refuted otherwise |
| C42 | PathLookup | inside a package exact; missing scoped packages refuted |
| C43 | LockSource | precedence exact; silent fall-through refuted |
| C46 | FetchModel | registry by scope; frame; packument memory transparent |
| C47 | LockfileModel.from_npm | one entry per package; workspaces refuted |
| C48, C49 | TarModel | own inodes for script packages but package.json; totality of extraction for usable packages |
| C50, C51 | ResolverModel | every package was asked for; names: refuted with aliases, proved without |
| C52, C53 | BinLinkModel: link_bins call by call, several packages at a time | never fails serially or without neighbours; race refuted; links of packages extracted by this apply exact; second apply refuted |
| C55 | FlagModel: starts of the program in sequence, each reading the configuration file the last one left; command line reader with positionals and `--` | opt-in refuted (CI, no terminal); answers are remembered, flags obeyed, file otherwise kept |
| C56 | ManifestRead: serde's CorgiManifest on JSON values, on top of JsonRead; composed with add/remove (JsonModel), the writer, and the resolver | acceptance characterised; add/remove commute with reading; installed after resolution; names differing in case only refuted |
| C57 | LoginModel: the conversation as a function from the registry's answers to prompts, requests, pauses, addresses given to the browser and an outcome | C57_password, C57_contacts, C57_token, C57_polls (exact trace), C57_saved; crash freedom only for well-formed headers (C57_refuted); HTTP redirects and retries inside the client not modelled |
| C58 | IsoBinModel: the loop over packages, dependents and bins on the file system and mkdirp cache left by IsoMkdirModel's extraction, with Linux path lookup through links | C58_never_fails_partial, C58_only, C58_missing, C58_linked_partial for first installs and installs from scratch; C58_again: any later apply that links a bin at the project fails; refutations C58_refuted* |
| C59 | the resolver and hoisted-linker models joined: resolve from the written lockfile, prune and extract on what the first apply left | C59_partial (every state of the second apply), C59_first (the first apply leaves what C59_partial starts from), C59_completes; registry trees with pinned dependencies, hoisted linker; C59_isolated_partial, C59_isolated_first, C59_isolated_tree: the same with the isolated linker (`IsoAgainSpec.v`: what it makes of a tree, path by path), where links to dependencies go and come back (C59_isolated_gap, C59_isolated_refuted) |
| C60 | PackumentModel: serde's reading of the document, version choice, second lookup for the manifest; PackumentSpec reads the document as plain JSON | C60_accepts (which documents are readable), C60_faithful (every successful answer), C60_one_document/C60_answers (exactly npm's choice, when entries carry their own number), C60_tree_partial (every package of every resolution); refuted: one malformed version or "deprecated": null blocks all versions, a deprecated entry without a name crashes, an entry that says another version mixes two entries, and so do two different responses |
| C61 | NetModel: the builder and the command line's use of it; reqwest's proxy selection and retry middleware as documented; NoProxy matching, URL parsing and percent-decoding are oracles | C61_opt_in, C61_off, C61_url for all call sequences; C61_command_line; C61_bad_url; C61_retries; refuted: --no-proxy-domain with a proxy from the environment, percent-encoded passwords, --proxy false with --proxy-url |
| C62 | ViewModel: serde readers of the full document, both ways (what is read and what is printed again), the three requests, the page; versions, ranges, URLs and numbers are oracles | independent specification of printed members (shows, page) and of readable entries (shapes); C62_faithful, C62_accepts (exactly the well-formed documents), C62_answers, C62_reads_back by induction on readers; refuted: object license in another version, dropped members, bins of scoped packages |
| C63 | NodeSpec: Node's LOAD_NODE_MODULES lookup on a file system, independent of orogene; the file systems are those of HoistedModel/IsolatedModel runs | finds_visible (directories of packages can be read back from paths), composed with C15_fresh/C15_again/C17_fresh/C17_partial and C02 (hoisted) and with C18_partial and C20_links_partial (isolated); refuted where C02 is |
| C64 | IntegrityModel (which integrity extraction is given) over TarModel, composed with LockfileModel and ResolverModel | invariant over histories (each cache index entry is that of an archive matching its key: TarHistory), then C25's contents theorem; for the lockfile, C06_partial and C01. Partial: C06's conditions; refuted for packages without a recorded integrity |
| C65 | (composed with the C11-C14 scheduler in PropsRebuildRuns) ScriptRun: processes, bounded pipes, io::Lines tasks, waiter and try_join as one transition relation; from_utf8's checker; spec: Lines (relation), Utf8 (encodings of scalar values, RFC 3629) | invariant over reachable states, progress, and a decreasing measure; the checker is proved to decide Utf8. Partial: refuted for output that is not UTF-8 (exit 0 still fails) and for the output of a failing script (may be lost) |
| C66 | GitModel: clone, show-ref, the choice of a version, checkout, against a repository with tags, branches, other names, files and options; the fetchers' tarball | case analysis over VersionProofs' order. Partial: tags must be spelled as versions are displayed; refuted for v-prefixed and slashed tags, for committishes that are files or options, and for installing (todo!) |

No property is "not applicable".

## Trusted base

* Coq 8.16.1's kernel, including `vm_compute` (used in examples and counterexamples).
* `Print Assumptions` of every theorem in MANIFEST.json says "Closed under the global context": no axiom is used. The checker's list of library
  axioms in scope (seven constants of `Coq.ssr.ssrunder`) comes from loading a part of the standard library; no theorem depends on them.
* The reading of `/repo` embodied in the model definitions: nothing here runs or parses the Rust code.

### Oracles (universally quantified; hypotheses on them are named in the theorems)

* semver: `rsat` (range membership), `vparse`/`vshow`, `rparse`, `is_any`; `semver_printing` says what printing and parsing do. The order of versions
  is modelled (VersionModel) and proved to be semver's.
* URLs: `uparse` (Url::parse then Display), `uhost`, `upath`, `uscheme`; `url_printing`: parsing is idempotent, adds no `#`. AuthModel has URLs as
  records; `Url::join` is modelled for plain references and an oracle otherwise; `percent_encode`, `utf8_lossy` are functions.
* the registry: `serve`, `deliver` (any relation between requests and answers); git and tarball fetching: `clone`, `untar`, `read_dir`.
* canonicalize (`canon`), the current directory, environment, clock: arguments.
* hashes: `hex8` (8 hexadecimal digits of SHA-256), `xxh`, integrity check `check`: arbitrary functions.
* gunzip and tar (`untar`): any list of entries; cacache: check-then-link/copy contract stated in TarModel; hard links are modelled with inodes.
* petgraph's `has_path_connecting`: contract `reachable`; petgraph indices: list positions; edges newest first.
* serde_json: JsonRead is a reader written from RFC 8259 with serde_json's recursion limit and repeated-key rule; numbers by an oracle `number`
  with the hypothesis that a printed number reads back (true with integers and with `float_roundtrip`).
* the config crate: layers merge as in CliModel.mset; clap: a reader of option lists given in CliSpec.
* pathdiff, walkdir, dunce: modelled on component lists.
* the file system: a function from paths to files, directories and links; `fs::write` may leave a prefix; `remove_dir_all` removes entries one by one
  (atomically in BinLinkModel); permissions only in TarModel; umask not modelled; no other process writes.

### Modelled code

crates/node-maintainer: graph.rs (all but dot output), resolver.rs, lockfile.rs, maintainer.rs (get_lockfile, phases), linkers/hoisted.rs,
linkers/isolated.rs (prune, extract, link_deps), linkers/mod.rs (mkdirp, link_bin, rebuild, run_scripts). crates/nassun: resolver.rs, client.rs (routing,
resolve), fetch/{npm,dir,git}.rs (control flow), tarball.rs, package.rs (extraction, cache). crates/oro-package-spec: all parsers and Display.
crates/oro-common: build_manifest.rs normalisation, manifest.rs (CorgiManifest and its reading from JSON). crates/oro-client: auth middleware, request URLs, api/login.rs.
crates/oro-npm-account: config.rs, login.rs. crates/oro-config: layering, kdl_source. crates/oro-pretty-json: all. crates/oro-script: PATH. src: apply, reapply, add,
remove, login (with its conversation), logout (document edits), client_args, first-time setup, log retention, key/value parsing, root discovery.

### Not modelled

Windows and wasm code (shim-bin, junctions), progress bars and logging text, `ping` output, HTTP below a request and its answer (TLS, redirects, the HTTP cache;
proxies and retries are in NetModel), wall-clock time, what git itself does beyond clone, show-ref and checkout of one name (GitModel), what a telemetry event
contains (consent is C55), `oro-diagnostics`, and what a script computes (ScriptRun has its writes, its background processes and its exit status).

## Findings (each proved as a `_refuted` theorem or stated in the model)

Resolver: late placements can shadow linked packages (C02); the tree depends on response order (C05); a cycle of conflicting exact versions (a1 -> b1 -> a2 -> b2 -> a1) and a package depending on a dist-tag of itself never
terminates (C04); `satisfies` ignores package names, so an alias hijacks a name (C51); `--locked` always fails (C07); a lockfile replay drops redundant nested
copies (C06). Linkers: the hoisted linker never prunes scoped packages and keeps stale nested copies (C15, C16), bins are wiped by a second apply (C53) and racing
packages make `mkdirp` fail (C52); the isolated linker never re-extracts an upgraded package (C18), never removes links (C20), fails when a second package of
a scope is added (C18), and its 8-digit names collide (C19). Scripts: dependency cycles hang (C13). Tarballs: `..` escapes (C22), duplicate entries with hard links
damage the cache (C22), modes differ from the cache (C24), some damaged caches are never repaired (C25). Bins: `..` targets escape (C27). Specs: several accepted specs
panic when resolved (C31) or do not round-trip (C30). Credentials: sent to another port, scheme or a sibling path (C32); kinds are swapped by the reader
(C33). Commands: `add`/`remove` can leave a torn package.json (C39); config in a subdirectory is not read (C35); a directory among the logs blocks every command (C36);
`--progress` loses against a configured `progress false`, and after `--` configured options become positional arguments (C35); telemetry is sent without consent in CI
and after a first run without a terminal, and two `options` nodes make first-time setup panic (C55).
`add foo` is ignored when package.json has `Foo` in a later section, and both spellings of the bundle list together are rejected (C56).
login crashes on a legal HTTP-date Retry-After and on a non-ASCII www-authenticate, hands any text from the registry to the browser unchecked, and asks for a one-time password whenever www-authenticate contains 'otp' anywhere (C57).
isolated linker: a command is looked for in the dependency of the command's own name, so commands with other names and all commands of scoped packages are not linked, and a command may run another package's file; node_modules/.bin is never cleared, so adding a package with a command to an installed project fails with EEXIST (C58).
applying an unchanged project a second time empties node_modules/.bin (C53_refuted, C59); with the isolated linker it first deletes
every link to an unscoped dependency, because isolated.rs:161-196 compares the text of the link, which is relative, with an absolute
path (C59_isolated_gap): killed there, the project is left without them (C59_isolated_refuted).
reading the registry's document (C60): one malformed version, or "deprecated": null on one, makes every version unavailable; a deprecated version whose entry has no "name" panics in the warning (resolver.rs:211); the tarball is taken from the entry listed under the chosen version but the dependencies from the entry listed under the version that entry says it is, in a second response.
C61: `--proxy --no-proxy-domain d` with HTTPS_PROXY set still sends requests for d through the proxy (client.rs:108-131 applies the list to --proxy-url only); the proxy password is taken percent-encoded from the URL and overrides the decoded one reqwest had set (client.rs:113-118).
C62: `oro view` fails for any package one of whose versions has an object `license` (manifest.rs:56 Option<String>), which installing accepts; `bins:` prints the full scoped name (view.rs:112) where the link is the unscoped one.
C63: the C02 shadowing is visible to Node: after a clean install of a finished resolution `require('n')` in a package that declares n@1.0.0 loads n 2.0.0's files.
C64: packages whose registry entry has no dist.integrity (only a shasum) are never checked: PackageResolution::integrity is None (nassun/src/resolver.rs:33-41), the lockfile records none, and the linkers ignore the Integrity extract_to_dir computes (hoisted.rs:302-306, isolated.rs:407-411), so a changed tarball goes unnoticed.
C65: a script that exits with success fails the installation if it prints a byte that is not UTF-8 (linkers/mod.rs:313-318, BufRead::lines), and the pipe is then closed under the running script; when a script fails, try_join! (mod.rs:309) returns without waiting for the tasks that read its output, so the error message may never be shown; an optional dependency whose package.json does not parse still fails the installation (mod.rs:266-269), and the error names workspace_path/package.json; a background process that inherits the output delays the installation until it ends.
C66: git tags written v1.2.0 are never usable for semver ranges, and a tag release/1.2.0 breaks ranges that another tag satisfies, because the parsed version, not the tag, is checked out (nassun/src/fetch/git.rs:146-166); a committish that names a file of the repository or is an option (#README.md, #--detach) silently gives the default branch (git.rs:170-175, no -- or option check); installing any git or directory dependency panics (git.rs:270 todo!, dir.rs:147 unimplemented!).
