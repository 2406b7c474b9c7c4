{
 "claims": [
  {
   "property": "C01",
   "status": "proved",
   "theorems": [
    "C01_tree_unique",
    "C01_no_clobber",
    "C01_case"
   ],
   "note": "every reachable resolver state, any oracles/lockfile/schedule"
  },
  {
   "property": "C02",
   "status": "partial",
   "theorems": [
    "C02_links_partial",
    "C02_calm_partial",
    "C02_barrier_partial",
    "C02_offline_partial",
    "C02_refuted",
    "C02_name_partial"
   ],
   "note": "False in general (C02_refuted: a late nested placement shadows an already linked dependency). Proved: links are always to acceptable packages; walk-up lookup is right for calm schedules, in particular barrier schedules and lockfile-only runs. C02_name: every schedule is right for each name whose possible answers satisfy all its possible requests, whatever the other names do."
  },
  {
   "property": "C03",
   "status": "proved",
   "theorems": [
    "C03_exactly_once",
    "C03_shared_fetches",
    "C03_progress",
    "C03_complete",
    "C03_no_panic",
    "C03_follows_manifests"
   ],
   "note": "every reachable state and schedule"
  },
  {
   "property": "C04",
   "status": "partial",
   "theorems": [
    "C04_acyclic_partial",
    "C04_no_conflict_partial",
    "C04_refuted",
    "C04_cycles_partial",
    "C04_refuted_versions"
   ],
   "note": "Proved, with or without a lockfile, for every registry with finitely many names in which only names on no dependency cycle have conflicting versions (C04_cycles_partial; covers acyclic and conflict-free registries). Missing: conflicts on a cycle, for which it is false even with exact versions only (C04_refuted_versions), and dist-tags on a cycle (C04_refuted)."
  },
  {
   "property": "C05",
   "status": "partial",
   "theorems": [
    "C05_no_conflict_partial",
    "C05_refuted",
    "C05_text_partial",
    "C05_name_partial",
    "C05_name_top_partial"
   ],
   "note": "False with version conflicts (C05_refuted); proved for conflict-free registries. C05_name: also in registries with conflicts, for each name without conflicts that the project needs through such names."
  },
  {
   "property": "C06",
   "status": "partial",
   "theorems": [
    "C06_partial",
    "C06_refuted",
    "C06_text_partial",
    "C06_floating",
    "C06_refuted_tag"
   ],
   "note": "Proved for registry trees (aliases included) in which every dependency is linked to the copy Node would load, that copy satisfies it and no hidden copy does. False otherwise: a nested copy made redundant by a later hoisted one disappears on replay (C06_refuted); git dependencies, dist-tags and dependencies without a version are never pinned, whatever the lockfile (C06_floating, C06_refuted_tag). Directory dependencies never get into a tree: resolving one crashes (C31)."
  },
  {
   "property": "C07",
   "status": "partial",
   "theorems": [
    "C07_success_iff_partial",
    "C07_refuted"
   ],
   "note": "The check compares exactly the two lockfiles (proved), but the lockfile read from disk never has the root's resolved, which the new one always has: --locked always fails with a lockfile. Refutation proved for every tree."
  },
  {
   "property": "C08",
   "status": "partial",
   "theorems": [
    "C08_graph_partial",
    "C08_packages_partial",
    "C08_rewrite_stable",
    "C08_reread",
    "C08_refuted",
    "C08_alias_refuted",
    "C08_requested_partial",
    "C08_requested_any"
   ],
   "note": "Every package entry of an alias-free tree round-trips exactly; root name/resolved/integrity never do, and alias entries lose their package name (both proved)."
  },
  {
   "property": "C09",
   "status": "partial",
   "theorems": [
    "C09_one_entry_per_package",
    "C09_exact",
    "C09_any_names_partial",
    "C09_refuted"
   ],
   "note": "Exactly one entry per package, with its path as key and describing it, for trees whose package names are valid npm names (C09_one_entry_per_package) and, whatever else the names contain, for trees in which no slash-separated part of a name is 'node_modules' (C09_any_names_partial). For any names at all the lockfile has one entry per package iff no two packages have the same path text (C09_exact); names with '/node_modules/' in them can make two paths the same text, and a package is then dropped: C09_refuted."
  },
  {
   "property": "C10",
   "status": "proved",
   "theorems": [
    "C10_lockfile_entry",
    "C10_falls_back",
    "C10_entry_empty",
    "C10_entry_no_version",
    "C10_entry_pinned"
   ],
   "note": "lockfile entry chosen is the deepest usable one on the path and satisfies the spec; otherwise falls back to a fetch"
  },
  {
   "property": "C11",
   "status": "proved",
   "theorems": [
    "C11_order"
   ],
   "note": "For every schedule, concurrency limit and set of packages; petgraph's reachability is an oracle with a correctness hypothesis."
  },
  {
   "property": "C12",
   "status": "proved",
   "theorems": [
    "C12_exactly_once",
    "C12_at_most_once"
   ],
   "note": ""
  },
  {
   "property": "C13",
   "status": "partial",
   "theorems": [
    "C13_bounded",
    "C13_no_hang_partial",
    "C13_cycle_never_succeeds",
    "C13_refuted"
   ],
   "note": "Bounded always; no deadlock when packages to rebuild are acyclic. With a cycle run_scripts hangs (refuted on a tree the resolver produces)."
  },
  {
   "property": "C14",
   "status": "proved",
   "theorems": [
    "C14_required_fails",
    "C14_only_required_fails",
    "C14_transitive_refuted"
   ],
   "note": "Optional-ness is judged by direct dependents only; the transitive reading is refuted separately."
  },
  {
   "property": "C15",
   "status": "partial",
   "theorems": [
    "C15_fresh",
    "C15_partial",
    "C15_again",
    "C15_outside",
    "C15_completes",
    "C15_refuted"
   ],
   "note": "Hoisted linker leaves exactly the tree: always when there is no trusted previous install; on top of an exact previous install if nothing changed that pruning does not look at; refuted in general (nested stale version survives inside an unchanged package)."
  },
  {
   "property": "C16",
   "status": "partial",
   "theorems": [
    "C16_partial",
    "C16_strays",
    "C16_scoped",
    "C16_same_entry",
    "C16_refuted"
   ],
   "note": "Unscoped top-level packages: untouched iff lockfile entries equal, gone otherwise; strays removed; scoped packages are never pruned (refuted)."
  },
  {
   "property": "C17",
   "status": "partial",
   "theorems": [
    "C17_fresh",
    "C17_partial",
    "C17_refuted",
    "C17_scoped_refuted"
   ],
   "note": "Hoisted linker: any number of crashes at any point followed by a completed run of the same tree gives exactly the tree (torn files and torn metadata included); refuted when another tree is applied in between, or for new scoped packages."
  },
  {
   "property": "C18",
   "status": "partial",
   "theorems": [
    "C18_partial",
    "C18_runs",
    "C18_never_fails",
    "C18_completes",
    "C18_upgrade_never_fails_partial",
    "C18_upgrade_completes_partial",
    "C18_scope_stuck",
    "C18_outside",
    "C18_refuted",
    "C18_killed_refuted",
    "C18_scope_refuted"
   ],
   "note": "Proved for every history of applies whose first starts without metadata or store (killed and restarted any number of times) and whose upgrades keep package versions in place; with the mkdirp cache modelled, such applies never fail and can finish unless a package kept from before gets a second dependency of a scope. False for an upgrade of a package at the same path (C18_refuted), after a kill during an upgrade (C18_killed_refuted), and for adding a second package of a scope (C18_scope_refuted: whatever the schedule the apply fails)."
  },
  {
   "property": "C19",
   "status": "partial",
   "theorems": [
    "C19_partial",
    "C19_refuted"
   ],
   "note": "Distinct and not nested unless two 8-digit hashes collide; for every 8-digit hash function some resolvable project has a collision (C19_refuted)."
  },
  {
   "property": "C20",
   "status": "partial",
   "theorems": [
    "C20_links_partial",
    "C20_only_partial",
    "C20_refuted"
   ],
   "note": "Exact for the same histories as C18; links to dependencies that are no longer declared are never removed and dangle (C20_refuted)."
  },
  {
   "property": "C21",
   "status": "proved",
   "theorems": [
    "C21_integrity",
    "C21_checked"
   ],
   "note": "All streams, chunkings, limits; with an existing cache entry files may come from the cache, whose contents are hash-checked (C24, C25)."
  },
  {
   "property": "C22",
   "status": "partial",
   "theorems": [
    "C22_confined_partial",
    "C22_refuted"
   ],
   "note": "Proved for archives without '..' and bins inside the package, and hard links from the cache excluded; refuted otherwise (path traversal, duplicate entries with hard links, modes of hard-linked files)."
  },
  {
   "property": "C23",
   "status": "proved",
   "theorems": [
    "C23_spill",
    "C23_chunks"
   ],
   "note": "All limits, chunkings."
  },
  {
   "property": "C24",
   "status": "partial",
   "theorems": [
    "C24_fresh",
    "C24_again",
    "C24_modes_partial",
    "C24_refuted"
   ],
   "note": "Files, contents and directories for all modes; file modes for copying modes, 0644 content files and plain bin paths; refuted otherwise."
  },
  {
   "property": "C25",
   "status": "partial",
   "theorems": [
    "C25_sound_partial",
    "C25_falls_back_partial",
    "C25_refuted"
   ],
   "note": "Success implies right contents for any cache damage; fallback succeeds for packages without subdirectories; refuted for others and for undecodable entries."
  },
  {
   "property": "C26",
   "status": "proved",
   "theorems": [
    "C26"
   ],
   "note": "for every bin field, every hash map order and every directories.bin walk"
  },
  {
   "property": "C27",
   "status": "partial",
   "theorems": [
    "C27_partial",
    "C27_refuted"
   ],
   "note": "false for bin paths with '..' (C27_refuted: the project's own package.json is linked and made executable); proved for paths without '..', absolute ones included"
  },
  {
   "property": "C28",
   "status": "proved",
   "theorems": [
    "C28_sound",
    "C28_complete",
    "C28_no_version",
    "C28_unique",
    "C28_no_crash",
    "C28_order",
    "C28_semver",
    "C28_any_order"
   ],
   "note": "get_resolution for registry requests equals the documented rule (VersionSpec.chosen) for every packument, request and default tag. Hypothesis: the registry serves each version under its own number (consistent). Oracle: node_semver range membership."
  },
  {
   "property": "C29",
   "status": "partial",
   "theorems": [
    "C29_partial",
    "C29_refuted"
   ],
   "note": "Proved except for the range '*' when only pre-releases are published: there the default tag's version is taken although it is out of range (C29_refuted)."
  },
  {
   "property": "C30",
   "status": "partial",
   "theorems": [
    "C30_partial",
    "C30_npm_partial",
    "C30_refuted",
    "C30_refuted_npm",
    "C30_refuted_ssh"
   ],
   "note": "Printing then parsing gives the same spec for every spec the parser can produce in the listed kinds; refuted in general by concrete counterexamples found in the code."
  },
  {
   "property": "C31",
   "status": "partial",
   "theorems": [
    "C31_target",
    "C31_prefix",
    "C31_alias",
    "C31_plain",
    "C31_refuted_path",
    "C31_parse_partial",
    "C31_refuted_parse",
    "C31_resolve_partial",
    "C31_refuted_resolve",
    "C31_dependency",
    "C31_git_url",
    "C31_git_ssh"
   ],
   "note": "Classification by marker is exact; panics characterised exactly; absence of crashes refuted by concrete specs."
  },
  {
   "property": "C32",
   "status": "partial",
   "theorems": [
    "C32_confined_partial",
    "C32_sent",
    "C32_packument",
    "C32_options",
    "C32_refuted",
    "C32_header"
   ],
   "note": "For all histories of configured credentials and all requests of the client: at most one Authorization header, only to the registry's host below its path, from the last credential configured for that host and path. Refuted as stated: scheme, port and segment boundary are ignored; userinfo of a registry URL leaks in X-Oro-Registry; no credentials for registries without a final slash. Redirect handling inside reqwest is not modelled."
  },
  {
   "property": "C33",
   "status": "partial",
   "theorems": [
    "C33_next_run",
    "C33_next_request",
    "C33_history_partial",
    "C33_other_registries",
    "C33_rest_untouched",
    "C33_scope",
    "C33_logout",
    "C33_refuted",
    "C33_login",
    "C33_base64"
   ],
   "note": "All histories of login and logout: the next run's client uses exactly the last saved credential per registry, any option order; frame properties. Refuted: the reader used by logout swaps kinds, loses plain passwords; auth node without children; '=' in registry URL crashes later commands."
  },
  {
   "property": "C34",
   "status": "partial",
   "theorems": [
    "C34_key_value",
    "C34_nested_exact",
    "C34_config_map",
    "C34_config_nested_partial",
    "C34_refuted",
    "C34_config_values"
   ],
   "note": "KEY=VALUE exact and crash-free; nested form exact on well-shaped strings, crashes on others (C34_refuted), including a registry URL with '=' in a config file"
  },
  {
   "property": "C35",
   "status": "partial",
   "theorems": [
    "C35_partial",
    "C35_refuted",
    "C35_env_refuted",
    "C35_subdir_refuted",
    "C35_tables",
    "C35_project_root",
    "C35_flags_partial",
    "C35_flags_refuted",
    "C35_terminator_refuted",
    "C35_values_partial"
   ],
   "note": "precedence proved for well-typed configuration and every visiting order; false for numbers, boolean-like words, env variables of multi-word options and subdirectories Flags: C35_flags_partial; refuted for default-on flags given positively on the command line, and for anything after --."
  },
  {
   "property": "C36",
   "status": "partial",
   "theorems": [
    "C36_partial",
    "C36_oldest_first",
    "C36_refuted"
   ],
   "note": "retention count and oldest-first proved for all directories; other files are deleted too, and a directory blocks every command (C36_refuted)"
  },
  {
   "property": "C37",
   "status": "proved",
   "theorems": [
    "C37_remove",
    "C37_accepts",
    "C37_refuted_order"
   ],
   "note": "remove_names edits exactly the named entries; the order of remaining entries is not part of the claim and is in fact not kept (C37_refuted_order)."
  },
  {
   "property": "C38",
   "status": "proved",
   "theorems": [
    "C38_add",
    "C38_accepts",
    "C38_text_npm",
    "C38_text_alias",
    "C38_text_dir"
   ],
   "note": "For lists of specs; a name given twice is recorded as the last one."
  },
  {
   "property": "C39",
   "status": "partial",
   "theorems": [
    "C39_apply_partial",
    "C39_reapply_partial",
    "C39_remove_partial",
    "C39_add_partial",
    "C39_no_phantom",
    "C39_refuted_torn",
    "C39_refuted_no_apply",
    "C39_apply_forced"
   ],
   "note": "All endings of the four commands, crash at any point. Missing: fs::write is not atomic, and --no-apply / --lockfile-only write package.json without installing (refuted)."
  },
  {
   "property": "C40",
   "status": "partial",
   "theorems": [
    "C40_unchanged_partial",
    "C40_style_partial",
    "C40_refuted_one_line",
    "C40_refuted_inline",
    "C40_refuted_no_indent",
    "C40_mixed_partial",
    "C40_refuted_mixed",
    "C40_unchanged_doc_partial"
   ],
   "note": "Holds for every document whose second line is indented; the rest is refuted by examples."
  },
  {
   "property": "C41",
   "status": "partial",
   "theorems": [
    "C41_partial",
    "C41_search_order",
    "C41_refuted_root",
    "C41_refuted_unset"
   ],
   "note": "Holds for a workspace root given by its canonical path and a set PATH; otherwise refuted (the .bin dirs also come after the existing PATH)."
  },
  {
   "property": "C42",
   "status": "partial",
   "theorems": [
    "C42_inside_partial",
    "C42_deepest_partial",
    "C42_refuted"
   ],
   "note": "Every path inside an installed package's own directory maps to that package; paths through unscoped package directories map to the deepest installed one. The full statement is false: a missing scoped package, or a doubled node_modules, maps to an unrelated package (C42_refuted)."
  },
  {
   "property": "C43",
   "status": "partial",
   "theorems": [
    "C43_precedence_partial",
    "C43_refuted"
   ],
   "note": "Precedence is exact; reporting of unreadable lockfiles is refuted (silently skipped)."
  },
  {
   "property": "C44",
   "status": "partial",
   "theorems": [
    "C44_partial",
    "C44_object_exact",
    "C44_scoped",
    "C44_accepts",
    "C44_refuted"
   ],
   "note": "false when two bin names share a base name (hash order decides); otherwise exact and deterministic"
  },
  {
   "property": "C45",
   "status": "partial",
   "theorems": [
    "C45_refuted",
    "C45_here_partial",
    "C45_inside"
   ],
   "note": "false: the directory is read relative to the process, not the package C45_here_partial: where the listing read is that of the package itself, each entry becomes the command of its name, leading to its place in the package (directories too)."
  },
  {
   "property": "C46",
   "status": "proved",
   "theorems": [
    "C46_registry",
    "C46_scope",
    "C46_local",
    "C46_memo",
    "C46_command_line"
   ],
   "note": "Registry chosen by scope; results depend only on that registry's answer for that name; memory is transparent."
  },
  {
   "property": "C47",
   "status": "partial",
   "theorems": [
    "C47_import_partial",
    "C47_refuted_workspace"
   ],
   "note": "For documents whose entries are the root and packages under node_modules with distinct (case-folded) paths; workspaces refuted."
  },
  {
   "property": "C48",
   "status": "partial",
   "theorems": [
    "C48_own_storage_partial",
    "C48_refuted"
   ],
   "note": "All files but package.json, in every mode and whatever has become of the cache (the fallback to the network included); package.json is hard-linked to the cache when a package with install scripts is first extracted in a hard-linking mode (C48_refuted). Not covered: an entry of the cache written by anything but orogene."
  },
  {
   "property": "C49",
   "status": "proved",
   "theorems": [
    "C49_total",
    "C49_refuted"
   ],
   "note": "For usable packages (manifest readable, bins exist); a missing bin makes it fail."
  },
  {
   "property": "C50",
   "status": "proved",
   "theorems": [
    "C50_only_what_was_asked_for"
   ],
   "note": "every package of every reachable tree is needed and answers a request"
  },
  {
   "property": "C51",
   "status": "partial",
   "theorems": [
    "C51_partial",
    "C51_refuted"
   ],
   "note": "proved when no package in the tree uses an alias; refuted: satisfies ignores the package name, so an alias b -> f hijacks other packages' dependency on the real b"
  },
  {
   "property": "C52",
   "status": "partial",
   "theorems": [
    "C52_partial",
    "C52_finite",
    "C52_refuted"
   ],
   "note": "Proved with a concurrency of one, or if no two packages beside each other have bins to link (then linking never fails and can always be completed); every run is finite. Refuted otherwise: two packages both create node_modules/.bin and the second call fails with 'file exists'."
  },
  {
   "property": "C53",
   "status": "partial",
   "theorems": [
    "C53_new",
    "C53_partial",
    "C53_own_partial",
    "C53_outside",
    "C53_refuted"
   ],
   "note": "Proved for a first install and, in general, for packages extracted by this apply; nothing outside .bin changes. Refuted: a second apply of the same tree empties node_modules/.bin and links nothing again."
  },
  {
   "property": "C54",
   "status": "proved",
   "theorems": [
    "C54_unchanged",
    "C54_remove",
    "C54_add",
    "C54_layout"
   ],
   "note": "Against a JSON reader written from RFC 8259 (with serde_json's recursion limit and repeated-key rule). Hypothesis Hnum: a number serde_json has printed reads back as itself."
  },
  {
   "property": "C55",
   "status": "partial",
   "theorems": [
    "C55_off",
    "C55_answer_partial",
    "C55_setup_keeps",
    "C55_never_asked_refuted",
    "C55_refuted",
    "C55_file_refuted"
   ],
   "note": "Opt-in is false: in CI, and after a first run without a terminal, telemetry is sent although nobody agreed (C55_refuted, C55_never_asked_refuted). Proved: an answer is obeyed and remembered, --no-telemetry and the configuration are obeyed, setup keeps the rest of the file."
  },
  {
   "property": "C56",
   "status": "partial",
   "theorems": [
    "C56_reads",
    "C56_add",
    "C56_remove",
    "C56_asked_partial",
    "C56_not_asked",
    "C56_installed_partial",
    "C56_add_installed_partial",
    "C56_refuted_case",
    "C56_refuted_bundle"
   ],
   "note": "Missing: names that differ in letter case only (false: C56_refuted_case). A package.json with both spellings of the bundle list is rejected (C56_refuted_bundle)."
  },
  {
   "property": "C57",
   "status": "partial",
   "theorems": [
    "C57_password",
    "C57_contacts",
    "C57_token",
    "C57_polls",
    "C57_no_crash_partial",
    "C57_saved",
    "C57_refuted",
    "C57_refuted_open",
    "C57_refuted_otp"
   ],
   "note": "Missing: crash freedom for every answer (false: C57_refuted, a Retry-After date or a non-ASCII www-authenticate crashes). The browser is given any text the registry names (C57_refuted_open); 'otp' anywhere in www-authenticate asks for a one-time password (C57_refuted_otp)."
  },
  {
   "property": "C58",
   "status": "partial",
   "theorems": [
    "C58_never_fails_partial",
    "C58_only",
    "C58_missing",
    "C58_linked_partial",
    "C58_again",
    "C58_refuted",
    "C58_refuted_scoped",
    "C58_refuted_hijack",
    "C58_refuted_again"
   ],
   "note": "Missing: commands not named like the dependency they come from (false: C58_missing, C58_refuted, C58_refuted_scoped), clashes (C58_refuted_hijack), later applies (false: C58_again, C58_refuted_again), and bins whose path leaves the package or goes through node_modules."
  },
  {
   "property": "C59",
   "status": "partial",
   "theorems": [
    "C59_partial",
    "C59_first",
    "C59_completes",
    "C59_isolated_partial",
    "C59_isolated_first",
    "C59_isolated_tree",
    "C59_isolated_gap",
    "C59_isolated_refuted"
   ],
   "note": "Missing: node_modules/.bin, which the second apply empties (C53_refuted); trees with dependencies the lockfile does not pin, such as tags and git (C06_refuted); packages not from the registry. With the isolated linker links to dependencies are missing in between (C59_isolated_refuted), everything else as with the hoisted one."
  },
  {
   "property": "C60",
   "status": "partial",
   "theorems": [
    "C60_accepts",
    "C60_faithful",
    "C60_one_document",
    "C60_answers",
    "C60_tree_partial",
    "C60_refuted_other_version",
    "C60_refuted_deprecated_null",
    "C60_refuted_nameless",
    "C60_refuted_wrong_number",
    "C60_refuted_two_responses"
   ],
   "note": "Proved for documents whose entries carry the version they are listed under and that do not change between the two responses; false otherwise (C60_refuted_*). Simplifications: an array in place of the dist object, and repeated keys, are not modelled as serde treats them."
  },
  {
   "property": "C61",
   "status": "partial",
   "theorems": [
    "C61_opt_in",
    "C61_off",
    "C61_url",
    "C61_command_line",
    "C61_bad_url",
    "C61_domain_partial",
    "C61_password_partial",
    "C61_retries",
    "C61_refuted_domain",
    "C61_refuted_password",
    "C61_refuted_off"
   ],
   "note": "Missing: --no-proxy-domain is ignored with --proxy and a proxy from the environment (C61_refuted_domain); percent-encoded proxy credentials are sent undecoded (C61_refuted_password); --proxy=false does not switch a given --proxy-url off (C61_refuted_off). reqwest and reqwest-retry are modelled from their documentation."
  },
  {
   "property": "C62",
   "status": "partial",
   "theorems": [
    "C62_accepts",
    "C62_faithful",
    "C62_same_version",
    "C62_no_panic",
    "C62_answers",
    "C62_reads_back",
    "C62_bins",
    "C62_dir",
    "C62_refuted_license",
    "C62_refuted_members",
    "C62_refuted_bins"
   ],
   "note": "Missing: one malformed entry (an object license in any version) makes every version unviewable though installable (C62_refuted_license); unknown members of people and places are dropped and missing ones printed as null (C62_refuted_members); the command of a scoped package with a string bin is named wrongly (C62_refuted_bins). Colours, the grid layout and the publication date of the page are not modelled; an alias of an alias (not writable on the command line) panics."
  },
  {
   "property": "C63",
   "status": "partial",
   "theorems": [
    "C63_walkup",
    "C63_loads",
    "C63_calm_partial",
    "C63_name_partial",
    "C63_isolated_partial",
    "C63_refuted"
   ],
   "note": "C63_walkup and C63_loads hold for every resolution and completed apply; that what is found is acceptable is missing where C02 fails (C63_refuted: a package that declares n 1.0.0 loads n 2.0.0). Packages that bundle dependencies, upgrades that pruning cannot see (C15_refuted, C18_refuted), bin directories, package.json main/exports and NODE_PATH are not covered."
  },
  {
   "property": "C64",
   "status": "partial",
   "theorems": [
    "C64_enforced",
    "C64_same_files",
    "C64_reproducible_partial",
    "C64_refuted"
   ],
   "note": "C64_enforced and C64_same_files need no assumption on the cache: it is built by the program from nothing, and damaged at will. Assumed: no hash collisions among what ever arrives; archives have distinct paths without '..'; each package goes to an empty place. C64_reproducible_partial has C06's conditions on the tree. C64_refuted: a registry entry without dist.integrity (a shasum is not looked at) is installed unchecked, from the lockfile as well, and the integrity computed on the way is thrown away, so two machines can get different files."
  },
  {
   "property": "C65",
   "status": "partial",
   "theorems": [
    "C65_lines_defined",
    "C65_sound",
    "C65_order",
    "C65_returns",
    "C65_outcome",
    "C65_package",
    "C65_utf8_refuted",
    "C65_lost_refuted",
    "utf8_ok_spec",
    "C65_same_result",
    "C65_rebuild"
   ],
   "note": "Simplified: a script is its writes, byte by byte, its background processes and its exit status; processes end; reads and wait do not fail otherwise. C65_outcome is for scripts without background processes; with them C65_sound says the lines are those of what arrived in the pipe. C65_utf8_refuted: a script that exits 0 but prints one byte that is not UTF-8 never succeeds. C65_lost_refuted: try_join! returns as soon as the exit status is known to be bad, when nothing of what the script wrote about it may have been passed on. C65_rebuild composes this with the scheduler: after a successful rebuild every script of a required package was run to the end, exited 0, and all its output lines were passed on."
  },
  {
   "property": "C66",
   "status": "partial",
   "theorems": [
    "C66_range",
    "C66_range_partial",
    "C66_committish",
    "C66_outcomes",
    "C66_tags_refuted",
    "C66_committish_refuted",
    "C66_install_refuted"
   ],
   "note": "git is external: clone, show-ref --tags and checkout ARG are modelled as documented, without submodules and hooks; build metadata is left out of versions. C66_range needs no condition on tags: what is checked out is the text of the highest version in range. The refuted theorems are about the code as it is."
  }
 ]
}