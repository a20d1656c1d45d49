{"id": "C01", "title": "Threshold soundness", "statement": "If verify_signatures(raw, t, keys) returns Ok, then t >= 1 and there are at least t pairwise different key ids, each belonging to a key that was passed in, whose signature entry in raw verifies under that key over the canonical encoding of the `signed` part.", "quantifier": "all raw byte strings, all thresholds, all finite key collections, all signature-scheme implementations, all hash-map iteration orders", "why_tests_cant": "Tests sign with a handful of keys; the claim is about every adversarial signature list (duplicates, unknown ids, wrong keys) and every iteration order.", "anchors": ["src/verify.rs: verify_signatures", "src/crypto.rs: PublicKey::verify"]}
{"id": "C02", "title": "Threshold completeness and exact acceptance", "statement": "verify_signatures succeeds exactly when the envelope decodes, t >= 1, the signature list is non-empty, the signed part canonicalizes, at least t different authorised key ids have a valid entry (the last entry per id is the one that counts) and the canonical bytes decode to the requested role; otherwise it returns an error.", "quantifier": "all raw byte strings, thresholds and key collections", "why_tests_cant": "An if-and-only-if over an infinite input space; a test shows one accepted and one rejected document.", "anchors": ["src/verify.rs: verify_signatures"]}
{"id": "C03", "title": "Verification does not depend on hash-map order", "statement": "The result of verify_signatures is the same for every iteration order of the internal hash maps, even though the loop stops early when the threshold is reached.", "quantifier": "all inputs and all pairs of iteration orders", "why_tests_cant": "Rust randomises hash order per process; a test run sees one order.", "anchors": ["src/verify.rs: verify_signatures"]}
{"id": "C04", "title": "Only signed content becomes trusted", "statement": "The metadata returned by verify_signatures is a function of the canonical bytes that the threshold of keys signed: two documents whose `signed` parts have the same canonical bytes and which both verify yield the same metadata, whatever else they contain.", "quantifier": "all pairs of raw documents", "why_tests_cant": "Relates two arbitrary executions.", "anchors": ["src/verify.rs: verify_signatures", "src/interchange/mod.rs: DataInterchange"]}
{"id": "C05", "title": "A threshold needs that many different keys", "statement": "A threshold of t is only reached by signatures from t different public keys (different key material), so that one compromised private key never satisfies a threshold of 2.", "quantifier": "all documents, all key sets that parsed metadata can list", "why_tests_cant": "Needs an argument about every way of listing a key, including different keyid_hash_algorithms for the same key bytes.", "anchors": ["src/verify.rs: verify_signatures", "src/crypto.rs: calculate_key_id, PublicKey::from_ed25519_with_keyid_hash_algorithms"]}
{"id": "C06", "title": "Initial root is authenticated", "statement": "Tuf::from_root_with_trusted_keys returns Ok only for a root that carries a threshold of signatures of the given keys and a threshold of its own root keys; Tuf::from_trusted_root only for one that carries a threshold of its own root keys; in both cases no other metadata is trusted yet.", "quantifier": "all raw roots, thresholds and key collections", "why_tests_cant": "Universally quantified over adversarial documents.", "anchors": ["src/tuf.rs: from_root_with_trusted_keys, from_trusted_root"]}
{"id": "C07", "title": "Root chain of trust", "statement": "After any sequence of calls, the trusted root is connected to the initial one by a chain of roots in which every link was signed by a threshold of the predecessor's root keys and by a threshold of its own, and versions go up by exactly one per link.", "quantifier": "all finite histories of update_* calls with arbitrary arguments, clocks and failures", "why_tests_cant": "Histories are unbounded and adversarial.", "anchors": ["src/tuf.rs: update_root"]}
{"id": "C08", "title": "Root version moves by exactly one", "statement": "update_root succeeds only if the new version is the old version plus one (and that fits in u32); the trusted root version never decreases.", "quantifier": "all states and documents; all histories", "why_tests_cant": "Needs all version pairs including the u32 boundary.", "anchors": ["src/tuf.rs: update_root"]}
{"id": "C09", "title": "Accepting a root forgets the metadata signed under the old one", "statement": "After a successful update_root no timestamp, snapshot, targets or delegation is trusted; a failed update_root changes nothing.", "quantifier": "all states and documents", "why_tests_cant": "A frame condition over every state.", "anchors": ["src/tuf.rs: update_root, purge_metadata"]}
{"id": "C10", "title": "Failed snapshot, targets, delegation and root updates change nothing", "statement": "If update_root, update_snapshot, update_targets or update_delegation returns Err (or Ok(false)), all trusted metadata is exactly what it was before.", "quantifier": "all states, documents and clock readings", "why_tests_cant": "Every error path in every state.", "anchors": ["src/tuf.rs: update_root, update_snapshot, update_targets, update_delegation"]}
{"id": "C11", "title": "A failed timestamp update changes nothing", "statement": "If update_timestamp returns Err, the trusted metadata is exactly what it was before the call.", "quantifier": "all states, documents and clock readings", "why_tests_cant": "The violating path needs an expired, correctly signed, newer timestamp with a different snapshot version.", "anchors": ["src/tuf.rs: update_timestamp"]}
{"id": "C12", "title": "Timestamp rollback protection", "statement": "Between two root changes the trusted timestamp version never decreases; a timestamp with the same version is reported as 'no update' and leaves everything unchanged; a lower version is an error.", "quantifier": "all histories without a successful update_root in between", "why_tests_cant": "Histories are unbounded.", "anchors": ["src/tuf.rs: update_timestamp"]}
{"id": "C13", "title": "Exactly which snapshot is accepted", "statement": "update_snapshot returns Ok(true) exactly when root and timestamp are unexpired, the timestamp lists a snapshot version above the trusted one, the document is signed by a threshold of the root's snapshot keys and its version is the listed one; the trusted snapshot then is the signed document.", "quantifier": "all states, documents and clock readings", "why_tests_cant": "If-and-only-if over all documents and clocks.", "anchors": ["src/tuf.rs: update_snapshot"]}
{"id": "C14", "title": "Exactly which targets metadata is accepted", "statement": "update_targets returns Ok(true) exactly when root and snapshot are unexpired, the snapshot describes the targets role at a version above the trusted one, the document is signed by a threshold of the root's targets keys, has the listed version and is unexpired.", "quantifier": "all states, documents and clock readings", "why_tests_cant": "If-and-only-if over all documents and clocks.", "anchors": ["src/tuf.rs: update_targets"]}
{"id": "C15", "title": "Exactly which delegated metadata is accepted", "statement": "update_delegation returns Ok(true) exactly when root, snapshot and targets are unexpired, the top-level targets declare delegations, the snapshot describes the role at a version above the trusted one, the named trusted parent delegates to the role, the document is signed by a threshold of the keys the parent lists for it, has the listed version and is unexpired.", "quantifier": "all states, parents, roles, documents and clock readings", "why_tests_cant": "If-and-only-if over all documents and clocks.", "anchors": ["src/tuf.rs: update_delegation, find_delegation_threshold_and_keys"]}
{"id": "C16", "title": "Versions of trusted metadata always fit together", "statement": "In every state reachable through the API: a trusted snapshot has exactly the version the trusted timestamp lists; if a snapshot is trusted, trusted targets have exactly the version that snapshot lists, and a trusted delegation is never newer than the snapshot lists. Hence the 'rolled back' error branches of update_snapshot, update_targets and update_delegation cannot be reached.", "quantifier": "all finite histories of API calls", "why_tests_cant": "An invariant over unbounded histories.", "anchors": ["src/tuf.rs: update_timestamp, update_snapshot, purge_delegations, update_targets, update_delegation"]}
{"id": "C17", "title": "Snapshot rollback protection", "statement": "Between two root changes the version of the trusted snapshot never decreases.", "quantifier": "all histories of API calls without a successful update_root", "why_tests_cant": "The violating history consists of correctly signed, individually plausible documents.", "anchors": ["src/tuf.rs: update_timestamp (FIXME #294), update_snapshot"]}
{"id": "C18", "title": "Targets rollback protection", "statement": "Between two root changes the version of the trusted targets (and of each delegation) never decreases.", "quantifier": "all histories of API calls without a successful update_root", "why_tests_cant": "The violating history consists of correctly signed documents.", "anchors": ["src/tuf.rs: update_snapshot (FIXME #295), update_targets, purge_delegations"]}
{"id": "C19", "title": "Trusted metadata is signed under the current root", "statement": "In every reachable state the trusted timestamp, snapshot and targets are exactly the decoded content of some document carrying a threshold of valid signatures by the keys the *currently trusted* root lists for that role.", "quantifier": "all finite histories of API calls", "why_tests_cant": "Invariant over unbounded histories, including key rotation.", "anchors": ["src/tuf.rs: update_root, update_timestamp, update_snapshot, update_targets"]}
{"id": "C20", "title": "Trusted delegations are authorised by the current parent", "statement": "In every reachable state each trusted delegation is signed by a threshold of the keys that a currently trusted parent lists for that role.", "quantifier": "all finite histories of API calls", "why_tests_cant": "Needs a history in which a parent rotates the keys of its delegate.", "anchors": ["src/tuf.rs: update_targets, update_delegation, purge_delegations"]}
{"id": "C21", "title": "Expired metadata is refused", "statement": "A timestamp, targets or delegation whose expiry is <= the clock reading of the call is never accepted; snapshot updates need an unexpired root and timestamp, targets updates an unexpired root and snapshot, delegation updates unexpired root, snapshot and targets. Expiry is inclusive (expires == now counts as expired).", "quantifier": "all states, documents and clock readings", "why_tests_cant": "Boundary and every combination of clocks.", "anchors": ["src/tuf.rs: trusted_root_unexpired, trusted_timestamp_unexpired, trusted_snapshot_unexpired, trusted_targets_unexpired, update_*"]}
{"id": "C22", "title": "The expiry error names the expired role", "statement": "When update_timestamp, update_targets or update_delegation rejects the new document because it is expired, the returned ExpiredMetadata error carries the role of that document.", "quantifier": "all states, documents and clock readings", "why_tests_cant": "Error values on all paths.", "anchors": ["src/tuf.rs: update_targets"]}
{"id": "C23", "title": "Target descriptions come from trusted, unexpired metadata", "statement": "If Tuf::target_description(p) returns Ok(d), then root, snapshot and targets are unexpired and either the trusted targets list d for p, or some trusted unexpired delegated role lists d for p and is reachable from the trusted targets through a path of delegations whose roles are all trusted and unexpired; a top-level entry always wins.", "quantifier": "all states (any delegation graph, cycles included), target paths and clock readings", "why_tests_cant": "Quantifies over every delegation graph.", "anchors": ["src/tuf.rs: target_description"]}
{"id": "C24", "title": "Delegated roles only speak for their paths", "statement": "If Tuf::target_description(p) takes the description from a delegated role, p lies within the paths of every delegation on the way to that role.", "quantifier": "all states and target paths", "why_tests_cant": "Needs a delegate that lists a target outside its paths.", "anchors": ["src/tuf.rs: target_description", "src/metadata.rs: matches_chain"]}
{"id": "C25", "title": "Delegation search terminates and visits each role once", "statement": "Tuf::target_description terminates on every delegation graph, including cyclic ones, and consults each role at most once.", "quantifier": "all finite delegation graphs", "why_tests_cant": "Graphs are unbounded.", "anchors": ["src/tuf.rs: target_description"]}
{"id": "C26", "title": "A non-terminating dead end does not hide later siblings", "statement": "If a delegation is not terminating and yields nothing, Tuf::target_description goes on to the next delegation of the same parent.", "quantifier": "all states and target paths", "why_tests_cant": "Depends on the order and presence of siblings.", "anchors": ["src/tuf.rs: target_description"]}
{"id": "C27", "title": "A terminating delegation ends the search", "statement": "When Tuf::target_description has entered a terminating delegation, delegations after it in the same list are not consulted: the result is the same whatever they are.", "quantifier": "all states, target paths and pairs of delegation lists with a common prefix", "why_tests_cant": "Relates two states.", "anchors": ["src/tuf.rs: target_description"]}
{"id": "C28", "title": "Accepted paths cannot escape the base directory", "statement": "MetadataPath::new, VirtualTargetPath::new and TargetPath::new accept exactly the non-empty strings without leading '/', without the listed characters and without '.' or '..' components; consequently joining the components of any accepted path (with any version prefix or hash prefix) below a base directory never leaves it.", "quantifier": "all strings, versions and hash values", "why_tests_cant": "All strings.", "anchors": ["src/metadata.rs: safe_path, MetadataPath::components, TargetPath::components"]}
{"id": "C29", "title": "DOS device names are rejected", "statement": "A path with a component that equals a DOS device name in any letter case is rejected.", "quantifier": "all strings", "why_tests_cant": "The check exists but its effect over all spellings is not tested.", "anchors": ["src/metadata.rs: safe_path, PATH_ILLEGAL_COMPONENTS_CASE_INSENSITIVE"]}
{"id": "C30", "title": "Path matching means directory containment", "statement": "is_child(p, d) holds exactly when d ends in '/' and is a prefix of p; matches_chain(p, groups) holds exactly when one path can be chosen from every group such that each equals or lies below its predecessor and p equals or lies below the last; an empty chain matches nothing.", "quantifier": "all paths and all lists of groups", "why_tests_cant": "Infinite input space.", "anchors": ["src/metadata.rs: VirtualTargetPath::is_child, matches_chain"]}
{"id": "C31", "title": "Different metadata is stored at different locations", "statement": "Different pairs (metadata path, version) have different file names / components, so storing one never overwrites another.", "quantifier": "all pairs of metadata paths and versions", "why_tests_cant": "Collisions only appear for specially chosen names.", "anchors": ["src/metadata.rs: MetadataPath::components, MetadataVersion::prefix"]}
{"id": "C32", "title": "Hash-prefixed target paths are faithful", "statement": "with_hash_prefix keeps the directory, prefixes the file name with the lowercase hex hash and a dot, succeeds for every path with a non-empty file name, and different (path, hash) pairs give different paths.", "quantifier": "all target paths and hash values", "why_tests_cant": "Injectivity over infinite sets.", "anchors": ["src/metadata.rs: TargetPath::with_hash_prefix"]}
{"id": "C33", "title": "The role check keeps top-level files apart", "statement": "The role/path sanity check of Repository lets metadata of a role be fetched or stored only under a path that belongs to that role: no targets or delegated-targets document under root, snapshot or timestamp.", "quantifier": "all roles and metadata paths", "why_tests_cant": "All names.", "anchors": ["src/metadata.rs: Role::fuzzy_matches_path", "src/repository.rs: Repository::check"]}
{"id": "C34", "title": "Request URLs are faithful", "statement": "Path components never introduce a query, fragment or extra path segment into the request URL, the base path and query are kept, and different component lists give different URLs.", "quantifier": "all base paths, prefixes and safe component lists", "why_tests_cant": "All strings.", "anchors": ["src/repository/http.rs: extend_uri"]}
{"id": "C35", "title": "Length and hash checked reads are sound", "statement": "If a reader obtained through check_length_and_hash is read to the end without error, the bytes delivered are at most max_length long, hash to the expected value (if given) and are exactly the bytes the source produced, for every way the source chops, delays (Pending) and every buffer size the consumer uses.", "quantifier": "all byte streams, all chunkings, all Pending schedules, all positive buffer sizes, all hash functions", "why_tests_cant": "Schedules and chunkings are unbounded.", "anchors": ["src/util.rs: SafeReader::poll_read"]}
{"id": "C36", "title": "Length and hash checked reads are complete", "statement": "If the source delivers bytes within the limit and with the expected hash and does not fail, reading to the end succeeds, for every chunking.", "quantifier": "all byte streams, chunkings, Pending schedules, buffer sizes", "why_tests_cant": "As above.", "anchors": ["src/util.rs: SafeReader::poll_read"]}
{"id": "C37", "title": "Never more than max_length bytes", "statement": "The total number of bytes that successful reads of a checked reader report never exceeds max_length, even if the consumer goes on reading after an error.", "quantifier": "all polling sequences", "why_tests_cant": "All schedules.", "anchors": ["src/util.rs: SafeReader::poll_read"]}
{"id": "C38", "title": "A failed checked read stays failed", "statement": "Once a checked reader has reported a hash or length error, it never afterwards reports a successful end of stream.", "quantifier": "all polling sequences", "why_tests_cant": "Depends on polling after the error.", "anchors": ["src/util.rs: SafeReader::poll_read"]}
{"id": "C39", "title": "Slow transfers are cut off", "statement": "After the grace period every successful non-empty read of a rate-limited reader had an average rate of at least the minimum; within the grace period and for fast enough transfers the adapter changes nothing.", "quantifier": "all streams, schedules and clock sequences", "why_tests_cant": "All timings.", "anchors": ["src/util.rs: EnforceMinimumBitrate::poll_read"]}
{"id": "C40", "title": "Fetched metadata obeys its limits", "statement": "Repository::fetch_metadata returns Ok(bytes) only if the role matches the path, the provider produced exactly these bytes, they are no longer than max_length and they have the requested hash, whatever the provider does.", "quantifier": "all providers, paths, versions, limits, hashes", "why_tests_cant": "The provider is adversarial.", "anchors": ["src/repository.rs: Repository::fetch_metadata"]}
{"id": "C41", "title": "In-memory repository behaves as a map", "statement": "For EphemeralRepository: a fetch after a store of the same path and version returns the stored bytes; other entries are unaffected; a store whose input stream fails changes nothing; never-stored entries are NotFound.", "quantifier": "all histories of store/fetch operations", "why_tests_cant": "Unbounded histories.", "anchors": ["src/repository/ephemeral.rs"]}
{"id": "C42", "title": "File-system stores are atomic", "statement": "At every crash point of FileSystemRepository::store_metadata / store_target, and under every interleaving of several stores, the file at the destination is either absent/old or one complete input of a store that reached its rename; a store whose input stream fails leaves the destination unchanged.", "quantifier": "all crash points, all interleavings of any number of stores, all chunkings", "why_tests_cant": "Crash points and schedules.", "anchors": ["src/repository/file_system.rs: store_metadata, store_target, create_temp_file"]}
{"id": "C43", "title": "The client changes trust only through verification", "statement": "Whatever the local and remote repositories answer, and wherever the future is dropped, the client's trusted metadata is a state that a sequence of Tuf::update_* calls produces from the initial one; so all Tuf guarantees hold for the client.", "quantifier": "all repository behaviours (local and remote), all clocks, all cancellation points", "why_tests_cant": "Environment and cancellation point are unbounded.", "anchors": ["src/client.rs: update, update_*_with_repos, lookup_target_description"]}
{"id": "C44", "title": "Only verified metadata is persisted", "statement": "Every metadata document the client stores locally is byte-for-byte one that was fetched from a repository and accepted by the verifier just before; nothing is stored for a rejected document.", "quantifier": "all repository behaviours, clocks and cancellation points", "why_tests_cant": "As above.", "anchors": ["src/client.rs: update_*_with_repos, with_trusted_root_keys, lookup_target_description"]}
{"id": "C45", "title": "update() reports changes truthfully", "statement": "Client::update returning Ok(false) means no trusted metadata changed; Ok(true) means at least one of root, timestamp, snapshot, targets changed.", "quantifier": "all repository behaviours and clocks", "why_tests_cant": "All environments.", "anchors": ["src/client.rs: update"]}
{"id": "C46", "title": "The root update loop terminates", "statement": "For every remote repository, the root update loop performs finitely many fetches: it requests versions v+1, v+2, ... consecutively and stops at the first version that is missing or rejected, at the latest at u32::MAX.", "quantifier": "all remote behaviours", "why_tests_cant": "A malicious remote can serve any number of roots.", "anchors": ["src/client.rs: update_root_with_repos"]}
{"id": "C47", "title": "The client never panics on version overflow", "statement": "No trusted root version makes a client constructor or update() panic.", "quantifier": "all trusted roots", "why_tests_cant": "Needs version u32::MAX.", "anchors": ["src/client.rs: update_root_with_repos"]}
{"id": "C48", "title": "The delegation walk never unwraps a missing role", "statement": "The unwrap of the just-updated delegation in the client's target lookup never panics.", "quantifier": "all repository behaviours and reachable client states", "why_tests_cant": "All histories.", "anchors": ["src/client.rs: lookup_target_description"]}
{"id": "C49", "title": "A restarted client resumes where it stopped", "statement": "If update() succeeded against a local store that works as a map, constructing a client from the same initial root and that local store (clock not past any expiry) restores the same trusted root, timestamp, snapshot and targets.", "quantifier": "all remote behaviours and update histories", "why_tests_cant": "Relates an unbounded history to a second run.", "anchors": ["src/client.rs: new, update, update_*_with_repos"]}
{"id": "C50", "title": "Downloads are bounded", "statement": "The client accepts a root only within max_root_length, a timestamp only within max_timestamp_length, and a snapshot/targets/delegation only within the length and with the preferred hash that the parent metadata lists.", "quantifier": "all repository behaviours and configurations", "why_tests_cant": "Adversarial repository.", "anchors": ["src/client.rs: update_*_with_repos", "src/repository.rs: fetch_metadata"]}
{"id": "C51", "title": "Downloaded targets are authentic", "statement": "If Client::fetch_target returns Ok, the local repository received exactly bytes whose preferred hash is the one, and whose length is at most the one, in a description that the trusted targets metadata list for that path; fetch_target_to_writer likewise.", "quantifier": "all repository behaviours, chunkings and states", "why_tests_cant": "Adversarial remote.", "anchors": ["src/client.rs: fetch_target, fetch_target_to_writer, _fetch_target"]}
{"id": "C52", "title": "A failed download leaves the stored target alone", "statement": "If fetch_target fails (missing target, wrong hash, too long, broken connection), the target previously stored locally under that path is unchanged.", "quantifier": "all repository behaviours and failures, for the in-memory and the file-system local repository", "why_tests_cant": "All failure points.", "anchors": ["src/client.rs: fetch_target", "src/repository/ephemeral.rs: store_target", "src/repository/file_system.rs: store_target"]}
{"id": "C53", "title": "Delegated targets can be fetched", "statement": "If a target is listed only by a trusted delegated role whose delegation covers its path, Client::fetch_target_description returns that description.", "quantifier": "all repositories with a valid delegation", "why_tests_cant": "The library's own tests never fetch a delegated target through Client.", "anchors": ["src/client.rs: lookup_target_description"]}
{"id": "C54", "title": "The client's delegation walk is bounded", "statement": "Client::fetch_target_description terminates on every delegation graph and never walks deeper than max_delegation_depth delegations.", "quantifier": "all delegation graphs and repository behaviours", "why_tests_cant": "Cyclic graphs.", "anchors": ["src/client.rs: lookup_target_description"]}
{"id": "C55", "title": "Expired metadata does not authorise downloads", "statement": "Client::fetch_target does not return Ok on the basis of a root, snapshot or targets document that is expired at the time of the call.", "quantifier": "all client states and clock readings", "why_tests_cant": "Needs time to pass between update and fetch.", "anchors": ["src/client.rs: fetch_target_description, lookup_target_description"]}
{"id": "C56", "title": "Pinned root version is honoured", "statement": "A client created by with_trusted_root_keys for root version n trusts a root chain that starts at version n.", "quantifier": "all repository behaviours", "why_tests_cant": "Needs a repository that answers with another version.", "anchors": ["src/client.rs: with_trusted_root_keys (FIXME #253)"]}
{"id": "C57", "title": "A damaged cache is never trusted and never fatal", "statement": "Client construction from a trusted root succeeds whatever the local repository contains, and whatever was loaded went through full verification.", "quantifier": "all local repository behaviours", "why_tests_cant": "All cache contents.", "anchors": ["src/client.rs: new, with_trusted_root"]}
{"id": "C58", "title": "Trusted snapshot and targets match the listed hashes", "statement": "Whenever the client accepts a snapshot (targets), its bytes have the preferred hash listed by the trusted timestamp (snapshot); and in every later state the trusted snapshot (targets) still matches the hash listed by the then trusted timestamp (snapshot).", "quantifier": "all repository behaviours and histories", "why_tests_cant": "Histories.", "anchors": ["src/client.rs: update_snapshot_with_repos, update_targets_with_repos", "src/tuf.rs: update_timestamp"]}
{"id": "C59", "title": "Canonical JSON is unambiguous", "statement": "Canonicalization maps different JSON values (objects compared as maps) to different byte strings, and parsing canonical bytes gives back the value.", "quantifier": "all JSON values without floats", "why_tests_cant": "Injectivity over all values.", "anchors": ["src/interchange/cjson/mod.rs: canonicalize, Value::write, convert"]}
{"id": "C60", "title": "Canonical JSON is canonical", "statement": "The canonical bytes do not depend on member order, white space or escape spelling of the input text; canonicalization fails exactly for values that contain a non-integer number.", "quantifier": "all JSON texts", "why_tests_cant": "All texts.", "anchors": ["src/interchange/cjson/mod.rs: canonicalize, convert"]}
{"id": "C61", "title": "Metadata survives serialization", "statement": "For root, timestamp, snapshot and targets metadata obtained by decoding, encoding and decoding again gives the same metadata.", "quantifier": "all decodable documents", "why_tests_cant": "All documents.", "anchors": ["src/interchange/cjson/shims.rs", "src/metadata.rs: Serialize/Deserialize impls"]}
{"id": "C62", "title": "Decoded metadata is well formed", "statement": "Every decoded root has, for each role, a threshold between 1 and the number of (pairwise different) key ids and version >= 1, and stores every key under its own computed id; every decoded description has version >= 1 and a usable hash; delegations have unique role names, at least one key and one path; labels of another role or another spec version are rejected.", "quantifier": "all documents", "why_tests_cant": "All documents.", "anchors": ["src/interchange/cjson/shims.rs", "src/metadata.rs: RoleDefinition::new, Delegations::new, Delegation::new"]}
{"id": "C63", "title": "Duplicate keys in signed metadata are rejected", "statement": "A signed document whose `keys` (or snapshot `meta`) object lists the same key twice is rejected by verification.", "quantifier": "all documents", "why_tests_cant": "Needs raw text that the JSON layer collapses before the check.", "anchors": ["src/interchange/cjson/shims.rs: deserialize_reject_duplicates", "src/verify.rs: verify_signatures"]}
{"id": "C64", "title": "Hex encoding is a faithful codec", "statement": "Lower-case hex decoding inverts encoding, accepts exactly even-length lower-case hex, and every accepted string is the encoding of its value.", "quantifier": "all byte strings and texts", "why_tests_cant": "All strings.", "anchors": ["src/format_hex.rs", "src/crypto.rs: HashValue, SignatureValue"]}
{"id": "C65", "title": "Expiry dates survive encoding", "statement": "Formatting and re-parsing an expiry date gives the same instant for every whole-second date in years 0-9999, parsing accepts no two spellings of a date that differ in the instant, and the order of instants is the order of the formatted strings.", "quantifier": "all dates", "why_tests_cant": "All dates, leap years included.", "anchors": ["src/interchange/cjson/shims.rs: parse_datetime, format_datetime"]}
{"id": "C66", "title": "Key encodings are faithful", "statement": "A public key written as SPKI and read back has the same type and key bytes; a key written into metadata and read back is the same key with the same id; DER length encoding/decoding is a faithful codec.", "quantifier": "all keys", "why_tests_cant": "All key lengths (short and long form DER lengths).", "anchors": ["src/crypto.rs: write_spki, PublicKey::from_spki, PublicKey Serialize/Deserialize"]}
{"id": "C67", "title": "One signature per key", "statement": "Starting from SignedMetadata::new or SignedMetadataBuilder, any sequence of add_signature and merge_signatures leaves at most one signature per key id; add_signature replaces an older one; merge keeps the receiver's on conflict and never merges different content.", "quantifier": "all sequences of operations", "why_tests_cant": "Unbounded sequences.", "anchors": ["src/metadata.rs: SignedMetadata::add_signature, merge_signatures, SignedMetadataBuilder"]}
{"id": "C68", "title": "Descriptions describe the data", "statement": "A TargetDescription/MetadataDescription computed from a reader records the exact length and, for every requested algorithm, the hash of the bytes, for every chunking; a value of the caller is kept with it; a checked read of the same bytes against it succeeds.", "quantifier": "all byte strings, chunkings, algorithm lists", "why_tests_cant": "All chunkings.", "anchors": ["src/crypto.rs: calculate_hashes", "src/metadata.rs: TargetDescription::from_reader, MetadataDescription::from_reader"]}
{"id": "C69", "title": "Builders describe the bytes that are published", "statement": "The description that SnapshotMetadataBuilder::insert_metadata / TimestampMetadataBuilder::from_snapshot computes for a signed document matches the bytes that to_raw() produces for it, for every DataInterchange shipped with the library.", "quantifier": "all signed documents, Json and JsonPretty", "why_tests_cant": "All documents and both formats.", "anchors": ["src/metadata.rs: insert_metadata_with_path, from_snapshot, to_raw", "src/interchange/cjson/pretty.rs: to_writer"]}
{"id": "C70", "title": "The strongest listed hash is used", "statement": "hash_preference picks SHA-512 if listed, else SHA-256, else fails; it never picks an unknown algorithm.", "quantifier": "all hash maps", "why_tests_cant": "All maps.", "anchors": ["src/crypto.rs: hash_preference"]}
{"id": "C71", "title": "What the root builder builds can be read back", "statement": "Every root metadata that RootMetadataBuilder builds (and signs) can be decoded again by a client.", "quantifier": "all sequences of builder calls", "why_tests_cant": "Needs a repeated key.", "anchors": ["src/metadata.rs: RootMetadataBuilder", "src/interchange/cjson/shims.rs: RoleDefinition::try_into"]}
{"id": "C72", "title": "Default path translation is the identity", "statement": "DefaultTranslator maps every real target path to the virtual path with the same text and back.", "quantifier": "all target paths", "why_tests_cant": "All paths.", "anchors": ["src/client.rs: DefaultTranslator"]}
{"id": "C73", "title": "Repositories made with the builders are accepted", "statement": "Metadata built with the builders and signed (SignedMetadata::new, SignedMetadataBuilder::sign, add_signature, merge_signatures) by at least the threshold of a role's keys verifies for that role; a root, timestamp, snapshot and targets made this way, with descriptions made by the builders, take a client from nothing to a complete trusted state; a next root signed under the old and new thresholds replaces the old; a delegated role's metadata made this way is accepted.", "quantifier": "all metadata, all working keys, all orders of signing, all digest and signature primitives", "why_tests_cant": "Needs every combination of metadata, keys and signing order; tests sign one small repository.", "anchors": ["src/metadata.rs: SignedMetadata, SignedMetadataBuilder, RootMetadataBuilder, SnapshotMetadataBuilder, TimestampMetadataBuilder, TargetsMetadataBuilder", "src/tuf.rs: Tuf"]}
{"id": "C74", "title": "A repository that is in order is followed", "statement": "If the remote repository offers a line of root documents leading from the client's root to the current one, and a timestamp, snapshot and targets document signed as the current root demands, each describing the next, none expired and none longer than the configured limits, and if the client is not ahead of it, then Client::update returns Ok, afterwards the client trusts exactly the published documents, and it returns Ok(false) exactly when it did so before. It does not panic or loop.", "quantifier": "all repositories in order, all reachable client states, all chunkings of the answers, all interleavings of clock readings before expiry", "why_tests_cant": "Every repository, every client state and every way of cutting the answers into chunks; tests follow a handful.", "anchors": ["src/client.rs: update, update_root_with_repos, update_timestamp_with_repos, update_snapshot_with_repos, update_targets_with_repos", "src/tuf.rs: Tuf"]}
{"id": "C75", "title": "Clients recover", "statement": "Whatever the remote repository, the clock and the local store did to a client before (replays, withheld or damaged documents, dropped futures), if nobody but the repository has signed with the current keys, then as soon as the repository is reachable and in order an update succeeds and brings the client up to date.", "quantifier": "all histories of a client", "why_tests_cant": "Quantifies over everything an adversary may have done.", "anchors": ["src/client.rs: update", "src/tuf.rs: Tuf"]}
{"id": "C76", "title": "Downloads of listed targets succeed", "statement": "If the top-level targets list a target and the remote repository has data matching the description under the path (with consistent snapshots: under the hash-prefixed path), then fetch_target stores exactly these data under the target's path in the local repository and fetch_target_to_writer writes exactly these data; both return Ok.", "quantifier": "all targets, descriptions, data and chunkings", "why_tests_cant": "All data and chunkings.", "anchors": ["src/client.rs: fetch_target, fetch_target_to_writer, fetch_target_description"]}
{"id": "C77", "title": "A successful update has seen everything", "statement": "If Client::update returns Ok, then the remote repository said of the root after the trusted one that it does not exist, answered every other request with a document, served a timestamp that is signed by the trusted root and has the trusted version, every accepted document was stored, and the client has a timestamp, snapshot and targets of the versions they list. No failed download is passed over.", "quantifier": "all repositories, all client states", "why_tests_cant": "Every failure at every point of every update.", "anchors": ["src/client.rs: update, update_root_with_repos", "src/error.rs: From<io::Error>"]}
{"id": "C78", "title": "Fetching over HTTP", "statement": "Each fetch of HttpRepository sends exactly one GET: to the base URI extended by the prefix and the components of the path, with the base's query and the configured User-Agent (\"rust-tuf\" by default), or none at all (Err(Http)) if the User-Agent cannot be sent. Status 200 gives a reader with exactly the bytes of the body; 404 is Err(NotFound); any other status is Err(BadHttpStatus) with that status; a failed connection is Err(Hyper). A body that breaks off, and one that is too slow, are errors when read, never of kind NotFound; a body that arrives within 30 seconds is never refused. Hence an update over HTTP succeeds only if the server answered the request for the next root with status 404.", "quantifier": "all servers and answers, base URIs, prefixes, paths, statuses, bodies, chunkings and clock readings", "why_tests_cant": "All status codes, all bodies with all timings, and every behaviour of the server during an update.", "anchors": ["src/repository/http.rs: HttpRepository, HttpRepositoryBuilder, get, fetch_metadata, fetch_target", "src/util.rs: EnforceMinimumBitrate", "src/client.rs: update"]}
{"id": "C79", "title": "A file-system repository is a map", "statement": "In a FileSystemRepository, a fetch returns the bytes of the last successful store under that path (and version), and NotFound if there was none. A store succeeds exactly if its input can be read and nothing is in the way. A store that fails changes nothing. Stores of other paths, and of targets as opposed to metadata, change nothing either.", "quantifier": "all disks, all sequences of stores with all inputs, all paths", "why_tests_cant": "All histories on all initial directories.", "anchors": ["src/repository/file_system.rs: FileSystemRepository, FileSystemRepositoryBuilder"]}
{"id": "C80", "title": "A directory behind a web server", "statement": "If a web server serves the directory of a FileSystemRepository, then an HttpRepository with the corresponding URI and prefixes fetches, for every metadata path and version and every target path, exactly the bytes stored there, and NotFound if there are none. If the directory holds a repository in order, a client updating over HTTP gets up to date.", "quantifier": "all directories, paths, prefixes, base URIs, contents", "why_tests_cant": "Relates two implementations on all names; tests use each with a few names.", "anchors": ["src/repository/file_system.rs: FileSystemRepository", "src/repository/http.rs: HttpRepository, extend_uri", "src/client.rs: update"]}
{"id": "C81", "title": "Private keys and their public halves", "statement": "RsaPrivateKey::from_pkcs8 accepts a PKCS#8 file exactly if ring does, the scheme is an RSA scheme, the modulus has at least 2048 bits and the file has the structure of RFC 5208 and 8017; the public half is the PKCS#1 form of the modulus and exponent in the file. Ed25519PrivateKey takes 32 bytes of seed and 32 of public key, or what ring takes as PKCS#8. The public half equals the PublicKey made from the corresponding public file. sign never panics, signs under the id of the public half, and the public half verifies the signature. A key pair has one identity: however it is loaded, what it signs is accepted for its public key; and a document is accepted only for keys of its signers.", "quantifier": "all files, all messages, all rings that keep their promises, all documents and trusted key sets", "why_tests_cant": "All byte strings as key files; tests have two RSA keys and one Ed25519 key.", "anchors": ["src/crypto.rs: Ed25519PrivateKey, RsaPrivateKey, extract_rsa_pub_from_pkcs8, write_pkcs1", "src/crypto.rs: PublicKey::from_spki, from_ed25519"]}
{"id": "C82", "title": "Public keys in ordered and hashed collections", "statement": "PublicKey implements Eq, Ord and Hash as BTreeMap and HashMap require: equality is equality of keys, the order is total, transitive and antisymmetric and agrees with equality, and equal keys have equal hashes; for keys obtained in any way (constructors, JSON, private keys), except for pairs of keys whose canonical texts collide under SHA-256.", "quantifier": "all sets of keys made by the library, all hashers", "why_tests_cant": "Laws about all pairs and triples of keys.", "anchors": ["src/crypto.rs: PartialEq, Ord, PartialOrd, Hash for PublicKey"]}
{"id": "C83", "title": "Generating RSA keys", "statement": "RsaPrivateKey::pkcs8 returns the PKCS#8 form that openssl makes of the key that openssl generated, and an error if one of the programs fails.", "quantifier": "all behaviours of the openssl program", "why_tests_cant": "The failing programs; tests run a working openssl.", "anchors": ["src/crypto.rs: RsaPrivateKey::pkcs8"]}
{"id": "C84", "title": "UTF-8, base64 and null at the edge of JSON", "statement": "A JSON string is accepted exactly if its bytes are the UTF-8 (RFC 3629) of some characters: no overlong forms, no surrogates, nothing above U+10FFFF, nothing cut off; an accepted string holds exactly these bytes, and a character has one form. The text of an RSA key in metadata is accepted exactly if it is base64url (RFC 4648, with padding, no stray bits) of a SubjectPublicKeyInfo, and a key has only one such text. Where a member of an object is optional (keyid_hash_algorithms of a key, delegations of targets metadata, custom of a target description), null means the same as leaving it out.", "quantifier": "All byte strings between quotes, all texts standing in an RSA key, all objects with a null in an optional member.", "why_tests_cant": "The malformed byte sequences and the accepted texts are infinite families; tests only use well-formed files.", "anchors": ["src/interchange/cjson/mod.rs", "src/interchange/cjson/shims.rs: PublicKey::try_into, Targets, TargetDescription", "src/crypto.rs: PublicKey::from_spki"]}
{"id": "C85", "title": "Attackers without a threshold of keys", "statement": "However an attacker answers the client's requests and changes its local repository and clock: if signatures cannot be forged and fewer root keys than the threshold are in wrong hands in every published root, the client only ever trusts published roots. Likewise every document of another role it trusts was published, if that holds of the role's keys in the trusted root, no matter what happened to the keys of other roles or of former roots; every delegated document, if it holds of the delegations on the way; and every target it downloads has been listed in published metadata.", "quantifier": "All repositories, clocks, holders of keys, histories of a client over any number of calls.", "why_tests_cant": "It speaks about all behaviours of an attacker; tests try single bad files.", "anchors": ["src/tuf.rs", "src/client.rs", "src/verify.rs"]}
{"id": "C86", "title": "Rollback and mix-and-match by attackers without keys", "statement": "An attacker who cannot sign timestamps and snapshots cannot make the client go back: the versions of the trusted timestamp, snapshot, targets and delegated metadata never decrease. Nor can they combine documents of different releases: timestamp, snapshot and targets metadata that a client trusts together were published together.", "quantifier": "All repositories, clocks, holders of keys, histories of a client, any two moments in them.", "why_tests_cant": "A violation takes a sequence of updates and replies chosen together.", "anchors": ["src/tuf.rs: update_timestamp, update_snapshot, update_targets, update_delegation, update_root", "src/client.rs: update"]}
{"id": "C87", "title": "Freeze attacks are noticed", "statement": "If Client::update returns Ok, then none of the trusted top-level metadata (root, timestamp, snapshot, targets) had expired by the time read during the call.", "quantifier": "All clients, repositories and clocks.", "why_tests_cant": "Needs a client whose metadata expire between two updates; tests cannot set the clock.", "anchors": ["src/client.rs: update", "src/tuf.rs: update_timestamp 255-340, update_snapshot, update_targets"]}
{"id": "C88", "title": "Restarting a client whose local repository is a directory", "statement": "A local FileSystemRepository carries a client over a restart: after a successful update (and further calls) the directory can be opened again, and a client made with Client::with_trusted_root from the same root and that directory trusts the same root, timestamp, snapshot and targets, without asking the remote repository, as long as none of them has expired.", "quantifier": "All directories, sessions of clients one after the other, remote behaviours, clocks, calls of every kind in between, names of delegated roles.", "why_tests_cant": "Needs a whole history of sessions on one disk, and roles named so that their files collide with others.", "anchors": ["src/repository/file_system.rs", "src/client.rs: new, with_trusted_root, update, lookup_target_description"]}
{"id": "C89", "title": "No rollback across restarts", "statement": "Whatever updates did before, successful or not: a client that is started again from the same root and local repository (in memory or in a directory) trusts the root and the timestamp that were trusted before, and whatever it is told afterwards, it does not go back behind that root, nor behind that timestamp while the root stays.", "quantifier": "All sessions, remote behaviours, clocks, calls after the restart, dropped at any point.", "why_tests_cant": "A violation takes a history of several sessions and a later attack.", "anchors": ["src/client.rs: new, update_root_with_repos, update_timestamp_with_repos", "src/tuf.rs: update_timestamp"]}
{"id": "C90", "title": "What is made with the builders reaches the client", "statement": "If a publisher makes and signs a line of roots, and a timestamp, a snapshot and targets metadata that describe each other, describes a target from its data, and stores all of it in an in-memory repository (in any order, also over other things), then a client that is constructed from the first root with an empty local repository does not fail: update returns Ok(true) and leaves it trusting exactly these metadata, and fetch_target stores, and fetch_target_to_writer writes, exactly the data.", "quantifier": "All keys, hashes and signature schemes that work, all metadata the builders can make, any number of roots, any thresholds, consistent snapshots or not, all histories of stores, all targets, all configurations that allow the lengths, all runs of the client.", "why_tests_cant": "It is the composition of all layers: builders, JSON writing and reading, canonical bytes, signatures, repositories, and the client; tests run it for a few fixed repositories.", "anchors": ["src/metadata.rs: RootMetadataBuilder, SnapshotMetadataBuilder, TimestampMetadataBuilder, TargetsMetadataBuilder, SignedMetadata::new", "src/repository/ephemeral.rs", "src/client.rs: with_trusted_root, update, fetch_target, fetch_target_to_writer"]}
{"id": "C91", "title": "A second update finds nothing to do", "statement": "After an update that succeeded, as long as the remote repository gives the same answers and the root has not expired, the next update returns Ok(false), changes no trusted metadata, stores nothing, and makes two requests only: for the next root and for the timestamp.", "quantifier": "All clients, all remote repositories that answer equal requests equally (well-behaved or not), all configurations, all behaviours of the local repository and all later times.", "why_tests_cant": "That success leaves nothing to do is a statement about every state an update can end in, with every remote repository.", "anchors": ["src/client.rs: update, update_root_with_repos, update_timestamp_with_repos, update_snapshot_with_repos, update_targets_with_repos", "src/tuf.rs: update_timestamp"]}
{"id": "C92", "title": "Builders build what they were told", "statement": "In every place of the metadata that a builder builds stands what the builder was told last about it, or else the documented default (version 1, threshold 1, 365/7/90/1 days, no consistent snapshots) or the document it started from: version, expiry, thresholds, the keys of each role in the order given, the key table, delegations, and under each name the description of the last document or target that was inserted under it; insert_metadata uses the name of the document's role. build fails exactly for a version of 0, a threshold of 0, or fewer keys than the threshold; inserting fails exactly if the document cannot be written or has no version of at least 1, the reader fails, the path is not acceptable, or an algorithm is unknown or none is given.", "quantifier": "All sequences of calls, in any order and with any repetitions, from new() or from existing metadata; all keys, documents, readers and chunkings.", "why_tests_cant": "Tests use each call once and in the usual order; overwriting, interleaving of roles and failure conditions are unbounded.", "anchors": ["src/metadata.rs: RootMetadataBuilder, TimestampMetadataBuilder, SnapshotMetadataBuilder, TargetsMetadataBuilder, RoleDefinition::new"]}
{"id": "C93", "title": "A client keeps to the limits it was configured with", "statement": "A configuration made with Config::build has in each place what the builder was told last, or else the documented default (1024 * 1024 bytes for roots, 32 * 1024 bytes for timestamps, eight delegations, paths unchanged). A client with it comes to trust only roots and timestamps within those limits, and searching for a target it only asks for roles that somebody within the configured number of delegations delegates the path to.", "quantifier": "All sequences of builder calls; all clients with such a configuration, all behaviours of repositories and clocks, dropped at any point.", "why_tests_cant": "The limits concern everything a malicious repository may send; tests only look at the getters.", "anchors": ["src/client.rs: Config, ConfigBuilder 1076-1205, update_root_with_repos, update_timestamp_with_repos, lookup_target_description"]}
{"id": "C94", "title": "From the builders through a web server to the client's directory", "statement": "If a publisher stores documents made and signed with the builders, and a target described from its data, in a FileSystemRepository, and web servers serve that directory, then a client that is constructed from the first root with an HttpRepository as remote and a fresh FileSystemRepository as local repository does not fail: update returns Ok(true) and leaves it trusting exactly these metadata, and afterwards the file of the target in the client's directory (or the writer) has exactly the data.", "quantifier": "All editions as in C90; all disks of publisher and client and everything else on them, all prefixes of the repository, all histories of stores, all servers that serve the files (cutting up and delaying answers in any way within the time allowed), all runs of the client, to the writer or to the directory.", "why_tests_cant": "Composes everything the crate has, from metadata builders to file systems and HTTP; tests use fixed documents and in-memory repositories, and the HTTP and file system repositories only one request at a time.", "anchors": ["src/metadata.rs: builders", "src/repository/file_system.rs", "src/repository/http.rs", "src/client.rs: with_trusted_root, update, fetch_target, fetch_target_to_writer"]}
{"id": "C95", "title": "Whatever is in the client's directory", "statement": "As the property before, for a client whose directory already holds anything: an earlier edition, a part of an interrupted update, files that were damaged or exchanged. As long as none of the files of the top-level metadata is correctly signed and newer than the edition, the client does not fail and ends up trusting exactly the edition, the target arrives, and update returns Ok(false) if and only if the client trusted the whole edition when it was constructed.", "quantifier": "All disks of the client and everything on them (but nothing in the way of the files the client writes); the rest as before.", "why_tests_cant": "Tests start from empty local repositories or from ones the client has just written.", "anchors": ["src/client.rs: with_trusted_root, new, update, fetch_target, fetch_target_to_writer", "src/repository/file_system.rs", "src/repository/http.rs"]}
{"id": "C96", "title": "Publishing while clients update", "statement": "If a repository with consistent snapshots publishes new timestamps, snapshots, targets metadata and roots while a client runs update, keeping the numbered files, then update does not fail: it ends with Ok and the client trusts the timestamp, snapshot and targets metadata of one and the same publication among those offered meanwhile, never a mixture, and one of the roots offered meanwhile; it returns Ok(false) if and only if the client had these already. (Without consistent snapshots the client may ask for snapshot.json or targets.json after they have been replaced, and then update can fail although every document is valid at all times.)", "quantifier": "All series of publications, all times at which each of the client's requests is answered, all reachable clients not ahead of the publications, all runs; for the failure without consistent snapshots a run is exhibited.", "why_tests_cant": "Depends on the moment of publication between any two requests of the client; tests use repositories that do not change during a call.", "anchors": ["src/client.rs: update, update_root_with_repos, update_timestamp_with_repos, update_snapshot_with_repos, update_targets_with_repos"]}
{"id": "C97", "title": "Publishing to a web server while clients update and download", "statement": "As the two properties before the last, while the publisher goes on: if the publisher stores files to the FileSystemRepository one after another with care (it leaves the numbered metadata files and the hash-prefixed targets of earlier editions alone, stores everything a new timestamp leads to before the timestamp, and signs a new root as the old one demands and so that the other documents stay valid), and each request of a client's is answered by some server of the directory as it is at that moment, then the client does not fail: update returns Ok, the client trusts the timestamp, snapshot and targets metadata of one edition and a root that was current meanwhile, and the data that arrive in its directory or writer are those of the target in that same edition.", "quantifier": "All sequences of stores by such a publisher, including ones that fail and ones of other files; all moments at which requests are answered; all disks of the client as before; all runs.", "why_tests_cant": "Interleaves the publisher's stores with a client's requests through a file system and HTTP; tests have no publisher running beside a client.", "anchors": ["src/repository/file_system.rs", "src/repository/http.rs", "src/client.rs: with_trusted_root, update, fetch_target, fetch_target_to_writer", "src/metadata.rs: builders"]}
{"id": "C98", "title": "Targets are found through delegations of any depth", "statement": "If the delegations reachable from the trusted targets form a tree, each role of which is trusted, unexpired and not terminating, then Tuf::target_description returns the description of every target that one role of the tree lists and that lies within the paths of the delegations on the way to that role, however deep and wide the tree is; among terminating delegations, too, as long as there is nothing before the role that lists the target. Delegated metadata made with the builders and described by the snapshot are all accepted by update_delegation, parents first, and what they list is then found.", "quantifier": "All trees of delegations of any depth and width, all targets, clocks and builder calls; all crypto oracles.", "why_tests_cant": "Completeness of a search over all trees; tests have one level of delegation.", "anchors": ["src/tuf.rs: target_description 762-837, update_delegation", "src/metadata.rs: matches_chain 1435-1458, TargetsMetadataBuilder, SnapshotMetadataBuilder"]}
{"id": "C99", "title": "Starting from root keys or the local root", "statement": "Client::with_trusted_root_keys trusts the root that the local repository has under the given version or else the remote one, stores it in the latter case (only) under its own version, and otherwise behaves like with_trusted_root given that root; with_trusted_local, and with_trusted_root_keys with the version of a stored root, behave like with_trusted_root given the stored root, but for reading it. Hence after a successful update a client can be started again in any of these ways, and trusts the same top-level metadata without asking the remote repository or storing anything; and however the calls before went, the root and the timestamp are kept.", "quantifier": "All local repositories in memory (for the restart also directories) without later roots, all remote repositories, runs, series of calls and starts, keys and thresholds; as in C49, updates run to their end, descriptions are stable, nobody delegates to roles with names of top-level metadata and nothing has expired.", "why_tests_cant": "Equivalence of three constructors over all runs, and invariance of the stored root over all later runs.", "anchors": ["src/client.rs: with_trusted_local 195-209, with_trusted_root 260-270, with_trusted_root_keys 331-382, fetch_metadata_from_local_or_else_remote 1033-1060, Client::new 384-411"]}
{"id": "C100", "title": "The work of a call is bounded", "statement": "An update makes at most four requests more than there are new roots, and stores at most two documents per new root and three others; a constructor makes as many requests and those for the root to start from, and stores at most that root. A search for a target asks for each delegated role at most once in each of the two repositories.", "quantifier": "all runs, also interrupted ones, all answers of the repositories, all delegation graphs and configurations", "why_tests_cant": "The number of requests depends on the delegation graph and on the answers; only small graphs can be tried.", "anchors": ["src/client.rs: update, with_trusted_*, lookup_target_description, fetch_target"]}
{"id": "C101", "title": "Every writer gets the authentic content", "statement": "Client::fetch_target_to_writer passes to the writer exactly the bytes of the checked reader, in order, nothing lost and nothing twice, however many bytes each write accepts and however often reads, writes and the flush wait; it flushes once all are accepted, and fails only if the reader, a write or the flush fails or a write accepts nothing. A writer that accepts something each time gets everything in a bounded number of turns. Success means that the writer has accepted an authentic content of the target and nothing else.", "quantifier": "all readers, writers, answers and interruptions, all clients and targets", "why_tests_cant": "The interleaving of partial writes, waiting reads and waiting flushes is chosen by the writer and the network.", "anchors": ["src/client.rs: fetch_target_to_writer 807-818", "src/util.rs: SafeReader 117-188"]}
{"id": "C102", "title": "Clients that share a local repository", "statement": "Any number of clients may use one local repository at the same time (by reference): each of them trusts only what it has verified itself, the version of its root and, under one root, of its timestamp never goes back, and every document in the shared repository was there before or has been verified by the client that stored it, under its name. A client that is started from the shared repository trusts no older metadata than a client trusted before whose documents were stored there.", "quantifier": "all numbers of clients, configurations and starts, all interleavings of their steps, all answers of the remote repositories", "why_tests_cant": "The clients interleave in unboundedly many ways.", "anchors": ["src/repository.rs: impls for references 114-159", "src/client.rs: update, with_trusted_*"]}
{"id": "C103", "title": "Only trusted metadata says what a client asks for, and nothing lies outside its directory", "statement": "What the repositories answer cannot choose names: every metadata request has the name, version, size limit and digest that is fixed for root and timestamp or that metadata trusted at that moment says, for a role that trusted targets metadata delegates to; metadata is stored under such names only; a target is asked for under the path of the call (behind the preferred digest of its trusted description if the root demands that) and stored under the path of the call. With the JSON interchange all these files therefore lie below the directory of the repository.", "quantifier": "all histories of a client, dropped anywhere, all answers of the repositories, configurations, keys and digests; for targets all paths that TargetPath::new accepts", "why_tests_cant": "All documents an attacker with some of the keys may sign, and all moments at which they may appear.", "anchors": ["src/client.rs: update_*_with_repos, lookup_target_description, _fetch_target, fetch_target", "src/metadata.rs: MetadataPath, TargetPath, safe_path 106-146, Delegation"]}
{"id": "C104", "title": "A new root undoes fast-forward attacks", "statement": "Somebody who held keys of other roles than root has had clients trust metadata with version numbers far above those of the repository, so that they refuse its own as too old. When the repository then publishes a new root, the next update of each client succeeds and leaves it with exactly the published metadata, whatever it trusted before, also if it has been started again in the meantime, and even if the new root lists the same keys.", "quantifier": "All repositories in order, all holders of stolen keys (too few root keys among them), all histories of a client, all versions; all runs of the update.", "why_tests_cant": "Needs an attacker's signatures and every state such an attack can leave a client in, in memory and in its local repository.", "anchors": ["src/tuf.rs", "src/client.rs"]}
{"id": "C105", "title": "What a client is told decides what it does", "statement": "Two runs of the same constructor or method of a client, from the same trusted metadata, in which the repositories, the writer and the clock give the same answers, are the same event by event: the same requests in the same order, the same documents and targets stored, the same metadata trusted in between, the same result. In particular the iteration order of hash maps, which Rust chooses at random, is never visible: not in results, not in which documents are trusted, and not in the requests.", "quantifier": "All clients, constructors, methods, configurations, answers; all pairs of iteration orders; also calls dropped half-way.", "why_tests_cant": "Each test run sees one random order; a dependence on it would show up as a rare failure that cannot be repeated.", "anchors": ["src/client.rs", "src/tuf.rs", "src/verify.rs"]}
{"id": "C106", "title": "Each method touches only what it is for", "statement": "Client::with_trusted_local and with_trusted_root read top-level metadata of the local repository and nothing else: no request to the remote repository, nothing stored. with_trusted_root_keys besides asks both repositories for the given version of the root and stores at most a numbered root. update() asks the remote repository for top-level metadata, never reads the local one, stores top-level metadata only (numbered only if root), and touches neither targets nor delegated metadata. fetch_target_description never changes the trusted root, timestamp, snapshot and top-level targets, asks for nothing without size limit and digest, stores neither roots nor snapshots, and touches no target. fetch_target and fetch_target_to_writer do the same, then ask for at most one file once, and store at most one target, under the name of the call, or write to the writer and nowhere else.", "quantifier": "All clients, trusted metadata, configurations, answers of repositories, writer and clock; also calls dropped half-way.", "why_tests_cant": "A stray request or a stray write shows up only for particular answers of the repositories.", "anchors": ["src/client.rs"]}
{"id": "C107", "title": "A store that failed is made up for", "statement": "update() hands every document that becomes trusted over to the local repository (a root also under its number) as soon as it is trusted, each once, and stores nothing else. If such a store fails, the update ends with that error. The next update that succeeds makes up for it: the local repository then holds what is trusted, and a restart resumes there.", "quantifier": "All clients, trusted metadata, configurations, answers of the repositories and the clock; stores failing at any place; also calls dropped half-way.", "why_tests_cant": "Needs a local repository that fails at one particular store, for every store there is, and the restarts afterwards.", "anchors": ["src/client.rs"]}
{"id": "C108", "title": "Members the library does not know are ignored, known ones are needed", "statement": "Adding members with other names to any of the objects with fixed members (a metadata document, a key and its value, a role definition, a description, a delegation, a signature, the envelope) changes nothing about what is accepted and what is read from it: not the trusted metadata, not a key's id, and around the signed part not even the verification. The one exception is the list in a timestamp: with anything but snapshot.json in it the timestamp is refused. A document without one of its members, other than delegations, is refused.", "quantifier": "All JSON values and texts, any number of further members with any values at any of those places, all roles, keys and thresholds.", "why_tests_cant": "Every struct of the format, at every depth, with every name; a test adds one name in one place.", "anchors": ["src/interchange/cjson/shims.rs", "src/crypto.rs", "src/metadata.rs"]}
{"id": "C109", "title": "The error of an update names its cause, and no error is passed over", "statement": "When update() returns an error, the last thing that happened is its cause and the error says which: a call of the remote or the local repository that did not work out (no answer, a broken-off, too long or differently hashed answer, a failed store), with that call's error; metadata expired at the time just read (the expiry of new targets is reported as the snapshot's, see C22); a document refused under the metadata trusted at that moment (Encoding, Opaque or VerificationFailure); or a trusted snapshot that lists no targets. A call that did not work out is the last thing update() does and its error is the result; only a missing next root is not an error. Likewise a refused document is the last thing it looks at, and the result is an error. Missing metadata, illegal arguments and unsupported hash algorithms are never errors of the library itself here.", "quantifier": "All reachable trusted metadata, configurations, crypto implementations, answers of the repositories and clock readings; also calls dropped half-way.", "why_tests_cant": "Needs every failure at every place of an update, and every kind of refused document; tests try some.", "anchors": ["src/client.rs", "src/tuf.rs", "src/repository.rs", "src/verify.rs"]}
{"id": "C110", "title": "Time only takes away", "statement": "Whatever succeeds at some time would have succeeded at any earlier time with the same inputs and the same effect: update_root, update_timestamp, update_snapshot, update_targets and update_delegation of Tuf (also sequences of calls), Client::update() with the same answers of the repositories (same requests, same stores, same trusted metadata and result), and Tuf::target_description (the same description).", "quantifier": "All trusted metadata, documents, crypto implementations and interchanges, all pairs of clock readings of which none of the first is later, all answers of the repositories.", "why_tests_cant": "Compares two runs at all pairs of times; tests fix one time or two.", "anchors": ["src/tuf.rs", "src/client.rs"]}
{"id": "C111", "title": "More signatures, more keys and lower thresholds do no harm", "statement": "A document that is accepted stays accepted, with the same content and the same effect, when further signatures are added to it, when further keys are trusted and when the threshold is lowered (not below 1): in verify_signatures, in Tuf::from_trusted_root and from_root_with_trusted_keys, and in all sequences of calls of the methods of Tuf that succeed. A file that is read, signed again with SignedMetadata::add_signature or combined with another one by merge_signatures, and written with to_raw, is accepted if one of the files was.", "quantifier": "All documents, keys, thresholds, crypto implementations, and for the methods all interchanges; for add_signature and merge_signatures all JSON files that can be read, and all signing keys whose signatures verify.", "why_tests_cant": "Compares the outcome for all pairs of a document and the same with more signatures; tests know some lists of signatures.", "anchors": ["src/verify.rs", "src/metadata.rs", "src/tuf.rs"]}
{"id": "C112", "title": "The order of hash maps never shows", "statement": "Two runs of the library with the same documents, clock and answers of the repositories behave the same although every HashMap and HashSet has another order in each of them: signatures, keys of roots and of delegations, hashes, targets, the entries of snapshots, key ids and paths of delegations. All methods of Tuf, one after the other, return the same results and leave metadata that differ in orders only; so do both constructors and target_description. A client makes the same requests, stores and writes the same bytes, and returns the same. Excepted are delegations in which two different keys have the same id, which takes a collision of SHA-256: there the order decides which of them counts.", "quantifier": "All documents, sequences of calls (each call with orders of its own), clocks, answers, configurations and whole lives of clients; all crypto implementations, all interchanges that read the same up to orders, and for JSON all shuffles of what has been read.", "why_tests_cant": "Rust seeds every HashMap at random, so each run of a test sees one order of many; the claim compares all pairs of orders.", "anchors": ["src/tuf.rs", "src/client.rs", "src/verify.rs", "src/metadata.rs", "src/crypto.rs"]}
{"id": "C113", "title": "Only what a document says matters, not how it is spelled", "statement": "Metadata in another spelling (other white space, other escapes in strings, members of objects in another order, signatures included) is the same metadata: verify, from_trusted_root, from_root_with_trusted_keys and every sequence of the update methods of Tuf give the same results and the same trusted metadata. A client whose repositories answer with other spellings, or the same bytes in other pieces, makes the same requests, trusts the same metadata and returns the same; what it stores is the spelling it has read. The forms the library writes itself, compact and pretty, with members as read or sorted, are such spellings. Where a snapshot or timestamp gives hashes of a file, another spelling counts only if its bytes pass length and hashes.", "quantifier": "All documents without repeated member names, all calls, clocks, answers, pieces, configurations and starting points; all crypto implementations.", "why_tests_cant": "Every document has infinitely many spellings; a test compares a few.", "anchors": ["src/metadata.rs", "src/interchange/mod.rs", "src/interchange/cjson/mod.rs", "src/verify.rs", "src/tuf.rs", "src/client.rs"]}
{"id": "C114", "title": "Why a client cannot be started and why a target cannot be had", "statement": "A constructor of Client fails only because its first root cannot be read (with the error of the last call), is refused (Encoding, Opaque or VerificationFailure) or, fetched from the remote repository, cannot be stored; whatever else the local repository holds is no reason. fetch_target_description fails only because the path cannot be translated (with that error, asking nobody), the snapshot or the targets are missing (MissingMetadata), the top-level targets do not list the target (NotFound), or a trusted terminating delegation for it fails as the last thing that happens: its role has a reserved name (IllegalArgument), neither repository has its metadata as described (the error of the remote one), or they are refused or expired. fetch_target and fetch_target_to_writer fail for one of these reasons, or because a name cannot be formed from an empty digest, the file is not sent, not stored or not written, or breaks off, is longer or hashes differently than described; the error is that of this last event. When they succeed nothing went wrong.", "quantifier": "All starting points, configurations, trusted metadata that can be reached, targets, answers of both repositories and of the writer, clocks.", "why_tests_cant": "Errors come from any combination of answers; that there are no other causes is a claim about all of them.", "anchors": ["src/client.rs", "src/tuf.rs", "src/repository.rs", "src/util.rs"]}
{"id": "C115", "title": "Clients that trust the same versions trust the same metadata", "statement": "Take two clients anywhere, each with its own repositories, network, clock and hash map order, that began with the same root. If of the n key ids of a role f are in wrong hands, the threshold is more than half of n + f, and nobody signs two different documents of that role and version, then: roots do not fork (the newer of the clients' roots is reached from the older one by signed steps, and roots of one version are equal); under one root, the two trust the same timestamp, snapshot or targets whenever they trust the same version of it; timestamps of the same version imply the same snapshot and the same targets; and a target that both fetch under the same targets version is the same data for both, or a collision of a hash function has been found. With a threshold of exactly half, and no key stolen, two clients can be made to disagree.", "quantifier": "All pairs of histories of clients: all starting points, configurations, calls, answers of all repositories, clocks, hash map orders, key sets and thresholds.", "why_tests_cant": "It relates two independent clients facing arbitrary adversaries, and rests on the counting of key ids; a test fixes one set of keys and one run.", "anchors": ["src/client.rs", "src/tuf.rs", "src/verify.rs"]}
{"id": "C116", "title": "The chain of custody, and which stolen keys are enough", "statement": "At every moment of a client's life, the snapshot it trusts was read from fetched bytes whose length and hash a timestamp signed under the present root describes, and the targets and delegated metadata it trusts were read from fetched bytes that such a snapshot describes under the name of the role. Hence the keys of one role protect: if the timestamp keys, or else the snapshot keys, are kept well and publishers describe what they publish, then all snapshots, targets and delegated metadata a client trusts have been published, although every other key below the root may be stolen, unless a fetched file collides with a published one; for the top-level targets the targets keys alone do as well, and what is downloaded for a target is what published targets metadata describe. Whoever has the keys of all three roles can make a client download anything, without any root key.", "quantifier": "All histories of clients: all starting points, configurations, calls, answers of both repositories, clocks, holders of keys, published files.", "why_tests_cant": "It speaks about every attacker with any set of stolen keys, and about where each trusted document came from.", "anchors": ["src/client.rs", "src/tuf.rs", "src/repository.rs", "src/verify.rs"]}
{"id": "C117", "title": "Revoked keys have no say", "statement": "As soon as a root is accepted that does not list some keys, nothing that is trusted lists them. From then on, as long as no file that comes in lists them either, it makes no difference what those keys sign: in two worlds that differ only in which of their signatures are valid, every call of the methods of Tuf gives the same result and the same trusted metadata, and a client goes through the same events with the same results, whatever the repositories answer. For keys that the trusted root still lists this is false.", "quantifier": "All sets of keys, pairs of worlds, trusted metadata, sequences of calls, configurations, answers of both repositories, clocks.", "why_tests_cant": "It compares executions in two worlds, for every possible behaviour of the signatures of the revoked keys.", "anchors": ["src/tuf.rs", "src/verify.rs", "src/client.rs"]}
{"id": "C118", "title": "Repeated calls change nothing, and updates of unrelated roles commute", "statement": "A file that has been accepted and is presented again, at whatever time, changes nothing and is not reported as a change; an accepted root is never accepted again, whatever happens in between. The very same call made any number of times in a row has the effect of making it once, whether it succeeds or fails. Updates of two delegated roles neither of which is the parent named for the other can be made in either order: each has the same result, and in the end the same metadata are trusted. A parent and its child cannot change places.", "quantifier": "All trusted metadata, files, clocks, roles, parents, numbers of repetitions.", "why_tests_cant": "It relates different sequences of calls, for every state they may start from.", "anchors": ["src/tuf.rs"]}
{"id": "C119", "title": "Looking for targets leaves no mark on updates", "statement": "What update_root, update_timestamp, update_snapshot and update_targets return, and the root, timestamp, snapshot and targets metadata they leave, do not depend on the trusted delegated metadata; calls of update_delegation can be left out of any sequence of calls without changing these four. An update of a client makes the same requests, stores the same files and returns the same whatever delegated metadata are trusted. However a client is used, and however far each call gets, leaving out the calls that describe or download targets gives the same updates with the same events and the same top-level metadata.", "quantifier": "All trusted metadata, sequences of calls, files, answers of repositories, clocks, points at which calls stop.", "why_tests_cant": "It compares two runs for every history of calls, including calls stopped part-way.", "anchors": ["src/tuf.rs", "src/client.rs"]}
{"id": "C120", "title": "A client that missed updates catches up with the next one", "statement": "Take any sequence of calls of the methods of Tuf, and a second Tuf that started from the same trusted metadata but has seen nothing of the sequence except the roots. If a timestamp, a snapshot and targets metadata are then accepted as new by the first one after another, they are accepted as new by the second, provided it does not already trust a snapshot or targets metadata of those versions, and in the end both trust the same root, timestamp, snapshot and targets metadata. A snapshot of the version that the timestamp lists is kept, and is not replaced; nor are targets metadata of the version that the snapshot lists.", "quantifier": "All trusted metadata, sequences of calls, files, clocks, key rotations in between.", "why_tests_cant": "It compares what two histories of any length lead to.", "anchors": ["src/tuf.rs"]}
