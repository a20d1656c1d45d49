# Formal model of rust-tuf in Rocq/Coq 8.16.1

Properties: `properties.jsonl` (C01 ...). Status per property: `MANIFEST.json`.
Development: `rocq/theories`. Build: `cd rocq && coq_makefile -f _CoqProject -o Makefile && make -j4`.

## 1. How the code is modelled

Every Gallina definition of the model carries a comment that cites the file and
lines in `/repo` it transcribes, and says where it simplifies.

| Rust | Model |
|---|---|
| `String`, `Vec<u8>`, paths | Coq `string` (a list of bytes; Rust strings are their UTF-8 bytes) |
| `u32`, `u64`, `usize` | `N`, with explicit overflow where the code can overflow |
| `HashMap`, `BTreeMap` | association lists with our own `lookup`/`insert`/`remove`; iteration order of `HashMap` is an arbitrary permutation (universally quantified) |
| `Result<T>` | `result T := Ok | Err error`, one constructor per variant of `src/error.rs`; message strings are dropped |
| panics (`unwrap`, overflow in debug) | an explicit outcome |
| `&mut self` | state in, state out |
| `Utc::now()` | one clock reading (whole/fractional seconds as `Z`) per call site, arbitrary, not assumed monotone |
| ring signature verification and digests | a record of arbitrary functions, universally quantified; a real SHA-256 is implemented for examples |
| `DataInterchange` | a record of arbitrary functions, universally quantified, plus the concrete `Json` instance |
| `AsyncRead` | a list of poll events (data chunk, Pending, error), consumers with arbitrary buffer sizes |
| async client | a program tree (free monad) of repository requests, clock readings and state writes; repositories are arbitrary handlers (they may be malicious); dropping the future = stopping the interpreter after any number of steps |
| file system | small-step machine with temporary files and atomic rename; crash after any step, arbitrary interleavings |

Files: `*.v` without prefix are the model (no proofs), `Spec*.v` hold the
specifications, stated without the model's own helpers, `*Proofs.v` the proofs,
`Props*.v` the final theorems with their non-vacuity examples and
`Print Assumptions`.

## 2. Plan per property

| Property | Modelled | Proof |
|---|---|---|
| C01-C05 | `verify_signatures`, `PublicKey::verify`, key ids | loop invariant under arbitrary permutation; counting over `NoDup` id lists; C05 is false: counter-example plus the strongest true statement |
| C06-C22 | all of `Tuf` | per-call specifications (iff), then invariants by induction over operation histories; C11, C17, C18, C20, C22 are false: witnesses plus strongest true statement |
| C23-C27 | `target_description` | fuel-indexed search with a proof that the fuel never runs out; declarative reachability; C24, C26, C27 false: witnesses |
| C28-C33 | `safe_path`, `is_child`, `matches_chain`, `components`, `with_hash_prefix`, `fuzzy_matches_path` | string induction; C29 false, C31 and C33 hold on the role names the library reserves and are false in general: witnesses |
| C34 | `extend_uri` | string induction; injectivity false because `%` is not escaped: witness and restricted theorem |
| C35-C39 | `SafeReader`, `EnforceMinimumBitrate` | induction over poll sequences; C38 false: witness; C39 for completed non-empty reads, stalls are not detected (FIXME in the code) |
| C40-C42 | `Repository`, `EphemeralRepository`, `FileSystemRepository` | induction over histories, small-step interleavings |
| C43-C58 | `Client` | interpreter with arbitrary handlers; induction over the program tree; C47, C53, C55, C56, and parts of C49, C58 false: witnesses |
| C59-C66 | JSON values, parser, canonical writer, shims, hex, dates, DER | structural induction, codec laws; C63 false: witness |
| C67-C73 | `SignedMetadata`, builders, signing, `calculate_hashes`, `hash_preference`, translator | induction over operation sequences; C67 (documents read from a file), C69 (JsonPretty) and C71 false: witnesses; C73 end to end through the JSON codec |
| C49 | clients one after the other on one in-memory local repository | invariant relating the local repository to the trusted metadata, over sessions; false in general: three witnesses |
| C74-C76 | `Client::update`, `fetch_target`, `fetch_target_to_writer` against a remote repository that is in order | total correctness: a weakest precondition with a rely on the answers; every run can be completed |
| C77 | what `Client::update` has asked for and got when it returns Ok | partial correctness on the event trace |
| C78 | `HttpRepository` (requests, statuses, body errors), and `update` over it | server as oracle; composition with C77 |
| C79 | `FileSystemRepository` as a map: files and directories, one store after the other | induction over histories of stores |
| C80 | `FileSystemRepository` served by a web server and read by `HttpRepository` | composition of C74, C78, C79 |
| C81 | `Ed25519PrivateKey`, `RsaPrivateKey`: loading, public halves, signing | grammar of PKCS#8/PKCS#1 against the parser, both directions; ring as oracle with stated promises; two parts false: witnesses with the files of the tests and SHA-256 |
| C82 | `Eq`, `Ord`, `Hash` of `PublicKey` | order laws; injectivity of the canonical text of a key |
| C83 | `RsaPrivateKey::pkcs8` | openssl as oracle; false for a failing program |
| C84 | the reader of JSON strings, the texts of RSA keys, optional members | grammar of RFC 3629 and of RFC 4648 as inductive definitions, proved equal to the automaton and the decoder; one part false |
| C85 | attackers who run everything but lack keys | `holders` say who has which key and what was signed; unforgeability as hypothesis; induction over histories |
| C86 | rollback, mix-and-match | versions between two moments of a history; releases; rollback false across roots |
| C87 | freeze | events of `update` with the times read; false; general theorem about the replay |
| C88 | clients one after the other on one directory | the proof of C49, for any local repository that answers like a memory where it matters; false in general: witness |
| C89 | the same, with failed updates; and what a client is told after a restart | the same invariant, then C43 and C12; false in general: witness |
| C90 | a supply chain from the builders through an in-memory repository to the client's files | `edition_published`: the stored edition is a repository in order (C74); then C76 |
| C91 | traces of two updates against a remote repository that is a function | what a successful update leaves (C77) decides every step of the next one |
| C92 | sequences of builder calls (Builders.v) | the last call about a thing decides it, by induction over the calls |
| C93 | sequences of calls of ConfigBuilder (Config.v), client traces | as C92; composition with C50 and C54 |
| C94 | editions, logs of stores to a directory, servers, traces of the user's program with a local disk | as C90, with C79 and C80 for the remote side and the lemmas of C88 for the local disk |
| C95 | as C94, with an arbitrary disk of the client | weakest preconditions of the constructor over what is on the disk, then C74 from the state it ends in |
| C96 | the repository changes between requests | the order of the requests of an update; each run is a run with some repository that stands still; then C74 |
| C97 | stores of a publisher and requests of a client in any order, with disks, servers and the user's program | induction over the stores for the state of the directory; each run is one against a directory that stands still (as C96); then C95's argument |
| C98 | inductive trees of delegations; lists of documents given to update_delegation | induction over the tree: lists with nothing are passed, then the role is reached; C73 for each document |
| C99 | runs of the constructors; `sessions` with starts of any kind | inversion of the first events; the stored root is never overwritten (every stored root is later); reduction to C49, C88, C89 |
| C100 | the events of all calls and constructors | credits: each request costs one, each new root gives one; bind rule for the program tree; searches: false, with a family of witnesses by induction on the depth; true in trees of delegations (siblings' subtrees are disjoint) |
| C101 | `futures_util::io::copy` turn by turn, with any reader and any writer | induction over the writer's answers; comparison with the simpler copy of the client's model; a waiting flush: false, with a reachable witness |
| C102 | any number of clients on one in-memory repository, all interleavings | the steps of each client are a run of its own against arbitrary answers; origin of stored documents; rollback by another client: false, with a witness |
| C103 | every metadata and target event of every history | name, version, limit and digest are fixed or told by the trusted metadata at that moment; all files below the repository directory |
| C104 | every client state an attacker with all keys but root's can cause | after a newer published root: update follows the repository (C74); with new keys also after restarts; refuted with old keys after a restart |
| C105 | two environments with different hash orders, two bounds, same answers | equal traces and results; `life` does not depend on the order, and grows with the bound |
| C106 | events of each method, all answers, dropped anywhere | every event is one the method is for (`reads_local`, `updates`, `searches`, `one_target`, `one_written`); the search keeps root, timestamp, snapshot and targets |
| C107 | events of an update, any answers; a local repository whose stores may fail | a document is stored exactly after it has become trusted; a failed store is the last event and the result; witness of a lasting gap in the local repository |
| C108 | JSON trees of any form; shapes of the structs written apart from the decoders | a tree with further members decodes to the same; the list of a timestamp is closed; known members are needed |
| C109 | events of an update with the JSON interchange, any answers, from reachable trusted metadata | the error is caused by the last event (inductive list of causes); a failed call or a refused document is the last event and decides the result |
| C110 | all methods of `Tuf` with two clocks; two runs of an update with the same answers | monotonicity in the readings (each is compared with an expiry date only); a relation between two programs, with rules for each kind of event and for bind; searches: false, two witnesses |
| C111 | `verify_signatures`, the constructors and methods of `Tuf` with two documents; JSON files through `add_signature` and `merge_signatures` | a relation between lists (what counts for an id still counts) under which the independent specification of the threshold is monotone; writing and reading again for the files; two witnesses |
| C112 | methods and constructors of `Tuf`, `target_description`, constructors and calls of the client, with two environments; JSON readers followed by any shuffle | relations "same up to the order of maps" on all metadata; every method respects them; programs of the client by a simulation relation with one rule per request; a witness for colliding ids |
| C113 | JSON reader, verification, methods and constructors of `Tuf`, constructors and calls of the client | two documents with the same value give the same readings (canonical form and typed readers ignore the order of members); simulation relation on programs with one rule per request |
| C114 | constructors of the client, `fetch_target_description`, `fetch_target`, `fetch_target_to_writer` | causes as inductive specifications over the events; program logic with trivial demands; invariant over the search through delegations |
| C115 | `tuf.rs`, `verify.rs`, client | quorum intersection by counting ids; chains of roots do not fork (induction); the invariants behind C16 and C19 applied to two histories |
| C116 | client, `tuf.rs`, `repository.rs` | invariant over the events of a client (where each trusted document came from); then counting of key holders as for C85 |
| C117 | `tuf.rs`, `verify.rs`, client | simulation between two worlds, with the invariant that nothing trusted lists the keys |
| C118 | `tuf.rs` | algebraic laws of the methods: idempotence and commutation, by cases on what is accepted |
| C119 | `tuf.rs`, `client.rs` | simulation between runs that differ in delegated metadata only |
| C120 | `tuf.rs` | comparison of two histories: the one that is behind never has a newer timestamp |

A property that is false of the faithful model is kept in its full form; the
theorem `..._refuted` exhibits the counter-example and a second theorem proves
the strongest true variant.

## 3. Trusted base

* Coq's kernel (8.16.1) and `vm_compute` for closed examples.
* `Print Assumptions` for each theorem: see section 4 (target: "Closed under the global context" everywhere).
* The transcription of the Rust code into Gallina, checked by reading and by running the
  model on the repository's own test data (section 7).
* What is *not* modelled: see section 5.

## 4. Assumptions of the theorems

`Print Assumptions` stands below every theorem named in `MANIFEST.json`. All of
them print "Closed under the global context": no axioms, neither our own nor of
the standard library. (`coqchk -o` lists the parameters of the standard library's
`ssrunder` module types, which some library file loads; no theorem depends on them.)

What a theorem assumes about the outside world is in its statement. The recurring
hypotheses are:

* `crypto` (ring): two arbitrary functions, verification and digest. Nothing is
  assumed; statements speak of "verifies" and "hashes to". C73 assumes of the keys
  that sign that their signatures verify (`working_key`); C81 assumes it of ring
  (`working_ring`) and proves it of the keys.
* `hash_order`: the order in which a `HashMap` is iterated, an arbitrary permutation.
* `interchange`: arbitrary functions; where a theorem needs `faithful` or
  `positive_versions`, C62 proves them for `Json`.
* repositories, clocks, writers: the events of `exec` carry arbitrary answers.
  Theorems about a particular repository say so (`in_memory`, `good_event`).
* fuel: the search through delegations and the loop over roots are bounded in the
  model. `OutOfFuel` is an outcome of its own, theorems never count it as success,
  and C46, C23 and C54 show that it does not occur with enough fuel.

## 5. Modelled and not modelled

Modelled, function by function (each definition cites its lines):

| Rust | Model files |
|---|---|
| `src/metadata.rs` signed data, verification, roles, paths | `Metadata`, `Verify`, `Paths` |
| `src/tuf.rs` | `Tuf` |
| `src/util.rs` (readers) | `Reader`, `F32` (the bitrate's single-precision arithmetic) |
| `src/repository.rs`, `ephemeral.rs`, `file_system.rs`, `http.rs` | `Repo`, `Paths`, `Files` (directories, complete operations), `Http` (requests and answers) |
| `src/client.rs` | `Client`, `Config` |
| `src/interchange/cjson/*` | `Utf8`, `JsonValue`, `JsonText`, `Codec`, `Dates`, `Serde`, `Shims` |
| `src/crypto.rs`, `src/format_hex.rs` | `Keys`, `Codec`, `Builders`, `PrivateKeys` |
| builders in `src/metadata.rs` | `Builders` |

`serde`, `serde_json`, `chrono`, `data-encoding`, `untrusted`, `derp` and `tempfile`
are modelled as far as the code uses them, from their documentation and known
behaviour (their sources are not in the sandbox).

Not modelled:

* memory exhaustion, log output, the text of error messages;
* thread scheduling inside hyper and ring, DNS, TLS; the timing of timeouts;
* durability across power loss (the code never calls fsync); crashes of the process
  are modelled, after any step of a write;
* cryptographic hardness and the random choices of RSA signatures;
* panics by arithmetic overflow in debug builds other than those modelled as `Panic`
  (the counters concerned are bounded by lengths of data in memory);
* closing a caller's writer (the caller's business; `copy` does not), and the size of the buffer
  in `copy`: Copy.v is `futures_util::io::copy` 0.3.1 as published, which is not in the repository;
* `tests/`, `src/repo_builder.rs`, `track_repo.rs`, `error_repo.rs` (test code).

Simplifications (also stated in the comments where they are made):

* JSON numbers with a fraction or exponent keep their literal; they occur only in
  fields that are ignored or custom, and canonical JSON refuses them. Literals out of
  range of `f64` are accepted.
* Fields that serde ignores are parsed like all others (serde_json skips them with
  `IgnoredAny`, which accepts the same texts up to numbers out of range).
* Dates: the forms that `parse_datetime` accepts; leap seconds as chrono represents
  them.
* DER lengths up to 65535, as in `derp`.
* The limit on the length of a URI in the `http` crate is left out.
* One clock reading per place that reads the clock in a call.

## 6. What the proofs found in the code

Properties that are false of the code as modelled; each has a theorem with a witness
(`..._refuted`) and a theorem with what is true instead.

* **C05** (A threshold needs that many different keys): the same ed25519 key listed with and without keyid_hash_algorithms has two ids, and one signature repeated under both satisfies a threshold of two. Proved when no two listed keys share their bytes while differing in type, scheme or keyid_hash_algorithms.
* **C100** (The work of a call is bounded): False for searches: the client does not remember which roles it has looked at, so two roles that delegate to each other and to themselves cause 2^(n+2)-2 requests, n being the configured depth (about a thousand by default). The partial theorem: with at most w delegations per role there are at most 2(w + w^2 + ... + w^(n+1)) requests. While the trusted delegations form a tree, each role is asked for at most once in each repository (C100_each_role_once_in_a_tree). The bounds for updates and constructors are proved.
* **C101** (Every writer gets the authentic content): False when the flush waits: futures' copy then reads again after the end, SafeReader has checked the hash by then and drops it, so what the source still delivers, up to the described length, is written although nothing authenticates it, and the call succeeds. The partial theorem: the content is authentic if no flush waits, or if the described length is that of the content. C101_nothing_lost_nothing_twice is for flushes that do not wait.
* **C102** (Clients that share a local repository): False for the last sentence: a client that has not updated yet accepts an old timestamp and writes it over the newer one another client has stored, so a third client starts with old metadata. The other sentences are proved for all interleavings; for one client after the other see C89.
* **C104** (A new root undoes fast-forward attacks): False for clients that have the new root but no timestamp under it when they are started again, if the root lists the same keys: they take the attacker's timestamp out of their local repository (src/client.rs 384-411) and refuse the repository's until another root is published. Proved: clients that do not have the new root yet, with any keys; and all clients, started again or not, if the new root replaces the stolen keys.
* **C107** (A store that failed is made up for): False for the last sentence: the client trusts the document although it could not be stored (src/client.rs 531-548, 619-635), so later updates find nothing new and do not store it again; a restart comes back with the old timestamp, and an old mirror can then roll the client back. The other sentences are proved.
* **C11** (A failed timestamp update changes nothing): an expired, newer timestamp is rejected but the trusted snapshot is dropped. The partial theorem gives exactly what can change.
* **C110** (Time only takes away): False for target_description: an expired delegated role ends only the search among its siblings (src/tuf.rs 798-800), so after the expiry the search goes on with the delegations of a level above: a target can be found that was not found before, or be found with the description of a role that comes later. Proved for all updates, for targets the top-level role lists, and as long as no delegated role expires in between.
* **C111** (More signatures, more keys and lower thresholds do no harm): False where ids repeat: of several signatures with the same key id only the last one counts (src/verify.rs 109-113), so a wrong one after a right one takes it away; and merge_signatures never replaces a signature (src/metadata.rs 444-466), so one accepted document merged into one with a wrong signature of the same key is refused. Proved for signatures and keys with ids that are new, for other orders of lists with distinct ids, for add_signature in full, and for merge_signatures when the receiving document was accepted.
* **C17** (Snapshot rollback protection): a newer timestamp listing an older snapshot makes the client drop and roll back the snapshot. The partial theorem: this is the only way.
* **C18** (Targets rollback protection): False as stated, for targets and delegations: a newer snapshot listing a lower version suffices. The partial theorem: for targets this is the only way, and no single update lowers a version.
* **C20** (Trusted delegations are authorised by the current parent): delegations survive targets metadata that revokes their key. The partial theorem: each was authorised when accepted, under the current root.
* **C22** (The expiry error names the expired role): False for update_targets, which reports ExpiredMetadata(Snapshot); the partial theorem gives the exact error of all three functions.
* **C24** (Delegated roles only speak for their paths): the role that lists the target is not checked against its own delegation's paths. The partial theorem: all earlier delegations on the route permit the target.
* **C26** (A non-terminating dead end does not hide later siblings): a delegation that is not loaded (or expired, or already visited) ends the search. The partial theorem covers loaded delegations without an entry.
* **C27** (A terminating delegation ends the search): a terminating delegation whose role is loaded, has no entry and no delegations does not end the search. The partial theorem lists the cases that do.
* **C29** (DOS device names are rejected): the check compares a lower-cased component with upper-case names and never fires; every listed name is accepted.
* **C31** (Different metadata is stored at different locations): '1.root' without version and 'root' version 1 share a location, and on disk 'a//b' and 'a/b' do. The partial theorem is the exact characterisation of component collisions.
* **C33** (The role check keeps top-level files apart): targets metadata passes the check under 'timestamp'; the partial theorem shows this is the only exception.
* **C34** (Request URLs are faithful): '%' is not encoded, so 'a ' and 'a%20' share a URL and '%2e%2e' reaches the server. Proved: query and base kept, one segment per component, injective without percent signs.
* **C38** (A failed checked read stays failed): reading on after the error reports a clean end. Proved: hash soundness until the source itself reports its end.
* **C47** (The client never panics on version overflow): a trusted root with version u32::MAX makes constructors and update() panic (debug overflow checks; release builds wrap). Partial: that is the only panic.
* **C49** (A restarted client resumes where it stopped): three witnesses (a version of the snapshot described anew by a newer timestamp; an update future dropped between the acceptance of a root and its storing; a delegated role named timestamp). Proved for every remote behaviour, clock, number of sessions, and interleaving of calls if none of these happens and the local repository is in memory.
* **C53** (Delegated targets can be fetched): the description found in a delegated role is dropped (src/client.rs 1011-1016). Partial: exactly the top-level targets are found; the metadata of the first role covering the target is asked for.
* **C55** (Expired metadata does not authorise downloads): fetch_target does not look at the clock. Partial: a successful update saw an unexpired root, and targets metadata were unexpired when accepted.
* **C56** (Pinned root version is honoured): the version of the root obtained is not compared with the pinned one. Partial: it was served for that version and is signed by a threshold of the given keys, and the trusted root follows by a chain.
* **C57** (A damaged cache is never trusted and never fatal): False only by the overflow of C47; otherwise proved.
* **C58** (Trusted snapshot and targets match the listed hashes): False for later states: a timestamp may list another hash for the trusted snapshot version. Partial: they match at acceptance, and versions match in every state.
* **C61** (Metadata survives serialization): False for expiry dates that are leap seconds or have years above 9999. Proved for all documents with whole-second expiry dates in the years 0-9999.
* **C63** (Duplicate keys in signed metadata are rejected): verification goes through serde_json::Value, which drops repeated names before the check. Proved: from_slice rejects them, and what verification decodes and checks signatures on has no repeated names.
* **C66** (Key encodings are faithful): False for keys made by from_spki with type ed25519 and another scheme or length: they are written but cannot be read back. Proved for every other key (keys of up to 64 KiB of DER, the limit of the reader).
* **C67** (One signature per key): merge_signatures copies all signatures of its argument whose key has not signed yet, so an argument that was read from a file and repeats a key id leaves two signatures of one key. Proved for all documents made through the API without reading, and for add_signature and merge_signatures step by step on any document.
* **C69** (Builders describe the bytes that are published): False for the JsonPretty interchange, whose description is of the pretty text while to_raw gives the compact one. Proved for Json.
* **C71** (What the root builder builds can be read back): adding the same key to a role twice builds a root that is signed but refused by every reader. Proved for all roots whose roles have no repeated key, and without such a condition for the other three builders.
* **C77** (A successful update has seen everything): a root whose download breaks off with an I/O error of kind NotFound counts as a root that does not exist, and update returns Ok. Proved with this as the only exception.
* **C79** (A file-system repository is a map): False in three points: a failed store leaves directories behind, after which a target of that name cannot be stored (a download of x/y that breaks off makes x unstorable); of the targets a and a/b only one can be stored; without prefixes (the default of the builder) the target root.json replaces the root metadata. Proved: for every file the last successful store counts, failed stores and stores to other places change no file, exactly when stores and fetches succeed, and that FileSystemRepository::new keeps metadata and targets apart. Different paths with the same place: C31.
* **C80** (A directory behind a web server): names with percent signs are not escaped in the URL, so the server looks for another file (see C34). Proved for all other names, and for updates from such a directory without restriction.
* **C81** (Private keys and their public halves): False in two points: one Ed25519 key pair has two identities, depending on whether it was loaded with from_ed25519 or from_pkcs8, and what one signs is not accepted for the other; the size check counts bytes, so a modulus of 2047 bits passes although the message asks for 2048. The rest is proved, about every ring that keeps its promises (working_ring: what it signs verifies, public bytes are those given, SHA-256 has 32 bytes).
* **C83** (Generating RSA keys): the exit status of openssl is not looked at; a failing openssl gives Ok with no bytes. Proved: what is returned otherwise. openssl is an oracle.
* **C84** (UTF-8, base64 and null at the edge of JSON): False in one point: a key has more than one text, since padding is accepted inside of the text (each padded piece decoded by itself). The partial theorem says exactly which texts are accepted. The rest is proved.
* **C86** (Rollback and mix-and-match by attackers without keys): False for rollback: a new root makes the client forget all other metadata (C09), even if the keys stay the same, and afterwards old documents are accepted again. Proved between any two moments with the same root version (attackers without timestamp and snapshot keys, publishers who number in order). Mix-and-match is proved.
* **C87** (Freeze attacks are noticed): a timestamp of the version the client has is answered with Ok before its expiry is checked, and documents that are not replaced are not looked at; so an update succeeds as long as the root has not expired. Also a new snapshot may be expired already. Partial: what is checked for the root and for documents that are replaced.
* **C88** (Restarting a client whose local repository is a directory): a delegated role named 2.root is stored where a restart looks for version 2 of the root; reading it fails, and the client starts without timestamp, snapshot and targets. (The witnesses of C49 apply, too.) Proved if no role has a file name of top-level metadata, nobody else writes to the disk, updates are not dropped, and a version of the snapshot or targets is not described in two ways.
* **C89** (No rollback across restarts): a timestamp that has expired at the restart is forgotten, and an older one that is valid for longer is accepted afterwards, although it was refused before the restart. Proved if root and timestamp have not expired at the restart, for local repositories in memory and in a directory.

Seen while transcribing, partly covered by the theorems above:

* A delegation named "timestamp", "targets" or "2.root" can overwrite files of the local
  cache (C49); with the default builder, metadata and targets share a directory, and a
  target named "1.root.json" overwrites cached metadata.
* A delegation of one exact path is never followed by the client (`is_child` is strict),
  and an unusable hash map in one branch ends the whole search.
* Roles one level beyond the maximal depth are fetched and stored but not searched.
* `update_delegation` returning `Ok(false)` has not compared the version of the document
  with the description, and the client stores the document.
* Delegations that no snapshot lists are kept by `purge_delegations`.
* A read error of kind NotFound in the middle of a root counts as "no more roots".
* `with_trusted_root_keys` fails if the local copy of the root is damaged.
* Delegated keys may be listed under any key id; an RSA-typed key may carry the ed25519
  scheme.
* The builders keep fractions of a second that encoding drops.
* Custom data nested deeper than about 122 levels can be built and signed but not read.
* A target may be named like one of the temporary files.
* A snapshot description with version 0 would make an `unwrap` in the client panic; the
  JSON layer rules it out (C62).

## 7. How the model was tested

* `Interop.v` replays tests/interop/main.rs (`test_key_rotation`): the repositories of
  tests/metadata/consistent-snapshot-true, byte for byte (`InteropData.v`), are served by
  the model of `FileSystemRepository` to the model of `Client`, with the model of
  serde_json and of key ids, and with SHA-256, SHA-512 and Ed25519 written in Gallina
  (`Sha256.v`, `Ed25519.v`). All six steps (key rotations of every role) behave as the
  Rust test demands, and single changed characters make them fail. The check is a VM cast
  during the build (about four minutes); it leaves no proof term.
* The same driver was run outside of /verif on the other five suites
  (tests/metadata/consistent-snapshot-false, both suites of
  tests/interop/fuchsia-go-tuf-5527fe and of fuchsia-go-tuf-transition-M4), with the same
  outcome.
* `TestVectors.v`, `PrivateToy.v`: the key files of tests/ed25519 and tests/rsa.
* `seeded/LOG.jsonl`: deliberate bugs in the model and the theorems they break. Each edit
  was made in a scratch copy, and what depends on it rebuilt, mostly only as far as the
  theorems aimed at. `theorems_failed` lists the theorems whose proofs no longer go
  through, or rest on a lemma whose proof does not; not each of them has become false.
  That the claim named in `claim_broken` becomes false was judged by reading the edit.
  A few proofs ended by a limit of time or memory, which the entries say.
