{
 "claims": [
  {
   "property": "C01",
   "status": "proved",
   "theorems": [
    "C01_threshold_soundness"
   ],
   "note": ""
  },
  {
   "property": "C02",
   "status": "proved",
   "theorems": [
    "C02_exact_acceptance"
   ],
   "note": ""
  },
  {
   "property": "C03",
   "status": "proved",
   "theorems": [
    "C03_order_independence"
   ],
   "note": ""
  },
  {
   "property": "C04",
   "status": "proved",
   "theorems": [
    "C04_only_signed_content"
   ],
   "note": ""
  },
  {
   "property": "C05",
   "status": "partial",
   "theorems": [
    "C05_threshold_needs_different_keys_partial",
    "C05_one_key_pair_reaches_a_threshold_of_two_refuted"
   ],
   "note": "REFUTED: the same ed25519 key listed with and without keyid_hash_algorithms has two ids, and one signature repeated under both satisfies a threshold of two. Proved when no two listed keys share their bytes while differing in type, scheme or keyid_hash_algorithms."
  },
  {
   "property": "C06",
   "status": "proved",
   "theorems": [
    "C06_initial_root_pinned_keys",
    "C06_initial_root_self_signed"
   ],
   "note": "The second theorem needs the interchange to decode the canonical bytes like the raw data (faithful), shown for JSON separately."
  },
  {
   "property": "C07",
   "status": "proved",
   "theorems": [
    "C07_root_chain_of_trust"
   ],
   "note": ""
  },
  {
   "property": "C08",
   "status": "proved",
   "theorems": [
    "C08_root_version_plus_one"
   ],
   "note": ""
  },
  {
   "property": "C09",
   "status": "proved",
   "theorems": [
    "C09_root_update_purges"
   ],
   "note": ""
  },
  {
   "property": "C10",
   "status": "proved",
   "theorems": [
    "C10_failed_updates_change_nothing"
   ],
   "note": ""
  },
  {
   "property": "C100",
   "status": "partial",
   "theorems": [
    "C100_work_of_an_update",
    "C100_work_of_a_constructor",
    "C100_work_of_a_search_partial",
    "C100_each_role_once_in_a_tree",
    "C100_each_role_once_refuted"
   ],
   "note": "REFUTED for searches: the client does not remember which roles it has looked at, so two roles that delegate to each other and to themselves cause 2^(n+2)-2 requests, n being the configured depth (about a thousand by default). The partial theorem: with at most w delegations per role there are at most 2(w + w^2 + ... + w^(n+1)) requests. While the trusted delegations form a tree, each role is asked for at most once in each repository (C100_each_role_once_in_a_tree). The bounds for updates and constructors are proved."
  },
  {
   "property": "C101",
   "status": "partial",
   "theorems": [
    "C101_nothing_lost_nothing_twice",
    "C101_the_count_is_right",
    "C101_a_working_writer_gets_everything",
    "C101_the_client_model_covers_it",
    "C101_any_writer_gets_authentic_content_partial",
    "C101_any_writer_gets_authentic_content_refuted"
   ],
   "note": "REFUTED when the flush waits: futures' copy then reads again after the end, SafeReader has checked the hash by then and drops it, so what the source still delivers, up to the described length, is written although nothing authenticates it, and the call succeeds. The partial theorem: the content is authentic if no flush waits, or if the described length is that of the content. C101_nothing_lost_nothing_twice is for flushes that do not wait."
  },
  {
   "property": "C102",
   "status": "partial",
   "theorems": [
    "C102_sharing_clients_are_safe_partial",
    "C102_sharing_rolls_back_refuted"
   ],
   "note": "REFUTED for the last sentence: a client that has not updated yet accepts an old timestamp and writes it over the newer one another client has stored, so a third client starts with old metadata. The other sentences are proved for all interleavings; for one client after the other see C89."
  },
  {
   "property": "C103",
   "status": "proved",
   "theorems": [
    "C103_requests_are_told_by_trusted_metadata",
    "C103_targets_are_those_of_the_call",
    "C103_no_file_outside"
   ],
   "note": "For every history. The last theorem is for the JSON interchange (whose decoder checks the names of roles); files are resolved as in C28."
  },
  {
   "property": "C104",
   "status": "partial",
   "theorems": [
    "C104_started_again_refuted",
    "C104_new_root_undoes_fast_forward_partial",
    "C104_new_keys_undo_it_everywhere"
   ],
   "note": "REFUTED for clients that have the new root but no timestamp under it when they are started again, if the root lists the same keys: they take the attacker's timestamp out of their local repository (src/client.rs 384-411) and refuse the repository's until another root is published. Proved: clients that do not have the new root yet, with any keys; and all clients, started again or not, if the new root replaces the stolen keys."
  },
  {
   "property": "C105",
   "status": "proved",
   "theorems": [
    "C105_answers_decide",
    "C105_order_is_invisible",
    "C105_bounds_are_invisible"
   ],
   "note": "C105_bounds_are_invisible is about the model: the bounds on rounds that it adds to the loops do not change runs that end."
  },
  {
   "property": "C106",
   "status": "proved",
   "theorems": [
    "C106_making_a_client",
    "C106_update",
    "C106_looking_for_a_target",
    "C106_download",
    "C106_download_to_writer"
   ],
   "note": ""
  },
  {
   "property": "C107",
   "status": "partial",
   "theorems": [
    "C107_made_up_for_refuted",
    "C107_stores_partial",
    "C107_success_stores"
   ],
   "note": "REFUTED for the last sentence: the client trusts the document although it could not be stored (src/client.rs 531-548, 619-635), so later updates find nothing new and do not store it again; a restart comes back with the old timestamp, and an old mirror can then roll the client back. The other sentences are proved."
  },
  {
   "property": "C108",
   "status": "proved",
   "theorems": [
    "C108_unknown_members_are_ignored",
    "C108_trusted_content",
    "C108_envelope",
    "C108_key_ids",
    "C108_timestamps_list_nothing_else",
    "C108_known_members_are_needed"
   ],
   "note": ""
  },
  {
   "property": "C109",
   "status": "proved",
   "theorems": [
    "C109_errors_have_their_cause",
    "C109_no_error_is_passed_over",
    "C109_no_refused_document_is_passed_over",
    "C109_own_errors"
   ],
   "note": ""
  },
  {
   "property": "C11",
   "status": "partial",
   "theorems": [
    "C11_failed_timestamp_update_refuted",
    "C11_failed_timestamp_update_partial"
   ],
   "note": "REFUTED as stated: an expired, newer timestamp is rejected but the trusted snapshot is dropped. The partial theorem gives exactly what can change."
  },
  {
   "property": "C110",
   "status": "partial",
   "theorems": [
    "C110_methods",
    "C110_updates",
    "C110_targets_partial",
    "C110_targets_refuted",
    "C110_same_description_refuted"
   ],
   "note": "REFUTED for target_description: an expired delegated role ends only the search among its siblings (src/tuf.rs 798-800), so after the expiry the search goes on with the delegations of a level above: a target can be found that was not found before, or be found with the description of a role that comes later. Proved for all updates, for targets the top-level role lists, and as long as no delegated role expires in between."
  },
  {
   "property": "C111",
   "status": "partial",
   "theorems": [
    "C111_verification_partial",
    "C111_new_ids",
    "C111_methods",
    "C111_merge_signatures_partial",
    "C111_add_signature",
    "C111_any_signature_refuted",
    "C111_merge_signatures_refuted"
   ],
   "note": "REFUTED where ids repeat: of several signatures with the same key id only the last one counts (src/verify.rs 109-113), so a wrong one after a right one takes it away; and merge_signatures never replaces a signature (src/metadata.rs 444-466), so one accepted document merged into one with a wrong signature of the same key is refused. Proved for signatures and keys with ids that are new, for other orders of lists with distinct ids, for add_signature in full, and for merge_signatures when the receiving document was accepted."
  },
  {
   "property": "C112",
   "status": "proved",
   "theorems": [
    "C112_methods",
    "C112_starts",
    "C112_clients",
    "C112_json",
    "C112_colliding_ids_refuted"
   ],
   "note": "The exception is real: C112_colliding_ids_refuted has two keys of a delegation with one id (crypto with a constant digest), and the same calls with two orders of the table of keys end differently. One environment gives the same document the same order each time it is read within one client call; sequences of calls of Tuf take a new environment for each call."
  },
  {
   "property": "C113",
   "status": "proved",
   "theorems": [
    "C113_methods",
    "C113_clients",
    "C113_forms"
   ],
   "note": "Documents with a repeated member name are left out: there the reader of the signed part (a map, last one counts) and the readers of structures (an error) differ. The pieces of an answer count through what the reader of metadata makes of them (read_metadata), which is the subject of the properties about the reader; answers to fetches of targets are taken as equal."
  },
  {
   "property": "C114",
   "status": "proved",
   "theorems": [
    "C114_starts",
    "C114_descriptions",
    "C114_targets"
   ],
   "note": "Errors in non-terminating delegations are passed over by the code, and NotFound then says only that the top-level targets do not list the target: targets of delegated roles are never returned (C53)."
  },
  {
   "property": "C115",
   "status": "proved",
   "theorems": [
    "C115_roots_do_not_fork",
    "C115_same_versions_same_metadata",
    "C115_same_targets",
    "C115_majority_needed"
   ],
   "note": "Key ids are counted, not key pairs: one key pair can be listed under two ids (see the refuted property about thresholds)."
  },
  {
   "property": "C116",
   "status": "proved",
   "theorems": [
    "C116_chain_of_custody",
    "C116_keys_of_one_role_protect",
    "C116_targets_of_one_role_protect",
    "C116_all_three_are_enough"
   ],
   "note": "A collision is one between a file that was fetched and a file that was published, not merely some collision that exists. The timestamp that describes the snapshot need not be the one trusted now (see the refuted property about listed hashes)."
  },
  {
   "property": "C117",
   "status": "proved",
   "theorems": [
    "C117_revoked_keys_have_no_say",
    "C117_clients_do_not_care",
    "C117_revocation_takes_effect",
    "C117_listed_keys_matter"
   ],
   "note": "A key counts as listed if it is in a table of keys, of the root or of delegations, used by a role or not. The theorem about clients starts from any trusted metadata; constructing a client anew from an old root that lists the keys is outside it, since that root is then verified with them."
  },
  {
   "property": "C118",
   "status": "proved",
   "theorems": [
    "C118_accepted_only_once",
    "C118_twice_is_once",
    "C118_unrelated_roles_commute",
    "C118_parents_come_first"
   ],
   "note": "Trusted metadata are compared as the code keeps them, delegated metadata as a map from names."
  },
  {
   "property": "C119",
   "status": "proved",
   "theorems": [
    "C119_delegated_metadata_do_not_matter",
    "C119_delegations_can_be_left_out",
    "C119_updates_do_not_depend_on_them",
    "C119_downloads_leave_no_mark"
   ],
   "note": "Events are the same apart from the delegated part of the trusted metadata that the client holds."
  },
  {
   "property": "C12",
   "status": "proved",
   "theorems": [
    "C12_timestamp_rollback"
   ],
   "note": ""
  },
  {
   "property": "C120",
   "status": "proved",
   "theorems": [
    "C120_catching_up",
    "C120_same_version_is_kept",
    "C120_same_targets_are_kept"
   ],
   "note": "The condition on versions is part of the statement; the other theorems show what happens without it."
  },
  {
   "property": "C13",
   "status": "proved",
   "theorems": [
    "C13_snapshot_acceptance"
   ],
   "note": ""
  },
  {
   "property": "C14",
   "status": "proved",
   "theorems": [
    "C14_targets_acceptance"
   ],
   "note": ""
  },
  {
   "property": "C15",
   "status": "proved",
   "theorems": [
    "C15_delegation_acceptance"
   ],
   "note": ""
  },
  {
   "property": "C16",
   "status": "proved",
   "theorems": [
    "C16_versions_fit"
   ],
   "note": ""
  },
  {
   "property": "C17",
   "status": "partial",
   "theorems": [
    "C17_snapshot_rollback_refuted",
    "C17_snapshot_rollback_partial"
   ],
   "note": "REFUTED as stated: a newer timestamp listing an older snapshot makes the client drop and roll back the snapshot. The partial theorem: this is the only way."
  },
  {
   "property": "C18",
   "status": "partial",
   "theorems": [
    "C18_targets_rollback_refuted",
    "C18_targets_rollback_partial"
   ],
   "note": "REFUTED as stated, for targets and delegations: a newer snapshot listing a lower version suffices. The partial theorem: for targets this is the only way, and no single update lowers a version."
  },
  {
   "property": "C19",
   "status": "proved",
   "theorems": [
    "C19_signed_under_current_root"
   ],
   "note": ""
  },
  {
   "property": "C20",
   "status": "partial",
   "theorems": [
    "C20_delegation_authority_refuted",
    "C20_delegation_authority_partial"
   ],
   "note": "REFUTED as stated: delegations survive targets metadata that revokes their key. The partial theorem: each was authorised when accepted, under the current root."
  },
  {
   "property": "C21",
   "status": "proved",
   "theorems": [
    "C21_expired_refused"
   ],
   "note": ""
  },
  {
   "property": "C22",
   "status": "partial",
   "theorems": [
    "C22_expiry_error_names_role_refuted",
    "C22_expiry_error_names_role_partial"
   ],
   "note": "REFUTED for update_targets, which reports ExpiredMetadata(Snapshot); the partial theorem gives the exact error of all three functions."
  },
  {
   "property": "C23",
   "status": "proved",
   "theorems": [
    "C23_target_description_sound",
    "C23_top_level_wins",
    "C23_the_error_names_the_metadata"
   ],
   "note": ""
  },
  {
   "property": "C24",
   "status": "partial",
   "theorems": [
    "C24_delegated_paths_refuted",
    "C24_delegated_paths_partial"
   ],
   "note": "REFUTED as stated: the role that lists the target is not checked against its own delegation's paths. The partial theorem: all earlier delegations on the route permit the target."
  },
  {
   "property": "C25",
   "status": "proved",
   "theorems": [
    "C25_search_terminates"
   ],
   "note": ""
  },
  {
   "property": "C26",
   "status": "partial",
   "theorems": [
    "C26_dead_end_siblings_refuted",
    "C26_dead_end_siblings_partial"
   ],
   "note": "REFUTED as stated: a delegation that is not loaded (or expired, or already visited) ends the search. The partial theorem covers loaded delegations without an entry."
  },
  {
   "property": "C27",
   "status": "partial",
   "theorems": [
    "C27_terminating_refuted",
    "C27_terminating_partial"
   ],
   "note": "REFUTED as stated: a terminating delegation whose role is loaded, has no entry and no delegations does not end the search. The partial theorem lists the cases that do."
  },
  {
   "property": "C28",
   "status": "proved",
   "theorems": [
    "C28_paths_cannot_escape"
   ],
   "note": ""
  },
  {
   "property": "C29",
   "status": "partial",
   "theorems": [
    "C29_device_names_refuted",
    "C29_device_names_check_is_dead_partial"
   ],
   "note": "REFUTED as stated: the check compares a lower-cased component with upper-case names and never fires; every listed name is accepted."
  },
  {
   "property": "C30",
   "status": "proved",
   "theorems": [
    "C30_path_matching"
   ],
   "note": ""
  },
  {
   "property": "C31",
   "status": "partial",
   "theorems": [
    "C31_locations_refuted",
    "C31_locations_partial",
    "C31_locations_same_kind",
    "C31_same_file_refuted"
   ],
   "note": "REFUTED as stated: '1.root' without version and 'root' version 1 share a location, and on disk 'a//b' and 'a/b' do. The partial theorem is the exact characterisation of component collisions."
  },
  {
   "property": "C32",
   "status": "proved",
   "theorems": [
    "C32_hash_prefix",
    "C32_components_roundtrip"
   ],
   "note": ""
  },
  {
   "property": "C33",
   "status": "partial",
   "theorems": [
    "C33_role_check_refuted",
    "C33_role_check_partial"
   ],
   "note": "REFUTED as stated: targets metadata passes the check under 'timestamp'; the partial theorem shows this is the only exception."
  },
  {
   "property": "C34",
   "status": "partial",
   "theorems": [
    "C34_request_urls_refuted",
    "C34_request_urls_partial"
   ],
   "note": "REFUTED as stated: '%' is not encoded, so 'a ' and 'a%20' share a URL and '%2e%2e' reaches the server. Proved: query and base kept, one segment per component, injective without percent signs."
  },
  {
   "property": "C35",
   "status": "proved",
   "theorems": [
    "C35_checked_read_sound",
    "C35_read_to_end"
   ],
   "note": "For every source, buffer sizes, limit and hash."
  },
  {
   "property": "C36",
   "status": "proved",
   "theorems": [
    "C36_checked_read_complete"
   ],
   "note": "For every chunking; the 64-bit byte counter is a hypothesis (length_ok u64_max)."
  },
  {
   "property": "C37",
   "status": "proved",
   "theorems": [
    "C37_never_more_than_max"
   ],
   "note": "Bytes handed out never exceed the limit, also when reading goes on after errors."
  },
  {
   "property": "C38",
   "status": "partial",
   "theorems": [
    "C38_failed_read_refuted",
    "C38_failed_read_partial"
   ],
   "note": "REFUTED: reading on after the error reports a clean end. Proved: hash soundness until the source itself reports its end."
  },
  {
   "property": "C39",
   "status": "proved",
   "theorems": [
    "C39_slow_transfers_cut_off"
   ],
   "note": "With f32 rounding modelled exactly (error bound one millionth); a stall without data is not noticed, as in the code."
  },
  {
   "property": "C40",
   "status": "proved",
   "theorems": [
    "C40_fetched_metadata_obeys_limits",
    "C40_fetched_target_obeys_limits"
   ],
   "note": "Exact characterisation of Ok, for every provider."
  },
  {
   "property": "C41",
   "status": "proved",
   "theorems": [
    "C41_ephemeral_is_a_map"
   ],
   "note": "For all histories of stores."
  },
  {
   "property": "C42",
   "status": "proved",
   "theorems": [
    "C42_stores_are_atomic",
    "C42_temporary_destination_refuted"
   ],
   "note": "All interleavings and crash points of the process, file system as names and inodes; power loss (the code does no fsync) is outside the model. Needs that no destination is named like a temporary file; the second theorem shows why."
  },
  {
   "property": "C43",
   "status": "proved",
   "theorems": [
    "C43_trust_only_through_verification",
    "C43_the_field_is_tracked"
   ],
   "note": "For every behaviour of both repositories and the clock and every point at which a future is dropped."
  },
  {
   "property": "C44",
   "status": "proved",
   "theorems": [
    "C44_only_verified_metadata_is_stored"
   ],
   "note": ""
  },
  {
   "property": "C45",
   "status": "proved",
   "theorems": [
    "C45_update_reports_truthfully"
   ],
   "note": ""
  },
  {
   "property": "C46",
   "status": "proved",
   "theorems": [
    "C46_root_loop_terminates"
   ],
   "note": "For the remote loop (update) and the local one (construction)."
  },
  {
   "property": "C47",
   "status": "partial",
   "theorems": [
    "C47_version_overflow_refuted",
    "C47_version_overflow_partial"
   ],
   "note": "REFUTED: a trusted root with version u32::MAX makes constructors and update() panic (debug overflow checks; release builds wrap). Partial: that is the only panic."
  },
  {
   "property": "C48",
   "status": "proved",
   "theorems": [
    "C48_walk_never_panics"
   ],
   "note": "Given that snapshots list only versions of at least 1, which JSON decoding enforces, and max_delegation_depth < u32::MAX."
  },
  {
   "property": "C49",
   "status": "partial",
   "theorems": [
    "C49_restart_restores_partial",
    "C49_described_anew_refuted",
    "C49_dropped_update_refuted",
    "C49_role_named_timestamp_refuted"
   ],
   "note": "REFUTED as stated: three witnesses (a version of the snapshot described anew by a newer timestamp; an update future dropped between the acceptance of a root and its storing; a delegated role named timestamp). Proved for every remote behaviour, clock, number of sessions, and interleaving of calls if none of these happens and the local repository is in memory."
  },
  {
   "property": "C50",
   "status": "proved",
   "theorems": [
    "C50_metadata_downloads_are_bounded",
    "C50_delegation_downloads_are_bounded"
   ],
   "note": "Changes of trusted metadata by an initialised client; the first root is covered by C43 (first_change)."
  },
  {
   "property": "C51",
   "status": "proved",
   "theorems": [
    "C51_downloaded_targets_are_authentic",
    "C51_written_targets_are_authentic"
   ],
   "note": ""
  },
  {
   "property": "C52",
   "status": "proved",
   "theorems": [
    "C52_failed_download_keeps_stored_target",
    "C52_failed_download_keeps_stored_file",
    "C52_metadata_files_are_apart"
   ],
   "note": "In-memory and file-system repository; the builder's default puts metadata and targets in one directory, where the last theorem does not apply."
  },
  {
   "property": "C53",
   "status": "partial",
   "theorems": [
    "C53_delegated_targets_refuted",
    "C53_delegated_targets_partial",
    "C53_covering_role_is_asked_for_partial"
   ],
   "note": "REFUTED: the description found in a delegated role is dropped (src/client.rs 1011-1016). Partial: exactly the top-level targets are found; the metadata of the first role covering the target is asked for."
  },
  {
   "property": "C54",
   "status": "proved",
   "theorems": [
    "C54_walk_is_bounded"
   ],
   "note": ""
  },
  {
   "property": "C55",
   "status": "partial",
   "theorems": [
    "C55_expired_metadata_refuted",
    "C55_expired_metadata_partial"
   ],
   "note": "REFUTED: fetch_target does not look at the clock. Partial: a successful update saw an unexpired root, and targets metadata were unexpired when accepted."
  },
  {
   "property": "C56",
   "status": "partial",
   "theorems": [
    "C56_pinned_version_refuted",
    "C56_pinned_version_partial"
   ],
   "note": "REFUTED: the version of the root obtained is not compared with the pinned one. Partial: it was served for that version and is signed by a threshold of the given keys, and the trusted root follows by a chain."
  },
  {
   "property": "C57",
   "status": "partial",
   "theorems": [
    "C57_damaged_cache_refuted",
    "C57_damaged_cache_partial"
   ],
   "note": "REFUTED only by the overflow of C47; otherwise proved."
  },
  {
   "property": "C58",
   "status": "partial",
   "theorems": [
    "C58_listed_hashes_refuted",
    "C58_listed_hashes_partial"
   ],
   "note": "REFUTED for later states: a timestamp may list another hash for the trusted snapshot version. Partial: they match at acceptance, and versions match in every state."
  },
  {
   "property": "C59",
   "status": "proved",
   "theorems": [
    "C59_canonical_bytes_are_unambiguous",
    "C59_canonical_bytes_read_back"
   ],
   "note": "serde_json's reader and writer are modelled; values with pairwise different member names at each level, as serde_json::Value has."
  },
  {
   "property": "C60",
   "status": "proved",
   "theorems": [
    "C60_reader_is_the_grammar",
    "C60_no_text_is_ambiguous",
    "C60_canonical_bytes_ignore_spelling",
    "C60_canonicalize_fails_on_floats_only"
   ],
   "note": "Texts are those of an independent RFC 8259 grammar; depth at most 127, serde_json's limit."
  },
  {
   "property": "C61",
   "status": "partial",
   "theorems": [
    "C61_metadata_survives_encoding_partial",
    "C61_values_survive_encoding_partial",
    "C61_every_document_survives_encoding_refuted"
   ],
   "note": "REFUTED for expiry dates that are leap seconds or have years above 9999. Proved for all documents with whole-second expiry dates in the years 0-9999."
  },
  {
   "property": "C62",
   "status": "proved",
   "theorems": [
    "C62_decoded_metadata_is_well_formed",
    "C62_well_formed_metadata_is_accepted",
    "C62_labels_are_checked",
    "C62_verified_metadata_is_well_formed",
    "C62_trusted_metadata_is_well_formed",
    "C62_json_is_faithful",
    "C62_json_versions_are_positive"
   ],
   "note": "Also shows the hypotheses faithful and positive_versions of C06, C37 and C38 for the JSON interchange."
  },
  {
   "property": "C63",
   "status": "partial",
   "theorems": [
    "C63_duplicates_are_rejected_by_from_slice_partial",
    "C63_verified_content_is_unambiguous_partial",
    "C63_duplicates_in_signed_documents_refuted"
   ],
   "note": "REFUTED: verification goes through serde_json::Value, which drops repeated names before the check. Proved: from_slice rejects them, and what verification decodes and checks signatures on has no repeated names."
  },
  {
   "property": "C64",
   "status": "proved",
   "theorems": [
    "C64_hex_is_a_faithful_codec"
   ],
   "note": ""
  },
  {
   "property": "C65",
   "status": "proved",
   "theorems": [
    "C65_parse_is_the_calendar",
    "C65_spelling_does_not_matter",
    "C65_dates_survive",
    "C65_order_is_preserved",
    "C65_every_year"
   ],
   "note": "chrono's parser is modelled (ASCII white space only). C65_outside_that_range_refuted shows what is lost for leap seconds and years above 9999."
  },
  {
   "property": "C66",
   "status": "partial",
   "theorems": [
    "C66_der_lengths",
    "C66_spki_is_der",
    "C66_spki_round_trip",
    "C66_constructed_keys",
    "C66_public_constructors",
    "C66_one_id_per_key",
    "C66_metadata_keys",
    "C66_keys_survive_metadata",
    "C66_every_spki_key_survives_metadata_refuted"
   ],
   "note": "REFUTED for keys made by from_spki with type ed25519 and another scheme or length: they are written but cannot be read back. Proved for every other key (keys of up to 64 KiB of DER, the limit of the reader)."
  },
  {
   "property": "C67",
   "status": "partial",
   "theorems": [
    "C67_one_signature_per_key_partial",
    "C67_add_signature_replaces",
    "C67_merge_signatures",
    "C67_one_signature_per_key_refuted"
   ],
   "note": "REFUTED: merge_signatures copies all signatures of its argument whose key has not signed yet, so an argument that was read from a file and repeats a key id leaves two signatures of one key. Proved for all documents made through the API without reading, and for add_signature and merge_signatures step by step on any document."
  },
  {
   "property": "C68",
   "status": "proved",
   "theorems": [
    "C68_descriptions_describe",
    "C68_custom_descriptions"
   ],
   "note": ""
  },
  {
   "property": "C69",
   "status": "partial",
   "theorems": [
    "C69_descriptions_match_the_bytes_partial",
    "C69_descriptions_exist",
    "C69_descriptions_match_the_bytes_refuted"
   ],
   "note": "REFUTED for the JsonPretty interchange, whose description is of the pretty text while to_raw gives the compact one. Proved for Json."
  },
  {
   "property": "C70",
   "status": "proved",
   "theorems": [
    "C70_strongest_hash"
   ],
   "note": ""
  },
  {
   "property": "C71",
   "status": "partial",
   "theorems": [
    "C71_built_roots_decode_partial",
    "C71_built_metadata_decodes",
    "C71_built_roots_decode_refuted"
   ],
   "note": "REFUTED: adding the same key to a role twice builds a root that is signed but refused by every reader. Proved for all roots whose roles have no repeated key, and without such a condition for the other three builders."
  },
  {
   "property": "C72",
   "status": "proved",
   "theorems": [
    "C72_default_translator_is_the_identity"
   ],
   "note": ""
  },
  {
   "property": "C73",
   "status": "proved",
   "theorems": [
    "C73_signed_documents_verify",
    "C73_built_repository_is_accepted",
    "C73_built_root_succeeds_the_old_one",
    "C73_built_delegation_is_accepted"
   ],
   "note": "For content that serde_json can read back (nesting up to 126, expiry in years 0-9999)."
  },
  {
   "property": "C74",
   "status": "proved",
   "theorems": [
    "C74_honest_repository_is_followed"
   ],
   "note": "For every DataInterchange and every digest and signature primitive. The search for delegated roles is not part of update."
  },
  {
   "property": "C75",
   "status": "proved",
   "theorems": [
    "C75_recovery"
   ],
   "note": ""
  },
  {
   "property": "C76",
   "status": "proved",
   "theorems": [
    "C76_honest_downloads"
   ],
   "note": "For targets listed by the top-level role; C52 and C53 are about delegated ones."
  },
  {
   "property": "C77",
   "status": "partial",
   "theorems": [
    "C77_success_is_thorough_partial",
    "C77_success_is_thorough_refuted"
   ],
   "note": "REFUTED: a root whose download breaks off with an I/O error of kind NotFound counts as a root that does not exist, and update returns Ok. Proved with this as the only exception."
  },
  {
   "property": "C78",
   "status": "proved",
   "theorems": [
    "C78_http_fetches",
    "C78_http_settings",
    "C78_update_over_http"
   ],
   "note": "The HTTP client and the server are an oracle: any answer to any request. Of URIs the path and the query are modelled. Where names contain percent signs see C34."
  },
  {
   "property": "C79",
   "status": "partial",
   "theorems": [
    "C79_directory_is_a_map_partial",
    "C79_new_keeps_apart",
    "C79_failed_store_refuted",
    "C79_nested_targets_refuted",
    "C79_shared_directory_refuted"
   ],
   "note": "REFUTED in three points: a failed store leaves directories behind, after which a target of that name cannot be stored (a download of x/y that breaks off makes x unstorable); of the targets a and a/b only one can be stored; without prefixes (the default of the builder) the target root.json replaces the root metadata. Proved: for every file the last successful store counts, failed stores and stores to other places change no file, exactly when stores and fetches succeed, and that FileSystemRepository::new keeps metadata and targets apart. Different paths with the same place: C31."
  },
  {
   "property": "C80",
   "status": "partial",
   "theorems": [
    "C80_mirror_partial",
    "C80_mirror_refuted",
    "C80_update_from_directory"
   ],
   "note": "REFUTED: names with percent signs are not escaped in the URL, so the server looks for another file (see C34). Proved for all other names, and for updates from such a directory without restriction."
  },
  {
   "property": "C81",
   "status": "partial",
   "theorems": [
    "C81_rsa_public_half",
    "C81_ed25519_keys",
    "C81_rsa_keys",
    "C81_private_keys_work",
    "C81_public_halves",
    "C81_accepted_has_a_signer",
    "C81_two_identities",
    "C81_one_identity_refuted",
    "C81_modulus_partial",
    "C81_modulus_refuted"
   ],
   "note": "REFUTED in two points: one Ed25519 key pair has two identities, depending on whether it was loaded with from_ed25519 or from_pkcs8, and what one signs is not accepted for the other; the size check counts bytes, so a modulus of 2047 bits passes although the message asks for 2048. The rest is proved, about every ring that keeps its promises (working_ring: what it signs verifies, public bytes are those given, SHA-256 has 32 bytes)."
  },
  {
   "property": "C82",
   "status": "proved",
   "theorems": [
    "C82_keys_in_collections",
    "C82_every_key"
   ],
   "note": "The order compares ids and the equality compares contents; they agree unless two different canonical texts have the same SHA-256, which is stated as such (collide)."
  },
  {
   "property": "C83",
   "status": "partial",
   "theorems": [
    "C83_rsa_pkcs8_partial",
    "C83_failure_reported_refuted"
   ],
   "note": "REFUTED: the exit status of openssl is not looked at; a failing openssl gives Ok with no bytes. Proved: what is returned otherwise. openssl is an oracle."
  },
  {
   "property": "C84",
   "status": "partial",
   "theorems": [
    "C84_utf8",
    "C84_utf8_unique",
    "C84_base64_partial",
    "C84_one_text_refuted",
    "C84_null_is_absent"
   ],
   "note": "REFUTED in one point: a key has more than one text, since padding is accepted inside of the text (each padded piece decoded by itself). The partial theorem says exactly which texts are accepted. The rest is proved."
  },
  {
   "property": "C85",
   "status": "proved",
   "theorems": [
    "C85_only_published_roots",
    "C85_only_published_metadata",
    "C85_only_published_targets"
   ],
   "note": "Unforgeability is a hypothesis about the signature scheme (unforgeable): whoever has a valid signature either holds the key or signed. The example exhibits a scheme that has it, and a thief who holds some keys."
  },
  {
   "property": "C86",
   "status": "partial",
   "theorems": [
    "C86_no_rollback_partial",
    "C86_no_rollback_refuted",
    "C86_no_mix_and_match"
   ],
   "note": "REFUTED for rollback: a new root makes the client forget all other metadata (C09), even if the keys stay the same, and afterwards old documents are accepted again. Proved between any two moments with the same root version (attackers without timestamp and snapshot keys, publishers who number in order). Mix-and-match is proved."
  },
  {
   "property": "C87",
   "status": "partial",
   "theorems": [
    "C87_replay_goes_unnoticed",
    "C87_freeze_noticed_refuted",
    "C87_freeze_noticed_partial"
   ],
   "note": "REFUTED: a timestamp of the version the client has is answered with Ok before its expiry is checked, and documents that are not replaced are not looked at; so an update succeeds as long as the root has not expired. Also a new snapshot may be expired already. Partial: what is checked for the root and for documents that are replaced."
  },
  {
   "property": "C88",
   "status": "partial",
   "theorems": [
    "C88_restart_from_directory_partial",
    "C88_role_named_like_a_root_refuted"
   ],
   "note": "REFUTED: a delegated role named 2.root is stored where a restart looks for version 2 of the root; reading it fails, and the client starts without timestamp, snapshot and targets. (The witnesses of C49 apply, too.) Proved if no role has a file name of top-level metadata, nobody else writes to the disk, updates are not dropped, and a version of the snapshot or targets is not described in two ways."
  },
  {
   "property": "C89",
   "status": "partial",
   "theorems": [
    "C89_no_rollback_across_restarts_partial",
    "C89_no_rollback_with_a_directory_partial",
    "C89_expired_timestamp_refuted"
   ],
   "note": "REFUTED: a timestamp that has expired at the restart is forgotten, and an older one that is valid for longer is accepted afterwards, although it was refused before the restart. Proved if root and timestamp have not expired at the restart, for local repositories in memory and in a directory."
  },
  {
   "property": "C90",
   "status": "proved",
   "theorems": [
    "C90_from_builders_to_files"
   ],
   "note": "Composition of C73, C41, C74 and C76. Hypotheses: the keys sign what verifies, enough of them sign, the documents fit the configured limits, nothing has expired, and the version of the current root is not the largest 32-bit number."
  },
  {
   "property": "C91",
   "status": "proved",
   "theorems": [
    "C91_second_update_is_idle"
   ],
   "note": "Also for a timestamp that has expired meanwhile (compare C87). The metadata must have positive versions, which C62 shows for the JSON interchange."
  },
  {
   "property": "C92",
   "status": "proved",
   "theorems": [
    "C92_roots_as_told",
    "C92_timestamps_as_told",
    "C92_timestamps_describe_the_snapshot",
    "C92_snapshots_as_told",
    "C92_targets_as_told",
    "C92_calls_fail_for_a_reason"
   ],
   "note": "HashMaps are compared by lookup. The random order of HashMaps is not observable here."
  },
  {
   "property": "C93",
   "status": "proved",
   "theorems": [
    "C93_configurations_as_told",
    "C93_clients_keep_to_the_limits"
   ],
   "note": "The second part composes C50 and C54 with the configuration."
  },
  {
   "property": "C94",
   "status": "proved",
   "theorems": [
    "C94_deployed"
   ],
   "note": "Composition of C73, C79, C80, C74 and C76 for directories and HTTP. Beyond the hypotheses of C90: the stored name of the target has no percent sign (C80), the client's directory has no top-level metadata in it and nothing in the way of the target's file, and nobody else writes to the client's disk during the run."
  },
  {
   "property": "C95",
   "status": "proved",
   "theorems": [
    "C95_resumed"
   ],
   "note": "C94 without the hypothesis that the client's directory is fresh. Instead: no directories in the places of the files of the top-level metadata, and those files are not ahead of the edition (unsigned, wrongly signed, older or equal ones are). Nobody else writes to the client's disk during the run."
  },
  {
   "property": "C96",
   "status": "proved",
   "theorems": [
    "C96_publishing_while_clients_update",
    "C96_plain_names_may_fail"
   ],
   "note": "Each publication has to be in order also under the roots offered before it during the run (for instance because the roots do not change, or new roots keep the keys of the other roles). The second theorem exhibits a run that fails without consistent snapshots."
  },
  {
   "property": "C97",
   "status": "proved",
   "theorems": [
    "C97_ongoing",
    "C97_careful_publisher"
   ],
   "note": "C97_ongoing is about any directory that is kept in order; C97_careful_publisher shows that a publisher who takes care store by store keeps it in order. Consistent snapshots are assumed (C96 shows why). A request is answered from the directory as it is between two stores."
  },
  {
   "property": "C98",
   "status": "proved",
   "theorems": [
    "C98_tree_is_searched",
    "C98_first_in_order",
    "C98_built_delegations_are_found"
   ],
   "note": "The hypotheses avoid what C24, C26 and C27 refute: all roles of the tree are loaded, and nothing terminating comes before the role that lists the target. This is about Tuf; the client does not find delegated targets (C53)."
  },
  {
   "property": "C99",
   "status": "proved",
   "theorems": [
    "C99_same_as_giving_the_root",
    "C99_root_keys",
    "C99_restart_in_any_way",
    "C99_restart_after_root_keys",
    "C99_restart_in_any_way_with_a_directory",
    "C99_no_rollback_in_any_way"
   ],
   "note": "C99_same_as_giving_the_root and C99_root_keys are full equivalences of runs. The restarts have the assumptions of C49 and C88, without which they are false for with_trusted_root already. C99_root_keys needs an interchange whose canonical form decodes like the original (C62 for JSON)."
  }
 ]
}