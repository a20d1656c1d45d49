(** * C05, C61-C63: metadata in JSON *)
From Coq Require Import String Ascii List NArith ZArith Bool Lia.
From Verif Require Import Base BaseFacts JsonValue JsonText SpecJson JsonComplete JsonSound JsonProofs Metadata Verify Tuf SpecVerify VerifyProofs SpecTuf TufProofs TufHistory
     SpecClient Codec Dates SpecDates DateProofs Serde Keys Shims SerdeProofs SpecKeys KeyProofs SpecMeta ShimsProofs TextProofs JsonLayer
     KeyToy Toy JsonToy.
Import ListNotations.
Open Scope nat_scope.
Open Scope string_scope.

(** ** C61: decode, encode, decode *)

(** The full claim is that this holds for every decodable document.  It does for
    expiry dates that are whole seconds of the years 0 to 9999; see the refutation
    below for the others. *)
Theorem C61_metadata_survives_encoding_partial :
  forall (C : crypto) (r : role) (t : bytes) (m : metadata_of r),
  json_from_slice (d_metadata C r) t = Ok m -> plain_time (expiry r m) ->
  (exists v, json_serialize (e_metadata r m) = Ok v /\ json_deserialize (d_metadata C r) v = Ok m) /\
  (exists t', pretty_to_writer (e_metadata r m) = Ok t' /\ json_from_slice (d_metadata C r) t' = Ok m) /\
  (~ custom_floats r m ->
   exists t', json_to_writer (e_metadata r m) = Ok t' /\ json_from_slice (d_metadata C r) t' = Ok m) /\
  (custom_floats r m -> json_to_writer (e_metadata r m) = Err Opaque).
Proof.
  intros C r t m H P. destruct (metadata_texts C r t m H P) as (j & E & F & D & W & Y).
  pose proof (stable_metadata C r _ _ D) as S. split; [|split; [|split]].
  - exists (to_value j). unfold json_serialize. rewrite E. split; [reflexivity|]. now apply deserialize_Ok.
  - exists (pretty 0 (to_value j)). unfold pretty_to_writer, json_serialize. rewrite E. split; [reflexivity|exact Y].
  - intros N. exists (write (to_value j)). split; [|exact W]. unfold json_to_writer, json_serialize. rewrite E. cbn [rbind].
    apply canonicalize_Ok. split; [|now rewrite to_value_idem]. apply clean_to_value. eapply clean_metadata; eassumption.
  - intros N. unfold json_to_writer, json_serialize. rewrite E. cbn [rbind]. apply canonicalize_Err. split; [|reflexivity].
    eapply floats_decoded; eassumption.
Qed.
Print Assumptions C61_metadata_survives_encoding_partial.

(** Metadata out of a [Value], as in Tuf::from_trusted_root. *)
Theorem C61_values_survive_encoding_partial :
  forall (C : crypto) (r : role) (v : json) (m : metadata_of r),
  json_deserialize (d_metadata C r) v = Ok m -> plain_time (expiry r m) ->
  exists v', json_serialize (e_metadata r m) = Ok v' /\ json_deserialize (d_metadata C r) v' = Ok m.
Proof.
  intros C r v m H P. apply deserialize_Ok in H.
  destruct (metadata_again C r m (metadata_wf _ _ _ _ H) P) as (j & E & D). exists (to_value j).
  unfold json_serialize. rewrite E. split; [reflexivity|]. apply deserialize_Ok. now apply stable_metadata.
Qed.
Print Assumptions C61_values_survive_encoding_partial.

Lemma new_year_plain : plain_time new_year.
Proof.
  assert (R : real_date (2030, 1, 1)%Z). { apply real_date_iff. vm_compute. repeat split; discriminate. }
  exists (mkStamp (2030, 1, 1)%Z 0 0 0). split; [repeat split; try (cbn; lia); exact R|].
  apply at_instant_iff. split; [exact R|]. vm_compute. reflexivity.
Qed.

Example C61_case :
  let t := write (tree (e_metadata Targets jtargets)) in
  json_from_slice (d_metadata checksums Targets) t = Ok jtargets /\ ~ custom_floats Targets jtargets /\
  plain_time (expiry Targets jtargets).
Proof.
  split; [vm_compute; reflexivity|]. split.
  - intros F. apply (floats_decoded checksums Targets (tree (e_metadata Targets jtargets)) jtargets) in F;
      [|vm_compute; reflexivity].
    assert (K : exists b, canonicalize (tree (e_metadata Targets jtargets)) = Ok b) by (eexists; vm_compute; reflexivity).
    destruct K as (b & K). apply canonicalize_Ok in K as [K _]. exact (K F).
  - exact new_year_plain.
Qed.
Example C61_case_other_roles :
  json_from_slice (d_metadata checksums Root) (write (tree (e_metadata Root jroot))) = Ok jroot /\
  json_from_slice (d_metadata checksums Snapshot) (write (tree (e_metadata Snapshot jsnapshot))) = Ok jsnapshot /\
  json_from_slice (d_metadata checksums Timestamp) (write (tree (e_metadata Timestamp jtimestamp))) = Ok jtimestamp.
Proof. split; [|split]; vm_compute; reflexivity. Qed.

(** A leap second is moved to the end of its minute; a year of five digits is written
    in a form that is not read. *)
Definition timestamp_text (expires : string) : bytes :=
  write (JObj [("_type", JStr "timestamp"); ("spec_version", JStr "1.0"); ("version", JInt 1);
               ("expires", JStr expires);
               ("meta", JObj [("snapshot.json", JObj [("version", JInt 1); ("length", JInt 10);
                                                      ("hashes", JObj [("sha256", JStr "00")])])])]).
Theorem C61_every_document_survives_encoding_refuted :
  (exists (C : crypto) t m t' m', json_from_slice (d_metadata C Timestamp) t = Ok m /\
     json_to_writer (e_metadata Timestamp m) = Ok t' /\
     json_from_slice (d_metadata C Timestamp) t' = Ok m' /\ tm_expires m' <> tm_expires m) /\
  (exists (C : crypto) t m t', json_from_slice (d_metadata C Timestamp) t = Ok m /\
     json_to_writer (e_metadata Timestamp m) = Ok t' /\
     json_from_slice (d_metadata C Timestamp) t' = Err Encoding).
Proof.
  split.
  - exists checksums, (timestamp_text "2016-12-31T23:59:60Z"). do 3 eexists.
    split; [vm_compute; reflexivity|]. split; [vm_compute; reflexivity|]. split; [vm_compute; reflexivity|]. discriminate.
  - exists checksums, (timestamp_text "+12345-01-01T00:00:00Z"). do 2 eexists.
    split; [vm_compute; reflexivity|]. split; [vm_compute; reflexivity|]. vm_compute; reflexivity.
Qed.
Print Assumptions C61_every_document_survives_encoding_refuted.

(** ** C62: decoded metadata is well formed *)

Theorem C62_decoded_metadata_is_well_formed :
  forall (C : crypto) (r : role) (m : metadata_of r),
  (forall t, json_from_slice (d_metadata C r) t = Ok m -> wf_metadata C r m) /\
  (forall v, json_deserialize (d_metadata C r) v = Ok m -> wf_metadata C r m).
Proof.
  intros C r m. split.
  - intros t H. apply from_slice_Ok in H as (j & _ & D). eapply metadata_wf; eassumption.
  - intros v H. apply deserialize_Ok in H. eapply metadata_wf; eassumption.
Qed.
Print Assumptions C62_decoded_metadata_is_well_formed.

(** No more is demanded: whatever is well formed (with a date that can be written) can
    be written and read. *)
Theorem C62_well_formed_metadata_is_accepted :
  forall (C : crypto) (r : role) (m : metadata_of r),
  wf_metadata C r m -> plain_time (expiry r m) ->
  exists v, json_serialize (e_metadata r m) = Ok v /\ json_deserialize (d_metadata C r) v = Ok m.
Proof.
  intros C r m W P. destruct (metadata_again C r m W P) as (j & E & D). exists (to_value j).
  unfold json_serialize. rewrite E. split; [reflexivity|]. apply deserialize_Ok. now apply stable_metadata.
Qed.
Print Assumptions C62_well_formed_metadata_is_accepted.

(** The label of a document: its role, as a string (or in serde's long form), and
    version 1.0 of the specification.  A document may also be an array of its
    fields. *)
Definition label (r : role) (j : json) : Prop := j = JStr (role_name r) \/ j = JObj [(role_name r, JNull)].
Theorem C62_labels_are_checked :
  forall (C : crypto) (r : role) (t : bytes) (m : metadata_of r),
  json_from_slice (d_metadata C r) t = Ok m ->
  exists j, document t j /\
  ((exists mem l, j = JObj mem /\ lookup "_type" mem = Some l /\ label r l /\
                  lookup "spec_version" mem = Some (JStr "1.0")) \/
   (exists l rest, j = JArr (l :: JStr "1.0" :: rest) /\ label r l)).
Proof.
  intros C r t m H. apply from_slice_Ok in H as (j & P & D). exists j.
  split; [now apply parse_sound|]. eapply label_checked; eassumption.
Qed.
Print Assumptions C62_labels_are_checked.

(** What the client trusts is well formed. *)
Theorem C62_verified_metadata_is_well_formed :
  forall (C : crypto) (o : hash_order) (r : role) (raw : bytes) (t : N) (keys : list public_key) (m : metadata_of r),
  verify_signatures (mkEnv C o (json_interchange C)) r raw t keys = Ok m -> wf_metadata C r m.
Proof.
  intros C o r raw t keys m H. apply verify_signatures_iff in H as (_ & s & g & msg & _ & _ & _ & D).
  cbn in D. now apply C62_decoded_metadata_is_well_formed in D.
Qed.
Print Assumptions C62_verified_metadata_is_well_formed.

(** The two facts about the interchange that C06 and C37/C38 assume. *)
Theorem C62_json_is_faithful : forall C, faithful (json_interchange C).
Proof.
  intros C r b sigs raw msg H1 H2. cbn in *. apply envelope_raw in H1 as [F E].
  apply canonicalize_Ok in H2 as [_ ->]. rewrite E. unfold json_from_slice. rewrite (write_again _ F). reflexivity.
Qed.
Print Assumptions C62_json_is_faithful.

Theorem C62_json_versions_are_positive : forall C, positive_versions (json_interchange C).
Proof.
  intros C b s r d H L. cbn in H. apply (C62_decoded_metadata_is_well_formed C Snapshot s) in H as (_ & _ & _ & F).
  rewrite Forall_forall in F. apply lookup_In in L. destruct (F _ L) as (_ & ((V & _) & _)). exact V.
Qed.
Print Assumptions C62_json_versions_are_positive.

Example C62_case :
  verify_signatures json_env Targets (publish_metadata Targets [key_g] jtargets) 1 [key_g] = Ok jtargets /\
  (* a threshold above the number of keys, a repeated id, another role's label *)
  d_metadata checksums Root (tree (e_root (mkRoot 1 new_year false (rm_keys jroot) (mkRoleDef 2 (ids [key_r]))
                                           (rm_snapshot jroot) (rm_targets jroot) (rm_timestamp jroot)))) = None /\
  d_metadata checksums Root (tree (e_root (mkRoot 1 new_year false (rm_keys jroot) (mkRoleDef 2 (ids [key_r; key_r]))
                                           (rm_snapshot jroot) (rm_targets jroot) (rm_timestamp jroot)))) = None /\
  d_metadata checksums Snapshot (tree (e_metadata Timestamp jtimestamp)) = None.
Proof. split; [|split; [|split]]; vm_compute; reflexivity. Qed.

(** Everything a client can come to trust is well formed. *)
Theorem C62_trusted_metadata_is_well_formed :
  forall (C : crypto) (o : hash_order) (t : tuf), reachable (mkEnv C o (json_interchange C)) t ->
  wf_root C (t_root t) /\
  (forall m, t_timestamp t = Some m -> wf_timestamp m) /\
  (forall m, t_snapshot t = Some m -> wf_snapshot m) /\
  (forall m, t_targets t = Some m -> wf_targets C m) /\
  (forall r m, lookup r (t_delegations t) = Some m -> wf_targets C m).
Proof.
  intros C o t R. set (E := mkEnv C o (json_interchange C)) in *.
  assert (A : forall r raw th ks (m : metadata_of r), authentic E r raw th ks m -> wf_metadata C r m).
  { intros r raw th ks m H. apply verify_signatures_iff in H. eapply C62_verified_metadata_is_well_formed; exact H. }
  destruct (reachable_inv _ _ R) as (_ & (S1 & S2 & S3) & _). destruct R as (t0 & ops & I & ->).
  split; [|split; [|split; [|split]]].
  - destruct (run_chain E ops t0) as (n & CH). inversion CH; subst.
    + destruct I as [(raw & th & ks & H)|(raw & H)].
      * apply from_keys_iff in H as (r & H & _ & ->). apply (A Root _ _ _ _ H).
      * apply from_trusted_iff in H as (a & b & c & r & _ & _ & H & ->). apply (A Root _ _ _ _ H).
    + match goal with H : root_step _ _ _ _ |- _ => destruct H as (H & _); apply (A Root _ _ _ _ H) end.
  - intros m H. destruct (S1 m H) as (raw & T). apply (A Timestamp _ _ _ _ T).
  - intros m H. destruct (S2 m H) as (raw & T). apply (A Snapshot _ _ _ _ T).
  - intros m H. destruct (S3 m H) as (raw & T). apply (A Targets _ _ _ _ T).
  - intros r m H. apply delegation_origin in H as (bf & c & p & raw & af & _ & (d & (_ & s & g & q & H) & _) & _).
    + destruct H as (_ & _ & _ & _ & _ & _ & _ & ds & dg & _ & _ & H). apply (A Targets _ _ _ _ H).
    + apply initial_shape in I as (r0 & ->). reflexivity.
Qed.
Print Assumptions C62_trusted_metadata_is_well_formed.

Definition jtuf : tuf :=
  run json_env (tuf_of_root jroot)
    [OpTimestamp c50 (publish_metadata Timestamp [key_t] jtimestamp); OpSnapshot c50 (publish_metadata Snapshot [key_s] jsnapshot);
     OpTargets c50 (publish_metadata Targets [key_g] jtargets)].
Example C62_case_trusted :
  reachable json_env jtuf /\ t_timestamp jtuf = Some jtimestamp /\ t_snapshot jtuf = Some jsnapshot /\
  t_targets jtuf = Some jtargets.
Proof.
  split; [|split; [|split]; vm_compute; reflexivity].
  exists (tuf_of_root jroot),
    [OpTimestamp c50 (publish_metadata Timestamp [key_t] jtimestamp); OpSnapshot c50 (publish_metadata Snapshot [key_s] jsnapshot);
     OpTargets c50 (publish_metadata Targets [key_g] jtargets)].
  split; [|unfold jtuf; reflexivity]. right. exists (publish_metadata Root [key_r] jroot). vm_compute. reflexivity.
Qed.

(** ** C63: repeated names *)

(** The full claim is that verification rejects signed documents that list a key (or a
    file) twice.  Reading such a document straight into its type does reject it. *)
Theorem C63_duplicates_are_rejected_by_from_slice_partial :
  forall (C : crypto) (t : bytes) (mem : list (string * json)),
  document t (JObj mem) ->
  (forall ks, lookup "keys" mem = Some (JObj ks) -> ~ NoDup (map fst ks) ->
     forall m, json_from_slice (d_metadata C Root) t <> Ok m) /\
  (forall ms, lookup "meta" mem = Some (JObj ms) -> ~ NoDup (map fst ms) ->
     forall m, json_from_slice (d_metadata C Snapshot) t <> Ok m) /\
  (forall ds ks, lookup "delegations" mem = Some (JObj ds) -> lookup "keys" ds = Some (JObj ks) ->
     ~ NoDup (map fst ks) ->
     forall m, json_from_slice (d_metadata C Targets) t <> Ok m).
Proof.
  intros C t mem D.
  assert (G : forall r m, json_from_slice (d_metadata C r) t = Ok m -> d_metadata C r (JObj mem) = Some m).
  { intros r m H. apply from_slice_Ok in H as (j & P & H). apply parse_sound in P.
    rewrite (document_unique _ _ _ D P). exact H. }
  split; [|split].
  - intros ks L N m H. apply G in H. apply N. eapply root_names_unique; eassumption.
  - intros ms L N m H. apply G in H. apply N. eapply snapshot_names_unique; eassumption.
  - intros ds ks L1 L2 N m H. apply G in H. apply N. eapply delegation_names_unique; eassumption.
Qed.
Print Assumptions C63_duplicates_are_rejected_by_from_slice_partial.

(** Verification decodes, and checks the signatures of, a value in which no object
    repeats a name: the last entry of the text counts, for both. *)
Theorem C63_verified_content_is_unambiguous_partial :
  forall (C : crypto) (o : hash_order) (r : role) (raw : bytes) (t : N) (keys : list public_key) (m : metadata_of r),
  verify_signatures (mkEnv C o (json_interchange C)) r raw t keys = Ok m ->
  exists j sigs v, document raw j /\ d_signed j = Some (sigs, v) /\ in_order v /\
    threshold_met C keys sigs (write v) t /\ json_deserialize (d_metadata C r) v = Ok m.
Proof.
  intros C o r raw t keys m H. apply verify_signatures_iff in H as (_ & s & v & msg & A1 & A2 & A3 & A4). cbn in *.
  pose proof A1 as A0. apply envelope_raw in A0 as [F E]. apply from_slice_Ok in A1 as (j & P & D).
  apply canonicalize_Ok in A2 as [_ ->]. rewrite E in *. exists j, s, v.
  split; [now apply parse_sound|]. split; [exact D|]. split; [rewrite <- E; apply to_value_normal|].
  split; [exact A3|]. unfold json_from_slice in A4. rewrite (write_again _ F) in A4. exact A4.
Qed.
Print Assumptions C63_verified_content_is_unambiguous_partial.

(** A root that lists a key twice, first under its id with the key of a stranger.  The
    text alone is refused, the same text signed is accepted. *)
Definition twice_root : json :=
  match tree (e_root jroot) with
  | JObj mem => JObj (map (fun kv => if String.eqb (fst kv) "keys" then
        match snd kv with
        | JObj ks => ("keys", JObj ((pk_id key_r, JStr "no key at all") :: ks))
        | _ => kv
        end else kv) mem)
  | j => j
  end.
Theorem C63_duplicates_in_signed_documents_refuted :
  exists (C : crypto) (o : hash_order) raw t j sigs_json mem ks,
    from_trusted_root (mkEnv C o (json_interchange C)) raw = Ok t /\
    document raw (JObj [("signatures", sigs_json); ("signed", j)]) /\
    j = JObj mem /\ lookup "keys" mem = Some (JObj ks) /\ ~ NoDup (map fst ks) /\
    json_from_slice (d_metadata C Root) (write j) = Err Encoding.
Proof.
  exists checksums, id_order, (publish [key_r] twice_root).
  do 5 eexists. split; [vm_compute; reflexivity|].
  split; [apply parse_sound; vm_compute; reflexivity|].
  split; [reflexivity|]. split; [vm_compute; reflexivity|]. split; [|vm_compute; reflexivity].
  intros N. cbn in N. inversion N as [|? ? X _]; subst. apply X. left. reflexivity.
Qed.
Print Assumptions C63_duplicates_in_signed_documents_refuted.

(** Texts with a repeated name, and a signed document that passes. *)
Example C63_case :
  (exists mem ks, document (write twice_root) (JObj mem) /\ lookup "keys" mem = Some (JObj ks) /\ ~ NoDup (map fst ks)) /\
  (exists mem ms, document "{""meta"":{""a"":1,""a"":2}}" (JObj mem) /\ lookup "meta" mem = Some (JObj ms) /\ ~ NoDup (map fst ms)) /\
  is_ok (verify_signatures (mkEnv checksums id_order (json_interchange checksums)) Root (publish [key_r] twice_root) 1 [key_r]) = true.
Proof.
  split; [|split; [|vm_compute; reflexivity]].
  - do 2 eexists. split; [apply parse_sound; vm_compute; reflexivity|]. split; [vm_compute; reflexivity|].
    intros N. cbn in N. inversion N as [|? ? X _]; subst. apply X. left. reflexivity.
  - do 2 eexists. split; [apply parse_sound; vm_compute; reflexivity|]. split; [vm_compute; reflexivity|].
    intros N. cbn in N. inversion N as [|? ? X _]; subst. apply X. left. reflexivity.
Qed.

(** ** C05: different keys *)

(** The full claim is that [t] different keys (key bytes) signed.  It holds if no two
    listed keys share their bytes while differing in type, scheme or
    keyid_hash_algorithms. *)
Theorem C05_threshold_needs_different_keys_partial :
  forall (E : env) (r : role) (raw : bytes) (t : N) (keys : list public_key) (m : metadata_of r),
  verify_signatures E r raw t keys = Ok m ->
  (* as for all keys out of metadata, see C62 and C66 *)
  (forall k, In k keys -> own_id (e_crypto E) k /\ portable k) ->
  (forall k k', In k keys -> In k' keys -> pk_value k = pk_value k' ->
     pk_typ k = pk_typ k' /\ pk_scheme k = pk_scheme k' /\ pk_kha k = pk_kha k') ->
  exists sigs signed msg values,
    ic_envelope (e_ic E) raw = Ok (sigs, signed) /\ ic_canonicalize (e_ic E) signed = Ok msg /\
    NoDup values /\ N.of_nat (length values) = t /\
    forall v, In v values -> exists k s, In k keys /\ pk_value k = v /\ In s sigs /\
      ring_verify (e_crypto E) (pk_scheme k) v msg (sig_value s) = true.
Proof.
  intros E r raw t keys m H O D. apply verify_signatures_iff in H as (_ & sigs & signed & msg & H2 & H3 & (ids & ND & L & G) & _).
  assert (X : exists ks, map pk_id ks = ids /\ forall k, In k ks -> exists s, In k keys /\ In s sigs /\ valid_under (e_crypto E) k msg s).
  { clear L ND. induction ids as [|i ids IH]; [exists []; split; [reflexivity|intros k []]|].
    destruct IH as (ks & <- & F); [intros; apply G; now right|].
    destruct (G i ltac:(now left)) as (k & s & (k1 & k2 & Ek & Ei & _) & (s1 & s2 & Es & _ & _) & V).
    exists (k :: ks). split; [cbn; congruence|]. intros k' [<-|I]; [|auto]. exists s. split; [|split; [|exact V]].
    - rewrite Ek. apply in_or_app. right. now left.
    - rewrite Es. apply in_or_app. right. now left. }
  destruct X as (ks & <- & F). exists sigs, signed, msg, (map pk_value ks). split; [exact H2|]. split; [exact H3|].
  split; [|split; [now rewrite map_length in *|]].
  - clear L G. induction ks as [|k ks IH]; cbn in *; constructor; inversion ND as [|? ? N1 N2]; subst; auto.
    intros I. apply N1. apply in_map_iff in I as (k' & Ev & I). apply in_map_iff. exists k'. split; [|exact I].
    destruct (F k ltac:(auto)) as (_ & K & _). destruct (F k' ltac:(auto)) as (_ & K' & _).
    destruct (D k' k K' K Ev) as (D1 & D2 & D3).
    assert (k' = k); [|congruence].
    destruct (O k K) as [O1 _]. destruct (O k' K') as [O2 P2].
    apply (own_id_unique (e_crypto E)); auto. eapply portable_fits; exact P2.
  - intros v I. apply in_map_iff in I as (k & <- & I). destruct (F k I) as (s & K & S & _ & V). eauto 10.
Qed.
Print Assumptions C05_threshold_needs_different_keys_partial.

Example C05_case :
  let keys := [key_r; key_s; key_g] in
  verify_signatures json_env Root (publish_metadata Root [key_r; key_g] jroot) 2 keys = Ok jroot /\
  (forall k, In k keys -> own_id checksums k /\ portable k) /\
  (forall k k', In k keys -> In k' keys -> pk_value k = pk_value k' ->
     pk_typ k = pk_typ k' /\ pk_scheme k = pk_scheme k' /\ pk_kha k = pk_kha k').
Proof.
  split; [vm_compute; reflexivity|]. split.
  - intros k I. assert (W : wf_metadata checksums Root jroot).
    { eapply (proj1 (C62_decoded_metadata_is_well_formed checksums Root jroot)). apply (proj1 C61_case_other_roles). }
    destruct W as (_ & _ & (_ & W) & _). rewrite Forall_forall in W.
    assert (J : In (pk_id k, k) (rm_keys jroot)).
    { destruct I as [<-|[<-|[<-|[]]]]; vm_compute; auto 10. }
    apply W in J. tauto.
  - intros k k' [<-|[<-|[<-|[]]]] [<-|[<-|[<-|[]]]] _; vm_compute; repeat split; reflexivity.
Qed.

(** One key pair, listed twice: with and without keyid_hash_algorithms.  The same
    signature under both ids satisfies a threshold of two. *)
Definition one_key : public_key := ed_key "X".
Definition again_key : public_key := some_key (from_ed25519_with checksums (material "X") (Some ["sha256"; "sha512"])).
Definition one_key_root : root_metadata :=
  mkRoot 1 new_year false (key_table [one_key; again_key; key_s; key_g; key_t])
    (mkRoleDef 2 (ids [one_key; again_key])) (mkRoleDef 1 (ids [key_s])) (mkRoleDef 1 (ids [key_g])) (mkRoleDef 1 (ids [key_t])).
Theorem C05_one_key_pair_reaches_a_threshold_of_two_refuted :
  exists (C : crypto) (o : hash_order) raw t sigs signed kv sv,
    from_trusted_root (mkEnv C o (json_interchange C)) raw = Ok t /\
    rd_threshold (rm_root (t_root t)) = 2%N /\
    (forall k, In k (root_keys (t_root t)) -> pk_value k = kv /\ pk_scheme k = Ed25519 /\ String.length kv = 32) /\
    ic_envelope (json_interchange C) raw = Ok (sigs, signed) /\
    (forall s, In s sigs -> sig_value s = sv).
Proof.
  exists checksums, id_order, (publish_metadata Root [one_key; again_key] one_key_root).
  exists (tuf_of_root one_key_root). do 2 eexists. exists (material "X"). eexists.
  split; [vm_compute; reflexivity|]. split; [reflexivity|]. split.
  - assert (K : root_keys (t_root (tuf_of_root one_key_root)) = [again_key; one_key]) by (vm_compute; reflexivity).
    rewrite K. intros k [<-|[<-|[]]]; vm_compute; repeat split; reflexivity.
  - split; [vm_compute; reflexivity|]. intros s [<-|[<-|[]]]; reflexivity.
Qed.
Print Assumptions C05_one_key_pair_reaches_a_threshold_of_two_refuted.
