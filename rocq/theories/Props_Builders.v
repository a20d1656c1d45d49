(** * C67, C69, C71, C73: making and signing metadata *)
From Coq Require Import String Ascii List NArith ZArith Bool Lia.
From Verif Require Import Base BaseFacts JsonValue JsonText SpecJson JsonProofs Metadata Verify Tuf SpecVerify VerifyProofs SpecTuf TufProofs
     SpecPaths Reader SpecReader ReaderProofs Props_Reader Codec Dates SpecDates DateProofs Serde Keys Shims SpecKeys SpecMeta ShimsProofs
     TextProofs JsonLayer Builders SpecBuilders BuilderProofs Props_Tuf Props_Json KeyToy Toy JsonToy.
Import ListNotations.
Open Scope nat_scope.
Open Scope string_scope.

(** ** C67: one signature per key *)

(** Holds for documents that were not read from a file.  The full claim allows any
    document as the argument of merge_signatures; see the refutation. *)
Theorem C67_one_signature_per_key_partial :
  forall (C : crypto) (r : role) (raw : json) (ks : list private_key) (s : signed_metadata),
  made C r raw ks s ->
  sg_raw s = raw /\
  NoDup (map sig_keyid (sg_sigs s)) /\
  (* every key that signed is represented *)
  (forall i, In i (map sig_keyid (sg_sigs s)) <-> exists k, In k ks /\ pk_id (sk_public k) = i) /\
  (* and all signatures are for the canonical bytes of the content *)
  (forall x, In x (sg_sigs s) -> exists k rnd b, In k ks /\ sig_keyid x = pk_id (sk_public k) /\
     canonicalize raw = Ok b /\ sk_sign k rnd b = Ok (sig_value x)).
Proof.
  intros C r raw ks s M. apply made_inv in M as (R & _ & _ & N & G1 & G2). split; [exact R|]. split; [exact N|]. split; [|exact G1].
  intros i. split.
  - intros I. apply in_map_iff in I as (x & <- & I). destruct (G1 x I) as (k & _ & _ & Ik & E & _). eauto.
  - intros (k & Ik & <-). now apply G2.
Qed.
Print Assumptions C67_one_signature_per_key_partial.

(** For any document, read from a file or not. *)
Theorem C67_add_signature_replaces :
  forall (s : signed_metadata) (k : private_key) (rnd : N) (s' : signed_metadata),
  (add_signature s k rnd = (s', Ok tt) ->
   sg_raw s' = sg_raw s /\
   exists b v, canonicalize (sg_raw s) = Ok b /\ sk_sign k rnd b = Ok v /\
   forall x, In x (sg_sigs s') <->
     (x = mkSig (pk_id (sk_public k)) v \/ (In x (sg_sigs s) /\ sig_keyid x <> pk_id (sk_public k)))) /\
  (forall e, add_signature s k rnd = (s', Err e) -> s' = s) /\
  (NoDup (map sig_keyid (sg_sigs s)) -> NoDup (map sig_keyid (sg_sigs (fst (add_signature s k rnd))))).
Proof.
  intros s k rnd s'.
  assert (F : forall x l, In x (filter (fun x => negb (String.eqb (sig_keyid x) (pk_id (sk_public k)))) l) <->
     In x l /\ sig_keyid x <> pk_id (sk_public k)).
  { intros x l. rewrite filter_In, negb_true_iff, String.eqb_neq. reflexivity. }
  split; [|split].
  - intros H. apply add_Ok in H as (b & v & K & V & ->). cbn. split; [reflexivity|]. exists b, v. split; [exact K|]. split; [exact V|].
    intros x. rewrite in_app_iff, F. cbn. intuition congruence.
  - intros e H. now apply add_Err in H.
  - intros N. destruct (add_signature s k rnd) as [s1 [[]|e]] eqn:H; cbn.
    + apply add_Ok in H as (b & v & K & V & ->). cbn. rewrite map_app.
      apply NoDup_app_ids; [now apply filter_NoDup_ids|repeat constructor; intros []|].
      intros i I J. destruct J as [<-|[]]. cbn in I. apply in_map_iff in I as (x & E & I). apply F in I as [_ I]. congruence.
    + apply add_Err in H. now subst.
Qed.
Print Assumptions C67_add_signature_replaces.

Theorem C67_merge_signatures :
  forall (s other s' : signed_metadata) (res : result unit),
  merge_signatures s other = (s', res) ->
  (sg_raw s <> sg_raw other -> res = Err IllegalArgument /\ s' = s) /\
  (sg_raw s = sg_raw other -> res = Ok tt /\ sg_raw s' = sg_raw s /\
   (forall x, In x (sg_sigs s') <->
      (In x (sg_sigs s) \/ (In x (sg_sigs other) /\ ~ In (sig_keyid x) (map sig_keyid (sg_sigs s))))) /\
   (NoDup (map sig_keyid (sg_sigs s)) -> NoDup (map sig_keyid (sg_sigs other)) ->
    NoDup (map sig_keyid (sg_sigs s')))).
Proof.
  intros s other s' res H. apply merge_cases in H as [(E & -> & E2 & Es)|(E & -> & ->)]; (split; [|]); intros E'; try contradiction; auto.
  split; [reflexivity|]. split; [exact E2|]. rewrite Es.
  assert (F : forall x, In x (filter (fun x => negb (mem (sig_keyid x) (map sig_keyid (sg_sigs s)))) (sg_sigs other)) <->
     In x (sg_sigs other) /\ ~ In (sig_keyid x) (map sig_keyid (sg_sigs s))).
  { intros x. rewrite filter_In, negb_true_iff, mem_not_In. reflexivity. }
  split.
  - intros x. rewrite in_app_iff, F. reflexivity.
  - intros N N'. rewrite map_app. apply NoDup_app_ids; [exact N|now apply filter_NoDup_ids|]. intros i I J.
    apply in_map_iff in J as (x & Ex & J). apply F in J as [_ J]. apply J. now rewrite Ex.
Qed.
Print Assumptions C67_merge_signatures.

(** Keys for the examples; the randomness is ignored. *)
Definition toy_private (k : public_key) : private_key := mkPrivate k (fun _ msg => Ok (sig_value (sign_with k msg))).
Definition sk_r := toy_private key_r. Definition sk_t := toy_private key_t. Definition sk_s := toy_private key_s.
Definition sk_g := toy_private key_g. Definition sk_d := toy_private key_d.
Definition the {A} (d : A) (r : result A) : A := match r with Ok a => a | Err _ => d end.
Definition no_doc : signed_metadata := mkSigned [] JNull.
Definition value_of (r : role) (m : metadata_of r) : json := the JNull (json_serialize (e_metadata r m)).
Definition one_by (r : role) (m : metadata_of r) (k : private_key) : signed_metadata := the no_doc (signed_new r m k 0).

Example C67_case :
  let s := one_by Timestamp jtimestamp sk_t in
  let s1 := fst (add_signature (fst (add_signature s sk_s 0)) sk_t 1) in
  let s2 := fst (merge_signatures s1 (one_by Timestamp jtimestamp sk_r)) in
  made checksums Timestamp (value_of Timestamp jtimestamp) [sk_t; sk_s; sk_t; sk_r] s2 /\
  map sig_keyid (sg_sigs s2) = [pk_id key_s; pk_id key_t; pk_id key_r] /\
  snd (merge_signatures s1 (one_by Snapshot jsnapshot sk_r)) = Err IllegalArgument.
Proof.
  intros s s1 s2. split; [|split; vm_compute; reflexivity].
  change [sk_t; sk_s; sk_t; sk_r] with (if is_ok (Ok tt) then ([sk_t; sk_s; sk_t] ++ [sk_r])%list else [sk_t; sk_s; sk_t]).
  apply (ma_merge checksums Timestamp (value_of Timestamp jtimestamp) [sk_t; sk_s; sk_t] s1 (value_of Timestamp jtimestamp) [sk_r]
           (one_by Timestamp jtimestamp sk_r)).
  - apply (ma_add _ _ _ _ (fst (add_signature s sk_s 0)) _ 1%N); [apply (ma_add _ _ _ _ s _ 0%N)|].
    + apply (ma_new checksums Timestamp _ jtimestamp _ 0%N); vm_compute; reflexivity.
    + vm_compute; reflexivity.
    + vm_compute; reflexivity.
  - apply (ma_new checksums Timestamp _ jtimestamp _ 0%N); vm_compute; reflexivity.
  - vm_compute; reflexivity.
Qed.

(** Merging a document that was read from a file and repeats an id. *)
Theorem C67_one_signature_per_key_refuted :
  exists (C : crypto) (m : timestamp_metadata) (k : private_key) (s other s' : signed_metadata) (file : bytes),
    signed_new Timestamp m k 0 = Ok s /\
    json_from_slice d_signed file = Ok (sg_sigs other, sg_raw other) /\
    merge_signatures s other = (s', Ok tt) /\
    ~ NoDup (map sig_keyid (sg_sigs s')).
Proof.
  exists checksums, jtimestamp, sk_t, (one_by Timestamp jtimestamp sk_t).
  exists (mkSigned [sign_with key_r ""; sign_with key_r ""] (value_of Timestamp jtimestamp)). eexists.
  exists (write (e_signed [sign_with key_r ""; sign_with key_r ""] (value_of Timestamp jtimestamp))).
  split; [vm_compute; reflexivity|]. split; [vm_compute; reflexivity|]. split; [vm_compute; reflexivity|].
  intros N. cbn [map sg_sigs] in N. inversion N as [|? ? _ N2]; subst. inversion N2 as [|? ? X _]; subst. apply X. left. reflexivity.
Qed.
Print Assumptions C67_one_signature_per_key_refuted.

(** ** C69: descriptions of signed documents *)

(** The full claim is the first part for both formats; it holds for [Json]. *)
Theorem C69_descriptions_match_the_bytes_partial :
  forall (C : crypto) (s : signed_metadata) (algs : list hash_alg) (d : meta_desc),
  (describe_signed C FJson s algs = Ok d ->
   exists b, to_raw s = Ok b /\ describes C b algs (md_length d) (md_hashes d) /\
     (forall r m, assume_valid C r s = Ok m -> md_version d = version_of r m) /\
     (* a client that fetches these bytes, in whatever pieces, accepts them *)
     forall rs, contains rs b None ->
       exists alg v c, hash_preference (md_hashes d) = Ok (alg, v) /\
         safe_new (md_length d) (Some (alg, v)) = Ok c /\ read_to_end C c rs "" = Ok b) /\
  (* for the pretty format: the bytes that JsonPretty::to_writer gives *)
  (describe_signed C FPretty s algs = Ok d ->
   exists b, pretty_to_writer (Some (e_signed (sg_sigs s) (sg_raw s))) = Ok b /\
     describes C b algs (md_length d) (md_hashes d) /\
     (forall r m, assume_valid C r s = Ok m -> md_version d = version_of r m)).
Proof.
  intros C s algs d.
  assert (G : forall f, describe_signed C f s algs = Ok d ->
    exists b, write_signed f s = Ok b /\ describes C b algs (md_length d) (md_hashes d) /\ wf_desc d /\
      (forall r m, assume_valid C r s = Ok m -> md_version d = version_of r m)).
  { intros f H. apply describe_signed_Ok in H as (b & B & V & D & W). exists b. split; [exact B|]. split; [exact D|]. split; [exact W|].
    intros r m A. unfold parse_version_untrusted in V. unfold assume_valid in A. apply deserialize_Ok in V, A.
    exact (proj1 (version_decoded C r _ _ A) _ V). }
  split; intros H; apply G in H as (b & B & D & W & V); exists b.
  - split; [exact B|]. split; [exact D|]. split; [exact V|]. intros rs CO. destruct D as (L & HL). destruct W as (_ & S & WH).
    assert (P : exists alg, hash_preference (md_hashes d) = Ok (alg, ring_digest C alg b) /\ (alg = Sha256 \/ alg = Sha512)).
    { destruct C70_strongest_hash with (hashes := md_hashes d) as (P1 & P2 & _).
      pose proof (HL Sha512) as H5. pose proof (HL Sha256) as H2.
      destruct (mem Sha512 algs); [exists Sha512; split; [apply P1; exact H5|auto]|].
      destruct (mem Sha256 algs); [exists Sha256; split; [apply P2; assumption|auto]|].
      exfalso. inversion WH as [x E|x E|x y E]; rewrite <- E in *; discriminate. }
    destruct P as (alg & P & A). exists alg, (ring_digest C alg b).
    assert (exists c, safe_new (md_length d) (Some (alg, ring_digest C alg b)) = Ok c) as (c & Nc).
    { apply safe_new_ok. intros x v E'. inversion E'; subst. destruct A; discriminate. }
    exists c. split; [exact P|]. split; [exact Nc|]. apply (read_to_end_ok C _ _ _ _ _ Nc).
    split; [exact CO|]. split; [unfold length_ok; lia|]. unfold size_ok in S. split; [unfold length_ok, u64_max; lia|]. reflexivity.
  - split; [exact B|]. split; [exact D|exact V].
Qed.
Print Assumptions C69_descriptions_match_the_bytes_partial.

(** They are always found, for known algorithms and documents of less than 2^64 bytes. *)
Theorem C69_descriptions_exist :
  forall (C : crypto) (r : role) (m : metadata_of r) (raw : json) (ks : list private_key) (s : signed_metadata)
         (algs : list hash_alg) (f : format) (b : bytes),
  made C r raw ks s -> json_serialize (e_metadata r m) = Ok raw -> (exists m', json_deserialize (d_metadata C r) raw = Ok m') ->
  algs <> [] -> (forall a, In a algs -> a = Sha256 \/ a = Sha512) ->
  write_signed f s = Ok b -> (N.of_nat (String.length b) <= 18446744073709551615)%N ->
  exists d, describe_signed C f s algs = Ok d.
Proof.
  intros C r m raw ks s algs f b M E (m' & D) A1 A2 B L. apply made_inv in M as (R & _).
  assert (O : exists mem, raw = JObj mem).
  { unfold json_serialize in E. destruct (e_metadata r m) as [j|] eqn:EJ; [|discriminate]. inversion E; subst raw.
    assert (J : exists mem, j = JObj mem).
    { destruct r; cbn in EJ; unfold e_root, e_snapshot, e_targets, e_timestamp in EJ;
        repeat match type of EJ with obind ?x _ = _ => destruct x; [cbn [obind] in EJ|discriminate] end; inversion EJ; eauto. }
    destruct J as (mem & ->). rewrite to_value_obj in *. eauto. }
  destruct O as (mem & O). apply deserialize_Ok in D. pose proof (proj2 (version_decoded C r _ _ D) mem O) as V.
  unfold describe_signed. rewrite B. cbn [rbind]. unfold parse_version_untrusted, json_deserialize. rewrite R, V. cbn [decoded rbind].
  destruct (C68_descriptions_describe C (slice_stream b) algs b (slice_contains b)) as (_ & _ & X & _).
  destruct (X A1 A2) as [_ Y]. destruct (Y (version_of r m')) as (d & Z).
  - apply metadata_wf in D. destruct r; apply D.
  - exact L.
  - unfold describe. rewrite Z. cbn. eauto.
Qed.
Print Assumptions C69_descriptions_exist.

Definition jraw (s : signed_metadata) : bytes := the "" (to_raw s).
Definition no_desc : meta_desc := mkMetaDesc 0 0 [].
Example C69_case :
  let s := one_by Snapshot jsnapshot sk_s in
  let d := the no_desc (describe_signed checksums FJson s [Sha512; Sha256]) in
  describe_signed checksums FJson s [Sha512; Sha256] = Ok d /\ md_version d = 2%N /\
  md_hashes d = [(Sha256, digest 1 (jraw s)); (Sha512, digest 2 (jraw s))] /\ length (md_hashes d) = 2 /\
  assume_valid checksums Snapshot s = Ok jsnapshot.
Proof. split; [|split; [|split; [|split]]]; vm_compute; reflexivity. Qed.

(** With [JsonPretty] the description is about other bytes than [to_raw] produces. *)
Theorem C69_descriptions_match_the_bytes_refuted :
  exists (C : crypto) (m : snapshot_metadata) (k : private_key) s algs d b,
    signed_new Snapshot m k 0 = Ok s /\ describe_signed C FPretty s algs = Ok d /\ to_raw s = Ok b /\
    md_length d <> N.of_nat (String.length b) /\ lookup Sha256 (md_hashes d) <> Some (ring_digest C Sha256 b).
Proof.
  exists checksums, jsnapshot, sk_s, (one_by Snapshot jsnapshot sk_s), [Sha256]. do 2 eexists.
  split; [vm_compute; reflexivity|]. split; [vm_compute; reflexivity|]. split; [vm_compute; reflexivity|].
  split; vm_compute; discriminate.
Qed.
Print Assumptions C69_descriptions_match_the_bytes_refuted.

(** ** C71: what the builders build can be read back *)

(** For roots: exactly if no role lists the same key twice.  The expiry date loses its
    fraction of a second, and must be in a year a file can name. *)
Theorem C71_built_roots_decode_partial :
  forall (C : crypto) (start : root_builder) (ops : list root_op) (m : root_metadata) (z : Z),
  (exists now, start = rb_new now) \/ (exists m0, wf_root C m0 /\ start = rb_from m0) ->
  Forall (good_root_op C) ops ->
  rb_build (fold_left rb_apply ops start) = Ok m ->
  second_of (rm_expires m) z -> plain_time z ->
  exists v, json_serialize (e_metadata Root m) = Ok v /\
   (distinct_keys m <-> exists m', json_deserialize (d_metadata C Root) v = Ok m') /\
   forall m', json_deserialize (d_metadata C Root) v = Ok m' -> m' = set_expiry Root z m.
Proof.
  intros C start ops m z S G B Z P.
  assert (O : rb_ok C (fold_left rb_apply ops start)).
  { apply rb_run_ok; [|exact G]. destruct S as [(now & ->)|(m0 & W & ->)]; [apply rb_new_ok|now apply rb_from_ok]. }
  assert (X : distinct_keys m -> exists v, json_serialize (e_metadata Root m) = Ok v /\
     json_deserialize (d_metadata C Root) v = Ok (set_expiry Root z m)).
  { intros D. apply written; [exists z; auto|]. apply (rb_build_wf C _ m z O B D P). }
  assert (Y : exists j, e_root m = Some j).
  { apply rb_build_Ok in B as (-> & _). unfold e_root. cbn [rm_keys].
    destruct O as (_ & SO & F & _).
    destruct (d_keys_e C (rb_keys (fold_left rb_apply ops start))) as (j & E & _).
    { split; [now apply sorted_increasing|]. revert F. apply Forall_impl. intros ik (E & A & A2 & A3). rewrite E. auto. }
    rewrite E. cbn. eauto. }
  destruct Y as (j & E). exists (to_value j). cbn [e_metadata]. unfold json_serialize at 1. rewrite E. split; [reflexivity|].
  assert (U : distinct_keys m -> json_deserialize (d_metadata C Root) (to_value j) = Ok (set_expiry Root z m)).
  { intros D. destruct (X D) as (v & V & W). unfold json_serialize in V. cbn in V. rewrite E in V. inversion V; subst. exact W. }
  assert (T : forall m', json_deserialize (d_metadata C Root) (to_value j) = Ok m' -> distinct_keys m).
  { intros m' H. apply deserialize_Ok in H. exact (root_distinct C m j m' E H). }
  split; [split; [intros D; eauto|intros (m' & H); eauto]|]. intros m' H. pose proof (U (T m' H)). congruence.
Qed.
Print Assumptions C71_built_roots_decode_partial.

Theorem C71_built_metadata_decodes :
  forall (C : crypto) (now z : Z),
  (forall s0 algs f b0 ops m, tb_from_snapshot C f now s0 algs = Ok b0 -> Forall good_timestamp_op ops ->
     tb_build (fold_left tb_apply ops b0) = Ok m -> second_of (tm_expires m) z -> plain_time z ->
     exists v, json_serialize (e_metadata Timestamp m) = Ok v /\
               json_deserialize (d_metadata C Timestamp) v = Ok (set_expiry Timestamp z m)) /\
  (forall start ops b m, (start = nb_new now \/ exists m0, wf_snapshot m0 /\ start = nb_from m0) ->
     Forall good_snapshot_op ops -> nb_run C start ops = Ok b ->
     nb_build b = Ok m -> second_of (sm_expires m) z -> plain_time z ->
     exists v, json_serialize (e_metadata Snapshot m) = Ok v /\
               json_deserialize (d_metadata C Snapshot) v = Ok (set_expiry Snapshot z m)) /\
  (forall ops b m, Forall (good_targets_op C) ops -> gb_run C (gb_new now) ops = Ok b ->
     gb_build b = Ok m -> second_of (tg_expires m) z -> plain_time z ->
     exists v, json_serialize (e_metadata Targets m) = Ok v /\
               json_deserialize (d_metadata C Targets) v = Ok (set_expiry Targets z m)).
Proof.
  intros C now z. split; [|split].
  - intros s0 algs f b0 ops m H G B S P. apply written; [exists z; auto|]. unfold tb_from_snapshot in H.
    apply rbind_Ok in H as (d & D & H). inversion H; subst b0. apply describe_signed_Ok in D as (_ & _ & _ & _ & W).
    destruct (tb_run ops (tb_from_description now d)) as [V E]; [cbn; lia|exact G|].
    apply (tb_build_wf _ m z V); [rewrite E; exact W|exact B|exact P].
  - intros start ops b m St G R B S P. apply written; [exists z; auto|]. apply (nb_build_wf b m z); auto.
    eapply nb_run_ok; [|exact G|exact R]. destruct St as [->|(m0 & W & ->)]; [apply nb_new_ok|now apply nb_from_ok].
  - intros ops b m G R B S P. apply written; [exists z; auto|]. apply (gb_build_wf C b m z); auto.
    eapply gb_run_ok; [apply gb_new_ok|exact G|exact R].
Qed.
Print Assumptions C71_built_metadata_decodes.

(** A root builder that is given the same key twice for a role. *)
Theorem C71_built_roots_decode_refuted :
  exists (C : crypto) (ops : list root_op) (m : root_metadata) (v : json),
    Forall (good_root_op C) ops /\ rb_build (fold_left rb_apply ops (rb_new new_year)) = Ok m /\
    json_serialize (e_metadata Root m) = Ok v /\ json_deserialize (d_metadata C Root) v = Err Encoding /\
    (* the document can be signed all the same *)
    exists k s, signed_new Root m k 0 = Ok s.
Proof.
  exists checksums, [RoKey Root key_r; RoKey Root key_r; RoKey Snapshot key_s; RoKey Targets key_g; RoKey Timestamp key_t].
  do 2 eexists. split; [|split; [vm_compute; reflexivity|]; split; [vm_compute; reflexivity|]; split; [vm_compute; reflexivity|]].
  - assert (W : wf_metadata checksums Root jroot).
    { eapply (proj1 (C62_decoded_metadata_is_well_formed checksums Root jroot)). apply (proj1 C61_case_other_roles). }
    destruct W as (_ & _ & (_ & W) & _). rewrite Forall_forall in W.
    assert (J : forall k, In (pk_id k, k) (rm_keys jroot) -> good_key checksums k).
    { intros k I. apply W in I. unfold good_key. cbn in I. tauto. }
    repeat constructor; cbn [good_root_op]; apply J; vm_compute; auto 10.
  - exists sk_r. eexists. vm_compute. reflexivity.
Qed.
Print Assumptions C71_built_roots_decode_refuted.

Example C71_case :
  let ops := [RoVersion 2; RoThreshold Root 2; RoKey Root key_r; RoKey Root key_d; RoKey Snapshot key_s; RoKey Targets key_g;
              RoKey Timestamp key_s; RoConsistent true; RoExpires (new_year + 5)] in
  exists m, rb_build (fold_left rb_apply ops (rb_new 0)) = Ok m /\ distinct_keys m /\
    second_of (rm_expires m) new_year /\ plain_time new_year /\
    json_deserialize (d_metadata checksums Root) (value_of Root m) = Ok (set_expiry Root new_year m).
Proof.
  eexists. split; [vm_compute; reflexivity|]. split; [|split; [|split; [apply new_year_plain|vm_compute; reflexivity]]].
  - assert (N : forall l : list string, no_repeats l = true -> NoDup l) by (intros l; apply SerdeProofs.no_repeats_NoDup).
    repeat split; apply N; vm_compute; reflexivity.
  - split; [|vm_compute; split; [discriminate|reflexivity]]. exists (new_year / 2000000000)%Z. vm_compute. reflexivity.
Qed.
Example C71_case_others :
  let s0 := one_by Snapshot jsnapshot sk_s in
  (exists b0 m, tb_from_snapshot checksums FJson new_year s0 [Sha256] = Ok b0 /\
     tb_build (fold_left tb_apply [ToVersion 7; ToExpires (new_year + 1)] b0) = Ok m /\
     tm_version m = 7%N /\ md_version (tm_snapshot m) = 2%N) /\
  (exists b m, nb_run checksums (nb_new 0) [NoInsert FJson Targets (one_by Targets jtargets sk_g) [Sha256];
                                          NoInsertPath FJson "alice" (one_by Targets jtargets sk_d) [Sha512]] = Ok b /\
     nb_build b = Ok m /\ map fst (sm_meta m) = ["alice"; "targets"]) /\
  (exists b m, gb_run checksums (gb_new 0) [GoReader "z" [Ready "he"; Ready "llo"] [Sha256]; GoReader "a/b" [] [Sha512]] = Ok b /\
     gb_build b = Ok m /\ map fst (tg_targets m) = ["a/b"; "z"]).
Proof.
  split; [|split].
  - do 2 eexists. split; [vm_compute; reflexivity|]. split; [vm_compute; reflexivity|]. split; reflexivity.
  - do 2 eexists. split; [vm_compute; reflexivity|]. split; [vm_compute; reflexivity|]. reflexivity.
  - do 2 eexists. split; [vm_compute; reflexivity|]. split; [vm_compute; reflexivity|]. reflexivity.
Qed.

(** ** C73: what was made and signed is accepted *)

Theorem C73_signed_documents_verify :
  forall (C : crypto) (o : hash_order) (r : role) (m : metadata_of r) (ks : list private_key) (s : signed_metadata)
         (t : N) (keys : list public_key),
  published C r m ks s -> sufficient t keys ks ->
  exists b, to_raw s = Ok b /\ verify_signatures (mkEnv C o (json_interchange C)) r b t keys = Ok m.
Proof.
  intros C o r m ks s t keys (m0 & raw & A & W & E & F & K & M) (T & S & I).
  destruct (written C r m0 m A W) as (v & V & D). assert (v = raw) as -> by congruence.
  destruct (made_authentic C o r raw ks s m t keys M D F K I T S) as (b & B & X). exists b. split; [exact B|].
  now apply verify_signatures_iff.
Qed.
Print Assumptions C73_signed_documents_verify.

(** The signers suffice for a role of a root. *)
Definition sufficient_for (root : root_metadata) (r : role) (ks : list private_key) : Prop :=
  let d := role_def_of root r in sufficient (rd_threshold d) (listed_keys (rm_keys root) (rd_key_ids d)) ks.

Lemma published_trusted C o root r m ks s : published C r m ks s -> sufficient_for root r ks ->
  exists b, to_raw s = Ok b /\ trusted_by (mkEnv C o (json_interchange C)) root r b m.
Proof.
  intros P S. destruct (C73_signed_documents_verify C o r m ks s _ _ P S) as (b & B & V). exists b. split; [exact B|].
  now apply verify_signatures_iff in V.
Qed.

(** A whole repository: a root, targets, a snapshot that describes the targets and a
    timestamp that describes the snapshot. *)
Theorem C73_built_repository_is_accepted :
  forall (C : crypto) (o : hash_order) mr mt ms mg kr kt ks kg sr st ss sg dg algs_s algs_g (c1 c2 c3 : clock),
  let E := mkEnv C o (json_interchange C) in
  published C Root mr kr sr -> published C Timestamp mt kt st ->
  published C Snapshot ms ks ss -> published C Targets mg kg sg ->
  sufficient_for mr Root kr -> sufficient_for mr Timestamp kt ->
  sufficient_for mr Snapshot ks -> sufficient_for mr Targets kg ->
  describe_signed C FJson ss algs_s = Ok (tm_snapshot mt) ->
  describe_signed C FJson sg algs_g = Ok dg -> lookup "targets" (sm_meta ms) = Some dg ->
  fresh (tm_expires mt) (at_new c1) ->
  fresh (rm_expires mr) (at_root c2) -> fresh (tm_expires mt) (at_timestamp c2) ->
  fresh (rm_expires mr) (at_root c3) -> fresh (sm_expires ms) (at_snapshot c3) -> fresh (tg_expires mg) (at_new c3) ->
  exists br bt bs bg t0 t1 t2,
    to_raw sr = Ok br /\ to_raw st = Ok bt /\ to_raw ss = Ok bs /\ to_raw sg = Ok bg /\
    from_trusted_root E br = Ok t0 /\
    update_timestamp E t0 c1 bt = (t1, Ok (Some mt)) /\
    update_snapshot E t1 c2 bs = (t2, Ok true) /\
    update_targets E t2 c3 bg = (mkTuf mr (Some ms) (Some mg) (Some mt) [], Ok true) /\
    describes C bs algs_s (md_length (tm_snapshot mt)) (md_hashes (tm_snapshot mt)) /\
    describes C bg algs_g (md_length dg) (md_hashes dg).
Proof.
  intros C o mr mt ms mg kr kt ks kg sr st ss sg dg algs_s algs_g c1 c2 c3 E Pr Pt Ps Pg Sr St Ss Sg Ds Dg L F1 F2 F3 F4 F5 F6.
  assert (V : forall r (m : metadata_of r) k s algs d, published C r m k s -> describe_signed C FJson s algs = Ok d ->
     md_version d = version_of r m /\ (1 <= md_version d)%N /\
     exists b, to_raw s = Ok b /\ describes C b algs (md_length d) (md_hashes d)).
  { intros r m k s algs d (m0 & raw & A & W & Es & _ & _ & M) D. pose proof D as D0.
    apply describe_signed_Ok in D0 as (_ & _ & _ & _ & ((V1 & _) & _)).
    apply C69_descriptions_match_the_bytes_partial in D as (b & B & D & V & _).
    destruct (written C r m0 m A W) as (v & V' & D'). assert (v = raw) as -> by congruence.
    apply made_inv in M as (<- & _). split; [now apply V|]. split; [exact V1|eauto]. }
  destruct (V _ _ _ _ _ _ Ps Ds) as (Vs & Vs1 & bs' & Bs' & Hs). destruct (V _ _ _ _ _ _ Pg Dg) as (Vg & Vg1 & bg' & Bg' & Hg).
  destruct (published_trusted C o mr Root mr kr sr Pr Sr) as (br & Br & Tr).
  destruct (published_trusted C o mr Timestamp mt kt st Pt St) as (bt & Bt & Tt).
  destruct (published_trusted C o mr Snapshot ms ks ss Ps Ss) as (bs & Bs & Ts).
  destruct (published_trusted C o mr Targets mg kg sg Pg Sg) as (bg & Bg & Tg).
  assert (bs' = bs) as -> by congruence. assert (bg' = bg) as -> by congruence.
  fold E in Tr, Tt, Ts, Tg.
  set (t0 := mkTuf mr None None None []). set (t1 := mkTuf mr None None (Some mt) []).
  set (t2 := mkTuf mr (Some ms) None (Some mt) []).
  exists br, bt, bs, bg, t0, t1, t2.
  split; [exact Br|]. split; [exact Bt|]. split; [exact Bs|]. split; [exact Bg|]. split.
  { apply from_trusted_iff. destruct Pr as (m0 & raw & A & W & Es & F & K & M). cbn [e_ic E ic_envelope ic_deserialize json_interchange].
    destruct (made_envelope C Root raw kr sr M F K) as (b & B & Ev). assert (b = br) as -> by congruence.
    destruct (written C Root m0 mr A W) as (v & V' & D'). assert (v = raw) as -> by congruence.
    exists (sg_sigs sr), raw, mr, mr. auto. }
  split.
  { assert (Wv : (1 <= tm_version mt)%N). { destruct Pt as (_ & _ & _ & W & _). apply W. }
    apply (C12_timestamp_rollback E t0). split.
    - split; [exact Tt|]. split; [cbn; lia|exact F1].
    - cbn. unfold t1. destruct (md_version (tm_snapshot mt)); reflexivity. }
  split.
  { assert (A : snapshot_acceptable E t1 c2 bs ms).
    { split; [exact F2|]. exists mt. split; [reflexivity|]. split; [exact F3|]. split; [cbn; lia|]. split; [exact Ts|]. now rewrite Vs. }
    destruct (C13_snapshot_acceptance E t1 c2 bs) as (X & Y). destruct (Y ms A) as (Y1 & Y2 & Y3 & Y4 & Y5).
    destruct (update_snapshot E t1 c2 bs) as [t' res] eqn:U. cbn [fst snd] in *. f_equal; [|apply X; eauto].
    destruct t' as [a b c d e]. unfold t1 in Y2, Y3, Y4, Y5. cbn [t_root t_snapshot t_targets t_timestamp t_delegations lookup] in Y1, Y2, Y3, Y4, Y5.
    assert (c = None) as -> by (rewrite Y4; destruct (_ =? _)%N; reflexivity). subst a b d. unfold t2. f_equal.
    - destruct e as [|[k w] e]; [reflexivity|]. specialize (Y5 k). cbn in Y5. rewrite String.eqb_refl in Y5. discriminate. }
  split.
  { assert (A : targets_acceptable E t2 c3 bg mg).
    { split; [exact F4|]. exists ms, dg. split; [reflexivity|]. split; [exact F5|]. split; [exact L|]. split; [cbn; lia|].
      split; [exact Tg|]. split; [now rewrite Vg|exact F6]. }
    destruct (C14_targets_acceptance E t2 c3 bg) as (X & Y). specialize (Y mg A). 
    destruct (update_targets E t2 c3 bg) as [t' res]. cbn [fst snd] in *. f_equal; [exact Y|apply X; eauto]. }
  auto.
Qed.
Print Assumptions C73_built_repository_is_accepted.

(** The next root, signed by enough keys of the old one and of its own. *)
Theorem C73_built_root_succeeds_the_old_one :
  forall (C : crypto) (o : hash_order) (t : tuf) (m : root_metadata) (ks : list private_key) (s : signed_metadata),
  published C Root m ks s -> sufficient_for (t_root t) Root ks -> sufficient_for m Root ks ->
  rm_version m = (rm_version (t_root t) + 1)%N ->
  exists b, to_raw s = Ok b /\ update_root (mkEnv C o (json_interchange C)) t b = (mkTuf m None None None [], Ok tt).
Proof.
  intros C o t m ks s P S1 S2 V. destruct (published_trusted C o _ Root m ks s P S1) as (b & B & T1).
  destruct (published_trusted C o _ Root m ks s P S2) as (b' & B' & T2). assert (b' = b) as -> by congruence.
  exists b. split; [exact B|]. apply update_root_ok. exists m. split; [|reflexivity]. split; [exact T1|]. split; [exact T2|].
  split; [exact V|]. destruct P as (_ & _ & _ & W & _). destruct W as ((_ & W) & _). unfold u32_max. lia.
Qed.
Print Assumptions C73_built_root_succeeds_the_old_one.

(** Metadata of a delegated role. *)
Theorem C73_built_delegation_is_accepted :
  forall (C : crypto) (o : hash_order) (t : tuf) (c : clock) (parent r : string) (s0 : snapshot_metadata) (g p : targets_metadata)
         (ds : delegations) (d : delegation) (m : targets_metadata) (ks : list private_key) (s : signed_metadata) algs desc,
  let E := mkEnv C o (json_interchange C) in
  t_snapshot t = Some s0 -> t_targets t = Some g -> tg_delegations g <> None -> trusted_parent t parent p ->
  fresh (rm_expires (t_root t)) (at_root c) -> fresh (sm_expires s0) (at_snapshot c) ->
  fresh (tg_expires g) (at_targets c) -> fresh (tg_expires m) (at_new c) ->
  tg_delegations p = Some ds -> first_delegation (dgs_roles ds) r d ->
  published C Targets m ks s -> sufficient (dg_threshold d) (listed_keys (dgs_keys ds) (dg_key_ids d)) ks ->
  describe_signed C FJson s algs = Ok desc -> lookup r (sm_meta s0) = Some desc ->
  (delegation_version t r < tg_version m)%N ->
  exists b, to_raw s = Ok b /\ snd (update_delegation E t c parent r b) = Ok true /\
    lookup r (t_delegations (fst (update_delegation E t c parent r b))) = Some m.
Proof.
  intros C o t c parent r s0 g p ds d m ks s algs desc E Hs Hg Hd Hp F1 F2 F3 F4 Hds Hf P S D L V.
  destruct (C73_signed_documents_verify C o Targets m ks s _ _ P S) as (b & B & X). exists b. split; [exact B|].
  apply verify_signatures_iff in X.
  assert (Ev : tg_version m = md_version desc).
  { apply C69_descriptions_match_the_bytes_partial in D as (_ & _ & _ & Ev & _). destruct P as (m0 & raw & A & W & Es & _ & _ & M).
    destruct (written C Targets m0 m A W) as (v & V' & D'). assert (v = raw) as -> by congruence.
    apply made_inv in M as (<- & _). symmetry. exact (Ev Targets m D'). }
  assert (A : delegation_acceptable E t c parent r b m).
  { exists desc. split; [|split; [lia|split; [exact Ev|exact F4]]]. split; [exact F1|]. exists s0, g, p.
    repeat (split; [assumption|]). exists ds, d. auto. }
  destruct (C15_delegation_acceptance E t c parent r b) as (Y & Z). split; [apply Y; eauto|].
  destruct (Z m A) as (_ & _ & _ & _ & Q). rewrite Q, String.eqb_refl. reflexivity.
Qed.
Print Assumptions C73_built_delegation_is_accepted.

(** A repository made with the builders; the root needs two signatures. *)
Lemma toy_key_works k : In (pk_id k, k) (key_table [key_r; key_t; key_s; key_g; key_d]) -> working_key checksums (toy_private k).
Proof.
  intros I. assert (W : wf_metadata checksums Targets
    (mkTargets 1 new_year [] (Some (mkDelegations (key_table [key_r; key_t; key_s; key_g; key_d]) [jdelegation])))).
  { eapply (proj2 (C62_decoded_metadata_is_well_formed checksums Targets _)) with
      (v := value_of Targets (mkTargets 1 new_year [] (Some (mkDelegations (key_table [key_r; key_t; key_s; key_g; key_d]) [jdelegation])))).
    vm_compute. reflexivity. }
  destruct W as (_ & _ & _ & _ & (_ & (_ & W) & _)). rewrite Forall_forall in W. destruct (W _ I) as (A & B & _).
  split; [exact B|]. split; [exact A|]. split.
  - assert (F : Forall (fun ik => pk_scheme (snd ik) = Ed25519) (key_table [key_r; key_t; key_s; key_g; key_d])).
    { vm_compute. repeat constructor. }
    rewrite Forall_forall in F. specialize (F _ I). cbn [snd] in F. intros x Y. cbn [toy_private sk_public] in Y. rewrite F in Y. discriminate.
  - intros rnd msg v H. cbn [toy_private sk_sign sign_with sig_value] in H. injection H as <-. apply String.eqb_refl.
Qed.

Lemma published_one r (m : metadata_of r) ks s :
  expiry r m = new_year -> Forall (working_key checksums) ks ->
  json_serialize (e_metadata r m) = Ok (value_of r m) -> json_deserialize (d_metadata checksums r) (value_of r m) = Ok m ->
  parse (write (value_of r m)) = Ok (value_of r m) -> Nat.leb (depth (value_of r m)) 126 = true ->
  made checksums r (value_of r m) ks s -> published checksums r m ks s.
Proof.
  intros X K S D P L M. exists m, (value_of r m). split; [|split; [|split; [exact S|split; [|split; [exact K|exact M]]]]].
  - exists new_year. split; [|split; [exact new_year_plain|]].
    + rewrite X. split; [|lia]. exists (new_year / 2000000000)%Z. vm_compute. reflexivity.
    + rewrite <- X. now destruct r, m.
  - now apply (proj2 (C62_decoded_metadata_is_well_formed checksums r m)) in D.
  - split; [eapply parse_holds; exact P|]. now apply Nat.leb_le in L.
Qed.

Definition no_root : root_metadata := mkRoot 0 0 false [] (mkRoleDef 0 []) (mkRoleDef 0 []) (mkRoleDef 0 []) (mkRoleDef 0 []).
Definition c73_root : root_metadata :=
  the no_root (rb_build (fold_left rb_apply [RoThreshold Root 2; RoKey Root key_r; RoKey Root key_d; RoKey Snapshot key_s;
    RoKey Targets key_g; RoKey Timestamp key_t; RoExpires new_year] (rb_new 0))).
Definition c73_targets : targets_metadata :=
  the (mkTargets 0 0 [] None) (rbind (gb_run checksums (gb_new 0)
    [GoVersion 3; GoExpires new_year; GoReader "bin/tool" [Ready "hel"; Ready "lo"] [Sha256]]) gb_build).
Definition c73_snapshot : snapshot_metadata :=
  the (mkSnapshot 0 0 []) (rbind (nb_run checksums (nb_new 0)
    [NoVersion 2; NoExpires new_year; NoInsert FJson Targets (one_by Targets c73_targets sk_g) [Sha256; Sha512]]) nb_build).
Definition c73_timestamp : timestamp_metadata :=
  the (mkTimestamp 0 0 no_desc) (rbind (tb_from_snapshot checksums FJson 0 (one_by Snapshot c73_snapshot sk_s) [Sha256])
    (fun b => tb_build (fold_left tb_apply [ToVersion 7; ToExpires new_year] b))).
Definition c73_signed_root : signed_metadata := fst (add_signature (one_by Root c73_root sk_r) sk_d 0).

Lemma toy_works k : In k [key_r; key_t; key_s; key_g; key_d] -> working_key checksums (toy_private k).
Proof. intros I. apply toy_key_works. cbn [In] in I. repeat (destruct I as [<-|I]; [vm_compute; auto 10|]). destruct I. Qed.

Lemma sufficient_by (t : N) (keys : list public_key) (l : list public_key) :
  N.of_nat (length l) = t -> (1 <= t)%N -> no_repeats (map pk_id keys) = true -> no_repeats (map pk_id l) = true ->
  (forall k, In k l -> In k keys) -> sufficient t keys (map toy_private l).
Proof.
  intros L T N Nl I. split; [exact T|]. split.
  - exists (map pk_id l). split; [now apply SerdeProofs.no_repeats_NoDup|]. split; [now rewrite map_length|].
    intros i J. apply in_map_iff in J as (k & <- & J). exists (toy_private k). split; [now apply in_map|]. split; [reflexivity|]. now apply I.
  - intros k p J P E. apply in_map_iff in J as (q & <- & J). cbn in *. apply SerdeProofs.no_repeats_NoDup in N.
    revert N P E. specialize (I _ J). revert I. clear. induction keys as [|x keys IH]; [intros []|]. cbn.
    intros I N P E. inversion N as [|? ? X Y]; subst.
    destruct I as [->|I], P as [->|P]; [reflexivity| | |now apply IH].
    + exfalso. apply X. rewrite <- E. now apply in_map.
    + exfalso. apply X. rewrite E. now apply in_map.
Qed.

Example C73_case :
  let E := mkEnv checksums id_order (json_interchange checksums) in
  published checksums Root c73_root (map toy_private [key_d; key_r]) c73_signed_root /\
  published checksums Timestamp c73_timestamp (map toy_private [key_t]) (one_by Timestamp c73_timestamp sk_t) /\
  published checksums Snapshot c73_snapshot (map toy_private [key_s]) (one_by Snapshot c73_snapshot sk_s) /\
  published checksums Targets c73_targets (map toy_private [key_g]) (one_by Targets c73_targets sk_g) /\
  sufficient_for c73_root Root (map toy_private [key_d; key_r]) /\ sufficient_for c73_root Timestamp (map toy_private [key_t]) /\
  sufficient_for c73_root Snapshot (map toy_private [key_s]) /\ sufficient_for c73_root Targets (map toy_private [key_g]) /\
  describe_signed checksums FJson (one_by Snapshot c73_snapshot sk_s) [Sha256] = Ok (tm_snapshot c73_timestamp) /\
  (exists dg, describe_signed checksums FJson (one_by Targets c73_targets sk_g) [Sha256; Sha512] = Ok dg /\
     lookup "targets" (sm_meta c73_snapshot) = Some dg) /\
  fresh (rm_expires c73_root) (new_year - 1) /\ fresh (tm_expires c73_timestamp) (new_year - 1) /\
  fresh (sm_expires c73_snapshot) (new_year - 1) /\ fresh (tg_expires c73_targets) (new_year - 1) /\
  (* and the root's second signature is needed *)
  snd (update_root E (mkTuf (mkRoot 0 0 false (rm_keys c73_root) (rm_root c73_root) (rm_snapshot c73_root) (rm_targets c73_root)
         (rm_timestamp c73_root)) None None None []) (jraw c73_signed_root)) = Ok tt /\
  is_ok (from_trusted_root E (jraw (one_by Root c73_root sk_r))) = false.
Proof.
  assert (K : forall l, (forall k, In k l -> In k [key_r; key_t; key_s; key_g; key_d]) -> Forall (working_key checksums) (map toy_private l)).
  { intros l I. apply Forall_forall. intros x J. apply in_map_iff in J as (k & <- & J). apply toy_works, I, J. }
  intros E.
  split. { apply published_one; [vm_compute; reflexivity|apply K; cbn [In]; tauto|vm_compute; reflexivity|vm_compute; reflexivity|vm_compute; reflexivity|vm_compute; reflexivity|].
    apply (ma_add checksums Root _ [sk_r] (one_by Root c73_root sk_r) sk_d 0%N); [|vm_compute; reflexivity].
    apply (ma_new checksums Root _ c73_root _ 0%N); vm_compute; reflexivity. }
  split. { apply published_one; [vm_compute; reflexivity|apply K; cbn [In]; tauto|vm_compute; reflexivity|vm_compute; reflexivity|vm_compute; reflexivity|vm_compute; reflexivity|].
    apply (ma_new checksums Timestamp _ c73_timestamp _ 0%N); vm_compute; reflexivity. }
  split. { apply published_one; [vm_compute; reflexivity|apply K; cbn [In]; tauto|vm_compute; reflexivity|vm_compute; reflexivity|vm_compute; reflexivity|vm_compute; reflexivity|].
    apply (ma_new checksums Snapshot _ c73_snapshot _ 0%N); vm_compute; reflexivity. }
  split. { apply published_one; [vm_compute; reflexivity|apply K; cbn [In]; tauto|vm_compute; reflexivity|vm_compute; reflexivity|vm_compute; reflexivity|vm_compute; reflexivity|].
    apply (ma_new checksums Targets _ c73_targets _ 0%N); vm_compute; reflexivity. }
  assert (Q : forall r l, N.of_nat (length l) = rd_threshold (role_def_of c73_root r) ->
     (1 <= rd_threshold (role_def_of c73_root r))%N ->
     no_repeats (map pk_id (listed_keys (rm_keys c73_root) (rd_key_ids (role_def_of c73_root r)))) = true ->
     no_repeats (map pk_id l) = true ->
     (forall k, In k l -> In k (listed_keys (rm_keys c73_root) (rd_key_ids (role_def_of c73_root r)))) ->
     sufficient_for c73_root r (map toy_private l)) by (intros; now apply sufficient_by).
  split. { apply Q; [vm_compute; reflexivity|vm_compute; discriminate|vm_compute; reflexivity|vm_compute; reflexivity|]. intros k I; cbn [In] in I; repeat (destruct I as [<-|I]; [vm_compute; auto 10|]); destruct I. }
  split. { apply Q; [vm_compute; reflexivity|vm_compute; discriminate|vm_compute; reflexivity|vm_compute; reflexivity|]. intros k I; cbn [In] in I; repeat (destruct I as [<-|I]; [vm_compute; auto 10|]); destruct I. }
  split. { apply Q; [vm_compute; reflexivity|vm_compute; discriminate|vm_compute; reflexivity|vm_compute; reflexivity|]. intros k I; cbn [In] in I; repeat (destruct I as [<-|I]; [vm_compute; auto 10|]); destruct I. }
  split. { apply Q; [vm_compute; reflexivity|vm_compute; discriminate|vm_compute; reflexivity|vm_compute; reflexivity|]. intros k I; cbn [In] in I; repeat (destruct I as [<-|I]; [vm_compute; auto 10|]); destruct I. }
  split; [vm_compute; reflexivity|]. split.
  { exists (the no_desc (describe_signed checksums FJson (one_by Targets c73_targets sk_g) [Sha256; Sha512])).
    split; vm_compute; reflexivity. }
  assert (Fr : forall z, z = new_year -> fresh z (new_year - 1)) by (intros z ->; unfold fresh; lia).
  split; [apply Fr; vm_compute; reflexivity|]. split; [apply Fr; vm_compute; reflexivity|].
  split; [apply Fr; vm_compute; reflexivity|]. split; [apply Fr; vm_compute; reflexivity|].
  split; vm_compute; reflexivity.
Qed.
