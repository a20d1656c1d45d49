(** * Lemmas about the builders *)
From Coq Require Import String Ascii List NArith ZArith Bool Lia Sorted.
From Verif Require Import Base BaseFacts StringFacts Utf8 JsonValue JsonText SpecJson JsonComplete JsonSound JsonProofs Metadata Reader
     SpecReader ReaderProofs SpecVerify Codec SpecCodec CodecProofs Dates DateProofs Serde Keys Shims SerdeProofs SpecKeys KeyProofs
     SpecDates SpecMeta ShimsProofs TextProofs JsonLayer SpecPaths Paths PathProofs Verify VerifyProofs Builders SpecBuilders.
Import ListNotations.
Open Scope nat_scope.
Open Scope string_scope.

Lemma json_eqb_eq a : forall b, json_eqb a b = true <-> a = b.
Proof.
  induction a as [| | | | |l IH|m IH] using json_nested_ind; intros [| | | | |l'|m']; cbn [json_eqb]; try (split; congruence).
  - rewrite Bool.eqb_true_iff. split; congruence.
  - rewrite Z.eqb_eq. split; congruence.
  - rewrite String.eqb_eq. split; congruence.
  - rewrite String.eqb_eq. split; congruence.
  - revert l'. induction IH as [|x l Hx _ IHl]; intros [|y l']; try (split; congruence).
    rewrite andb_true_iff, Hx. specialize (IHl l'). rewrite IHl. split; [intros [-> E]; congruence|intros E; inversion E; auto].
  - revert m'. induction IH as [|[n x] l Hx _ IHl]; intros [|[n' y] l']; try (split; congruence).
    cbn [snd] in Hx. rewrite !andb_true_iff, Hx, String.eqb_eq. specialize (IHl l'). rewrite IHl.
    split; [intros [[-> ->] E]; congruence|intros E; inversion E; auto].
Qed.

(** ** Signatures *)
Lemma filter_NoDup_ids (f : signature -> bool) l : NoDup (map sig_keyid l) -> NoDup (map sig_keyid (filter f l)).
Proof.
  induction l as [|x l IH]; cbn; auto. intros N; inversion N; subst. destruct (f x); cbn; auto. constructor; auto.
  intros I. apply in_map_iff in I as (y & E & I). apply filter_In in I as [I _]. apply H1. apply in_map_iff. eauto.
Qed.
Lemma NoDup_app_ids (a b : list string) : NoDup a -> NoDup b -> (forall x, In x a -> ~ In x b) -> NoDup (a ++ b)%list.
Proof.
  induction a as [|x a IH]; cbn; auto. intros Na Nb D. inversion Na; subst. constructor.
  - intros I. apply in_app_or in I as [I|I]; [auto|]. apply (D x); auto.
  - apply IH; auto.
Qed.

Lemma sign_Ok k rnd msg s : sign k rnd msg = Ok s <->
  sig_keyid s = pk_id (sk_public k) /\ sk_sign k rnd msg = Ok (sig_value s).
Proof.
  unfold sign. destruct (sk_sign k rnd msg) as [v|e]; cbn; split; try discriminate.
  - intros H; inversion H; auto.
  - intros [E F]. inversion F. destruct s; cbn in *; subst; reflexivity.
  - intros [_ H]; discriminate.
Qed.

Lemma add_Ok s k rnd s' : add_signature s k rnd = (s', Ok tt) <->
  exists b v, canonicalize (sg_raw s) = Ok b /\ sk_sign k rnd b = Ok v /\
    s' = mkSigned (filter (fun x => negb (String.eqb (sig_keyid x) (pk_id (sk_public k)))) (sg_sigs s)
                   ++ [mkSig (pk_id (sk_public k)) v])%list (sg_raw s).
Proof.
  unfold add_signature, sign. destruct (canonicalize (sg_raw s)) as [b|e]; cbn.
  - destruct (sk_sign k rnd b) as [v|e] eqn:V; cbn.
    + split; [intros H; inversion H; subst; eauto|]. intros (b' & v' & E & F & ->). congruence.
    + split; [discriminate|]. intros (b' & v' & E & F & _). congruence.
  - split; [discriminate|]. intros (b' & v' & E & _). discriminate.
Qed.
Lemma add_Err s k rnd s' e : add_signature s k rnd = (s', Err e) -> s' = s.
Proof. unfold add_signature. destruct (rbind _ _); intros H; inversion H; reflexivity. Qed.

Lemma merge_cases s other s' res : merge_signatures s other = (s', res) ->
  (sg_raw s = sg_raw other /\ res = Ok tt /\ sg_raw s' = sg_raw s /\
   sg_sigs s' = (sg_sigs s ++ filter (fun x => negb (mem (sig_keyid x) (map sig_keyid (sg_sigs s)))) (sg_sigs other))%list) \/
  (sg_raw s <> sg_raw other /\ res = Err IllegalArgument /\ s' = s).
Proof.
  unfold merge_signatures. destruct (json_eqb (sg_raw s) (sg_raw other)) eqn:E.
  - apply json_eqb_eq in E. intros H; inversion H; subst. left. auto.
  - intros H; inversion H; subst. right. split; [|auto]. intros F. apply json_eqb_eq in F. congruence.
Qed.

(** Invariant of the documents made by the API. *)
Definition signed_well (raw : json) (ks : list private_key) (sigs : list signature) : Prop :=
  NoDup (map sig_keyid sigs) /\
  (forall x, In x sigs -> exists k rnd b, In k ks /\ sig_keyid x = pk_id (sk_public k) /\
     canonicalize raw = Ok b /\ sk_sign k rnd b = Ok (sig_value x)) /\
  (forall k, In k ks -> In (pk_id (sk_public k)) (map sig_keyid sigs)).

Lemma serialize_normal e raw : json_serialize e = Ok raw -> in_order raw.
Proof. destruct e; cbn; [|discriminate]. intros H; inversion H. apply to_value_normal. Qed.

Lemma from_raw_Ok C r raw b : sb_from_raw C r raw = Ok b ->
  (exists m, json_deserialize (d_metadata C r) raw = Ok m) /\ canonicalize raw = Ok (sb_bytes b) /\ sb_raw b = raw /\ sb_sigs b = [].
Proof.
  unfold sb_from_raw. intros H. apply rbind_Ok in H as (m & D & H). apply rbind_Ok in H as (x & K & H). inversion H; subst.
  cbn. eauto 10.
Qed.

Lemma building_inv C r raw ks b : building C r raw ks b ->
  sb_raw b = raw /\ canonicalize raw = Ok (sb_bytes b) /\ in_order raw /\ sorted (sb_sigs b) /\
  (exists m, json_deserialize (d_metadata C r) raw = Ok m) /\
  Forall (fun is => fst is = sig_keyid (snd is)) (sb_sigs b) /\ signed_well raw ks (map snd (sb_sigs b)).
Proof.
  assert (W : signed_well raw [] []). { split; [constructor|]. split; intros x []. }
  induction 1 as [m b S H|b O H|ks b k rnd b' B IH H].
  - pose proof (serialize_normal _ _ S). unfold sb_from_metadata in H. rewrite S in H. cbn in H. apply from_raw_Ok in H as (D & K & R & E).
    rewrite E. cbn. split; [exact R|]. split; [exact K|]. split; [assumption|]. split; [constructor|]. split; [exact D|]. split; [constructor|exact W].
  - apply from_raw_Ok in H as (D & K & R & E). rewrite E. cbn. split; [exact R|]. split; [exact K|]. split; [assumption|].
    split; [constructor|]. split; [exact D|]. split; [constructor|exact W].
  - destruct IH as (R & K & O & St & D & F & _ & G1 & G2). unfold sb_sign in H. apply rbind_Ok in H as (sg & SG & H).
    inversion H; subst b'; clear H. cbn [sb_raw sb_bytes sb_sigs]. apply sign_Ok in SG as [E V].
    assert (F' : Forall (fun is : string * signature => fst is = sig_keyid (snd is)) (bt_insert (sig_keyid sg) sg (sb_sigs b))).
    { apply bt_insert_Forall; [reflexivity|exact F]. }
    assert (St' := bt_insert_sorted (sig_keyid sg) sg _ St).
    split; [exact R|]. split; [exact K|]. split; [exact O|]. split; [exact St'|]. split; [exact D|]. split; [exact F'|].
    assert (M : map sig_keyid (map snd (bt_insert (sig_keyid sg) sg (sb_sigs b))) = map fst (bt_insert (sig_keyid sg) sg (sb_sigs b))).
    { rewrite map_map. apply map_ext_in. intros is I. rewrite Forall_forall in F'. symmetry. apply F', I. }
    split; [rewrite M; apply (sorted_NoDup _ St')|]. split.
    + intros x I. apply in_map_iff in I as ([i y] & <- & I). cbn [snd]. apply bt_insert_In in I as [I|I].
      * inversion I; subst. exists k, rnd, (sb_bytes b). split; [now left|]. auto.
      * destruct (G1 y) as (k' & rnd' & m & I' & E' & K' & V'); [apply in_map_iff; exists (i, y); auto|].
        exists k', rnd', m. split; [now right|]. auto.
    + intros k' [<-|I].
      * rewrite M. rewrite <- E. apply (lookup_In_key _ sg). rewrite lookup_bt_insert by exact St. now rewrite String.eqb_refl.
      * rewrite M. specialize (G2 k' I). rewrite map_map in G2.
        assert (J : In (pk_id (sk_public k')) (map fst (sb_sigs b))).
        { apply in_map_iff in G2 as (is & E2 & I2). rewrite Forall_forall in F. apply in_map_iff. exists is. split; [|exact I2].
          now rewrite (F is I2). }
        apply in_map_iff in J as ([i y] & E2 & I2). cbn in E2; subst.
        assert (L : exists w, lookup (pk_id (sk_public k')) (bt_insert (sig_keyid sg) sg (sb_sigs b)) = Some w).
        { rewrite lookup_bt_insert by exact St. destruct (String.eqb _ _); [eauto|].
          exists y. apply In_lookup; [apply (sorted_NoDup _ St)|exact I2]. }
        destruct L as (w & L). eapply lookup_In_key; exact L.
Qed.

Lemma mem_spec (i : string) l : mem i l = true <-> In i l.
Proof. apply mem_In. Qed.

Lemma made_inv C r raw ks s : made C r raw ks s ->
  sg_raw s = raw /\ (exists b, canonicalize raw = Ok b) /\ in_order raw /\ signed_well raw ks (sg_sigs s).
Proof.
  induction 1 as [raw m k rnd s S H|raw ks b B|raw ks s k rnd s' M IH H|raw ks s k rnd s' e M IH H|raw ks s raw' ks' other s' res M IH M' IH' H].
  - pose proof (serialize_normal _ _ S). unfold signed_new in H. rewrite S in H. cbn [rbind] in H.
    apply rbind_Ok in H as (b & K & H). apply rbind_Ok in H as (sg & SG & H). inversion H; subst. cbn [sg_raw sg_sigs].
    apply sign_Ok in SG as [E V]. split; [reflexivity|]. split; [eauto|]. split; [assumption|]. split; [|split].
    + cbn. constructor; [intros []|constructor].
    + intros x [<-|[]]. exists k, rnd, b. cbn. auto.
    + intros x [<-|[]]. cbn. left. exact E.
  - apply building_inv in B as (R & K & O & _ & _ & _ & W). cbn. eauto 10.
  - destruct IH as (R & K & O & N & G1 & G2). apply add_Ok in H as (b & v & Kb & V & ->). cbn [sg_raw sg_sigs].
    split; [exact R|]. split; [exact K|]. split; [exact O|]. split; [|split].
    + rewrite map_app. apply NoDup_app_ids; [now apply filter_NoDup_ids|repeat constructor; intros []|].
      intros i I J. destruct J as [<-|[]]. cbn in I. apply in_map_iff in I as (x & E & I). apply filter_In in I as [_ I].
      rewrite E, String.eqb_refl in I. discriminate.
    + intros x I. apply in_app_or in I as [I|[<-|[]]].
      * apply filter_In in I as [I _]. destruct (G1 x I) as (k' & rnd' & m & I' & Q). exists k', rnd', m. split; [now right|exact Q].
      * exists k, rnd, b. cbn. rewrite <- R. auto.
    + intros k' I. rewrite map_app. apply in_or_app.
      destruct (string_dec (pk_id (sk_public k')) (pk_id (sk_public k))) as [E|E]; [right; left; cbn; auto|].
      destruct I as [<-|I]; [congruence|]. left. specialize (G2 k' I). apply in_map_iff in G2 as (x & Ex & I2).
      apply in_map_iff. exists x. split; [exact Ex|]. apply filter_In. split; [exact I2|]. rewrite Ex.
      now rewrite (proj2 (String.eqb_neq _ _) E).
  - apply add_Err in H. subst. exact IH.
  - destruct IH as (R & K & O & N & G1 & G2). destruct IH' as (R' & K' & O' & N' & G1' & G2').
    apply merge_cases in H as [(Er & -> & Er2 & Es)|(_ & -> & ->)].
    2: { cbn [is_ok]. split; [exact R|]. split; [exact K|]. split; [exact O|]. split; [exact N|]. auto. }
    cbn [is_ok]. split; [congruence|]. split; [exact K|]. split; [exact O|]. rewrite Es. split; [|split].
    + rewrite map_app. apply NoDup_app_ids; [exact N|now apply filter_NoDup_ids|]. intros i I J.
      apply in_map_iff in J as (x & E & J). apply filter_In in J as [_ J]. apply negb_true_iff in J.
      apply mem_not_In in J. apply J. now rewrite E.
    + intros x I. apply in_app_or in I as [I|I].
      * destruct (G1 x I) as (k' & rnd' & m & I' & Q). exists k', rnd', m. split; [apply in_or_app; now left|exact Q].
      * apply filter_In in I as [I _]. destruct (G1' x I) as (k' & rnd' & m & I' & Q1 & Q2 & Q3).
        exists k', rnd', m. split; [apply in_or_app; now right|]. split; [exact Q1|]. split; [congruence|exact Q3].
    + intros k' I. rewrite map_app. apply in_or_app.
      destruct (mem (pk_id (sk_public k')) (map sig_keyid (sg_sigs s))) eqn:M0; [left; now apply mem_In|].
      apply in_app_or in I as [I|I]; [apply mem_not_In in M0; destruct (M0 (G2 _ I))|]. right.
      specialize (G2' k' I). apply in_map_iff in G2' as (x & Ex & I2). apply in_map_iff. exists x. split; [exact Ex|].
      apply filter_In. split; [exact I2|]. rewrite Ex, M0. reflexivity.
Qed.

(** ** The bytes of a signed document *)
Lemma signed_value sigs raw : in_order raw -> to_value (e_signed sigs raw) = e_signed sigs raw.
Proof.
  intros O. apply to_value_of_normal. unfold e_signed. constructor.
  - constructor; [|constructor; [exact O|constructor]]. cbn [snd]. constructor. rewrite Forall_map. apply Forall_forall. intros s _.
    unfold e_signature. constructor; [repeat constructor|]. repeat constructor.
  - repeat constructor.
Qed.
Lemma signed_clean sigs raw : clean raw -> clean (e_signed sigs raw).
Proof.
  intros N. apply clean_obj. constructor; [|constructor; [exact N|constructor]]. cbn [snd]. apply clean_arr.
  rewrite Forall_map. apply Forall_forall. intros s _. apply clean_obj. repeat constructor; apply clean_str.
Qed.
Lemma to_raw_bytes s b0 : in_order (sg_raw s) -> canonicalize (sg_raw s) = Ok b0 ->
  to_raw s = Ok (write (e_signed (sg_sigs s) (sg_raw s))).
Proof.
  intros O K. apply canonicalize_Ok in K as [N _]. unfold to_raw, json_serialize. cbn [rbind]. rewrite signed_value by exact O.
  apply canonicalize_Ok. split; [now apply signed_clean|]. now rewrite signed_value.
Qed.

Lemma signature_back s : id_like (sig_keyid s) -> d_signature (e_signature s) = Some s.
Proof.
  intros I. unfold d_signature, e_signature. read_fields.
  assert (E : d_key_id (JStr (sig_keyid s)) = Some (sig_keyid s)).
  { unfold d_key_id. cbn. apply key_id_of_string_Some. auto. }
  rewrite E. cbn [obind]. unfold d_hex. cbn [d_str obind]. rewrite hex_decode_encode. cbn [obind]. now destruct s.
Qed.
Lemma signed_back sigs raw : in_order raw -> Forall (fun s => id_like (sig_keyid s)) sigs ->
  d_signed (e_signed sigs raw) = Some (sigs, raw).
Proof.
  intros O F. unfold d_signed, e_signed. read_fields.
  assert (E : d_vec d_signature (JArr (map e_signature sigs)) = Some sigs).
  { rewrite (d_list_e d_signature e_signature (fun s => s)); [now rewrite map_id|]. revert F. apply Forall_impl. apply signature_back. }
  rewrite E. cbn [obind]. now rewrite to_value_of_normal.
Qed.
Lemma signed_fit sigs raw : writable raw -> Forall (fun s => utf8_valid (sig_keyid s) = true) sigs ->
  fit max_depth (e_signed sigs raw).
Proof.
  intros W F. unfold max_depth. apply (fit_obj 126). constructor; [|constructor; [split; [reflexivity|exact W]|constructor]].
  split; [reflexivity|]. cbn [snd]. apply (fit_arr 125). rewrite Forall_map. revert F. apply Forall_impl. intros s U.
  apply (fit_obj 124). repeat constructor; cbn [snd]; try (apply fit_str; assumption).
  all: try (apply ascii_utf8, hex_encode_ascii); try exact U.
  all: cbn; lia.
Qed.

(** ** Verification of what was made *)
Lemma last_exists {A} (id : A -> string) i (l : list A) : In i (map id l) -> exists x, last_with id i l x.
Proof.
  induction l as [|a l IH]; cbn; [intros []|]. intros H.
  destruct (in_dec string_dec i (map id l)) as [I|I].
  - destruct (IH I) as (x & l1 & l2 & -> & E & N). exists x, (a :: l1), l2. auto.
  - destruct H as [<-|H]; [|contradiction]. exists a, [], l. split; [reflexivity|]. split; [reflexivity|].
    intros y J F. apply I. rewrite <- F. now apply in_map.
Qed.
Lemma last_In {A} (id : A -> string) i l x : last_with id i l x -> In x l /\ id x = i.
Proof. intros (l1 & l2 & -> & E & _). split; [apply in_or_app; right; now left|exact E]. Qed.

Lemma own_id_ascii C p : own_id C p -> ascii_only (pk_id p) = true.
Proof.
  intros (j & b & _ & _ & H). apply hex_decode_text, hex_decode_Some in H. rewrite H. apply hex_encode_ascii.
Qed.

Lemma made_envelope C r raw ks s : made C r raw ks s -> writable raw -> Forall (working_key C) ks ->
  exists b, to_raw s = Ok b /\ json_from_slice d_signed b = Ok (sg_sigs s, raw).
Proof.
  intros M W H. apply made_inv in M as (R & (b0 & K) & O & N & G1 & G2). subst raw.
  exists (write (e_signed (sg_sigs s) (sg_raw s))). split; [eapply to_raw_bytes; eassumption|].
  rewrite Forall_forall in H.
  assert (Q : forall x, In x (sg_sigs s) -> id_like (sig_keyid x) /\ ascii_only (sig_keyid x) = true).
  { intros x I. destruct (G1 x I) as (k & _ & _ & Ik & E & _). destruct (H k Ik) as (A & B & _). rewrite E.
    split; [exact B|]. eapply own_id_ascii; exact A. }
  apply from_slice_Ok. exists (e_signed (sg_sigs s) (sg_raw s)). split.
  - apply write_again. apply signed_fit; [exact W|]. apply Forall_forall. intros x I. apply ascii_utf8, Q, I.
  - apply signed_back; [exact O|]. apply Forall_forall. intros x I. apply Q, I.
Qed.

Lemma made_authentic C o r raw ks s m t keys : made C r raw ks s -> json_deserialize (d_metadata C r) raw = Ok m ->
  writable raw -> Forall (working_key C) ks -> ids_identify keys ks -> (1 <= t)%N -> enough_signers t keys ks ->
  exists b, to_raw s = Ok b /\ authentic (mkEnv C o (json_interchange C)) r b t keys m.
Proof.
  intros M D W H I T (ids & N & L & G). destruct (made_envelope _ _ _ _ _ M W H) as (b & B & E). exists b. split; [exact B|].
  apply made_inv in M as (R & (msg & K) & O & N' & G1 & G2). split; [exact T|].
  exists (sg_sigs s), raw, msg. cbn. split; [exact E|]. split; [exact K|]. split.
  - exists ids. split; [exact N|]. split; [exact L|]. intros i Hi. destruct (G i Hi) as (k & Ik & <- & Kk).
    destruct (last_exists pk_id (pk_id (sk_public k)) keys) as (p & P); [now apply in_map|].
    destruct (last_exists sig_keyid (pk_id (sk_public k)) (sg_sigs s)) as (x & X); [now apply G2|].
    exists p, x. split; [exact P|]. split; [exact X|]. apply last_In in P as [P1 P2]. apply last_In in X as [X1 X2].
    destruct (G1 x X1) as (k' & rnd & msg' & Ik' & E' & K' & V).
    assert (p = sk_public k') by (apply (I k' p Ik' P1); congruence). subst p.
    rewrite Forall_forall in H. destruct (H k' Ik') as (_ & _ & U & Q). split; [exact U|]. apply (Q rnd). congruence.
  - apply canonicalize_Ok in K as [_ ->]. rewrite (to_value_of_normal _ O). apply from_slice_Ok. exists raw.
    split; [apply write_again, (fit_le 126); [unfold max_depth; lia|exact W]|]. now apply deserialize_Ok.
Qed.

(** ** Descriptions *)
Lemma slice_contains b : contains (slice_stream b) b None.
Proof.
  destruct b as [|c b]; cbn; [constructor|]. pose proof (contains_data (String c b) [Ready ""] "" None) as H.
  rewrite sapp_nil_r in H. apply H; [discriminate|constructor].
Qed.
Lemma lookup_by_algorithm a l : (forall x, a <> HashUnknown x) -> lookup a (by_algorithm l) = lookup a l.
Proof.
  intros N. unfold by_algorithm. destruct a as [| |x]; [| |destruct (N x eq_refl)];
    destruct (lookup Sha256 l), (lookup Sha512 l); reflexivity.
Qed.
Lemma lookup_unknown x l : lookup (HashUnknown x) (by_algorithm l) = None.
Proof. unfold by_algorithm. destruct (lookup Sha256 l), (lookup Sha512 l); reflexivity. Qed.
Lemma by_algorithm_wf l : by_algorithm l <> [] -> wf_hashes (by_algorithm l).
Proof.
  unfold by_algorithm. destruct (lookup Sha256 l), (lookup Sha512 l); cbn; intros H; constructor || congruence.
Qed.
Lemma calculated C rs algs b size hashes : contains rs b None -> calculate_hashes C rs algs = Ok (size, hashes) ->
  describes C b algs size (by_algorithm hashes) /\ wf_hashes (by_algorithm hashes).
Proof.
  intros H E. pose proof (calculate_spec C rs algs b None H) as S. rewrite E in S. destruct S as (_ & S1 & S2 & S3 & S4).
  split.
  - split; [exact S3|]. intros a. destruct a as [| |x].
    + rewrite lookup_by_algorithm by discriminate. apply S4.
    + rewrite lookup_by_algorithm by discriminate. apply S4.
    + rewrite lookup_unknown. destruct (mem (HashUnknown x) algs) eqn:M; [|reflexivity]. apply mem_In in M.
      destruct (S2 _ M x eq_refl).
  - apply by_algorithm_wf. destruct algs as [|a l]; [congruence|]. intros F.
    assert (A : lookup a (by_algorithm hashes) = Some (ring_digest C a b)).
    { rewrite lookup_by_algorithm by (apply S2; now left). rewrite S4. cbn [mem]. now rewrite eqb_refl. }
    rewrite F in A. discriminate.
Qed.
Lemma describe_Ok C b v algs d : describe C b v algs = Ok d ->
  md_version d = v /\ (1 <= v)%N /\ describes C b algs (md_length d) (md_hashes d) /\ wf_hashes (md_hashes d) /\ size_ok (md_length d).
Proof.
  unfold describe, meta_from_reader. intros H. destruct (N.ltb_spec v 1); [discriminate|].
  apply rbind_Ok in H as (d0 & H & E). apply rbind_Ok in H as ([size hashes] & H & E'). destruct (N.ltb_spec u64_max size); [discriminate|].
  inversion E'; subst. inversion E; subst. cbn. destruct (calculated _ _ _ _ _ _ (slice_contains b) H) as [A B].
  repeat split; auto; try apply A. 
Qed.
Lemma d_version_bound j v : d_version j = Some v -> (v <= 4294967295)%N.
Proof.
  unfold d_version. destruct (d_fields _ _ _ _) as [[|f [|]]|]; try discriminate. intros H. apply required in H as (x & _ & H).
  apply d_uint_Some in H. exact H.
Qed.
Lemma describe_signed_Ok C f s algs d : describe_signed C f s algs = Ok d ->
  exists b, write_signed f s = Ok b /\ parse_version_untrusted s = Ok (md_version d) /\
    describes C b algs (md_length d) (md_hashes d) /\ wf_desc d.
Proof.
  unfold describe_signed. intros H. apply rbind_Ok in H as (b & B & H). apply rbind_Ok in H as (v & V & H).
  apply describe_Ok in H as (E & L & D & W & S). exists b. subst v. split; [exact B|]. split; [exact V|]. split; [exact D|].
  split; [|split; [exact S|exact W]]. split; [exact L|]. unfold parse_version_untrusted in V. apply deserialize_Ok in V. eapply d_version_bound; exact V.
Qed.

(** The version found without decoding the rest. *)
Definition version_of (r : role) : metadata_of r -> N :=
  match r with Root => rm_version | Snapshot => sm_version | Targets => tg_version | Timestamp => tm_version end.
Lemma version_decoded C r j m : d_metadata C r j = Some m ->
  (forall v, d_version j = Some v -> v = version_of r m) /\
  (forall mem, j = JObj mem -> d_version j = Some (version_of r m)).
Proof.
  intros D.
  assert (G : exists names dn o fs, d_fields names dn o j = Some fs /\ In "version" names /\ 5 <= length names - o /\
     forall mem, j = JObj mem -> d_required (d_uint u32_max) (lookup "version" mem) = Some (version_of r m)).
  { destruct r; cbn in D; unfold d_root, d_snapshot, d_targets, d_timestamp in D;
    (match type of D with match d_fields ?n ?dn ?o ?j with _ => _ end = _ =>
      exists n, dn, o; destruct (d_fields n dn o j) as [fs|] eqn:F; [|discriminate] end);
    exists fs; (split; [reflexivity|]); (split; [cbn; tauto|]); (split; [cbn; lia|]);
    intros mem ->; apply fields_lookup in F; subst fs; cbn [map] in D; bounds D;
    repeat match type of D with context [let '(_, _) := ?x in _] => is_var x; destruct x end;
    (match type of D with (if ?b then _ else _) = _ => destruct b; [|discriminate] end); bounds D; apply get_ok_Some in D;
    unfold root_new, snapshot_new, targets_new, timestamp_new in D;
    (match type of D with (if ?b then _ else _) = _ => destruct b; [discriminate|] end); inversion D; subst; cbn; assumption. }
  destruct G as (names & dn & o & fs & F & I & L & G).
  assert (X : forall mem, j = JObj mem -> d_version j = Some (version_of r m)).
  { intros mem ->. specialize (G mem eq_refl). unfold d_version. cbn [d_fields] in F |- *.
    destruct (forallb _ names) eqn:A; [|discriminate]. rewrite forallb_forall in A. specialize (A "version" I).
    cbn [forallb negb orb]. rewrite A. cbn [andb map]. exact G. }
  split; [|exact X]. intros v V. destruct j as [| | | | |l|mem]; try discriminate.
  - exfalso. unfold d_version in V. cbn [d_fields] in F, V.
    destruct (Nat.leb (length l) (length ["version"])) eqn:L1; [|discriminate]. apply Nat.leb_le in L1. cbn in L1.
    destruct (Nat.leb (length l) (length names)); [|discriminate].
    destruct (Nat.leb (length names) (length l + o)) eqn:L2; [|discriminate]. apply Nat.leb_le in L2. lia.
  - rewrite (X mem eq_refl) in V. congruence.
Qed.

(** ** Dates *)
Lemma format_second z z' : second_of z z' -> format_datetime z = format_datetime z'.
Proof.
  intros ((q & ->) & L). unfold format_datetime. replace (z / ticks_per_second)%Z with q.
  - replace (q * 2000000000 / ticks_per_second)%Z with q; [reflexivity|]. unfold ticks_per_second. symmetry. apply Z.div_mul. lia.
  - unfold ticks_per_second. apply Z.div_unique with (r := (z - q * 2000000000)%Z); lia.
Qed.
Lemma plain_nameable z : plain_time z -> nameable z.
Proof.
  intros (x & (R & S & Y) & A). exists x. split; [exact R|]. split; [|exact A]. unfold chrono_year.
  destruct (s_date x) as [[y m] d]. lia.
Qed.
Lemma encode_second r m z : second_of (expiry r m) z -> e_metadata r (set_expiry r z m) = e_metadata r m.
Proof.
  intros S. apply format_second in S.
  destruct r; cbn in *; unfold e_root, e_snapshot, e_targets, e_timestamp; cbn; rewrite S; reflexivity.
Qed.
Lemma written C r m m' : as_written r m m' -> wf_metadata C r m' ->
  exists v, json_serialize (e_metadata r m) = Ok v /\ json_deserialize (d_metadata C r) v = Ok m'.
Proof.
  intros (z & S & P & ->) W. assert (Q : plain_time (expiry r (set_expiry r z m))) by (destruct r; exact P).
  destruct (metadata_again C r _ W Q) as (j & E & D). rewrite encode_second in E by exact S. exists (to_value j).
  unfold json_serialize. rewrite E. split; [reflexivity|]. apply deserialize_Ok. now apply stable_metadata.
Qed.

(** ** What the builders build *)
Definition rb_ok (C : crypto) (b : root_builder) : Prop :=
  (rb_version b <= 4294967295)%N /\ sorted (rb_keys b) /\
  Forall (fun ik => fst ik = pk_id (snd ik) /\ good_key C (snd ik)) (rb_keys b) /\
  forall r, (ro_threshold (rb_roles b r) <= 4294967295)%N /\ Forall id_like (ro_ids (rb_roles b r)).
Lemma rb_new_ok C now : rb_ok C (rb_new now).
Proof. repeat split; cbn; try lia; constructor. Qed.
Lemma rb_from_ok C m : wf_root C m -> rb_ok C (rb_from m).
Proof.
  intros (V & _ & (K1 & K2) & O & R). split; [apply V|]. split; [now apply sorted_increasing|]. split.
  - rewrite Forall_forall in *. intros ik I. split; [now apply O|]. destruct (K2 _ I) as (A & B & D).
    split; [exact B|]. split; [exact D|]. rewrite <- (O _ I). exact A.
  - intros [| | |]; cbn; destruct R as (R1 & R2 & R3 & R4); unfold wf_role_def, threshold_ok in *; tauto.
Qed.
Lemma rb_apply_ok C b o : rb_ok C b -> good_root_op C o -> rb_ok C (rb_apply b o).
Proof.
  intros (V & S & F & R) G. destruct o as [v|z|c|r t|r k]; cbn in G; unfold rb_ok; cbn [rb_apply rb_version rb_keys rb_roles].
  - auto.
  - auto.
  - auto.
  - split; [exact V|]. split; [exact S|]. split; [exact F|]. intros r'. unfold set_role. destruct (role_eqb r' r); [|apply R].
    cbn. split; [exact G|apply R].
  - split; [exact V|]. split; [now apply bt_insert_sorted|]. split; [apply bt_insert_Forall; auto|].
    intros r'. unfold set_role. destruct (role_eqb r' r); [|apply R]. cbn. split; [apply R|]. apply Forall_app.
    split; [apply R|]. constructor; [apply G|constructor].
Qed.
Lemma rb_run_ok C ops : forall b, rb_ok C b -> Forall (good_root_op C) ops -> rb_ok C (fold_left rb_apply ops b).
Proof.
  induction ops as [|o ops IH]; cbn; auto. intros b B F. inversion F; subst. apply IH; auto. now apply rb_apply_ok.
Qed.
Lemma role_def_new_Ok t ids d : role_def_new t ids = Ok d ->
  d = mkRoleDef t ids /\ (1 <= t <= N.of_nat (length ids))%N.
Proof.
  unfold role_def_new. destruct (N.ltb_spec t 1); [discriminate|]. destruct ids; [discriminate|].
  destruct (N.ltb_spec (N.of_nat (length (s :: ids))) t); [discriminate|]. intros E; inversion E. split; [reflexivity|lia].
Qed.
Lemma rb_build_Ok b m : rb_build b = Ok m ->
  let def r := mkRoleDef (ro_threshold (rb_roles b r)) (ro_ids (rb_roles b r)) in
  m = mkRoot (rb_version b) (rb_expires b) (rb_consistent b) (rb_keys b) (def Root) (def Snapshot) (def Targets) (def Timestamp) /\
  (1 <= rb_version b)%N /\
  forall r, (1 <= ro_threshold (rb_roles b r) <= N.of_nat (length (ro_ids (rb_roles b r))))%N.
Proof.
  unfold rb_build. intros H.
  apply rbind_Ok in H as (d1 & H1 & H). apply rbind_Ok in H as (d2 & H2 & H). apply rbind_Ok in H as (d3 & H3 & H).
  apply rbind_Ok in H as (d4 & H4 & H). apply role_def_new_Ok in H1 as (-> & H1), H2 as (-> & H2), H3 as (-> & H3), H4 as (-> & H4).
  unfold root_new in H. destruct (N.ltb_spec (rb_version b) 1); [discriminate|]. inversion H. cbn. split; [reflexivity|].
  split; [assumption|]. intros [| | |]; assumption.
Qed.
Lemma rb_build_wf C b m z : rb_ok C b -> rb_build b = Ok m -> distinct_keys m -> plain_time z -> wf_root C (set_expiry Root z m).
Proof.
  intros (V & S & F & R) H (N1 & N2 & N3 & N4) P. apply rb_build_Ok in H as (-> & V1 & T). cbn in *.
  unfold wf_root. cbn. split; [split; assumption|]. split; [now apply plain_nameable|]. split; [split|split].
  - now apply sorted_increasing.
  - revert F. apply Forall_impl. intros ik (E & (A & B & D)). rewrite E. auto.
  - revert F. apply Forall_impl. intros ik (E & _). exact E.
  - unfold wf_role_def, threshold_ok. cbn.
    pose proof (R Root) as [? ?]. pose proof (R Snapshot) as [? ?]. pose proof (R Targets) as [? ?]. pose proof (R Timestamp) as [? ?].
    pose proof (T Root). pose proof (T Snapshot). pose proof (T Targets). pose proof (T Timestamp). tauto.
Qed.

(** A root that lists a key twice in one role is not read. *)
Lemma ids_value l : to_value (e_strings l) = e_strings l.
Proof. unfold e_strings. cbn. f_equal. rewrite map_map. reflexivity. Qed.
Lemma d_ids_inv l k : d_vec d_key_id (e_strings l) = Some k -> k = l.
Proof.
  unfold e_strings. cbn. revert k. induction l as [|s l IH]; cbn; intros k H; [now inversion H|].
  bounds H. inversion H; subst. f_equal; [|now apply IH].
  match goal with E : d_key_id _ = Some _ |- _ => unfold d_key_id in E; cbn in E; apply key_id_of_string_Some in E; tauto
  | E : key_id_of_string _ = Some _ |- _ => apply key_id_of_string_Some in E; tauto end.
Qed.
Lemma role_def_distinct d d' : d_role_def (to_value (e_role_def d)) = Some d' -> NoDup (rd_key_ids d).
Proof.
  unfold e_role_def. rewrite to_value_obj. unfold d_role_def. intros H. looked_up H. rewrite !lookup_btree in *.
  match goal with E : d_required (d_vec d_key_id) _ = Some ?k |- _ => apply required in E as (x & X & E) end.
  cbn in X. inversion X; subst. change (JArr (map to_value (map JStr (rd_key_ids d)))) with (to_value (e_strings (rd_key_ids d))) in E0.
  rewrite ids_value in E0. apply d_ids_inv in E0. subst. destruct (rd_key_ids d) as [|i l] eqn:L; [constructor|].
  destruct (no_repeats (i :: l)) eqn:N; [|discriminate]. now apply no_repeats_NoDup in N.
Qed.
Lemma root_distinct C m j m' : e_root m = Some j -> d_root C (to_value j) = Some m' -> distinct_keys m.
Proof.
  unfold e_root. intros E D. bound E. inversion E; subst; clear E. rewrite to_value_obj in D. unfold d_root in D.
  looked_up D. 
  match goal with H : d_required d_role_defs _ = Some _ |- _ => rewrite lookup_btree in H; cbn -[to_value e_role_def] in H;
    rewrite to_value_obj in H; unfold d_role_defs in H; looked_up H end.
  repeat match goal with H : d_required d_role_def _ = Some _ |- _ =>
    rewrite lookup_btree in H; cbn -[to_value e_role_def d_role_def] in H; apply role_def_distinct in H end.
  repeat split; assumption.
Qed.

(** Timestamps. *)
Lemma tb_build_wf b m z : (tb_version b <= 4294967295)%N -> wf_desc (tb_snapshot b) -> tb_build b = Ok m -> plain_time z ->
  wf_timestamp (set_expiry Timestamp z m).
Proof.
  intros V W H P. unfold tb_build, timestamp_new in H. destruct (N.ltb_spec (tb_version b) 1); [discriminate|]. inversion H; subst.
  split; [split; assumption|]. split; [now apply plain_nameable|exact W].
Qed.
Lemma tb_run ops : forall b, (tb_version b <= 4294967295)%N -> Forall good_timestamp_op ops ->
  (tb_version (fold_left tb_apply ops b) <= 4294967295)%N /\ tb_snapshot (fold_left tb_apply ops b) = tb_snapshot b.
Proof.
  induction ops as [|o ops IH]; cbn; auto. intros b V F. inversion F; subst.
  destruct (IH (tb_apply b o)) as [A B]; auto; [destruct o; cbn in *; auto|]. split; [exact A|]. rewrite B. now destruct o.
Qed.

(** Snapshots. *)
Definition meta_ok (m : list (string * meta_desc)) : Prop :=
  increasing (map (fun pd => fst pd ++ ".json") m) /\ Forall (fun pd => acceptable_path (fst pd) /\ wf_desc (snd pd)) m.
Definition named (m : list (string * (string * meta_desc))) : Prop := Forall (fun nd => fst nd = fst (snd nd) ++ ".json") m.
Lemma named_names m : named m -> map (fun pd => fst pd ++ ".json") (map snd m) = map fst m.
Proof.
  intros F. rewrite map_map. apply map_ext_in. intros nd I. unfold named in F. rewrite Forall_forall in F. symmetry. apply F, I.
Qed.
Lemma named_start m : named (map (fun pd : string * meta_desc => (fst pd ++ ".json", pd)) m).
Proof. unfold named. rewrite Forall_map. apply Forall_forall. reflexivity. Qed.
Lemma start_names m : map fst (map (fun pd : string * meta_desc => (fst pd ++ ".json", pd)) m) = map (fun pd => fst pd ++ ".json") m.
Proof. rewrite map_map. reflexivity. Qed.
Lemma meta_insert_ok p d m : meta_ok m -> acceptable_path p -> wf_desc d -> meta_ok (meta_insert p d m).
Proof.
  intros (I & F) P W. unfold meta_insert.
  assert (S : sorted (map (fun pd : string * meta_desc => (fst pd ++ ".json", pd)) m)).
  { apply sorted_increasing. rewrite start_names. exact I. }
  split.
  - rewrite named_names; [apply sorted_increasing, bt_insert_sorted, S|]. apply bt_insert_Forall; [reflexivity|apply named_start].
  - rewrite Forall_map. apply bt_insert_Forall; [auto|]. rewrite Forall_map. exact F.
Qed.
Lemma lookup_named (p : string) (l : list (string * (string * meta_desc))) : named l ->
  lookup p (map snd l) = option_map snd (lookup (p ++ ".json") l).
Proof.
  induction 1 as [|[n [q d]] l E _ IH]; [reflexivity|]. cbn [map snd lookup]. cbn in E. subst n.
  destruct (eqb p q) eqn:E1.
  - apply eqb_eq in E1. subst. now rewrite eqb_refl.
  - destruct (eqb (p ++ ".json") (q ++ ".json")) eqn:E2; [|exact IH]. apply eqb_eq in E2. apply sapp_cancel_r in E2. subst.
    rewrite eqb_refl in E1. discriminate.
Qed.
Lemma lookup_meta_insert q p d m : increasing (map (fun pd => fst pd ++ ".json") m) ->
  lookup q (meta_insert p d m) = if String.eqb q p then Some d else lookup q m.
Proof.
  intros I. unfold meta_insert. rewrite lookup_named by (apply bt_insert_Forall; [reflexivity|apply named_start]).
  rewrite lookup_bt_insert by (apply sorted_increasing; rewrite start_names; exact I).
  destruct (String.eqb_spec q p) as [->|N].
  - now rewrite String.eqb_refl.
  - destruct (String.eqb_spec (q ++ ".json") (p ++ ".json")) as [E|_]; [apply sapp_cancel_r in E; congruence|].
    pose proof (lookup_named q _ (named_start m)) as L. rewrite map_map in L. cbn [snd] in L. rewrite map_id in L. now rewrite L.
Qed.
Lemma path_new_Ok p p' : path_new p = Ok p' -> p' = p /\ acceptable_path p.
Proof. intros H. apply path_of_string_Some. unfold path_of_string. rewrite H. reflexivity. Qed.
Lemma with_path_Ok C f b p s algs b' : nb_insert_with_path C f b p s algs = Ok b' ->
  exists d, describe_signed C f s algs = Ok d /\ acceptable_path p /\ b' = nb_insert_description b p d.
Proof.
  unfold nb_insert_with_path. intros H. apply rbind_Ok in H as (d & D & H). apply rbind_Ok in H as (p' & P & H).
  apply path_new_Ok in P as [-> P]. inversion H; subst. eauto.
Qed.
Definition nb_ok (b : snapshot_builder) : Prop := (nb_version b <= 4294967295)%N /\ meta_ok (nb_meta b).
Lemma nb_apply_ok C b o b' : nb_ok b -> good_snapshot_op o -> nb_apply C b o = Ok b' -> nb_ok b'.
Proof.
  assert (G : forall f p s algs, nb_ok b -> nb_insert_with_path C f b p s algs = Ok b' -> nb_ok b').
  { intros f p s algs (V & M) H. apply with_path_Ok in H as (d & D & P & ->). apply describe_signed_Ok in D as (_ & _ & _ & _ & W).
    split; [exact V|]. now apply meta_insert_ok. }
  intros B Go H. destruct o as [v|z|f r s algs|f p s algs|p d]; cbn in *.
  - inversion H. destruct B. split; cbn; auto.
  - inversion H. destruct B. split; cbn; auto.
  - eapply G; eassumption.
  - eapply G; eassumption.
  - inversion H. destruct B. split; cbn; auto. apply meta_insert_ok; tauto.
Qed.
Lemma nb_run_ok C ops : forall b b', nb_ok b -> Forall good_snapshot_op ops -> nb_run C b ops = Ok b' -> nb_ok b'.
Proof.
  induction ops as [|o ops IH]; cbn; intros b b' B F H; [inversion H; subst; exact B|]. inversion F; subst.
  apply rbind_Ok in H as (b1 & H1 & H). eapply IH; [|eassumption|exact H]. eapply nb_apply_ok; eassumption.
Qed.
Lemma nb_new_ok now : nb_ok (nb_new now).
Proof. split; [cbn; lia|]. split; constructor. Qed.
Lemma nb_from_ok m : wf_snapshot m -> nb_ok (nb_from m).
Proof. intros (V & _ & I & F). split; [apply V|]. split; assumption. Qed.
Lemma nb_build_wf b m z : nb_ok b -> nb_build b = Ok m -> plain_time z -> wf_snapshot (set_expiry Snapshot z m).
Proof.
  intros (V & M) H P. unfold nb_build, snapshot_new in H. destruct (N.ltb_spec (nb_version b) 1); [discriminate|].
  inversion H; subst. split; [split; assumption|]. split; [now apply plain_nameable|exact M].
Qed.

(** Targets. *)
Definition gb_ok (C : crypto) (b : targets_builder) : Prop :=
  (gb_version b <= 4294967295)%N /\ sorted (gb_targets b) /\
  Forall (fun pd => acceptable_path (fst pd) /\ wf_target (snd pd)) (gb_targets b) /\
  match gb_delegations b with None => True | Some d => wf_delegations C d end.
Lemma gb_apply_ok C b o b' : gb_ok C b -> good_targets_op C o -> gb_apply C b o = Ok b' -> gb_ok C b'.
Proof.
  intros (V & S & F & D) G H. destruct o as [v|z|p rs algs|p d|d]; cbn in *; try (inversion H; subst; split; [|split; [|split]]; cbn; auto; fail).
  - destruct G as (P & x & e & CO & L). unfold gb_insert_from_reader, target_from_reader in H. apply rbind_Ok in H as (d & H & E).
    apply rbind_Ok in H as ([size hashes] & H & E'). inversion E'; subst. inversion E; subst. cbn.
    pose proof (calculate_spec C rs algs x e CO) as CS. rewrite H in CS. destruct CS as (-> & _).
    destruct (calculated _ _ _ _ _ _ CO H) as [(Q & _) W]. split; [exact V|]. split; [now apply bt_insert_sorted|].
    split; [|exact D]. apply bt_insert_Forall; [|exact F]. cbn. split; [exact P|]. split; [cbn; now subst|]. split; [exact W|exact I].
  - inversion H; subst. cbn. split; [exact V|]. split; [now apply bt_insert_sorted|]. split; [|exact D]. now apply bt_insert_Forall.
Qed.
Lemma gb_run_ok C ops : forall b b', gb_ok C b -> Forall (good_targets_op C) ops -> gb_run C b ops = Ok b' -> gb_ok C b'.
Proof.
  induction ops as [|o ops IH]; cbn; intros b b' B F H; [inversion H; subst; exact B|]. inversion F; subst.
  apply rbind_Ok in H as (b1 & H1 & H). eapply IH; [|eassumption|exact H]. eapply gb_apply_ok; eassumption.
Qed.
Lemma gb_new_ok C now : gb_ok C (gb_new now).
Proof. split; [cbn; lia|]. repeat split; constructor. Qed.
Lemma gb_build_wf C b m z : gb_ok C b -> gb_build b = Ok m -> plain_time z -> wf_targets C (set_expiry Targets z m).
Proof.
  intros (V & S & F & D) H P. unfold gb_build, targets_new in H. destruct (N.ltb_spec (gb_version b) 1); [discriminate|].
  inversion H; subst. split; [split; assumption|]. split; [now apply plain_nameable|]. split; [now apply sorted_increasing|].
  split; [exact F|exact D].
Qed.
