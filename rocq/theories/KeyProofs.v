(** * Proofs about keys *)
From Coq Require Import String Ascii List NArith ZArith Bool Lia.
From Verif Require Import Base BaseFacts JsonValue JsonText SpecJson StringFacts JsonProofs Metadata Paths
     Codec SpecCodec CodecProofs Serde SerdeProofs Keys SpecKeys.
Import ListNotations.
Open Scope string_scope.

Lemma octets_bytes l s : octets l s -> Forall (fun n => n < 256)%N l /\ s = bytes_of l.
Proof.
  unfold octets. revert l. induction s as [|c s IH]; intros l H; cbn in H; subst l.
  - split; [constructor|reflexivity].
  - destruct (IH _ eq_refl) as [F E]. split; [constructor; [apply N_ascii_bounded|exact F]|].
    cbn [list_ascii_of_string map bytes_of fold_right]. fold (bytes_of (map N_of_ascii (list_ascii_of_string s))).
    rewrite <- E, ascii_N_embedding. reflexivity.
Qed.
Lemma octets_of_bytes l : Forall (fun n => n < 256)%N l -> octets l (bytes_of l).
Proof.
  unfold octets. induction 1 as [|n l H _ IH]; [reflexivity|].
  change (N_of_ascii (ascii_of_N n) :: map N_of_ascii (list_ascii_of_string (bytes_of l)) = n :: l)%list.
  rewrite N_ascii_embedding by exact H. now rewrite IH.
Qed.

Definition fits (v : bytes) : Prop := (blen v <= 9223372036854775808)%N.

Lemma spki_written oid o v s : fits v -> Forall (fun n => n < 256)%N oid -> o = bytes_of oid -> (blen o < 100)%N ->
  spki oid v s <-> s = der_tlv tag_sequence (spki_body o v).
Proof.
  intros Fv Fo -> Lo. unfold fits in Fv.
  assert (B1 : (blen (der_tlv tag_oid (bytes_of oid)) <= 110)%N).
  { pose proof (blen_tlv tag_oid (bytes_of oid)) as B. unfold u64_max in B. lia. }
  assert (B2 : (blen (spki_alg (bytes_of oid)) <= 130)%N).
  { unfold spki_alg. pose proof (blen_tlv tag_sequence (der_tlv tag_oid (bytes_of oid) ++ der_tlv tag_null "")) as B.
    rewrite blen_app in B. change (blen (der_tlv tag_null "")) with 2%N in B. unfold u64_max in B. lia. }
  assert (B3 : (blen (String "000" v) <= 9223372036854775809)%N) by (unfold blen in *; cbn [String.length]; lia).
  assert (B4 : (blen (spki_body (bytes_of oid) v) <= u64_max)%N).
  { unfold spki_body. rewrite blen_app. pose proof (blen_tlv tag_bit_string (String "000" v)). unfold u64_max in *. lia. }
  split.
  - intros (o & o' & nul & z & alg & bits & inner & body & H1 & H2 & H3 & H4 & H5 & H6 & -> & H7 & ->).
    apply octets_bytes in H1 as [_ ->]. apply octets_bytes in H3 as [_ ->]. apply octets_bytes in H5 as [_ ->].
    apply der_value_tlv in H2; [|unfold u64_max; lia]. subst o'.
    apply der_value_tlv in H4.
    2:{ rewrite blen_app. change (blen (bytes_of [5; 0]%N)) with 2%N. unfold u64_max. fold tag_oid in *. lia. }
    subst alg. change (bytes_of [0%N] ++ v) with (String "000" v) in H6.
    apply der_value_tlv in H6; [|unfold u64_max; lia]. subst bits.
    apply der_value_tlv in H7; [exact H7|exact B4].
  - intros ->. exists (bytes_of oid), (der_tlv tag_oid (bytes_of oid)), (bytes_of [5; 0]%N), (bytes_of [0%N]).
    exists (spki_alg (bytes_of oid)), (der_tlv tag_bit_string (String "000" v)), (spki_body (bytes_of oid) v).
    exists (der_tlv tag_sequence (spki_body (bytes_of oid) v)).
    split; [apply octets_of_bytes, Fo|]. split; [apply der_tlv_value; [reflexivity|unfold u64_max; lia]|].
    split; [reflexivity|].
    split. { apply der_tlv_value; [reflexivity|]. rewrite blen_app. change (blen (bytes_of [5; 0]%N)) with 2%N. unfold u64_max. lia. }
    split; [reflexivity|]. split; [apply (der_tlv_value tag_bit_string (String "000" v)); [reflexivity|unfold u64_max; lia]|].
    split; [reflexivity|]. split; [apply der_tlv_value; [reflexivity|exact B4]|reflexivity].
Qed.

Lemma algorithm_oid t oid : algorithm t oid <-> exists o, oid_of_key_type t = Some o /\ octets oid o.
Proof.
  split.
  - intros []; eexists; split; try reflexivity.
  - intros (o & E & O). destruct t; inversion E; subst; unfold octets in O; cbn in O; subst; constructor.
Qed.

Lemma oid_facts t o : oid_of_key_type t = Some o -> exists oid, algorithm t oid /\ Forall (fun n => n < 256)%N oid /\
  o = bytes_of oid /\ (blen o < 100)%N.
Proof.
  destruct t; intros E; inversion E; subst; eexists; (split; [constructor|]); repeat split;
    repeat constructor; reflexivity.
Qed.

Lemma algorithm_unique t oid oid' : algorithm t oid -> algorithm t oid' -> oid = oid'.
Proof. intros H H'. inversion H; subst; inversion H'; reflexivity. Qed.

Lemma write_spki_iff v t der : fits v -> write_spki v t = Some der <-> spki_of t v der.
Proof.
  intros Fv. rewrite write_spki_eq. split.
  - destruct (oid_of_key_type t) as [o|] eqn:O; [|discriminate]. intros E; inversion E; subst.
    destruct (oid_facts t o O) as (oid & A & F & B & L). exists oid. split; [exact A|]. now apply (spki_written oid o).
  - intros (oid & A & S). pose proof (proj1 (algorithm_oid t oid) A) as (o & O & _). rewrite O.
    destruct (oid_facts t o O) as (oid' & A' & F & B & L). rewrite (algorithm_unique _ _ _ A A') in S.
    apply (spki_written oid' o) in S; auto. now rewrite S.
Qed.

Lemma blen_tlv_exact tag v : (blen v <= u64_max)%N ->
  blen (der_tlv tag v) = (1 + blen (der_len (blen v)) + blen v)%N.
Proof. intros L. unfold der_tlv, blen at 1. cbn [String.length]. rewrite slength_app. unfold blen. lia. Qed.

Lemma tlv_limit tag v : (blen v <= u64_max)%N -> (blen (der_tlv tag v) <= 65539)%N <-> (blen v < 65536)%N.
Proof.
  intros L. rewrite blen_tlv_exact by exact L. pose proof (der_len_spec (blen v) L) as D.
  remember (der_len (blen v)) as l eqn:El. clear El. remember (blen v) as n eqn:En. clear En v.
  destruct D as [n c S E|n k c d s S K Z V EC].
  - change (blen (String c "")) with 1%N. lia.
  - subst c. change (blen (String k (String d s))) with (N.of_nat (2 + String.length s)).
    assert (X : (256 ^ N.of_nat (String.length s) * N_of_ascii d <= n)%N).
    { rewrite <- V. unfold be_value. cbn [list_ascii_of_string fold_left]. change (0 * 256 + N_of_ascii d)%N with (N_of_ascii d).
      apply be_value_grows. }
    destruct s as [|a [|b s]].
    + rewrite be_value_1 in V. pose proof (N_ascii_lt d). cbn [String.length]. lia.
    + cbn [String.length]. lia.
    + cbn [String.length] in X. rewrite !Nat2N.inj_succ, !N.pow_succ_r' in X.
      pose proof (N.pow_nonzero 256 (N.of_nat (String.length s)) ltac:(lia)).
      assert (65536 <= n)%N by nia. cbn [String.length]. lia.
Qed.

Lemma spki_body_fits o v t : oid_of_key_type t = Some o -> fits v -> (blen (spki_body o v) <= u64_max)%N.
Proof.
  intros O F. unfold spki_body. rewrite blen_app. unfold fits in F.
  assert (A : (blen (spki_alg o) <= 20)%N) by (destruct t; inversion O; subst; vm_compute; discriminate).
  pose proof (blen_tlv tag_bit_string (String "000" v)) as B. unfold blen at 1 3 in B. cbn [String.length] in B.
  unfold u64_max, blen in *. lia.
Qed.
Lemma blen_body_ge o v : (blen v <= blen (spki_body o v))%N.
Proof.
  unfold spki_body. rewrite blen_app. unfold der_tlv, blen. cbn [String.length]. rewrite slength_app. cbn [String.length]. lia.
Qed.

Lemma read_spki_iff der t v : read_spki der = Some (t, v) <->
  spki_of t v der /\ fits v /\ (N.of_nat (String.length der) <= 65539)%N.
Proof.
  rewrite read_spki_Some. split.
  - intros (o & O & L & ->). pose proof (blen_body_ge o v). assert (F : fits v) by (unfold fits; lia).
    split; [|split; [exact F|]].
    + apply write_spki_iff; [exact F|]. now rewrite write_spki_eq, O.
    + apply (tlv_limit tag_sequence); [unfold u64_max; lia|exact L].
  - intros (S & F & L). apply write_spki_iff in S; [|exact F]. rewrite write_spki_eq in S.
    destruct (oid_of_key_type t) as [o|] eqn:O; [|discriminate]. inversion S; subst. exists o.
    split; [reflexivity|]. split; [|reflexivity]. apply (tlv_limit tag_sequence); [now apply (spki_body_fits o v t)|exact L].
Qed.

(** [fits] is no restriction for what fits into the reader. *)
Lemma spki_fits t v der : spki_of t v der -> (N.of_nat (String.length der) <= 65539)%N -> fits v.
Proof.
  intros (oid & A & o & o' & nul & z & alg & bits & inner & body & H1 & H2 & H3 & H4 & H5 & (t3 & l3 & _ & _ & E3) & EI & (t4 & l4 & _ & _ & E4) & EB) L.
  subst. unfold fits, blen. cbn [String.length] in L. rewrite !slength_app in L. cbn [String.length] in L. rewrite !slength_app in L. lia.
Qed.

(** ** Ids *)
Lemma public_text_ed v p : public_text KtEd25519 v p <-> p = hex_encode v.
Proof.
  split.
  - intros H; inversion H as [? ? X|]; subst. apply hex_decode_text in X. now apply hex_decode_Some in X.
  - intros ->. constructor. apply hex_encode_text.
Qed.

Lemma b64_unique b : forall t t', b64_text t b -> b64_text t' b -> t = t'.
Proof.
  assert (A : forall x y (c d : ascii) , nth_char b64_alphabet x c -> nth_char b64_alphabet y d -> x = y -> c = d).
  { unfold nth_char. intros x y c d X Y ->. congruence. }
  intros t t' H. revert t'. induction H as [|cx cy x y a X Y E|cx cy cz x y z a b X Y Z E|cx cy cz cw x y z w a b c t r X Y Z W E _ IH];
    intros t' H'.
  - inversion H'; reflexivity.
  - inversion H' as [|cx' cy' x' y' a' X' Y' E'| |]; subst.
    pose proof (b64_val_lt _ _ X). pose proof (b64_val_lt _ _ Y). pose proof (b64_val_lt _ _ X'). pose proof (b64_val_lt _ _ Y').
    rewrite (A x x' cx cx'), (A y y' cy cy') by (auto; lia). reflexivity.
  - inversion H' as [| |cx' cy' cz' x' y' z' a' b' X' Y' Z' E'|]; subst.
    pose proof (b64_val_lt _ _ X). pose proof (b64_val_lt _ _ Y). pose proof (b64_val_lt _ _ Z).
    pose proof (b64_val_lt _ _ X'). pose proof (b64_val_lt _ _ Y'). pose proof (b64_val_lt _ _ Z').
    rewrite (A x x' cx cx'), (A y y' cy cy'), (A z z' cz cz') by (auto; lia). reflexivity.
  - inversion H' as [| | |cx' cy' cz' cw' x' y' z' w' a' b' c' t2 r' X' Y' Z' W' E' T']; subst.
    pose proof (b64_val_lt _ _ X). pose proof (b64_val_lt _ _ Y). pose proof (b64_val_lt _ _ Z). pose proof (b64_val_lt _ _ W).
    pose proof (b64_val_lt _ _ X'). pose proof (b64_val_lt _ _ Y'). pose proof (b64_val_lt _ _ Z'). pose proof (b64_val_lt _ _ W').
    rewrite (A x x' cx cx'), (A y y' cy cy'), (A z z' cz cz'), (A w w' cw cw') by (auto; lia). now rewrite (IH _ T').
Qed.

Lemma b64_text_iff b t : b64_text t b <-> t = b64_encode b.
Proof. split; [intros H; eapply b64_unique; [exact H|apply b64_encode_text]|intros ->; apply b64_encode_text]. Qed.

(** What [shim_public_key] produces, in terms of the specification. *)
Lemma shim_iff t s h v id j : fits v ->
  shim_public_key t s h v = Some j -> key_object (mkKey t id s h v) (to_value j).
Proof.
  intros F H. unfold shim_public_key in H.
  assert (A : exists p, public_text t v p /\ j = shim_key_json t s h p).
  { destruct t.
    - inversion H; subst. eexists. split; [|reflexivity]. now apply public_text_ed.
    - apply obind_Some in H as (der & W & H). inversion H; subst. eexists. split; [|reflexivity].
      apply write_spki_iff in W; [|exact F]. econstructor; [exact W|]. apply b64_encode_text.
    - discriminate. }
  destruct A as (p & P & ->).
  destruct h as [h|], s; cbn; rewrite ?map_map; constructor; exact P.
Qed.

Lemma key_object_shim k j : key_object k j -> fits (pk_value k) -> exists j0, e_key k = Some j0 /\ j = to_value j0.
Proof.
  intros K F.
  assert (A : exists p, public_text (pk_typ k) (pk_value k) p /\
    j = to_value (shim_key_json (pk_typ k) (pk_scheme k) (pk_kha k) p)).
  { inversion K as [t id s v p P|t id s h v p P]; subst; cbn [pk_typ pk_value pk_scheme pk_kha] in *;
      exists p; (split; [exact P|]); destruct s; cbn; rewrite ?map_map; reflexivity. }
  destruct A as (p & P & ->). unfold e_key, shim_public_key.
  destruct (pk_typ k) eqn:T.
  - apply public_text_ed in P. subst p. eexists. split; reflexivity.
  - inversion P as [|v der t S X]; subst. apply write_spki_iff in S; [|exact F]. rewrite S. cbn [obind].
    eexists. split; [reflexivity|]. apply b64_text_iff in X. now rewrite X.
  - inversion P.
Qed.

Lemma key_object_unique k j j' : key_object k j -> key_object k j' -> fits (pk_value k) -> j = j'.
Proof.
  intros K K' F. destruct (key_object_shim _ _ K F) as (a & E & ->). destruct (key_object_shim _ _ K' F) as (b & E' & ->). congruence.
Qed.

Lemma key_object_id t id id' s h v j : key_object (mkKey t id s h v) j -> key_object (mkKey t id' s h v) j.
Proof. intros H; inversion H; subst; constructor; assumption. Qed.

Lemma hex_unique t t' b : hex_text t b -> hex_text t' b -> t = t'.
Proof.
  intros H H'. apply hex_decode_text in H, H'. apply hex_decode_Some in H, H'. congruence.
Qed.

(** [PublicKey::new] gives exactly the key with its own id. *)
Lemma key_new_iff C t s h v k : fits v ->
  key_new C t s h v = Ok k <-> k = mkKey t (pk_id k) s h v /\ own_id C k.
Proof.
  intros F. unfold key_new, calculate_key_id. split.
  - intros H. apply rbind_Ok in H as (id & H & E). inversion E; subst. cbn [pk_id]. split; [reflexivity|].
    destruct (shim_public_key t s h v) as [j|] eqn:S; [|discriminate].
    apply rbind_Ok in H as (b & B & H). inversion H; subst.
    exists (to_value j), b. split; [now apply (shim_iff _ _ _ _ _ _ F)|]. split; [exact B|]. apply hex_encode_text.
  - intros (E & j & b & K & B & I). rewrite E in K. cbn in K.
    destruct (key_object_shim _ _ K F) as (j0 & S & ->). unfold e_key in S. cbn in S. rewrite S. cbn.
    rewrite B. cbn. rewrite E. cbn. do 2 f_equal. eapply hex_unique; [apply hex_encode_text|exact I].
Qed.

(** ** Reading keys *)
Lemma stable_scheme : stable d_scheme.
Proof.
  apply stable_enum. intros n d H. destruct (String.eqb n "Unknown"); inversion H; subst. apply stable_bind, stable_str.
Qed.
Lemma stable_key_id : stable d_key_id.
Proof. apply stable_bind, stable_str. Qed.
Lemma stable_key_type : stable d_key_type.
Proof. apply stable_bind, stable_str. Qed.
Lemma stable_key_value : stable d_key_value.
Proof. unfold d_key_value. stable_struct. Qed.
#[export] Hint Resolve stable_scheme stable_key_id stable_key_type stable_key_value : stable.
Lemma stable_shim_key : stable d_shim_key.
Proof. unfold d_shim_key. stable_struct. Qed.
#[export] Hint Resolve stable_shim_key : stable.
Lemma stable_key C : stable (d_key C).
Proof. unfold d_key. apply stable_bind, stable_shim_key. Qed.
#[export] Hint Resolve stable_key : stable.

Lemma all_some_map {A B C} (f : B -> option C) (g : A -> B) (h : A -> C) l :
  (forall a, In a l -> f (g a) = Some (h a)) -> all_some f (map g l) = Some (map h l).
Proof.
  induction l as [|a l IH]; intros H; [reflexivity|]. cbn. rewrite H by (left; reflexivity). cbn.
  rewrite IH; [reflexivity|]. intros x I. apply H. now right.
Qed.
Lemma d_strings l : d_vec d_str (JArr (map JStr l)) = Some l.
Proof. cbn. rewrite (all_some_map _ _ (fun x => x)); [now rewrite map_id|reflexivity]. Qed.

Lemma d_scheme_e s : d_scheme (e_scheme s) = Some s.
Proof. destruct s; reflexivity. Qed.
Lemma d_key_type_e t : (exists s, t = KtUnknown s) \/ d_key_type (JStr (key_type_name t)) = Some t.
Proof. destruct t; [right; reflexivity|right; reflexivity|left; eauto]. Qed.

Lemma d_shim_key_e t s h p : t = KtEd25519 \/ t = KtRsa ->
  d_shim_key (shim_key_json t s h p) = Some (t, s, h, p).
Proof.
  intros T. unfold d_shim_key, shim_key_json. destruct h as [h|]; cbn [opt_member app].
  - change (match d_fields ["keytype"; "scheme"; "keyid_hash_algorithms"; "keyval"] false 0
      (JObj [("keytype", JStr (key_type_name t)); ("scheme", e_scheme s); ("keyid_hash_algorithms", JArr (map JStr h));
             ("keyval", JObj [("public", JStr p)])]) with Some x => Some x | None => None end)
     with (Some [Some (JStr (key_type_name t)); Some (e_scheme s); Some (JArr (map JStr h)); Some (JObj [("public", JStr p)])]).
    cbn -[d_key_type d_scheme d_vec]. rewrite d_scheme_e.
    replace (d_key_type (JStr (key_type_name t))) with (Some t) by (destruct T; subst; reflexivity).
    cbn -[d_vec]. rewrite d_strings. reflexivity.
  - cbn -[d_key_type d_scheme d_vec]. rewrite d_scheme_e.
    replace (d_key_type (JStr (key_type_name t))) with (Some t) by (destruct T; subst; reflexivity). reflexivity.
Qed.

Lemma own_id_unique C k k' : own_id C k -> own_id C k' -> fits (pk_value k) ->
  pk_typ k = pk_typ k' -> pk_scheme k = pk_scheme k' -> pk_kha k = pk_kha k' -> pk_value k = pk_value k' -> k = k'.
Proof.
  destruct k as [t id s h v], k' as [t' id' s' h' v']. intros (j & b & K & B & I) (j' & b' & K' & B' & I') F.
  cbn in *. intros -> -> -> ->. f_equal. apply (key_object_id _ _ id') in K.
  rewrite (key_object_unique _ _ _ K K' F) in B. rewrite B in B'. inversion B'; subst. eapply hex_unique; eassumption.
Qed.

(** What the reader accepts. *)
Lemma d_key_type_known j t : d_key_type j = Some t -> t = KtEd25519 \/ t = KtRsa.
Proof.
  intros H. bound H. unfold key_type_of_name in H. destruct (String.eqb _ _); [inversion H; auto|].
  destruct (String.eqb _ _); inversion H; auto.
Qed.
Lemma d_shim_key_type j t s h v : d_shim_key j = Some (t, s, h, v) -> t = KtEd25519 \/ t = KtRsa.
Proof.
  unfold d_shim_key. destruct (d_fields _ _ _ _) as [l|]; [|discriminate].
  destruct l as [|f [|f0 [|f1 [|f2 [|]]]]]; try discriminate. intros H. bounds H. inversion H; subst.
  unfold d_required in E. bound E. eapply d_key_type_known; eassumption.
Qed.

Lemma d_key_sound C j k : d_key C j = Some k -> own_id C k /\ portable k.
Proof.
  intros H. unfold d_key in H. bound H. destruct a as [[[t s] h] v]. bound H.
  destruct (key_type_eqb t (pk_typ a)) eqn:ET; [|discriminate]. inversion H; subst. clear H.
  destruct t.
  - destruct s; try discriminate. bound E0. destruct (from_ed25519_with C a h) as [k'|] eqn:R; [|discriminate].
    inversion E0; subst. unfold from_ed25519_with in R. destruct (Nat.eqb_spec (String.length a) 32) as [L|]; [|discriminate].
    apply key_new_iff in R as [EK O]; [|unfold fits, blen; lia]. split; [exact O|]. left. rewrite EK. cbn. auto.
  - bound E0. destruct (from_spki_with C a s h) as [k'|] eqn:R; [|discriminate].
    inversion E0; subst. unfold from_spki_with in R. destruct (read_spki a) as [[t v']|] eqn:S; [|discriminate].
    apply read_spki_iff in S as (S & F & L). apply key_new_iff in R as [EK O]; [|exact F]. split; [exact O|].
    right. rewrite EK in *. cbn in *. destruct t; try discriminate. split; [reflexivity|]. exists a. auto.
  - exfalso. apply d_shim_key_type in E as [|]; discriminate.
Qed.

Lemma portable_fits k : portable k -> fits (pk_value k).
Proof.
  intros [(_ & _ & L)|(_ & der & S & L)]; [unfold fits, blen; lia|]. eapply spki_fits; eassumption.
Qed.

(** What is written is the key object, and it reads back as the key. *)
Lemma d_key_e C k : own_id C k -> portable k ->
  exists j, e_key k = Some j /\ key_object k (to_value j) /\ d_key C j = Some k.
Proof.
  intros O P. pose proof (portable_fits k P) as F. destruct O as (j & b & K & B & I).
  destruct (key_object_shim _ _ K F) as (j0 & E & ->). exists j0. split; [exact E|]. split; [exact K|].
  assert (N : key_new C (pk_typ k) (pk_scheme k) (pk_kha k) (pk_value k) = Ok k).
  { apply key_new_iff; [exact F|]. split; [destruct k; reflexivity|]. exists (to_value j0), b. auto. }
  unfold e_key, shim_public_key in E. unfold d_key. destruct P as [(T & S & L)|(T & der & S & L)]; rewrite T in E.
  - inversion E; subst. rewrite d_shim_key_e by auto. cbn [obind]. rewrite S, hex_decode_encode. cbn [obind].
    unfold from_ed25519_with. rewrite L. cbn [Nat.eqb]. rewrite <- S, <- T, N. cbn [get_ok obind]. rewrite T. reflexivity.
  - pose proof S as W. apply write_spki_iff in W; [|exact F]. rewrite W in E. inversion E; subst.
    rewrite d_shim_key_e by auto. cbn [obind]. rewrite b64_decode_encode. cbn [obind].
    unfold from_spki_with. rewrite (proj2 (read_spki_iff der KtRsa (pk_value k))) by auto.
    rewrite <- T, N. cbn [get_ok obind]. rewrite T. reflexivity.
Qed.
