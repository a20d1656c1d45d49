(** * Proofs about private keys *)
From Coq Require Import String Ascii List NArith ZArith Bool Lia.
From Verif Require Import Base BaseFacts StringFacts JsonValue JsonText Utf8 SpecJson JsonProofs Metadata Paths
     Codec SpecCodec CodecProofs Serde SerdeProofs Keys SpecKeys KeyProofs TextProofs PrivateKeys SpecPrivate.
Import ListNotations.
Open Scope string_scope.

(** ** Integers *)

Definition leads (v : bytes) : Prop := match v with String c _ => N_of_ascii c <> 0%N | EmptyString => False end.
Definition signed (v : bytes) : bytes :=
  match v with String c _ => if (128 <=? N_of_ascii c)%N then String "000" v else v | EmptyString => v end.

Lemma integer_of_signed v : der_integer_of v = der_tlv tag_integer (signed v).
Proof. destruct v as [|c v]; [reflexivity|]. cbn -[der_tlv N.leb]. now destruct (128 <=? N_of_ascii c)%N. Qed.

Lemma be_value_zero v : be_value (String "000" v) = be_value v.
Proof. reflexivity. Qed.

Lemma be_value_leads v : leads v -> (0 < be_value v)%N.
Proof.
  destruct v as [|c v]; [intros []|]. cbn [leads]. intros L.
  change (be_value (String c v)) with (fold_left (fun n c => n * 256 + N_of_ascii c)%N (list_ascii_of_string v) (N_of_ascii c)).
  pose proof (be_value_grows v (N_of_ascii c)) as G.
  assert (0 < 256 ^ N.of_nat (String.length v))%N by (apply N.neq_0_lt_0, N.pow_nonzero; lia). nia.
Qed.

Lemma signed_content v : leads v -> integer_content (be_value v) (signed v).
Proof.
  destruct v as [|c v]; [intros []|]. cbn [leads signed]. intros L. destruct (N.leb_spec 128 (N_of_ascii c)) as [G|G].
  - rewrite <- be_value_zero. apply in_more; [reflexivity|auto].
  - destruct v as [|d v]; [change (be_value (String c "")) with (N_of_ascii c); now constructor|]. apply in_more; [exact G|]. intros; contradiction.
Qed.

Lemma content_signed n c : integer_content n c -> (0 < n)%N -> exists v, leads v /\ be_value v = n /\ c = signed v.
Proof.
  intros I P. destruct I as [c L|c d r L G].
  - exists (String c ""). split; [cbn; lia|]. split; [reflexivity|]. cbn [signed]. destruct (N.leb_spec 128 (N_of_ascii c)); [lia|reflexivity].
  - destruct (N.eq_dec (N_of_ascii c) 0) as [Z|NZ].
    + specialize (G Z). exists (String d r). split; [cbn; lia|].
      assert (c = "000"%char) as -> by (rewrite <- (ascii_N_embedding c), Z; reflexivity).
      split; [reflexivity|]. cbn [signed]. destruct (N.leb_spec 128 (N_of_ascii d)); [reflexivity|lia].
    + exists (String c (String d r)). split; [exact NZ|]. split; [reflexivity|]. cbn [signed].
      destruct (N.leb_spec 128 (N_of_ascii c)); [lia|reflexivity].
Qed.

Lemma leads_inj v v' : leads v -> leads v' -> be_value v = be_value v' -> v = v'.
Proof.
  intros L L' E. destruct v as [|c v]; [destruct L|]. destruct v' as [|c' v']; [destruct L'|]. cbn [leads] in L, L'.
  apply be_value_inj; [|exact E]. cbn [String.length]. f_equal. exact (be_length_eq _ _ _ _ L L' E).
Qed.

Lemma content_zero c : integer_content 0 c <-> c = String "000" "".
Proof.
  split.
  - intros I. remember 0%N as n eqn:Z. destruct I as [c L|c d r L G].
    + rewrite <- (ascii_N_embedding c), Z. reflexivity.
    + exfalso. destruct (N.eq_dec (N_of_ascii c) 0) as [E|E].
      * specialize (G E). assert (c = "000"%char) as -> by (rewrite <- (ascii_N_embedding c), E; reflexivity).
        rewrite be_value_zero in Z. pose proof (be_value_leads (String d r)) as W. cbn [leads] in W. rewrite Z in W. lia.
      * pose proof (be_value_leads (String c (String d r)) E). lia.
  - intros ->. change 0%N with (N_of_ascii "000"). now constructor.
Qed.

Lemma der_positive_iff s v r : der_positive s = Some (v, r) <->
  leads v /\ (blen (signed v) < 65536)%N /\ s = der_integer_of v ++ r.
Proof.
  rewrite integer_of_signed. unfold der_positive, der_nonnegative. split.
  - destruct (der_expect tag_integer s) as [[w q]|] eqn:X; [|discriminate].
    apply der_expect_Some in X as [-> L]; [|reflexivity]. destruct w as [|c w]; [discriminate|].
    destruct (N.eqb_spec (N_of_ascii c) 0) as [Z|NZ].
    + destruct w as [|d w]; [discriminate|]. destruct (N.ltb_spec (N_of_ascii d) 128) as [|G]; [discriminate|].
      assert (c = "000"%char) as -> by (rewrite <- (ascii_N_embedding c), Z; reflexivity).
      assert (S : signed (String d w) = String "000" (String d w)).
      { cbn [signed]. destruct (N.leb_spec 128 (N_of_ascii d)); [reflexivity|lia]. }
      intros H. assert (v = String d w /\ q = r) as [-> ->].
      { destruct w as [|]; [destruct (N.ltb_spec (N_of_ascii d) 1); [lia|]|]; inversion H; auto. }
      rewrite S. split; [cbn; lia|auto].
    + destruct (N.leb_spec 128 (N_of_ascii c)) as [|G]; [discriminate|].
      assert (S : signed (String c w) = String c w).
      { cbn [signed]. destruct (N.leb_spec 128 (N_of_ascii c)); [lia|reflexivity]. }
      intros H. assert (v = String c w /\ q = r) as [-> ->].
      { destruct w as [|]; [destruct (N.ltb_spec (N_of_ascii c) 1); [lia|]|]; inversion H; auto. }
      rewrite S. split; [exact NZ|auto].
  - intros (L & B & ->). rewrite der_expect_tlv by (auto; reflexivity).
    destruct v as [|c v]; [destruct L|]. cbn [leads] in L. cbn [signed] in *.
    destruct (N.leb_spec 128 (N_of_ascii c)) as [G|G].
    + change (N_of_ascii "000" =? 0)%N with true. cbn iota. destruct (N.ltb_spec (N_of_ascii c) 128); [lia|].
      destruct v; [destruct (N.ltb_spec (N_of_ascii c) 1); [lia|]|]; reflexivity.
    + destruct (N.eqb_spec (N_of_ascii c) 0); [contradiction|]. destruct (N.leb_spec 128 (N_of_ascii c)); [lia|].
      destruct v; [destruct (N.ltb_spec (N_of_ascii c) 1); [lia|]|]; reflexivity.
Qed.

Definition zero : bytes := der_tlv tag_integer (String "000" "").

Lemma der_small_zero s r : der_small s = Some (0%N, r) <-> s = zero ++ r.
Proof.
  unfold der_small, der_nonnegative. split.
  - destruct (der_expect tag_integer s) as [[w q]|] eqn:X; [|discriminate].
    apply der_expect_Some in X as [-> L]; [|reflexivity]. destruct w as [|c w]; [discriminate|].
    destruct (N.eqb_spec (N_of_ascii c) 0) as [Z|NZ].
    + assert (c = "000"%char) as -> by (rewrite <- (ascii_N_embedding c), Z; reflexivity).
      destruct w as [|d w]; [cbn; intros H; inversion H; reflexivity|].
      destruct (N.ltb_spec (N_of_ascii d) 128) as [|G]; [discriminate|].
      intros H. destruct w; [|discriminate]. destruct (N_of_ascii d <? 0)%N; [discriminate|]. inversion H. lia.
    + destruct (128 <=? N_of_ascii c)%N; [discriminate|]. destruct w; [|discriminate].
      destruct (N_of_ascii c <? 0)%N; [discriminate|]. intros H; inversion H. contradiction.
  - intros ->. unfold zero. rewrite der_expect_tlv by reflexivity. reflexivity.
Qed.

(** ** The file *)

Definition rsa_alg (x : bytes) : bytes := der_tlv tag_sequence (der_tlv tag_oid rsa_oid ++ der_tlv tag_null x).
Definition rsa_key (n e rest : bytes) : bytes :=
  der_tlv tag_sequence (zero ++ der_integer_of n ++ der_integer_of e ++ rest).
Definition file_body (x n e rest : bytes) : bytes :=
  zero ++ rsa_alg x ++ der_tlv tag_octet_string (rsa_key n e rest).

Lemma blen_tlv_ge tag v : (blen v <= blen (der_tlv tag v))%N.
Proof. unfold der_tlv, blen. cbn [String.length]. rewrite slength_app. lia. Qed.

Lemma extract_iff der w : extract_rsa_pub der = Some w <->
  exists x n e rest, leads n /\ leads e /\ (blen (file_body x n e rest) < 65536)%N /\
    der = der_tlv tag_sequence (file_body x n e rest) /\ w = write_pkcs1 n e.
Proof.
  unfold extract_rsa_pub, extract_rsa_key, obind. split.
  - intros H. destruct (at_end (der_expect tag_sequence der)) as [s|] eqn:E1; [|discriminate].
    apply at_end_Some, der_expect_Some in E1 as [-> L1]; [|reflexivity].
    destruct (der_small s) as [[ver r]|] eqn:E2; [|discriminate].
    destruct (N.eqb_spec ver 0) as [->|]; [|discriminate]. apply der_small_zero in E2. subst s. cbn [negb] in H.
    destruct (der_expect tag_sequence r) as [[alg r']|] eqn:E3; [|discriminate].
    apply der_expect_Some in E3 as [-> L3]; [|reflexivity].
    destruct (der_expect tag_oid alg) as [[oid params]|] eqn:E4; [|discriminate].
    apply der_expect_Some in E4 as [-> L4]; [|reflexivity].
    destruct (String.eqb_spec oid rsa_oid) as [->|]; [|discriminate]. cbn [negb] in H.
    destruct (at_end (der_expect tag_null params)) as [x|] eqn:E5; [|discriminate].
    apply at_end_Some, der_expect_Some in E5 as [-> L5]; [|reflexivity].
    destruct (at_end (der_expect tag_octet_string r')) as [octs|] eqn:E6; [|discriminate].
    apply at_end_Some, der_expect_Some in E6 as [-> L6]; [|reflexivity].
    destruct (at_end (der_expect tag_sequence octs)) as [key|] eqn:E7; [|discriminate].
    apply at_end_Some, der_expect_Some in E7 as [-> L7]; [|reflexivity].
    destruct (der_small key) as [[ver r]|] eqn:E8; [|discriminate].
    destruct (N.eqb_spec ver 0) as [->|]; [|discriminate]. apply der_small_zero in E8. subst key. cbn [negb] in H.
    destruct (der_positive r) as [[n r']|] eqn:E9; [|discriminate]. apply der_positive_iff in E9 as (Ln & Bn & ->).
    destruct (der_positive r') as [[e rest]|] eqn:E10; [|discriminate]. apply der_positive_iff in E10 as (Le & Be & ->).
    inversion H; subst w. rewrite !sapp_nil_r in *. exists x, n, e, rest.
    split; [exact Ln|]. split; [exact Le|]. split; [exact L1|]. split; reflexivity.
  - intros (x & n & e & rest & Ln & Le & B & -> & ->).
    assert (B1 : (blen (rsa_alg x) < 65536 /\ blen (rsa_key n e rest) < 65536)%N).
    { unfold file_body in B. rewrite !blen_app in B. pose proof (blen_tlv_ge tag_octet_string (rsa_key n e rest)). lia. }
    destruct B1 as [B1 B2].
    assert (B3 : (blen (der_tlv tag_oid rsa_oid ++ der_tlv tag_null x) < 65536)%N).
    { unfold rsa_alg in B1. pose proof (blen_tlv_ge tag_sequence (der_tlv tag_oid rsa_oid ++ der_tlv tag_null x)). lia. }
    assert (B4 : (blen x < 65536)%N).
    { rewrite blen_app in B3. pose proof (blen_tlv_ge tag_null x). lia. }
    assert (B5 : (blen (zero ++ der_integer_of n ++ der_integer_of e ++ rest) < 65536)%N).
    { unfold rsa_key in B2. pose proof (blen_tlv_ge tag_sequence (zero ++ der_integer_of n ++ der_integer_of e ++ rest)). lia. }
    assert (B6 : (blen (signed n) < 65536 /\ blen (signed e) < 65536)%N).
    { rewrite !blen_app, !integer_of_signed in B5. pose proof (blen_tlv_ge tag_integer (signed n)).
      pose proof (blen_tlv_ge tag_integer (signed e)). lia. }
    destruct B6 as [B6 B7].
    assert (T : forall tag v, (tag < 256)%N -> (blen v < 65536)%N -> at_end (der_expect tag (der_tlv tag v)) = Some v).
    { intros tag v T L. apply at_end_Some. rewrite <- (sapp_nil_r (der_tlv tag v)). now apply der_expect_tlv. }
    rewrite T by (auto; reflexivity). unfold file_body at 1.
    rewrite (proj2 (der_small_zero _ _) eq_refl). cbn [negb N.eqb]. unfold rsa_alg.
    rewrite der_expect_tlv by (auto; reflexivity). rewrite der_expect_tlv by reflexivity.
    rewrite String.eqb_refl. cbn [negb]. rewrite T by (auto; reflexivity). rewrite T by (auto; reflexivity).
    unfold rsa_key. rewrite T by (auto; reflexivity).
    rewrite (proj2 (der_small_zero _ _) eq_refl). cbn [negb N.eqb].
    rewrite (proj2 (der_positive_iff _ n (der_integer_of e ++ rest))) by auto.
    rewrite (proj2 (der_positive_iff _ e rest)) by auto. reflexivity.
Qed.

(** ** The structures *)

Lemma der_integer_zero s : der_integer 0 s <-> s = zero.
Proof.
  split.
  - intros (v & I & D). apply content_zero in I. subst v. apply der_value_tlv in D; [exact D|]. cbn. unfold u64_max. lia.
  - intros ->. exists (String "000" ""). split; [now apply content_zero|]. apply der_tlv_value; [reflexivity|]. cbn. unfold u64_max. lia.
Qed.
Lemma der_integer_of_spec v : leads v -> (blen (signed v) <= u64_max)%N -> der_integer (be_value v) (der_integer_of v).
Proof.
  intros L B. exists (signed v). split; [now apply signed_content|]. rewrite integer_of_signed. now apply der_tlv_value.
Qed.
Lemma der_value_longer tag v s : der_value tag v s -> (blen v < blen s)%N.
Proof. intros (t & l & _ & _ & ->). unfold blen. cbn [String.length]. rewrite slength_app. lia. Qed.
Lemma der_integer_written n s : der_integer n s -> (0 < n)%N -> (blen s <= u64_max)%N ->
  exists v, leads v /\ be_value v = n /\ s = der_integer_of v.
Proof.
  intros (c & I & D) P B. pose proof (der_value_longer _ _ _ D). destruct (content_signed n c I P) as (v & L & V & ->).
  exists v. split; [exact L|]. split; [exact V|]. rewrite integer_of_signed. apply der_value_tlv; [lia|exact D].
Qed.

Lemma public_written n e : leads n -> leads e -> (blen n <= 65536)%N -> (blen e <= 65536)%N ->
  forall v, rsa_public_key (be_value n) (be_value e) v <-> v = write_pkcs1 n e.
Proof.
  intros Ln Le Bn Be.
  assert (S : forall v, leads v -> (blen v <= 65536)%N -> (blen (signed v) <= 65537)%N).
  { intros v L B. destruct v as [|c v]; [destruct L|]. cbn [signed]. destruct (128 <=? N_of_ascii c)%N; unfold blen in *; cbn [String.length] in *; lia. }
  assert (T : forall v, leads v -> (blen v <= 65536)%N -> (blen (der_integer_of v) <= 65547)%N).
  { intros v L B. rewrite integer_of_signed. pose proof (S v L B). pose proof (blen_tlv tag_integer (signed v)). unfold u64_max in *. lia. }
  pose proof (S n Ln Bn) as Sn. pose proof (S e Le Be) as Se. pose proof (T n Ln Bn) as Tn. pose proof (T e Le Be) as Te.
  assert (U : forall m s, leads m -> (blen m <= 65536)%N -> der_integer (be_value m) s -> s = der_integer_of m).
  { intros m s L B (c & I & D). destruct (content_signed _ _ I (be_value_leads m L)) as (v & Lv & V & ->).
    apply leads_inj in V; auto. subst v. rewrite integer_of_signed. apply der_value_tlv; [|exact D]. pose proof (S m L B). unfold u64_max. lia. }
  intros v. split.
  - intros (a & b & A & B & D). apply U in A; auto. apply U in B; auto. subst. apply der_value_tlv in D; [exact D|].
    rewrite blen_app. unfold u64_max. lia.
  - intros ->. exists (der_integer_of n), (der_integer_of e).
    split; [apply der_integer_of_spec; auto; unfold u64_max; lia|]. split; [apply der_integer_of_spec; auto; unfold u64_max; lia|].
    apply der_tlv_value; [reflexivity|]. rewrite blen_app. unfold u64_max. lia.
Qed.

Lemma file_short x n e rest der : der = der_tlv tag_sequence (file_body x n e rest) ->
  (blen (file_body x n e rest) <= u64_max)%N -> short der <-> (blen (file_body x n e rest) < 65536)%N.
Proof. intros -> U. unfold short. change (N.of_nat (String.length ?a)) with (blen a). now apply tlv_limit. Qed.

Lemma leads_le v : leads v -> (blen v <= blen (der_integer_of v))%N.
Proof.
  intros L. rewrite integer_of_signed. pose proof (blen_tlv_ge tag_integer (signed v)).
  destruct v as [|c v]; [destruct L|]. cbn [signed] in *. destruct (128 <=? N_of_ascii c)%N; unfold blen in *; cbn [String.length] in *; lia.
Qed.

Lemma file_bounds x n e rest : leads n -> leads e -> (blen (file_body x n e rest) < 65536)%N ->
  (blen n <= 65536 /\ blen e <= 65536)%N.
Proof.
  intros Ln Le B. unfold file_body in B. rewrite !blen_app in B.
  pose proof (blen_tlv_ge tag_octet_string (rsa_key n e rest)) as G. unfold rsa_key in G at 1.
  pose proof (blen_tlv_ge tag_sequence (zero ++ der_integer_of n ++ der_integer_of e ++ rest)) as G'. rewrite !blen_app in G'.
  pose proof (leads_le n Ln). pose proof (leads_le e Le). lia.
Qed.

Lemma file_written x n e rest der : (0 < n)%N -> (0 < e)%N -> short der ->
  rsa_file x n e rest der <->
  exists n' e', leads n' /\ leads e' /\ be_value n' = n /\ be_value e' = e /\ der = der_tlv tag_sequence (file_body x n' e' rest).
Proof.
  intros Pn Pe S. split.
  - intros (ver & o & o' & nul & alg & key & octs & V & O & O' & X & A & (z & a & b & Z & Ia & Ib & K) & T & D).
    pose proof (der_value_longer _ _ _ D) as LD. pose proof (der_value_longer _ _ _ T) as LT.
    pose proof (der_value_longer _ _ _ K) as LK. pose proof (der_value_longer _ _ _ A) as LA.
    pose proof (der_value_longer _ _ _ X) as LX. pose proof (der_value_longer _ _ _ O') as LO.
    rewrite !blen_app in *. unfold short in S. change (blen der <= 65539)%N in S.
    apply der_integer_zero in V, Z. subst ver z.
    destruct (der_integer_written n a Ia Pn) as (n' & Ln & Vn & ->); [unfold u64_max; lia|].
    destruct (der_integer_written e b Ib Pe) as (e' & Le & Ve & ->); [unfold u64_max; lia|].
    exists n', e'. split; [exact Ln|]. split; [exact Le|]. split; [exact Vn|]. split; [exact Ve|].
    apply octets_bytes in O as [_ ->]. change (bytes_of oid_rsa) with rsa_oid in *.
    assert (U : forall m, (m <= 65539)%N -> (m <= u64_max)%N) by (intros; unfold u64_max; lia).
    apply der_value_tlv in O'; [|apply U; lia]. apply der_value_tlv in X; [|apply U; lia].
    apply der_value_tlv in A; [|rewrite blen_app; apply U; lia]. apply der_value_tlv in K; [|rewrite !blen_app; apply U; lia].
    apply der_value_tlv in T; [|apply U; lia]. apply der_value_tlv in D; [|rewrite !blen_app; apply U; lia].
    subst o' nul alg key octs. exact D.
  - intros (n' & e' & Ln & Le & <- & <- & ->).
    assert (B : (blen (file_body x n' e' rest) <= 65539)%N).
    { unfold short in S. change (N.of_nat (String.length ?a)) with (blen a) in S.
      pose proof (blen_tlv_ge tag_sequence (file_body x n' e' rest)). lia. }
    unfold file_body in B. rewrite !blen_app in B.
    pose proof (blen_tlv_ge tag_octet_string (rsa_key n' e' rest)) as G1. unfold rsa_key in G1 at 1.
    pose proof (blen_tlv_ge tag_sequence (zero ++ der_integer_of n' ++ der_integer_of e' ++ rest)) as G2.
    pose proof (blen_tlv_ge tag_sequence (der_tlv tag_oid rsa_oid ++ der_tlv tag_null x)) as G3. unfold rsa_alg in B.
    pose proof (blen_tlv_ge tag_null x) as G4. rewrite !blen_app in *.
    pose proof (blen_tlv_ge tag_integer (signed n')) as G5. rewrite <- integer_of_signed in G5.
    pose proof (blen_tlv_ge tag_integer (signed e')) as G6. rewrite <- integer_of_signed in G6.
    assert (U : forall m, (m <= 65539)%N -> (m <= u64_max)%N) by (intros; unfold u64_max; lia).
    exists zero, rsa_oid, (der_tlv tag_oid rsa_oid), (der_tlv tag_null x), (rsa_alg x), (rsa_key n' e' rest),
      (der_tlv tag_octet_string (rsa_key n' e' rest)).
    split; [now apply der_integer_zero|]. split; [reflexivity|].
    split; [apply (der_tlv_value tag_oid); [reflexivity|vm_compute; discriminate]|].
    split; [apply (der_tlv_value tag_null); [reflexivity|apply U; lia]|].
    split; [apply (der_tlv_value tag_sequence); [reflexivity|rewrite blen_app; apply U; lia]|].
    split.
    { exists zero, (der_integer_of n'), (der_integer_of e'). split; [now apply der_integer_zero|].
      split; [apply der_integer_of_spec; auto; apply U; lia|]. split; [apply der_integer_of_spec; auto; apply U; lia|].
      apply (der_tlv_value tag_sequence); [reflexivity|]. rewrite !blen_app. apply U. lia. }
    split; [apply (der_tlv_value tag_octet_string); [reflexivity|]|].
    + unfold rsa_key at 1. apply U. lia.
    + apply (der_tlv_value tag_sequence); [reflexivity|]. unfold file_body. rewrite !blen_app. unfold rsa_alg. apply U. lia.
Qed.

Lemma extract_spec der v : extract_rsa_pub der = Some v <->
  short der /\ exists x n e rest, (0 < n)%N /\ (0 < e)%N /\ rsa_file x n e rest der /\ rsa_public_key n e v.
Proof.
  rewrite extract_iff. split.
  - intros (x & n & e & rest & Ln & Le & B & -> & ->).
    assert (S : short (der_tlv tag_sequence (file_body x n e rest))).
    { eapply file_short; [reflexivity|unfold u64_max; lia|exact B]. }
    destruct (file_bounds _ _ _ _ Ln Le B) as [Bn Be].
    split; [exact S|]. exists x, (be_value n), (be_value e), rest.
    split; [now apply be_value_leads|]. split; [now apply be_value_leads|].
    split; [|now apply public_written]. apply file_written; auto using be_value_leads. exists n, e. auto.
  - intros (S & x & n & e & rest & Pn & Pe & F & P). apply file_written in F as (n' & e' & Ln & Le & <- & <- & ->); auto.
    assert (B : (blen (file_body x n' e' rest) < 65536)%N).
    { eapply file_short; [reflexivity| |exact S]. unfold short in S. change (N.of_nat (String.length ?a)) with (blen a) in S.
      pose proof (blen_tlv_ge tag_sequence (file_body x n' e' rest)). unfold u64_max. lia. }
    destruct (file_bounds _ _ _ _ Ln Le B) as [Bn Be].
    exists x, n', e', rest. split; [exact Ln|]. split; [exact Le|]. split; [exact B|]. split; [reflexivity|].
    now apply public_written.
Qed.

(** ** Ids *)

Lemma short_fits t v der : spki_of t v der -> short der -> fits v.
Proof. intros S L. exact (spki_fits t v der S L). Qed.

Lemma public_text_inj t v v' p der der' : public_text t v p -> public_text t v' p ->
  spki_of t v der -> short der -> spki_of t v' der' -> short der' -> v = v'.
Proof.
  intros P P' S L S' L'. inversion P as [a b H|a d b Sp B]; subst; inversion P' as [a' b' H'|a' d' b' Sp' B']; subst.
  - apply hex_decode_text in H, H'. congruence.
  - apply b64_decode_text in B, B'. assert (d' = d) by congruence. subst d'.
    pose proof (short_fits _ _ _ S L) as F. pose proof (short_fits _ _ _ S' L') as F'.
    assert (der = d).
    { apply (write_spki_iff v KtRsa) in S; auto. apply (write_spki_iff v KtRsa) in Sp; auto. congruence. }
    assert (der' = d).
    { apply (write_spki_iff v' KtRsa) in S'; auto. apply (write_spki_iff v' KtRsa) in Sp'; auto. congruence. }
    subst. assert (R : read_spki d = Some (KtRsa, v)) by (apply read_spki_iff; auto).
    assert (R' : read_spki d = Some (KtRsa, v')) by (apply read_spki_iff; auto). congruence.
Qed.

Lemma public_text_type t t' v v' p p' : public_text t v p -> public_text t' v' p' -> type_member t = type_member t' -> t = t'.
Proof. intros P P' E. destruct P, P'; try reflexivity; discriminate E. Qed.
Lemma scheme_member_inj s s' : scheme_member s = scheme_member s' -> s = s'.
Proof. destruct s, s'; intros H; inversion H; subst; reflexivity. Qed.
Lemma map_JStr_inj l : forall l', map JStr l = map JStr l' -> l = l'.
Proof. induction l as [|x l IH]; intros [|y l'] H; try discriminate; [reflexivity|]. inversion H. f_equal. now apply IH. Qed.

Lemma key_object_inj k k' j : key_object k j -> key_object k' j ->
  (exists der, spki_of (pk_typ k) (pk_value k) der /\ short der) ->
  (exists der, spki_of (pk_typ k') (pk_value k') der /\ short der) ->
  pk_typ k = pk_typ k' /\ pk_scheme k = pk_scheme k' /\ pk_kha k = pk_kha k' /\ pk_value k = pk_value k'.
Proof.
  intros K K' (der & S & L) (der' & S' & L').
  inversion K as [t id s v p P E J|t id s h v p P E J]; subst; inversion K' as [t' id' s' v' p' P' E' J'|t' id' s' h' v' p' P' E' J']; subst; cbn in *.
  - assert (t' = t) by (eapply public_text_type; eassumption). subst t'.
    repeat split; [now apply scheme_member_inj|]. eapply public_text_inj; eassumption.
  - assert (t' = t) by (eapply public_text_type; eassumption). subst t'.
    repeat split; [now apply scheme_member_inj|f_equal; now apply map_JStr_inj|]. eapply public_text_inj; eassumption.
Qed.

Lemma key_object_holds k j : key_object k j -> text_key k -> holds_in_value j.
Proof.
  intros K [T1 T2].
  assert (P : forall t v p, public_text t v p -> utf8_valid p = true /\ utf8_valid (type_member t) = true).
  { intros t v p [v' p' H|v' d p' S H]; (split; [|reflexivity]); apply ascii_utf8.
    - apply hex_decode_text, hex_decode_Some in H. subst. apply hex_encode_ascii.
    - eapply b64_text_ascii; exact H. }
  assert (Sc : holds_in_value (scheme_member (pk_scheme k))).
  { destruct (pk_scheme k) eqn:E; cbn; try (constructor; reflexivity).
    constructor. constructor; [|constructor]. split; [reflexivity|]. constructor. now apply T1. }
  inversion K as [t id s v p Q E J|t id s h v p Q E J]; subst; cbn [pk_kha pk_scheme] in *; destruct (P _ _ _ Q) as [U1 U2];
    constructor; repeat (constructor; [split; [reflexivity|]|]); auto; try (constructor; auto).
  - constructor; [|constructor]. split; [reflexivity|]. constructor; exact U1.
  - apply Forall_forall. intros x I. apply in_map_iff in I as (y & <- & I). constructor. eapply T2; [reflexivity|exact I].
  - constructor; [|constructor]. split; [reflexivity|]. constructor; exact U1.
Qed.

Lemma id_inj C k k' : library_key C k -> library_key C k' -> pk_id k = pk_id k' -> k = k' \/ collide C k k'.
Proof.
  intros ((j & b & K & B & I) & T & D) ((j' & b' & K' & B' & I') & T' & D') E.
  destruct (String.eqb_spec b b') as [<-|N].
  - left. apply canonicalize_Ok in B as [_ B], B' as [_ B'].
    assert (F : fits (pk_value k)) by (destruct D as (der & S & L); eapply short_fits; eassumption).
    assert (F' : fits (pk_value k')) by (destruct D' as (der & S & L); eapply short_fits; eassumption).
    destruct (key_object_shim _ _ K F) as (j0 & _ & ->). destruct (key_object_shim _ _ K' F') as (j0' & _ & ->).
    rewrite to_value_idem in *. assert (X : to_value j0 = to_value j0').
    { apply write_inj; [now apply (key_object_holds k)|now apply (key_object_holds k')|congruence]. }
    rewrite <- X in K'. destruct (key_object_inj k k' _ K K' D D') as (E1 & E2 & E3 & E4).
    destruct k, k'; cbn in *. congruence.
  - right. exists j, b, j', b'. rewrite E in I. apply hex_decode_text in I, I'.
    split; [exact K|]. split; [exact B|]. split; [exact K'|]. split; [exact B'|]. split; [exact N|congruence].
Qed.

(** ** Public keys in collections *)

Lemma scheme_eqb_iff a b : scheme_eqb a b = true <-> a = b.
Proof.
  destruct a, b; cbn; split; intros H; try reflexivity; try discriminate; try (inversion H; fail).
  - f_equal. now apply String.eqb_eq.
  - inversion H. apply String.eqb_refl.
Qed.
Lemma key_type_eqb_iff a b : key_type_eqb a b = true <-> a = b.
Proof.
  destruct a, b; cbn; split; intros H; try reflexivity; try discriminate; try (inversion H; fail).
  - f_equal. now apply String.eqb_eq.
  - inversion H. apply String.eqb_refl.
Qed.
Lemma strings_eqb_iff a : forall b, strings_eqb a b = true <-> a = b.
Proof.
  induction a as [|x a IH]; intros [|y b]; cbn; split; intros H; try reflexivity; try discriminate.
  - apply andb_true_iff in H as [H1 H2]. apply String.eqb_eq in H1. apply IH in H2. congruence.
  - inversion H; subst. rewrite String.eqb_refl. now apply IH.
Qed.
Lemma algorithms_eqb_iff a b : algorithms_eqb a b = true <-> a = b.
Proof.
  destruct a as [a|], b as [b|]; cbn; split; intros H; try reflexivity; try discriminate.
  - f_equal. now apply strings_eqb_iff.
  - inversion H. now apply strings_eqb_iff.
Qed.
Lemma key_eqb_iff a b : key_eqb a b = true <->
  pk_typ a = pk_typ b /\ pk_scheme a = pk_scheme b /\ pk_kha a = pk_kha b /\ pk_value a = pk_value b.
Proof.
  unfold key_eqb. rewrite !andb_true_iff, key_type_eqb_iff, scheme_eqb_iff, algorithms_eqb_iff, String.eqb_eq. tauto.
Qed.
Lemma library_key_fits C k : library_key C k -> fits (pk_value k).
Proof. intros (_ & _ & der & S & L). eapply short_fits; eassumption. Qed.
Lemma key_eqb_eq C a b : library_key C a -> library_key C b -> key_eqb a b = true <-> a = b.
Proof.
  intros A B. rewrite key_eqb_iff. split; [|intros ->; auto]. intros (E1 & E2 & E3 & E4).
  apply (own_id_unique C); auto; [apply A|apply B|eapply library_key_fits; exact A].
Qed.

(** ** Slices *)

Lemma substring_all s : substring 0 (String.length s) s = s.
Proof. induction s as [|c s IH]; cbn; [reflexivity|now rewrite IH]. Qed.
Lemma slices n b : n <= String.length b -> b = bytes_before n b ++ bytes_from n b /\
  String.length (bytes_before n b) = n /\ String.length (bytes_from n b) = String.length b - n.
Proof.
  unfold bytes_before, bytes_from. revert b. induction n as [|n IH]; intros b L.
  - rewrite Nat.sub_0_r, substring_all. destruct b; auto.
  - destruct b as [|c b]; [cbn in L; lia|]. cbn [String.length] in L. destruct (IH b ltac:(lia)) as (E & L1 & L2).
    cbn [substring String.length append Nat.sub]. rewrite L1, L2. split; [now f_equal|auto].
Qed.
Lemma split_at a b : bytes_before (String.length a) (a ++ b) = a /\ bytes_from (String.length a) (a ++ b) = b.
Proof.
  unfold bytes_before, bytes_from. rewrite slength_app. induction a as [|c a [IH1 IH2]].
  - cbn [String.length append plus]. rewrite Nat.sub_0_r, substring_all. destruct b; auto.
  - cbn [append String.length substring plus Nat.sub]. rewrite IH1. split; [reflexivity|exact IH2].
Qed.

(** ** Sizes *)

Lemma tlv_size tag v : (blen v < 65536)%N ->
  blen (der_tlv tag v) = (blen v + (if blen v <? 128 then 2 else if blen v <? 256 then 3 else 4))%N.
Proof.
  intros L. rewrite blen_tlv_exact by (unfold u64_max; lia). generalize dependent (blen v). clear v tag. intros n L.
  unfold der_len. destruct (N.ltb_spec n 128) as [|G]; [change (blen (String (ascii_of_N n) "")) with 1%N; lia|].
  cbn [be_bytes]. cbv zeta. destruct (N.eqb_spec (n / 256) 0) as [Z|NZ].
  - assert (n < 256)%N by exact (proj1 (N.div_small_iff n 256 ltac:(lia)) Z). destruct (N.ltb_spec n 256); [|lia].
    unfold blen; cbn [String.length]. lia.
  - assert (256 <= n)%N. { destruct (N.le_gt_cases 256 n); [assumption|]. exfalso. apply NZ. now apply N.div_small. }
    destruct (N.ltb_spec n 256); [lia|].
    assert (Z : (n / 256 / 256 = 0)%N). { rewrite N.div_div by lia. apply N.div_small. lia. }
    rewrite Z. change (0 =? 0)%N with true. cbn iota. unfold blen; cbn [String.length]. lia.
Qed.
Lemma tlv_mono tag tag' a b d : (blen a + d <= blen b)%N -> (blen b < 65536)%N ->
  (blen (der_tlv tag a) + d <= blen (der_tlv tag' b))%N.
Proof.
  intros H L. rewrite !tlv_size by lia.
  destruct (N.ltb_spec (blen a) 128), (N.ltb_spec (blen b) 128), (N.ltb_spec (blen a) 256), (N.ltb_spec (blen b) 256); lia.
Qed.

Lemma extracted_spki der v : extract_rsa_pub der = Some v -> exists spk, spki_of KtRsa v spk /\ short spk.
Proof.
  intros H. apply extract_iff in H as (x & n & e & rest & Ln & Le & B & -> & ->).
  assert (Z : blen zero = 3%N) by reflexivity.
  pose proof (blen_tlv_ge tag_octet_string (rsa_key n e rest)) as G1.
  pose proof (blen_tlv_ge tag_sequence (zero ++ der_integer_of n ++ der_integer_of e ++ rest)) as G2. fold (rsa_key n e rest) in G2.
  unfold file_body in B. rewrite !blen_app in B.
  assert (A : (15 <= blen (rsa_alg x))%N).
  { pose proof (blen_tlv_ge tag_sequence (der_tlv tag_oid rsa_oid ++ der_tlv tag_null x)) as G3. fold (rsa_alg x) in G3.
    pose proof (blen_tlv_ge tag_null x) as G4.
    assert (L : (blen (der_tlv tag_oid rsa_oid ++ der_tlv tag_null x) < 65536)%N) by lia.
    rewrite blen_app in G3.
    pose proof (tlv_mono tag_null tag_null "" x 0) as T. rewrite !N.add_0_r in T. specialize (T (N.le_0_l _) ltac:(lia)).
    change (blen (der_tlv tag_null "")) with 2%N in T.
    pose proof (tlv_mono tag_sequence tag_sequence (der_tlv tag_oid rsa_oid ++ der_tlv tag_null "")
                  (der_tlv tag_oid rsa_oid ++ der_tlv tag_null x) 0) as T2.
    rewrite !N.add_0_r in T2. fold (rsa_alg x) in T2.
    change (blen (der_tlv tag_sequence (der_tlv tag_oid rsa_oid ++ der_tlv tag_null ""))) with 15%N in T2.
    apply T2; [rewrite !blen_app; change (blen (der_tlv tag_null "")) with 2%N; lia|exact L]. }
  assert (M1 : (blen (write_pkcs1 n e) + 3 <= blen (rsa_key n e rest))%N).
  { apply tlv_mono; [rewrite !blen_app, Z; lia|lia]. }
  assert (M2 : (blen (der_tlv tag_bit_string (String "000" (write_pkcs1 n e))) + 2 <= blen (der_tlv tag_octet_string (rsa_key n e rest)))%N).
  { apply tlv_mono; [|lia]. unfold blen at 1. cbn [String.length]. unfold blen in M1 at 1. lia. }
  assert (Sz : (blen (spki_body rsa_oid (write_pkcs1 n e)) < 65536)%N).
  { unfold spki_body. rewrite blen_app. change (blen (spki_alg rsa_oid)) with 15%N. lia. }
  exists (der_tlv tag_sequence (spki_body rsa_oid (write_pkcs1 n e))). split.
  - apply write_spki_iff; [|reflexivity]. unfold fits. pose proof (blen_body_ge rsa_oid (write_pkcs1 n e)). lia.
  - unfold short. change (N.of_nat (String.length ?a)) with (blen a). apply tlv_limit; [unfold u64_max; lia|exact Sz].
Qed.

Lemma ed_spki v : String.length v = 32 -> exists spk, spki_of KtEd25519 v spk /\ short spk.
Proof.
  intros L. exists (der_tlv tag_sequence (spki_body ed25519_oid v)). assert (F : (blen v <= 65000)%N) by (unfold blen; lia). split.
  - apply write_spki_iff; [unfold fits; lia|reflexivity].
  - unfold short. change (N.of_nat (String.length ?a)) with (blen a).
    pose proof (blen_body ed25519_oid v KtEd25519 eq_refl F). apply tlv_limit; [unfold u64_max; lia|assumption].
Qed.

(** ** Constructors *)

Lemma key_new_consists C t s h v k : fits v -> key_new C t s h v = Ok k <-> consists_of C k t s h v.
Proof.
  intros F. rewrite key_new_iff by exact F. unfold consists_of. split.
  - intros [E O]. rewrite E. cbn. rewrite <- E. auto.
  - intros (<- & <- & <- & <- & O). split; [now destruct k|exact O].
Qed.
Lemma key_object_no_float k j : key_object k j -> ~ has_float j.
Proof.
  assert (St : forall x, ~ has_float (JStr x)) by (intros x H; inversion H).
  assert (Ob : forall x y, ~ has_float (JObj [(x, JStr y)])).
  { intros x y H. inversion H as [|? ? I|m a b I F]; subst. destruct I as [I|[]]. inversion I; subst. now apply St in F. }
  assert (Sc : forall s, ~ has_float (scheme_member s)) by (intros [| | |u]; cbn; auto).
  intros K F. destruct K; inversion F as [|? ? I|m a b I G]; subst;
    repeat (destruct I as [I|I]; [inversion I; subst; clear I|]); try destruct I;
    try (now apply St in G); try (now apply Ob in G); try (now apply Sc in G).
  inversion G as [|l y J Hy|]; subst. apply in_map_iff in J as (z & <- & _). now apply St in Hy.
Qed.
Lemma key_new_ok C t s h v : fits v -> t = KtEd25519 \/ t = KtRsa -> exists k, key_new C t s h v = Ok k.
Proof.
  intros F T. unfold key_new, calculate_key_id.
  assert (S : exists j, shim_public_key t s h v = Some j) by (destruct T; subst; cbn; eauto).
  destruct S as (j & S). rewrite S. pose proof S as K. apply (shim_iff _ _ _ _ "" _ F) in K.
  destruct (canonicalize (to_value j)) as [b|e] eqn:E; [cbn; eauto|].
  apply canonicalize_Err in E as [E _]. now apply key_object_no_float in K.
Qed.

(** ** One reading per file *)

Lemma value_expect tag v s r : der_value tag v s -> (blen v < 65536)%N -> (tag < 256)%N -> der_expect tag (s ++ r) = Some (v, r).
Proof. intros D B T. apply der_value_tlv in D; [|unfold u64_max; lia]. subst s. now apply der_expect_tlv. Qed.
Lemma value_expect_end tag v s : der_value tag v s -> (blen v < 65536)%N -> (tag < 256)%N -> der_expect tag s = Some (v, "").
Proof. intros D B T. rewrite <- (sapp_nil_r s). now apply value_expect. Qed.
Lemma content_value n c : integer_content n c -> n = be_value c.
Proof. intros []; reflexivity. Qed.
Lemma integer_expect n s r : der_integer n s -> (blen s < 65536)%N -> exists c, n = be_value c /\ der_expect 2 (s ++ r) = Some (c, r).
Proof.
  intros (c & I & D) B. exists c. split; [now apply content_value|]. pose proof (der_value_longer _ _ _ D).
  apply value_expect; [exact D|lia|reflexivity].
Qed.
Lemma integers_unique n e a b r n' e' a' b' r' : der_integer n a -> der_integer e b -> der_integer n' a' -> der_integer e' b' ->
  (blen (a ++ b ++ r) < 65536)%N -> a ++ b ++ r = a' ++ b' ++ r' -> n = n' /\ e = e' /\ r = r'.
Proof.
  intros A B A' B' L E. assert (L' : (blen (a' ++ b' ++ r') < 65536)%N) by now rewrite <- E. rewrite !blen_app in *.
  destruct (integer_expect n a (b ++ r) A) as (c & -> & X); [lia|]. destruct (integer_expect n' a' (b' ++ r') A') as (c' & -> & X'); [lia|].
  rewrite E in X. rewrite X in X'. inversion X' as [[E1 E2]]. subst c'.
  destruct (integer_expect e b r B) as (d & -> & Y); [lia|]. destruct (integer_expect e' b' r' B') as (d' & -> & Y'); [lia|].
  rewrite E2 in Y. rewrite Y in Y'. inversion Y'; subst. auto.
Qed.
Lemma short_value tag v s : der_value tag v s -> short s -> (blen v < 65536)%N.
Proof.
  intros D S. unfold short in S. change (blen s <= 65539)%N in S. pose proof (der_value_longer _ _ _ D) as L.
  apply der_value_tlv in D; [|unfold u64_max; lia]. subst s. apply tlv_limit in S; [exact S|unfold u64_max; lia].
Qed.
Lemma rsa_public_key_unique n e n' e' v : rsa_public_key n e v -> rsa_public_key n' e' v -> short v -> n = n' /\ e = e'.
Proof.
  intros (a & b & A & B & D) (a' & b' & A' & B' & D') S. pose proof (short_value _ _ _ D S) as L. pose proof (short_value _ _ _ D' S) as L'.
  apply value_expect_end in D; [|exact L|reflexivity]. apply value_expect_end in D'; [|exact L'|reflexivity].
  assert (E : a ++ b = a' ++ b') by congruence. rewrite <- (sapp_nil_r b), <- (sapp_nil_r b') in E.
  destruct (integers_unique n e a b "" n' e' a' b' "" A B A' B') as (-> & -> & _); auto. now rewrite sapp_nil_r.
Qed.
Lemma rsa_file_unique x n e rest x' n' e' rest' d : rsa_file x n e rest d -> rsa_file x' n' e' rest' d -> short d ->
  n = n' /\ e = e' /\ rest = rest'.
Proof.
  intros (ver & o & o' & nul & alg & key & octs & V & O & O' & X & A & (z & a & b & Z & Ia & Ib & K) & T & D)
         (ver1 & o1 & o1' & nul1 & alg1 & key1 & octs1 & V1 & O1 & O1' & X1 & A1 & (z1 & a1 & b1 & Z1 & Ia1 & Ib1 & K1) & T1 & D1) S.
  pose proof (short_value _ _ _ D S) as L. pose proof (short_value _ _ _ D1 S) as L1.
  apply der_integer_zero in V, Z, V1, Z1. subst ver z ver1 z1.
  apply value_expect_end in D; [|exact L|reflexivity]. apply value_expect_end in D1; [|exact L1|reflexivity].
  assert (E : zero ++ alg ++ octs = zero ++ alg1 ++ octs1) by congruence. clear D D1.
  assert (Zc : forall u w, zero ++ u = zero ++ w -> u = w).
  { intros u w H. cbn in H. now inversion H. }
  apply Zc in E. rewrite !blen_app in *.
  pose proof (der_value_longer _ _ _ A). pose proof (der_value_longer _ _ _ A1).
  pose proof (der_value_longer _ _ _ T). pose proof (der_value_longer _ _ _ T1).
  pose proof (der_value_longer _ _ _ K). pose proof (der_value_longer _ _ _ K1).
  apply (value_expect _ _ _ octs) in A; [|lia|reflexivity]. apply (value_expect _ _ _ octs1) in A1; [|lia|reflexivity].
  rewrite E in A. assert (octs1 = octs) by congruence. subst octs1.
  apply value_expect_end in T; [|lia|reflexivity]. apply value_expect_end in T1; [|lia|reflexivity].
  assert (key1 = key) by congruence. subst key1.
  apply value_expect_end in K; [|lia|reflexivity]. apply value_expect_end in K1; [|lia|reflexivity].
  assert (E2 : zero ++ a ++ b ++ rest = zero ++ a1 ++ b1 ++ rest') by congruence. apply Zc in E2.
  apply (integers_unique n e a b rest n' e' a1 b1 rest'); auto. rewrite !blen_app in *. lia.
Qed.
