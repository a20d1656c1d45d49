(** * Rounding errors of the single-precision operations *)
From Coq Require Import ZArith QArith Lia Lqa.
From Verif Require Import F32.
Open Scope Z_scope.

Lemma round_half_even_error n d : 0 < d -> 0 <= n ->
  let m := round_half_even n d in - d <= 2 * (m * d - n) <= d.
Proof.
  intros D N. unfold round_half_even.
  pose proof (Z.div_mod n d ltac:(lia)) as E. pose proof (Z.mod_pos_bound n d D) as B.
  set (q := n / d) in *. set (r := n mod d) in *.
  assert (H : n = q * d + r) by lia. clearbody q r. subst n.
  destruct (Z.ltb_spec (2 * r) d); cbn zeta; [nia|].
  destruct (Z.ltb_spec d (2 * r)); [nia|]. destruct (Z.even q); nia.
Qed.

Lemma pow_split a b : 0 <= a -> 0 <= b -> 2 ^ (a + b) = 2 ^ a * 2 ^ b.
Proof. intros. apply Z.pow_add_r; lia. Qed.

(** The scaled significand has at least 24 bits. *)
Lemma exponent_low n d : 0 < n -> 0 < d ->
  let e := f32_exponent n d in 2 ^ 23 * scale_den d e <= scale_num n e.
Proof.
  intros Hn Hd. unfold f32_exponent.
  destruct (Z.ltb_spec (scale_num n (Z.log2 n - Z.log2 d - 23)) (2 ^ 23 * scale_den d (Z.log2 n - Z.log2 d - 23)));
    [|assumption].
  cbn zeta. pose proof (Z.log2_spec n Hn) as [A1 _]. pose proof (Z.log2_spec d Hd) as [_ B2].
  pose proof (Z.log2_nonneg n) as A0. pose proof (Z.log2_nonneg d) as B0.
  set (a := Z.log2 n) in *. set (b := Z.log2 d) in *. set (e := a - b - 23 - 1) in *.
  unfold scale_num, scale_den.
  destruct (Z.le_gt_cases 0 e) as [P|P].
  - rewrite (Z.max_r 0 e), (Z.max_l 0 (- e)) by lia. rewrite Z.mul_1_r.
    assert (E : 2 ^ a = 2 ^ 23 * (2 ^ Z.succ b * 2 ^ e)).
    { rewrite <- !pow_split by lia. f_equal. lia. }
    assert (0 < 2 ^ e) by (apply Z.pow_pos_nonneg; lia). nia.
  - rewrite (Z.max_l 0 e), (Z.max_r 0 (- e)) by lia. rewrite Z.mul_1_r.
    assert (E : 2 ^ a * 2 ^ (- e) = 2 ^ 23 * 2 ^ Z.succ b).
    { rewrite <- !pow_split by lia. f_equal. lia. }
    assert (0 < 2 ^ (- e)) by (apply Z.pow_pos_nonneg; lia). nia.
Qed.

(** ... and at most 24 bits. *)
Lemma exponent_high n d : 0 < n -> 0 < d ->
  let e := f32_exponent n d in scale_num n e < 2 ^ 24 * scale_den d e.
Proof.
  intros Hn Hd. unfold f32_exponent.
  pose proof (Z.log2_spec n Hn) as [_ A2]. pose proof (Z.log2_spec d Hd) as [B1 _].
  pose proof (Z.log2_nonneg n) as A0. pose proof (Z.log2_nonneg d) as B0.
  set (a := Z.log2 n) in *. set (b := Z.log2 d) in *.
  destruct (Z.ltb_spec (scale_num n (a - b - 23)) (2 ^ 23 * scale_den d (a - b - 23))) as [L|L]; cbn zeta.
  - unfold scale_num, scale_den in *. change (2 ^ 24) with (2 * 2 ^ 23).
    destruct (Z.le_gt_cases 1 (a - b - 23)) as [P|P].
    + replace (Z.max 0 (- (a - b - 23))) with 0 in L by lia.
      replace (Z.max 0 (- (a - b - 23 - 1))) with 0 by lia.
      replace (Z.max 0 (a - b - 23)) with (1 + (a - b - 23 - 1)) in L by lia.
      replace (Z.max 0 (a - b - 23 - 1)) with (a - b - 23 - 1) by lia.
      rewrite pow_split in L by lia. change (2 ^ 1) with 2 in L. nia.
    + replace (Z.max 0 (- (a - b - 23 - 1))) with (1 + Z.max 0 (- (a - b - 23))) by lia.
      replace (Z.max 0 (a - b - 23)) with 0 in L by lia.
      replace (Z.max 0 (a - b - 23 - 1)) with 0 by lia.
      rewrite pow_split by lia. change (2 ^ 1) with 2. nia.
  - clear L. set (e := a - b - 23) in *. unfold scale_num, scale_den.
    destruct (Z.le_gt_cases 0 e) as [P|P].
    + rewrite (Z.max_r 0 e), (Z.max_l 0 (- e)) by lia. rewrite Z.mul_1_r.
      assert (E : 2 ^ Z.succ a = 2 ^ 24 * (2 ^ b * 2 ^ e)).
      { rewrite <- !pow_split by lia. f_equal. lia. }
      assert (0 < 2 ^ e) by (apply Z.pow_pos_nonneg; lia). nia.
    + rewrite (Z.max_l 0 e), (Z.max_r 0 (- e)) by lia. rewrite Z.mul_1_r.
      assert (E : 2 ^ Z.succ a * 2 ^ (- e) = 2 ^ 24 * 2 ^ b).
      { rewrite <- !pow_split by lia. f_equal. lia. }
      assert (0 < 2 ^ (- e)) by (apply Z.pow_pos_nonneg; lia). nia.
Qed.

Open Scope Q_scope.

(** [y] lies between [a] and [b] times [x]. *)
Definition near (a b x y : Q) : Prop := a * x <= y /\ y <= b * x.

Definition lo : Q := 16777215 # 16777216.
Definition hi : Q := 16777217 # 16777216.

Lemma f32_round_near q : 0 <= q -> near lo hi q (f32_round q).
Proof.
  intros H. unfold f32_round. destruct (Z.leb_spec (Qnum q) 0) as [L|L].
  - assert (E : q == 0).
    { unfold Qle in H. unfold Qeq. cbn in *. lia. }
    unfold near. rewrite E. split; unfold Qle; cbn; lia.
  - set (n := Qnum q) in *. set (d := Z.pos (Qden q)).
    assert (D : (0 < d)%Z) by (unfold d; lia).
    pose proof (exponent_low n d L D) as Lo. cbn zeta in Lo. set (e := f32_exponent n d) in *.
    assert (P : (0 < 2 ^ Z.max 0 e)%Z) by (apply Z.pow_pos_nonneg; lia).
    assert (R : (0 < 2 ^ Z.max 0 (- e))%Z) by (apply Z.pow_pos_nonneg; lia).
    unfold scale_num, scale_den in *.
    set (p := (2 ^ Z.max 0 e)%Z) in *. set (r := (2 ^ Z.max 0 (- e))%Z) in *.
    assert (D2 : (0 < d * p)%Z) by nia. assert (N2 : (0 <= n * r)%Z) by nia.
    pose proof (round_half_even_error (n * r) (d * p) D2 N2) as E. cbn zeta in E.
    set (m := round_half_even (n * r) (d * p)) in *. clearbody m p r.
    unfold near, lo, hi, Qle, Qmult. cbn [Qnum Qden].
    rewrite !Pos2Z.inj_mul, !Z2Pos.id by lia. fold n d.
    change (2 ^ 23)%Z with 8388608%Z in Lo.
    assert (K : (m * (d * p) = m * p * d)%Z) by ring.
    split; nia.
Qed.

Lemma near_pos a b x y : 0 < a -> 0 < x -> near a b x y -> 0 < y.
Proof. intros A X (H & _). eapply Qlt_le_trans; [|exact H]. nra. Qed.
Lemma near_nonneg a b x y : 0 <= a -> 0 <= x -> near a b x y -> 0 <= y.
Proof. intros A X (H & _). eapply Qle_trans; [|exact H]. nra. Qed.

Lemma near_trans a b a' b' x y z : 0 <= a' -> 0 <= b' ->
  near a b x y -> near a' b' y z -> near (a' * a) (b' * b) x z.
Proof. intros A B (H1 & H2) (H3 & H4). split; nra. Qed.

Lemma near_add a b x y u v : near a b x y -> near a b u v -> near a b (x + u) (y + v).
Proof. intros (H1 & H2) (H3 & H4). split; nra. Qed.

Lemma near_weaken a b a' b' x y : a' <= a -> b <= b' -> 0 <= x -> near a b x y -> near a' b' x y.
Proof. intros A B X (H1 & H2). split; nra. Qed.

Lemma near_refl x : near 1 1 x x.
Proof. split; lra. Qed.

(** *** The rate check *)

Definition secs (nanos : N) : Q := inject_Z (Z.of_N nanos) / inject_Z 1000000000.

Lemma of_N_nonneg n : 0 <= inject_Z (Z.of_N n).
Proof. unfold Qle. cbn. lia. Qed.

Lemma f32_of_N_near n : near lo hi (inject_Z (Z.of_N n)) (f32_of_N n).
Proof. apply f32_round_near, of_N_nonneg. Qed.

Lemma giga_exact : f32_of_N 1000000000 == inject_Z 1000000000.
Proof. vm_compute. reflexivity. Qed.

Lemma secs_split n : secs n == inject_Z (Z.of_N (n / 1000000000)) + inject_Z (Z.of_N (n mod 1000000000)) / inject_Z 1000000000.
Proof.
  unfold secs. pose proof (N.div_mod n 1000000000 ltac:(lia)) as E.
  set (a := (n / 1000000000)%N) in *. set (b := (n mod 1000000000)%N) in *. clearbody a b. subst n.
  rewrite N2Z.inj_add, N2Z.inj_mul. rewrite inject_Z_plus, inject_Z_mult. change (Z.of_N 1000000000) with 1000000000%Z.
  field.
Qed.

Lemma div_giga x : x / inject_Z 1000000000 == x * (1 # 1000000000).
Proof. reflexivity. Qed.

Lemma as_secs_near n : near (lo * (lo * lo)) (hi * (hi * hi)) (secs n) (as_secs_f32 n).
Proof.
  unfold as_secs_f32, f32_add, f32_div.
  set (s := (n / 1000000000)%N). set (r := (n mod 1000000000)%N).
  assert (S : near (lo * lo) (hi * hi) (inject_Z (Z.of_N s)) (f32_of_N s)).
  { pose proof (f32_of_N_near s) as H. pose proof (of_N_nonneg s).
    eapply near_weaken; [| | |exact H]; auto; unfold lo, hi, Qle; cbn; lia. }
  assert (R : near (lo * lo) (hi * hi) (inject_Z (Z.of_N r) / inject_Z 1000000000)
                (f32_round (f32_of_N r / f32_of_N 1000000000))).
  { pose proof (f32_of_N_near r) as H. pose proof (of_N_nonneg r) as P.
    assert (Q0 : near lo hi (inject_Z (Z.of_N r) / inject_Z 1000000000) (f32_of_N r / f32_of_N 1000000000)).
    { unfold near. rewrite giga_exact, !div_giga. destruct H as (H1 & H2). split; nra. }
    eapply near_trans; [| |exact Q0|]; [unfold lo, Qle; cbn; lia|unfold hi, Qle; cbn; lia|].
    apply f32_round_near. eapply near_nonneg; [| |exact Q0]; [unfold lo, Qle; cbn; lia|].
    rewrite div_giga. nra. }
  pose proof (near_add _ _ _ _ _ _ S R) as A.
  assert (NN : 0 <= secs n).
  { unfold secs. rewrite div_giga. pose proof (of_N_nonneg n). nra. }
  assert (A' : near (lo * lo) (hi * hi) (secs n)
            (f32_of_N s + f32_round (f32_of_N r / f32_of_N 1000000000))).
  { unfold near. rewrite secs_split. exact A. }
  eapply near_trans; [| |exact A'|]; [unfold lo, Qle; cbn; lia|unfold hi, Qle; cbn; lia|].
  apply f32_round_near. eapply near_nonneg; [| |exact A']; auto. unfold lo, Qle; cbn; lia.
Qed.

(** The exact rate against the minimum, up to one part in a million. *)
Lemma f32_lt_false a b : f32_lt a b = false <-> b <= a.
Proof.
  unfold f32_lt. destruct (Qle_bool b a) eqn:E; cbn.
  - apply Qle_bool_iff in E. tauto.
  - split; [discriminate|]. intros H. apply Qle_bool_iff in H. congruence.
Qed.
Lemma f32_lt_true a b : f32_lt a b = true <-> a < b.
Proof.
  unfold f32_lt. destruct (Qle_bool b a) eqn:E; cbn.
  - apply Qle_bool_iff in E. split; [discriminate|]. intros H. exfalso. now apply (Qle_not_lt _ _ E).
  - split; auto. intros _. apply Qnot_le_lt. intros H. apply Qle_bool_iff in H. congruence.
Qed.

Section Rate.
  Variables bytes nanos min : N.
  Hypothesis Nz : (0 < nanos)%N.
  Let b := inject_Z (Z.of_N bytes).
  Let d := secs nanos.
  Let m := inject_Z (Z.of_N min).
  Let quotient := f32_div (f32_of_N bytes) (as_secs_f32 nanos).

  Lemma d_pos : 0 < d.
  Proof. unfold d, secs. rewrite div_giga. unfold Qlt. cbn. lia. Qed.

  Lemma quotient_near :
    lo * lo * b <= quotient * (hi * (hi * hi) * d) /\ quotient * (lo * (lo * lo) * d) <= hi * hi * b.
  Proof.
    pose proof d_pos as D. pose proof (as_secs_near nanos) as S. fold d in S.
    assert (P : 0 < as_secs_f32 nanos).
    { eapply near_pos; [|exact D|exact S]. reflexivity. }
    pose proof (f32_of_N_near bytes) as (B1 & B2). fold b in B1, B2.
    pose proof (of_N_nonneg bytes) as B0. fold b in B0.
    assert (X0 : 0 <= f32_of_N bytes).
    { eapply near_nonneg; [| |apply f32_of_N_near]; auto. unfold lo, Qle; cbn; lia. }
    set (x := f32_of_N bytes) in *. set (y := as_secs_f32 nanos) in *.
    assert (XY : (x / y) * y == x) by (field; lra).
    assert (XY0 : 0 <= x / y).
    { apply Qle_shift_div_l; auto. lra. }
    pose proof (f32_round_near (x / y) XY0) as (Q1 & Q2).
    unfold quotient, f32_div. fold x y. set (z := f32_round (x / y)) in *. set (w := x / y) in *. clearbody z w x y.
    destruct S as (S1 & S2).
    assert (Lo : 0 < lo) by reflexivity. assert (Hi : 0 < hi) by reflexivity.
    assert (Z0 : 0 <= z) by nra.
    split.
    - (* lo*lo*b <= lo*x = lo*w*y <= z*y <= z*(hi^3 d) *)
      assert (H1 : lo * lo * b <= lo * x) by nra.
      assert (H2 : lo * x <= z * y) by nra.
      assert (H3 : z * y <= z * (hi * (hi * hi) * d)) by nra.
      lra.
    - assert (H1 : z * (lo * (lo * lo) * d) <= z * y) by nra.
      assert (H2 : z * y <= hi * x) by nra.
      assert (H3 : hi * x <= hi * hi * b) by nra.
      lra.
  Qed.
End Rate.

(** Exact fractions instead of floats: [bytes / (nanos / 10^9)] against [min]. *)
Lemma rate_fast bytes nanos min : (0 < nanos)%N ->
  f32_lt (f32_div (f32_of_N bytes) (as_secs_f32 nanos)) (f32_of_N min) = false ->
  (999999 * (min * nanos) <= 1000000 * (bytes * 1000000000))%N.
Proof.
  intros Nz H. apply f32_lt_false in H.
  pose proof (quotient_near bytes nanos Nz) as (_ & Q).
  pose proof (d_pos nanos Nz) as D.
  pose proof (f32_of_N_near min) as (M1 & _).
  set (q := f32_div (f32_of_N bytes) (as_secs_f32 nanos)) in *.
  assert (K : lo * inject_Z (Z.of_N min) * (lo * (lo * lo) * secs nanos) <= hi * hi * inject_Z (Z.of_N bytes)).
  { assert (P : 0 < lo * (lo * lo) * secs nanos) by (apply Qmult_lt_0_compat; [reflexivity|exact D]).
    set (c := lo * (lo * lo) * secs nanos) in *. clearbody c q. nra. }
  unfold secs in K. rewrite div_giga in K.
  assert (K2 : (lo * (lo * (lo * lo))) * (inject_Z (Z.of_N min) * inject_Z (Z.of_N nanos)) * (1 # 1000000000)
               <= hi * hi * inject_Z (Z.of_N bytes)) by nra.
  assert (B0 : 0 <= inject_Z (Z.of_N bytes)) by apply of_N_nonneg.
  assert (MN : 0 <= inject_Z (Z.of_N min) * inject_Z (Z.of_N nanos)).
  { pose proof (of_N_nonneg min). pose proof (of_N_nonneg nanos). nra. }
  assert (C1 : (9999997 # 10000000) <= lo * (lo * (lo * lo))) by (vm_compute; discriminate).
  assert (C2 : hi * hi <= (10000002 # 10000000)) by (vm_compute; discriminate).
  assert (K3 : (9999997 # 10000000) * (inject_Z (Z.of_N min) * inject_Z (Z.of_N nanos)) * (1 # 1000000000)
               <= (10000002 # 10000000) * inject_Z (Z.of_N bytes)).
  { clear K. set (l4 := lo * (lo * (lo * lo))) in *. set (h2 := hi * hi) in *. clearbody l4 h2.
    set (x := inject_Z (Z.of_N min) * inject_Z (Z.of_N nanos)) in *. set (y := inject_Z (Z.of_N bytes)) in *.
    clearbody x y. assert ((9999997 # 10000000) * x <= l4 * x) by nra. assert (h2 * y <= (10000002 # 10000000) * y) by nra.
    lra. }
  rewrite <- inject_Z_mult, <- N2Z.inj_mul in K3. unfold Qle, Qmult, inject_Z in K3. cbn [Qnum Qden] in K3.
  change (10000000 * 1 * 1000000000)%positive with 10000000000000000%positive in K3.
  change (10000000 * 1)%positive with 10000000%positive in K3.
  generalize dependent (min * nanos)%N. intros x K3. clear - K3. lia.
Qed.

Lemma rate_slow bytes nanos min : (0 < nanos)%N ->
  f32_lt (f32_div (f32_of_N bytes) (as_secs_f32 nanos)) (f32_of_N min) = true ->
  (999999 * (bytes * 1000000000) < 1000000 * (min * nanos))%N.
Proof.
  intros Nz H. apply f32_lt_true in H.
  pose proof (quotient_near bytes nanos Nz) as (Q & _).
  pose proof (d_pos nanos Nz) as D.
  pose proof (f32_of_N_near min) as (_ & M2).
  set (q := f32_div (f32_of_N bytes) (as_secs_f32 nanos)) in *.
  assert (K : lo * lo * inject_Z (Z.of_N bytes) < hi * inject_Z (Z.of_N min) * (hi * (hi * hi) * secs nanos)).
  { assert (P : 0 < hi * (hi * hi) * secs nanos) by (apply Qmult_lt_0_compat; [reflexivity|exact D]).
    set (c := hi * (hi * hi) * secs nanos) in *. clearbody c q. nra. }
  unfold secs in K. rewrite div_giga in K.
  assert (K2 : lo * lo * inject_Z (Z.of_N bytes) <
    (hi * (hi * (hi * hi))) * (inject_Z (Z.of_N min) * inject_Z (Z.of_N nanos)) * (1 # 1000000000)) by nra.
  assert (B0 : 0 <= inject_Z (Z.of_N bytes)) by apply of_N_nonneg.
  assert (MN : 0 <= inject_Z (Z.of_N min) * inject_Z (Z.of_N nanos)).
  { pose proof (of_N_nonneg min). pose proof (of_N_nonneg nanos). nra. }
  assert (C1 : hi * (hi * (hi * hi)) <= (10000003 # 10000000)) by (vm_compute; discriminate).
  assert (C2 : (9999998 # 10000000) <= lo * lo) by (vm_compute; discriminate).
  assert (K3 : (9999998 # 10000000) * inject_Z (Z.of_N bytes) <
     (10000003 # 10000000) * (inject_Z (Z.of_N min) * inject_Z (Z.of_N nanos)) * (1 # 1000000000)).
  { clear K. set (h4 := hi * (hi * (hi * hi))) in *. set (l2 := lo * lo) in *. clearbody h4 l2.
    set (x := inject_Z (Z.of_N min) * inject_Z (Z.of_N nanos)) in *. set (y := inject_Z (Z.of_N bytes)) in *.
    clearbody x y. assert (h4 * x <= (10000003 # 10000000) * x) by nra. assert ((9999998 # 10000000) * y <= l2 * y) by nra.
    lra. }
  rewrite <- inject_Z_mult, <- N2Z.inj_mul in K3. unfold Qlt, Qmult, inject_Z in K3. cbn [Qnum Qden] in K3.
  change (10000000 * 1 * 1000000000)%positive with 10000000000000000%positive in K3.
  change (10000000 * 1)%positive with 10000000%positive in K3.
  generalize dependent (min * nanos)%N. intros x K3. clear - K3. lia.
Qed.
