(** * UTF-8 and base64 against their specifications *)
From Coq Require Import String Ascii List NArith ZArith Bool Lia ZifyN Arith.
From Verif Require Import Base BaseFacts StringFacts Utf8 Codec SpecCodec CodecProofs SpecText.
Import ListNotations.
Open Scope nat_scope.
Open Scope string_scope.
Ltac Zify.zify_post_hook ::= Z.div_mod_to_equations.

Lemma utf8_char_lead n c r : utf8_char n c -> scalar n -> utf8_from [] (c ++ r) = utf8_from [] r.
Proof.
  unfold scalar. intros H S.
  assert (R : forall c lo hi need s, (lo <= N_of_ascii c <= hi)%N -> utf8_from ((lo, hi) :: need) (String c s) = utf8_from need s).
  { intros c0 lo hi need s B. cbn [utf8_from]. cbv zeta. rewrite (proj2 (N.leb_le _ _) (proj1 B)), (proj2 (N.leb_le _ _) (proj2 B)). reflexivity. }
  destruct H as [c L|a b x y A [B B'] M|a b c x y z A [B B'] [D D'] M|a b c d x y z w A [B B'] [D D'] [F F'] M]; cbn [append];
    cbn [utf8_from]; cbv zeta; unfold utf8_lead; cbv zeta.
  - now rewrite (proj2 (N.ltb_lt _ _) L).
  - destruct (N.ltb_spec (N_of_ascii a) 128); [lia|]. destruct (N.ltb_spec (N_of_ascii a) 194); [lia|].
    destruct (N.ltb_spec (N_of_ascii a) 224); [|lia]. change (utf8_from [(128, 191)%N] (String b r) = utf8_from [] r). apply R. lia.
  - destruct (N.ltb_spec (N_of_ascii a) 128); [lia|]. destruct (N.ltb_spec (N_of_ascii a) 194); [lia|].
    destruct (N.ltb_spec (N_of_ascii a) 224); [lia|]. destruct (N.eqb_spec (N_of_ascii a) 224).
    { change (utf8_from [(160, 191)%N; (128, 191)%N] (String b (String c r)) = utf8_from [] r). rewrite !R by lia. reflexivity. }
    destruct (N.eqb_spec (N_of_ascii a) 237).
    { change (utf8_from [(128, 159)%N; (128, 191)%N] (String b (String c r)) = utf8_from [] r). rewrite !R by lia. reflexivity. }
    destruct (N.ltb_spec (N_of_ascii a) 240); [|lia].
    change (utf8_from [(128, 191)%N; (128, 191)%N] (String b (String c r)) = utf8_from [] r). rewrite !R by lia. reflexivity.
  - destruct (N.ltb_spec (N_of_ascii a) 128); [lia|]. destruct (N.ltb_spec (N_of_ascii a) 194); [lia|].
    destruct (N.ltb_spec (N_of_ascii a) 224); [lia|]. destruct (N.eqb_spec (N_of_ascii a) 224); [lia|].
    destruct (N.eqb_spec (N_of_ascii a) 237); [lia|]. destruct (N.ltb_spec (N_of_ascii a) 240); [lia|].
    destruct (N.eqb_spec (N_of_ascii a) 240).
    { change (utf8_from [(144, 191)%N; (128, 191)%N; (128, 191)%N] (String b (String c (String d r))) = utf8_from [] r). rewrite !R by lia. reflexivity. }
    destruct (N.ltb_spec (N_of_ascii a) 244).
    { change (utf8_from [(128, 191)%N; (128, 191)%N; (128, 191)%N] (String b (String c (String d r))) = utf8_from [] r). rewrite !R by lia. reflexivity. }
    destruct (N.eqb_spec (N_of_ascii a) 244); [|lia].
    change (utf8_from [(128, 143)%N; (128, 191)%N; (128, 191)%N] (String b (String c (String d r))) = utf8_from [] r). rewrite !R by lia. reflexivity.
Qed.

Lemma utf8_need lo hi need s : utf8_from ((lo, hi) :: need) s = true ->
  exists c r, s = String c r /\ (lo <= N_of_ascii c <= hi)%N /\ utf8_from need r = true.
Proof.
  destruct s as [|c r]; [discriminate|]. cbn [utf8_from]. cbv zeta. intros H.
  apply andb_true_iff in H as [H F]. apply andb_true_iff in H as [A B]. apply N.leb_le in A, B. eauto 10.
Qed.
Lemma follows c : (128 <= N_of_ascii c <= 191)%N -> following c (N_of_ascii c - 128).
Proof. unfold following. lia. Qed.

Lemma utf8_first c r : utf8_from [] (String c r) = true ->
  exists n ch r', String c r = ch ++ r' /\ utf8_char n ch /\ scalar n /\ utf8_from [] r' = true.
Proof.
  cbn [utf8_from]. cbv zeta. unfold utf8_lead. cbv zeta.
  assert (Two : forall r, (194 <= N_of_ascii c < 224)%N -> utf8_from [(128, 191)%N] r = true ->
     exists n ch r', String c r = ch ++ r' /\ utf8_char n ch /\ scalar n /\ utf8_from [] r' = true).
  { intros r0 L H. apply utf8_need in H as (b & r1 & -> & B & H). exists ((N_of_ascii c - 192) * 64 + (N_of_ascii b - 128))%N, (String c (String b "")), r1.
    split; [reflexivity|]. split; [apply u8_two; [lia|apply follows; lia|lia]|]. split; [left; lia|exact H]. }
  assert (Three : forall r lo hi, (224 <= N_of_ascii c < 240)%N -> utf8_from [(lo, hi); (128, 191)%N] r = true -> (128 <= lo)%N -> (hi <= 191)%N ->
     (N_of_ascii c = 224 -> 160 <= lo)%N -> (N_of_ascii c = 237 -> hi <= 159)%N ->
     exists n ch r', String c r = ch ++ r' /\ utf8_char n ch /\ scalar n /\ utf8_from [] r' = true).
  { intros r0 lo hi L H Lo Hi L1 L2. apply utf8_need in H as (b & r1 & -> & B & H). apply utf8_need in H as (d & r2 & -> & D & H).
    exists (((N_of_ascii c - 224) * 64 + (N_of_ascii b - 128)) * 64 + (N_of_ascii d - 128))%N, (String c (String b (String d ""))), r2.
    split; [reflexivity|]. split; [apply u8_three; [lia|apply follows; lia|apply follows; lia|lia]|]. split; [unfold scalar; lia|exact H]. }
  assert (Four : forall r lo hi, (240 <= N_of_ascii c <= 244)%N -> utf8_from [(lo, hi); (128, 191)%N; (128, 191)%N] r = true -> (128 <= lo)%N -> (hi <= 191)%N ->
     (N_of_ascii c = 240 -> 144 <= lo)%N -> (N_of_ascii c = 244 -> hi <= 143)%N ->
     exists n ch r', String c r = ch ++ r' /\ utf8_char n ch /\ scalar n /\ utf8_from [] r' = true).
  { intros r0 lo hi L H Lo Hi L1 L2. apply utf8_need in H as (b & r1 & -> & B & H). apply utf8_need in H as (d & r2 & -> & D & H).
    apply utf8_need in H as (e & r3 & -> & E & H).
    exists ((((N_of_ascii c - 240) * 64 + (N_of_ascii b - 128)) * 64 + (N_of_ascii d - 128)) * 64 + (N_of_ascii e - 128))%N, (String c (String b (String d (String e "")))), r3.
    split; [reflexivity|]. split; [apply u8_four; [lia|apply follows; lia|apply follows; lia|apply follows; lia|lia]|]. split; [unfold scalar; lia|exact H]. }
  destruct (N.ltb_spec (N_of_ascii c) 128) as [L|L].
  { intros H. exists (N_of_ascii c), (String c ""), r. split; [reflexivity|]. split; [now constructor|]. split; [left; lia|exact H]. }
  destruct (N.ltb_spec (N_of_ascii c) 194) as [L1|L1]; [discriminate|].
  destruct (N.ltb_spec (N_of_ascii c) 224) as [L2|L2]; [intros H; apply Two; [lia|exact H]|].
  destruct (N.eqb_spec (N_of_ascii c) 224) as [E1|E1]; [intros H; eapply Three; [lia|exact H|lia..]|].
  destruct (N.eqb_spec (N_of_ascii c) 237) as [E2|E2]; [intros H; eapply Three; [lia|exact H|lia..]|].
  destruct (N.ltb_spec (N_of_ascii c) 240) as [L3|L3]; [intros H; eapply Three; [lia|exact H|lia..]|].
  destruct (N.eqb_spec (N_of_ascii c) 240) as [E3|E3]; [intros H; eapply Four; [lia|exact H|lia..]|].
  destruct (N.ltb_spec (N_of_ascii c) 244) as [L4|L4]; [intros H; eapply Four; [lia|exact H|lia..]|].
  destruct (N.eqb_spec (N_of_ascii c) 244) as [E4|E4]; [intros H; eapply Four; [lia|exact H|lia..]|discriminate].
Qed.

Lemma utf8_char_length n c : utf8_char n c -> 1 <= String.length c.
Proof. destruct 1; cbn; lia. Qed.

Lemma utf8_valid_iff s : utf8_valid s = true <-> exists l, utf8_text l s.
Proof.
  unfold utf8_valid. split.
  - remember (String.length s) as k eqn:K. assert (L : String.length s <= k) by lia. clear K. revert s L.
    induction k as [|k IH]; intros [|c r] L H; try (exists []; constructor).
    + cbn in L. lia.
    + destruct (utf8_first c r H) as (n & ch & r' & E & U & S & H'). rewrite E in *.
      pose proof (utf8_char_length _ _ U). rewrite slength_app in L. destruct (IH r') as (l & T); [lia|exact H'|].
      exists (n :: l). now constructor.
  - intros (l & T). induction T as [|n l c s S U T IH]; [reflexivity|]. now rewrite (utf8_char_lead n).
Qed.

Lemma utf8_encode_char n : scalar n -> utf8_char n (utf8_encode n).
Proof.
  unfold scalar. intros S. unfold utf8_encode. cbv zeta.
  assert (A : forall m, (m < 256)%N -> N_of_ascii (ascii_of_N m) = m) by (intros m; apply N_ascii_embedding).
  assert (Fo : forall m, following (ascii_of_N (128 + m mod 64)%N) (m mod 64)).
  { intros m. unfold following. rewrite A by lia. lia. }
  destruct (N.ltb_spec n 128) as [L|L]; [|destruct (N.ltb_spec n 2048) as [L1|L1]; [|destruct (N.ltb_spec n 65536) as [L2|L2]]].
  - rewrite <- (A n) at 1 by lia. constructor. rewrite A; lia.
  - replace n with (n / 64 * 64 + n mod 64)%N at 1 by lia. constructor; [|apply Fo|lia]. rewrite A by lia. lia.
  - replace n with ((n / 4096 * 64 + n / 64 mod 64) * 64 + n mod 64)%N at 1 by lia. constructor; [|apply Fo|apply Fo|lia]. rewrite A by lia. lia.
  - replace n with (((n / 262144 * 64 + n / 4096 mod 64) * 64 + n / 64 mod 64) * 64 + n mod 64)%N at 1 by lia.
    constructor; [|apply Fo|apply Fo|apply Fo|lia]. rewrite A by lia. lia.
Qed.

Lemma b64_group_text a b c d g : b64_group a b c d = Some g -> b64_text (String a (String b (String c (String d "")))) g.
Proof.
  unfold b64_group. destruct (b64_val a) as [x|] eqn:X; [|discriminate]. destruct (b64_val b) as [y|] eqn:Y; [|discriminate].
  apply b64_val_spec in X, Y. pose proof (b64_val_lt _ _ X). pose proof (b64_val_lt _ _ Y).
  assert (A : forall m, (m < 256)%N -> N_of_ascii (ascii_of_N m) = m) by (intros m; apply N_ascii_embedding).
  destruct (b64_val c) as [z|] eqn:Z.
  - apply b64_val_spec in Z. pose proof (b64_val_lt _ _ Z). destruct (b64_val d) as [w|] eqn:W.
    + apply b64_val_spec in W. pose proof (b64_val_lt _ _ W). intros E. inversion E; subst.
      eapply b64_three; [exact X|exact Y|exact Z|exact W| |constructor]. rewrite !A by lia. lia.
    + destruct (Ascii.eqb_spec d "=") as [-> |]; [|discriminate]. destruct (N.eqb_spec (z mod 4) 0) as [M|]; [|discriminate].
      intros E. cbn [andb] in E. inversion E; subst. eapply b64_two; [exact X|exact Y|exact Z|]. rewrite !A by lia. lia.
  - destruct (b64_val d) as [w|] eqn:W; [discriminate|].
    destruct (Ascii.eqb_spec c "=") as [-> |]; [|discriminate]. destruct (Ascii.eqb_spec d "=") as [-> |]; [|discriminate].
    destruct (N.eqb_spec (y mod 16) 0) as [M|]; [|discriminate].
    intros E. cbn [andb] in E. inversion E; subst. eapply b64_one; [exact X|exact Y|]. rewrite !A by lia. lia.
Qed.

Lemma string_ind4 (P : string -> Prop) : P "" -> (forall a, P (String a "")) -> (forall a b, P (String a (String b ""))) ->
  (forall a b c, P (String a (String b (String c "")))) -> (forall a b c d r, P r -> P (String a (String b (String c (String d r))))) -> forall s, P s.
Proof.
  intros H0 H1 H2 H3 H4. fix IH 1. intros [|a [|b [|c [|d r]]]]; [exact H0|apply H1|apply H2|apply H3|apply H4, IH].
Qed.

Lemma b64_text_app t b t' b' : b64_text t b -> b64_decode t' = Some b' -> b64_decode (t ++ t') = Some (b ++ b').
Proof.
  intros H D. induction H as [|cx cy x y a X Y E|cx cy cz x y z a b X Y Z E|cx cy cz cw x y z w a b c t r X Y Z W E H IH]; [exact D| | |].
  - pose proof (b64_decode_text _ _ (b64_one cx cy x y a X Y E)) as G. cbn [append b64_decode] in G |- *. rewrite D.
    destruct (b64_group cx cy "=" "=") as [g|]; [|discriminate]. cbn in G. rewrite sapp_nil_r in G. inversion G; subst. reflexivity.
  - pose proof (b64_decode_text _ _ (b64_two cx cy cz x y z a b X Y Z E)) as G. cbn [append b64_decode] in G |- *. rewrite D.
    destruct (b64_group cx cy cz "=") as [g|]; [|discriminate]. rewrite sapp_nil_r in G. inversion G; subst. reflexivity.
  - pose proof (b64_decode_text _ _ (b64_three cx cy cz cw x y z w a b c "" "" X Y Z W E b64_nil)) as G.
    cbn [append b64_decode] in G |- *. rewrite IH. destruct (b64_group cx cy cz cw) as [g|]; [|discriminate]. rewrite sapp_nil_r in G. inversion G; subst. reflexivity.
Qed.

Lemma b64_decode_iff t b : b64_decode t = Some b <-> b64_texts t b.
Proof.
  split.
  - revert b. induction t as [|x|x y|x y z|x y z w r IH] using string_ind4; intros bs H; try discriminate.
    + inversion H; subst. constructor.
    + cbn [b64_decode] in H. destruct (b64_group x y z w) as [g|] eqn:G; [|discriminate]. destruct (b64_decode r) as [b'|]; [|discriminate].
      inversion H; subst. apply (b64s_cons _ g r b' (b64_group_text _ _ _ _ _ G)). now apply IH.
  - induction 1 as [|t b t' b' T _ IH]; [reflexivity|]. now apply b64_text_app.
Qed.
