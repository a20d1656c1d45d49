(** * What is decoded from a text can be written as a text again *)
From Coq Require Import String Ascii List NArith ZArith Bool Lia Permutation Sorted.
From Verif Require Import Base BaseFacts StringFacts JsonValue Utf8 JsonText SpecJson JsonComplete JsonProofs Metadata
     Codec SpecCodec CodecProofs Dates SpecDates DateProofs Paths SpecPaths PathProofs
     Serde SerdeProofs Keys SpecKeys KeyProofs Shims SpecMeta ShimsProofs.
Import ListNotations.
Open Scope nat_scope.
Open Scope string_scope.

(** ** ASCII *)
Fixpoint ascii_only (s : string) : bool :=
  match s with "" => true | String c r => (N_of_ascii c <? 128)%N && ascii_only r end.
Lemma ascii_only_app a b : ascii_only (a ++ b) = (ascii_only a && ascii_only b)%bool.
Proof. induction a as [|c a IH]; cbn; [reflexivity|]. rewrite IH. apply andb_assoc. Qed.
Lemma ascii_utf8 s : ascii_only s = true -> utf8_valid s = true.
Proof.
  unfold utf8_valid. induction s as [|c s IH]; [reflexivity|]. cbn [ascii_only utf8_from].
  intros H. apply andb_true_iff in H as [A B]. unfold utf8_lead. rewrite A. apply IH, B.
Qed.
Lemma utf8_app_ascii a b : ascii_only b = true -> utf8_valid a = true -> utf8_valid (a ++ b) = true.
Proof.
  intros B. unfold utf8_valid. generalize (@nil (N * N)). induction a as [|c a IH]; intros need H.
  - cbn in *. destruct need; [|discriminate]. apply (ascii_utf8 b B).
  - cbn [append utf8_from] in *. destruct need as [|[lo hi] need].
    + destruct (utf8_lead (N_of_ascii c)); [|discriminate]. apply IH, H.
    + apply andb_true_iff in H as [H1 H2]. rewrite H1. apply IH, H2.
Qed.
Lemma hex_encode_ascii b : ascii_only (hex_encode b) = true.
Proof.
  assert (A : forall n, (n < 16)%N -> (N_of_ascii (hex_digit n) <? 128)%N = true).
  { intros n L. unfold hex_digit. destruct (N.ltb_spec n 10); rewrite ascii_code by lia; apply N.ltb_lt; lia. }
  induction b as [|c b IH]; [reflexivity|]. cbn [hex_encode ascii_only]. pose proof (N_ascii_lt c).
  rewrite !A, IH; [reflexivity| |].
  - apply N.mod_lt. discriminate.
  - apply N.div_lt_upper_bound; [discriminate|lia].
Qed.
Lemma b64_text_ascii t b : b64_text t b -> ascii_only t = true.
Proof.
  assert (A : forall n c, nth_char b64_alphabet n c -> (N_of_ascii c <? 128)%N = true).
  { unfold nth_char. intros n c H.
    assert (G : forall k s, ascii_only s = true -> String.get k s = Some c -> (N_of_ascii c <? 128)%N = true).
    { intros k; induction k; intros [|d s] S G; try discriminate; cbn in *; apply andb_true_iff in S as [S1 S2].
      - inversion G; subst; exact S1.
      - eapply IHk; eassumption. }
    eapply G; [|exact H]. reflexivity. }
  induction 1; cbn [ascii_only]; rewrite ?(A _ _ H), ?(A _ _ H0), ?(A _ _ H1), ?(A _ _ H2), ?IHb64_text; reflexivity.
Qed.
Lemma natural_ascii t n : natural t n -> ascii_only t = true.
Proof.
  assert (A : forall c d, digit c d -> (N_of_ascii c <? 128)%N = true).
  { intros c d [L E]. unfold code in E. rewrite E. apply N.ltb_lt. lia. }
  induction 1; rewrite ?ascii_only_app; cbn; rewrite ?IHnatural; erewrite ?A by eassumption; reflexivity.
Qed.
Lemma pad_ascii w n : ascii_only (pad w n) = true.
Proof.
  unfold pad. rewrite ascii_only_app, (natural_ascii _ _ (decimal_natural n)), andb_true_r.
  induction (w - String.length (decimal n)); cbn; auto.
Qed.
Lemma pad_z_ascii w z : ascii_only (pad_z w z) = true.
Proof. unfold pad_z. destruct (z <? 0)%Z; rewrite ?ascii_only_app, ?pad_ascii; reflexivity. Qed.
Lemma format_ascii z : ascii_only (format_datetime z) = true.
Proof.
  unfold format_datetime. destruct (date_of _) as [[y m] d].
  rewrite !ascii_only_app, !pad_z_ascii. reflexivity.
Qed.

(** ** Values that fit into a text of nesting [n] *)
Definition fit (n : nat) (j : json) : Prop := holds_in_value j /\ depth j <= n.

Lemma fit_str n s : utf8_valid s = true -> fit n (JStr s).
Proof. intros U. split; [now constructor|cbn; lia]. Qed.
Lemma fit_le n m j : n <= m -> fit n j -> fit m j.
Proof. intros L [H D]. split; [exact H|lia]. Qed.
Lemma fit_arr n l : Forall (fit n) l -> fit (S n) (JArr l).
Proof.
  intros F. split.
  - constructor. revert F. apply Forall_impl. intros j [H _]. exact H.
  - change (S (arr_depth l) <= S n). apply le_n_S. apply arr_depth_le. revert F. apply Forall_impl. intros j [_ D]. exact D.
Qed.
Lemma fit_obj n m : Forall (fun kv => utf8_valid (fst kv) = true /\ fit n (snd kv)) m -> fit (S n) (JObj m).
Proof.
  intros F. split.
  - constructor. revert F. apply Forall_impl. intros j [U [H _]]. auto.
  - change (S (obj_depth m) <= S n). apply le_n_S. apply obj_depth_le. revert F. apply Forall_impl. intros j [_ [_ D]]. exact D.
Qed.
Lemma fit_arr_inv n l : fit n (JArr l) -> exists k, n = S k /\ Forall (fit k) l.
Proof.
  intros [H D]. change (S (arr_depth l) <= n) in D. destruct n as [|k]; [lia|]. exists k. split; [reflexivity|].
  assert (X : arr_depth l <= k) by lia. apply arr_depth_le in X. inversion H; subst.
  rewrite Forall_forall in *. intros x I. split; auto.
Qed.
Lemma fit_obj_inv n m : fit n (JObj m) -> exists k, n = S k /\ Forall (fun kv => utf8_valid (fst kv) = true /\ fit k (snd kv)) m.
Proof.
  intros [H D]. change (S (obj_depth m) <= n) in D. destruct n as [|k]; [lia|]. exists k. split; [reflexivity|].
  assert (X : obj_depth m <= k) by lia. apply obj_depth_le in X. inversion H as [| | | | | |? F]; subst.
  rewrite Forall_forall in *. intros x I. destruct (F x I). repeat split; auto.
Qed.
Lemma fit_to_value n j : fit n j -> fit n (to_value j).
Proof. intros [H D]. split; [apply to_value_holds, H|]. pose proof (to_value_depth j). lia. Qed.

Lemma fields_fit n names deny opt j fs : fit n j -> d_fields names deny opt j = Some fs ->
  exists k, n = S k /\ Forall (fun f => forall x, f = Some x -> fit k x) fs.
Proof.
  intros F H. destruct j as [| | | | |l|m]; try discriminate; cbn [d_fields] in H.
  - apply fit_arr_inv in F as (k & -> & F). exists k. split; [reflexivity|].
    destruct (_ && _)%bool; [|discriminate]. inversion H; subst. apply Forall_app. split.
    + rewrite Forall_map. revert F. apply Forall_impl. intros x X y E. inversion E; subst; exact X.
    + apply Forall_forall. intros x I. apply repeat_spec in I. subst. discriminate.
  - apply fit_obj_inv in F as (k & -> & F). exists k. split; [reflexivity|].
    match type of H with (if ?b then _ else _) = _ => destruct b end; [|discriminate]. inversion H; subst.
    rewrite Forall_map. apply Forall_forall. intros nm _ x E. apply lookup_In in E. rewrite Forall_forall in F.
    apply F in E as [_ E]. exact E.
Qed.

(** A decoder and an encoder: what is decoded from a fitting value is encoded as one. *)
Definition textual {A} (d : decoder A) (e : A -> option json) (K : nat) : Prop :=
  forall n j a j', K <= n -> fit n j -> d j = Some a -> e a = Some j' -> fit n j'.

Lemma d_str_utf8 n j s : fit n j -> d_str j = Some s -> utf8_valid s = true.
Proof. intros [H _] E. destruct j; inversion E; subst. inversion H; assumption. Qed.

Lemma fit_uint n k : (k <= 18446744073709551615)%N -> fit n (e_uint k).
Proof. intros L. split; [|cbn; lia]. constructor. lia. Qed.

Lemma textual_map {A} k (d : decoder A) e K : keeps k -> textual d e K -> textual (d_map k d) (e_map e) (S K).
Proof.
  intros Kp T n j m j' L F D E. unfold d_map in D. bound D. inversion D; subst.
  apply (d_entries_Some k d j a Kp) in E0 as (es & -> & G). apply fit_obj_inv in F as (p & -> & F).
  unfold e_map in E. bound E. inversion E; subst. apply fit_obj. apply all_some_Some in E0.
  assert (X : Forall (fun nv => utf8_valid (fst nv) = true /\ forall x, e (snd nv) = Some x -> fit p x) (btree a)).
  { apply btree_Forall. clear -G F T L. induction G as [|[n0 v] [n1 v1] es a (E1 & E2 & E3) _ IH]; constructor; inversion F; subst; auto.
    cbn in *; subst. destruct H1 as [U V]. split; [exact U|]. intros x Ex. eapply T; [|exact V|exact E3|exact Ex]. lia. }
  clear -X E0. induction E0 as [|[n v] [n' v'] l l' E _ IH]; constructor; inversion X; subst; auto.
  cbn in *. bound E. inversion E; subst. destruct H1 as [U V]. auto.
Qed.
Lemma textual_map_unique {A} k (d : decoder A) e K : keeps k -> textual d e K -> textual (d_map_unique k d) (e_map e) (S K).
Proof.
  intros Kp T n j m j' L F D E. apply (textual_map k d e K Kp T n j m j' L F); [|exact E].
  unfold d_map, d_map_unique in *. bound D. rewrite E0. cbn [obind]. destruct (no_repeats _); [exact D|discriminate].
Qed.

(** Open a struct: [j]'s fields fit one level deeper. *)
Ltac fit_fields H FJ :=
  match type of H with
  | match d_fields ?n ?dn ?o ?j with _ => _ end = _ =>
      let fs := fresh "fs" in let F := fresh "F" in let k := fresh "k" in let FF := fresh "FF" in
      destruct (d_fields n dn o j) as [fs|] eqn:F; [|discriminate];
      let EQ := fresh "EQ" in
      destruct (fields_fit _ _ _ _ _ _ FJ F) as (k & EQ & FF); clear F;
      match type of EQ with ?n = S ?k => first [subst n | (apply eq_add_S in EQ; subst k)] end;
      repeat match type of H with context [match ?l with [] => _ | _ :: _ => _ end] => is_var l; destruct l; try discriminate end
  end;
  bounds H;
  repeat match goal with
  | E : d_required _ _ = Some _ |- _ => apply required in E; let j := fresh "j" in destruct E as (j & -> & E)
  end;
  repeat match goal with
  | FF : Forall _ (_ :: _) |- _ =>
      let X := fresh "X" in apply Forall_cons_iff in FF; destruct FF as [X FF]; try specialize (X _ eq_refl)
  end.

(** Close a struct: every member fits. *)
Ltac members := apply fit_obj; repeat (apply Forall_cons; [split; [reflexivity|cbn [snd]]|]); try apply Forall_nil.

Lemma fit_strings n l : Forall (fun s => utf8_valid s = true) l -> fit (S n) (e_strings l).
Proof. intros F. apply fit_arr. rewrite Forall_map. revert F. apply Forall_impl. intros s U. apply fit_str, U. Qed.

Lemma vec_fit {A} (d : decoder A) n j l : fit n j -> d_vec d j = Some l ->
  exists k, n = S k /\ Forall (fun a => exists x, fit k x /\ d x = Some a) l.
Proof.
  intros F H. destruct j; try discriminate. apply fit_arr_inv in F as (k & -> & F). exists k. split; [reflexivity|].
  cbn in H. apply all_some_Some in H. induction H; constructor; inversion F; subst; eauto.
Qed.
Lemma strings_utf8 n j l : fit n j -> d_vec d_str j = Some l -> Forall (fun s => utf8_valid s = true) l.
Proof.
  intros F H. destruct (vec_fit _ _ _ _ F H) as (k & _ & G). revert G. apply Forall_impl. intros s (x & Fx & D).
  eapply d_str_utf8; eassumption.
Qed.
Lemma ids_utf8 n j l : fit n j -> d_vec d_key_id j = Some l -> Forall (fun s => utf8_valid s = true) l.
Proof.
  intros F H. destruct (vec_fit _ _ _ _ F H) as (k & _ & G). revert G. apply Forall_impl. intros s (x & Fx & D).
  unfold d_key_id in D. bound D. apply key_id_of_string_Some in D as [-> _]. eapply d_str_utf8; eassumption.
Qed.
Lemma path_utf8 n j s : fit n j -> d_path j = Some s -> utf8_valid s = true.
Proof. intros F D. unfold d_path in D. bound D. apply path_of_string_Some in D as [-> _]. eapply d_str_utf8; eassumption. Qed.
Lemma paths_utf8 n j l : fit n j -> d_vec d_path j = Some l -> Forall (fun s => utf8_valid s = true) l.
Proof.
  intros F H. destruct (vec_fit _ _ _ _ F H) as (k & _ & G). revert G. apply Forall_impl. intros s (x & Fx & D).
  eapply path_utf8; [|eassumption]; eassumption.
Qed.

(** ** Keys *)
Lemma scheme_fit n j s : fit n j -> d_scheme j = Some s -> forall k, 1 <= k -> fit k (e_scheme s).
Proof.
  intros F D k L. destruct s; try (apply fit_str; reflexivity). destruct k as [|k]; [lia|]. cbn [e_scheme]. members.
  apply fit_str. destruct j as [| | | |t| |m]; try discriminate.
  - exfalso. cbn in D. unfold scheme_of_name in D.
    destruct (String.eqb t "ed25519"); [discriminate|]. destruct (String.eqb t "rsassa-pss-sha256"); [discriminate|].
    destruct (String.eqb t "rsassa-pss-sha512"); discriminate.
  - destruct m as [|[nm v] m]; [discriminate|]. destruct m as [|p m]; [|exfalso; destruct v; discriminate].
    apply fit_obj_inv in F as (q & -> & F). inversion F as [|? ? [_ Fv] _]; subst. cbn in Fv.
    unfold d_scheme, d_enum in D.
    assert (Z : forall x : json, (have d := (if String.eqb nm "Unknown" then Some (fun j => have u := d_str j in Some (SchemeUnknown u)) else None) in d x) = Some (SchemeUnknown s) -> d_str x = Some s).
    { intros x Hx. destruct (String.eqb nm "Unknown"); [|discriminate]. cbn in Hx. bound Hx. inversion Hx; subst. exact E. }
    eapply d_str_utf8; [exact Fv|]. destruct v; try (apply Z; exact D).
    destruct (scheme_of_name nm) eqn:SN; [|apply Z; exact D]. exfalso. inversion D; subst.
    unfold scheme_of_name in SN. destruct (String.eqb nm "ed25519"); [discriminate|].
    destruct (String.eqb nm "rsassa-pss-sha256"); [discriminate|]. destruct (String.eqb nm "rsassa-pss-sha512"); discriminate.
Qed.

Lemma shim_json_fit n t s h p : t = KtEd25519 \/ t = KtRsa -> ascii_only p = true ->
  fit (S n) (e_scheme s) -> match h with None => True | Some l => Forall (fun s => utf8_valid s = true) l end ->
  fit (S (S n)) (shim_key_json t s h p).
Proof.
  intros T P S H. unfold shim_key_json. apply fit_obj. cbn [app].
  constructor; [split; [reflexivity|]; apply fit_str; destruct T; subst; reflexivity|].
  constructor; [split; [reflexivity|exact S]|]. apply Forall_app. split.
  - destruct h as [l|]; cbn; constructor; [|constructor]. split; [reflexivity|]. apply (fit_strings n l H).
  - constructor; [|constructor]. split; [reflexivity|]. cbn [snd]. members. apply fit_str, ascii_utf8, P.
Qed.

Lemma from_spki_fields C b s h k : from_spki_with C b s h = Ok k -> pk_scheme k = s /\ pk_kha k = h.
Proof.
  unfold from_spki_with. destruct (read_spki b) as [[t v]|]; [|discriminate]. unfold key_new.
  intros H. apply rbind_Ok in H as (id & _ & H). inversion H; subst. auto.
Qed.
Lemma from_ed25519_fields C b h k : from_ed25519_with C b h = Ok k -> pk_scheme k = Ed25519 /\ pk_kha k = h.
Proof.
  unfold from_ed25519_with. destruct (Nat.eqb _ _); [|discriminate]. unfold key_new.
  intros H. apply rbind_Ok in H as (id & _ & H). inversion H; subst. auto.
Qed.

Lemma textual_key C : textual (d_key C) e_key 2.
Proof.
  intros n j k j' L F D E. destruct n as [|[|n]]; try lia.
  assert (P : portable k) by (apply (d_key_sound C j k), D).
  assert (X : fit (S n) (e_scheme (pk_scheme k)) /\
              match pk_kha k with None => True | Some l => Forall (fun s => utf8_valid s = true) l end).
  { unfold d_key in D. bound D. destruct a as [[[t s] h] v]. unfold d_shim_key in E0. fit_fields E0 F. inversion E0; subst.
    assert (Y : pk_scheme k = s /\ pk_kha k = h).
    { bound D. destruct (key_type_eqb t (pk_typ a)); [|discriminate]. inversion D; subst.
      destruct t; [destruct s; try discriminate| |]; bound E5; apply get_ok_Some in E5;
        [eapply from_ed25519_fields|eapply from_spki_fields|eapply from_spki_fields]; eassumption. }
    destruct Y as [-> ->]. split; [eapply scheme_fit; [exact X0|exact E2|lia]|].
    apply optional in E3. destruct h as [l|]; [|exact I]. destruct E3 as (x & -> & E3). eapply strings_utf8; [apply X1; reflexivity|exact E3]. }
  destruct X as [S H]. unfold e_key, shim_public_key in E.
  destruct P as [(T & _)|(T & _)]; rewrite T in E.
  - inversion E; subst. apply shim_json_fit; auto using hex_encode_ascii.
  - bound E. inversion E; subst. apply shim_json_fit; auto. eapply b64_text_ascii, b64_encode_text.
Qed.

(** ** Metadata *)
Lemma textual_role_def n j d : fit n j -> d_role_def j = Some d -> forall k, 2 <= k -> fit k (e_role_def d).
Proof.
  intros F H k L. destruct k as [|[|k]]; try lia. pose proof (role_def_wf j d H) as (_ & T & _). unfold d_role_def in H. fit_fields H F.
  assert (Y : rd_key_ids d = a0).
  { destruct a0 as [|i r]; [discriminate|]. destruct (no_repeats _); [|discriminate]. apply get_ok_Some in H.
    unfold role_def_new in H. destruct (a <? 1)%N; [discriminate|]. destruct (N.of_nat _ <? a)%N; [discriminate|]. inversion H; reflexivity. }
  unfold e_role_def. members.
  - apply fit_uint. lia.
  - rewrite Y. apply fit_strings. eapply ids_utf8; [|eassumption]; eassumption.
Qed.

Lemma textual_root C : textual (d_root C) e_root 5.
Proof.
  intros n j m j' L F D E. pose proof (root_wf C j m D) as ((_ & V) & _). unfold d_root in D. fit_fields D F.
  destruct a5 as [[[root snap] tgts] ts]. destruct (labelled Root a a0); [|discriminate]. bound D.
  apply get_ok_Some in D. unfold root_new in D. destruct (a1 <? 1)%N; [discriminate|]. inversion D; subst. clear D.
  unfold e_root in E. bound E. cbn in E8. inversion E; subst. clear E.
  members; try (apply fit_str; reflexivity).
  - apply fit_uint. cbn in *. lia.
  - split; [constructor|cbn; lia].
  - apply fit_str, ascii_utf8, format_ascii.
  - cbn in *. (* the kept keys are some of the decoded ones *)
    assert (Z : exists full, e_map e_key a4 = Some full /\ fit k full).
    { destruct (d_keys_e C a4 (keys_wf C _ _ E5)) as (full & Ef & _). exists full. split; [exact Ef|].
      eapply (textual_map_unique _ _ _ _ keeps_key_id (textual_key C)); [|exact X4|exact E5|exact Ef]. lia. }
    destruct Z as (full & Ef & Ff). unfold e_map in Ef, E8. bound Ef. inversion Ef; subst. bound E8. inversion E8; subst.
    apply fit_obj_inv in Ff as (q & -> & Ff). apply fit_obj.
    apply all_some_Some in E. apply all_some_Some in E9.
    clear -E E9 Ff. revert a8 E9 Ff. induction E as [|x y l l' Exy _ IH]; intros a8 E9 Ff.
    + inversion E9; constructor.
    + inversion Ff; subst. cbn [filter] in E9. destruct (String.eqb (fst x) (pk_id (snd x))).
      * inversion E9 as [|? z ? ? Ez Er]; subst. constructor; [|apply IH; assumption]. congruence.
      * apply IH; assumption.
  - destruct k as [|[|[|[|k]]]]; try lia. unfold d_role_defs in E6. fit_fields E6 X5. inversion E6; subst. cbn [rm_root rm_snapshot rm_targets rm_timestamp].
    members; (eapply textual_role_def; [|eassumption|lia]; eassumption).
Qed.

Lemma hashes_fit n j l j' : d_hashes j = Some l -> e_hashes l = Some j' -> fit (S n) j'.
Proof.
  intros H E. unfold d_hashes in H. bound H. inversion H; subst. unfold hash_map in E. unfold e_hashes in E. bound E. inversion E; subst.
  apply fit_obj. destruct (lookup Sha256 (rev a)), (lookup Sha512 (rev a)); cbn in E1; inversion E1; subst;
    repeat (constructor; [split; [reflexivity|apply fit_str, ascii_utf8, hex_encode_ascii]|]); constructor.
Qed.

Lemma textual_meta_desc : textual d_meta_desc e_meta_desc 2.
Proof.
  intros n j d j' L F D E. pose proof (meta_desc_wf j d D) as ((_ & V) & S & W). unfold d_meta_desc in D. fit_fields D F.
  apply get_ok_Some in D. unfold meta_desc_new in D. destruct (a <? 1)%N; [discriminate|].
  assert (Y : md_hashes d = a1) by (destruct a1; inversion D; reflexivity).
  unfold e_meta_desc in E. bound E. inversion E; subst. destruct k as [|k]; [lia|]. members.
  - apply fit_uint. lia.
  - apply fit_uint. exact S.
  - eapply hashes_fit; eassumption.
Qed.

Lemma custom_fit n j c : fit n j -> d_custom j = Some c -> fit n (JObj c).
Proof.
  intros F D. unfold d_custom, d_map in D. bound D. inversion D; subst.
  apply (d_entries_Some _ _ _ _ keeps_Some) in E as (es & -> & G). apply fit_obj_inv in F as (k & -> & F).
  apply fit_obj. apply btree_Forall. clear -G F. induction G as [|[n v] [n' v'] es a (E1 & _ & E2) _ IH]; constructor; inversion F; subst; auto.
  cbn in *. inversion E2; subst. destruct H1. split; [assumption|]. apply fit_to_value. assumption.
Qed.

Lemma textual_target_desc : textual d_target_desc e_target_desc 2.
Proof.
  intros n j d j' L F D E. pose proof (target_desc_wf j d D) as (S & W & _). unfold d_target_desc in D. fit_fields D F.
  apply get_ok_Some in D. unfold target_desc_new in D.
  assert (Y : td_hashes d = a0 /\ td_custom d = a1) by (destruct a0; inversion D; auto). destruct Y as [Y Z].
  unfold e_target_desc in E. bound E. inversion E; subst. destruct k as [|k]; [lia|].
  apply fit_obj. cbn [app]. constructor; [split; [reflexivity|apply fit_uint, S]|].
  constructor; [split; [reflexivity|eapply hashes_fit; eassumption]|]. apply optional in E2.
  destruct (td_custom d) as [c|]; cbn; constructor; [|constructor]. split; [reflexivity|]. cbn [snd]. destruct E2 as (x & -> & E2).
  eapply custom_fit; [apply X1; reflexivity|exact E2].
Qed.

Lemma set_of_Forall (P : string -> Prop) l : Forall P l -> Forall P (set_of l).
Proof.
  intros F. unfold set_of. rewrite Forall_map. apply btree_Forall. rewrite Forall_map. exact F.
Qed.

Lemma textual_delegation : textual d_delegation (fun d => Some (e_delegation d)) 2.
Proof.
  intros n j d j' L F D E. pose proof (delegation_wf j d D) as (_ & (_ & T & _) & _). inversion E; subst. clear E.
  unfold d_delegation in D. fit_fields D F. destruct (no_repeats a3 && no_repeats a2)%bool; [|discriminate].
  apply get_ok_Some in D. unfold delegation_new in D.
  assert (Y : dg_role d = a /\ dg_key_ids d = set_of a2 /\ dg_paths d = set_of a3).
  { destruct (set_of a2); [discriminate|]. destruct (set_of a3); [discriminate|]. destruct (a1 <? 1)%N; [discriminate|].
    destruct (N.of_nat _ <? a1)%N; [discriminate|]. inversion D; auto. }
  destruct Y as (Y1 & Y2 & Y3). destruct k as [|k]; [lia|]. unfold e_delegation. members.
  - apply fit_str. rewrite Y1. eapply path_utf8; [|eassumption]; eassumption.
  - split; [constructor|cbn; lia].
  - apply fit_uint. lia.
  - rewrite Y2. apply fit_strings, set_of_Forall, set_of_Forall. eapply ids_utf8; [|eassumption]; eassumption.
  - rewrite Y3. apply fit_strings, set_of_Forall, set_of_Forall. eapply paths_utf8; [|eassumption]; eassumption.
Qed.

Lemma textual_delegations C : textual (d_delegations C) e_delegations 4.
Proof.
  intros n j d j' L F D E. unfold d_delegations in D. fit_fields D F. apply get_ok_Some in D. unfold delegations_new in D.
  assert (Y : dgs_keys d = a /\ dgs_roles d = a0).
  { destruct a; [discriminate|]. destruct a0; [discriminate|]. destruct (no_repeats _); inversion D; auto. }
  destruct Y as [Y1 Y2]. unfold e_delegations in E. bound E. inversion E; subst. members.
  - eapply (textual_map_unique _ _ _ _ keeps_key_id (textual_key C)); [| |eassumption|eassumption]; [lia|eassumption].
  - destruct (vec_fit _ _ _ _ X0 E1) as (q & -> & G). apply fit_arr. rewrite Forall_map. revert G. apply Forall_impl.
    intros dg (x & Fx & Dx). eapply textual_delegation; [|exact Fx|exact Dx|reflexivity]. lia.
Qed.

Lemma textual_targets C : textual (d_targets C) e_targets 5.
Proof.
  intros n j m j' L F D E. pose proof (targets_wf C j m D) as ((_ & V) & _). unfold d_targets in D. fit_fields D F.
  destruct (labelled Targets a a0); [|discriminate]. bound D. apply get_ok_Some in D. unfold targets_new in D.
  destruct (a1 <? 1)%N; [discriminate|]. inversion D; subst. clear D. unfold e_targets in E.
  cbn [tg_targets tg_delegations tg_version tg_expires] in *. bound E. bound E. inversion E; subst. clear E.
  apply fit_obj. cbn [app].
  constructor; [split; [reflexivity|apply fit_str; reflexivity]|].
  constructor; [split; [reflexivity|apply fit_str; reflexivity]|].
  constructor; [split; [reflexivity|apply fit_uint; lia]|].
  constructor; [split; [reflexivity|apply fit_str, ascii_utf8, format_ascii]|].
  constructor; [split; [reflexivity|cbn [snd]]|].
  - eapply (textual_map _ _ _ _ keeps_path textual_target_desc); [| |eassumption|eassumption]; [lia|eassumption].
  - match goal with H : d_optional _ _ = Some _ |- _ => apply optional in H; rename H into OD end. destruct a4 as [d|].
    + match goal with H : (have j := e_delegations d in Some (Some j)) = Some _ |- _ => bound H; inversion H; subst end.
      cbn. constructor; [|constructor]. split; [reflexivity|]. cbn [snd].
      destruct OD as (x & -> & OD). eapply (textual_delegations C); [| |exact OD|eassumption]; [lia|].
      match goal with X : forall x, _ -> fit _ x |- _ => apply X; reflexivity end.
    + match goal with H : Some None = Some _ |- _ => inversion H; subst end. constructor.
Qed.

Lemma textual_snapshot : textual d_snapshot e_snapshot 4.
Proof.
  intros n j m j' L F D E. pose proof (snapshot_wf j m D) as ((_ & V) & _). unfold d_snapshot in D. fit_fields D F.
  destruct (labelled Snapshot a a0); [|discriminate]. bounds D. apply get_ok_Some in D. unfold snapshot_new in D.
  destruct (a1 <? 1)%N; [discriminate|]. inversion D; subst. clear D. unfold e_snapshot in E.
  cbn [sm_meta sm_version sm_expires] in *. bound E. inversion E; subst. clear E. members; try (apply fit_str; reflexivity).
  - apply fit_uint. lia.
  - apply fit_str, ascii_utf8, format_ascii.
  - assert (Y : map (fun pd => (fst pd ++ ".json", snd pd)) a5 = a3).
    { apply all_some_Some in E6. clear -E6. induction E6 as [|[n d] [p d'] l l' E _ IH]; [reflexivity|].
      cbn in *. bounds E. inversion E; subst p d'. apply strip_json_Some in E0. apply path_of_string_Some in E1 as [-> _].
      rewrite IH, <- E0. reflexivity. }
    rewrite Y in *. eapply (textual_map_unique _ _ _ _ keeps_Some textual_meta_desc); [| |eassumption|eassumption]; [lia|eassumption].
Qed.

Lemma textual_timestamp : textual d_timestamp e_timestamp 4.
Proof.
  intros n j m j' L F D E. pose proof (timestamp_wf j m D) as ((_ & V) & _). unfold d_timestamp in D. fit_fields D F.
  destruct (labelled Timestamp a a0); [|discriminate]. bounds D. apply get_ok_Some in D. unfold timestamp_new in D.
  destruct (a1 <? 1)%N; [discriminate|]. inversion D; subst. clear D. unfold e_timestamp in E.
  cbn [tm_snapshot tm_version tm_expires] in *. bound E. inversion E; subst. clear E. members; try (apply fit_str; reflexivity).
  - apply fit_uint. lia.
  - apply fit_str, ascii_utf8, format_ascii.
  - unfold d_timestamp_meta in *. match goal with H : match d_fields _ _ _ _ with _ => _ end = Some _, X : fit _ _ |- _ => fit_fields H X end.
    members. eapply textual_meta_desc; [| |eassumption|eassumption]; [lia|eassumption].
Qed.

Lemma textual_metadata C r : textual (d_metadata C r) (e_metadata r) 5.
Proof.
  intros n j m j' L. destruct r; cbn; [apply textual_root|apply textual_snapshot|apply textual_targets|apply textual_timestamp]; lia.
Qed.
