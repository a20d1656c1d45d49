(** * Proofs about the JSON form of the metadata *)
From Coq Require Import String Ascii List NArith ZArith Bool Lia Permutation Sorted.
From Verif Require Import Base BaseFacts StringFacts JsonValue JsonText SpecJson JsonProofs Metadata
     Codec SpecCodec CodecProofs Dates SpecDates DateProofs Paths SpecPaths PathProofs
     Serde SerdeProofs Keys SpecKeys KeyProofs Shims SpecMeta.
Import ListNotations.
Open Scope nat_scope.
Open Scope string_scope.

(** ** The [Value] of a tree decodes like the tree *)
Lemma stable_path : stable d_path.
Proof. apply stable_bind, stable_str. Qed.
Lemma stable_hex : stable d_hex.
Proof. apply stable_bind, stable_str. Qed.
Lemma stable_role : stable d_role.
Proof. apply stable_enum. discriminate. Qed.
#[export] Hint Resolve stable_path stable_hex stable_role : stable.

Lemma keeps_key_id : keeps key_id_of_string.
Proof. intros s s'. unfold key_id_of_string. destruct (Nat.eqb _ _); congruence. Qed.
Lemma path_of_string_Some s p : path_of_string s = Some p <-> p = s /\ acceptable_path s.
Proof.
  unfold path_of_string. destruct (path_new s) as [q|] eqn:E; cbn.
  - apply path_new_iff in E as [-> A]. split; [intros H; inversion H; subst; auto|intros [-> _]; reflexivity].
  - split; [discriminate|]. intros [-> A]. assert (path_new s = Ok s) by (apply path_new_iff; auto). congruence.
Qed.
Lemma keeps_path : keeps path_of_string.
Proof. intros s s' H. apply path_of_string_Some in H. tauto. Qed.
Lemma keeps_Some : keeps Some.
Proof. intros s s' H. congruence. Qed.
#[export] Hint Resolve keeps_key_id keeps_path keeps_Some : stable.

(** Hashes are read under exactly two names. *)
Definition alg_name (a : hash_alg) : string := match a with Sha256 => "sha256" | Sha512 => "sha512" | HashUnknown s => s end.
Lemma hash_alg_of_name_Some s a : hash_alg_of_name s = Some a -> (a = Sha256 \/ a = Sha512) /\ s = alg_name a.
Proof.
  unfold hash_alg_of_name. destruct (String.eqb_spec s "sha256"); [intros H; inversion H; auto|].
  destruct (String.eqb_spec s "sha512"); intros H; inversion H; auto.
Qed.

Lemma hashes_entries m es :
  all_some (fun nv => have n := hash_alg_of_name (fst nv) in have v := d_hex (snd nv) in Some (n, v)) m = Some es ->
  Forall (fun nv => hash_alg_of_name (fst nv) <> None /\ d_hex (snd nv) <> None) m /\
  forall a, a = Sha256 \/ a = Sha512 ->
    lookup a (rev es) = match lookup (alg_name a) (rev m) with Some v => d_hex v | None => None end.
Proof.
  intros H. apply all_some_Some in H. split.
  - induction H as [|[n v] e m es E _ IH]; constructor; [|exact IH]. cbn in *.
    destruct (hash_alg_of_name n), (d_hex v); cbn in E; try discriminate; split; discriminate.
  - intros a A. induction H as [|[n v] [b w] m es E F IH]; [reflexivity|]. cbn [rev].
    assert (LA : forall V (x y : list (hash_alg * V)), lookup a (x ++ y)%list = match lookup a x with Some v => Some v | None => lookup a y end).
    { clear. intros V x y. induction x as [|[k u] x IH]; cbn; [reflexivity|]. destruct (hash_alg_eqb a k); [reflexivity|exact IH]. }
    rewrite LA, lookup_app, IH. cbn in E.
    destruct (hash_alg_of_name n) as [c|] eqn:N; [|discriminate]. destruct (d_hex v) as [u|] eqn:D; [|discriminate].
    inversion E; subst. apply hash_alg_of_name_Some in N as [B ->].
    destruct (lookup (alg_name a) (rev m)) as [v'|] eqn:L.
    + destruct (d_hex v') as [u'|] eqn:D'; [reflexivity|]. exfalso.
      assert (X : Forall (fun nv => d_hex (snd nv) <> None) m).
      { clear -F. induction F as [|[n v] e m es E _ IH]; constructor; [|exact IH]. cbn in *.
        destruct (hash_alg_of_name n), (d_hex v); cbn in E; try discriminate; discriminate. }
      rewrite Forall_forall in X. apply lookup_In in L. apply in_rev in L. apply X in L. cbn in L. congruence.
    + cbn [lookup]. destruct A as [-> | ->], B as [-> | ->]; cbn; rewrite ?D; reflexivity.
Qed.

Lemma all_some_total {A B} (f : A -> option B) l : Forall (fun a => f a <> None) l -> exists r, all_some f l = Some r.
Proof.
  induction 1 as [|a l H _ [r IH]]; [exists []; reflexivity|]. cbn. destruct (f a) as [b|]; [|congruence].
  cbn. rewrite IH. cbn. eauto.
Qed.

Lemma stable_hashes : stable d_hashes.
Proof.
  intros j a H. unfold d_hashes in *. bound H. inversion H; subst. clear H.
  destruct j as [| | | | | |m]; try discriminate. cbn [d_entries] in E.
  rewrite to_value_obj. cbn [d_entries]. set (m' := btree (map (on_snd to_value) m)).
  destruct (hashes_entries m a0 E) as [T L].
  destruct (all_some_total (fun nv => have n := hash_alg_of_name (fst nv) in have v := d_hex (snd nv) in Some (n, v)) m') as [es' E'].
  { apply btree_Forall. rewrite Forall_map. revert T. apply Forall_impl. intros [n v] [N D]. cbn in *.
    destruct (hash_alg_of_name n); [|congruence]. destruct (d_hex v) eqn:DV; [|congruence].
    cbn. rewrite (stable_hex _ _ DV). discriminate. }
  rewrite E'. cbn [obind]. f_equal. destruct (hashes_entries m' es' E') as [_ L'].
  assert (X : forall a, a = Sha256 \/ a = Sha512 -> lookup a (rev es') = lookup a (rev a0)).
  { intros a A. rewrite (L a A), (L' a A).
    assert (R : lookup (alg_name a) (rev m') = lookup (alg_name a) m').
    { apply lookup_rev_once. apply count_NoDup, sorted_NoDup, btree_sorted. }
    rewrite R. unfold m'. rewrite lookup_btree, <- map_rev, lookup_on_snd.
    destruct (lookup (alg_name a) (rev m)) as [v|] eqn:LV; [|reflexivity]. cbn.
    rewrite Forall_forall in T. apply lookup_In in LV. apply in_rev in LV. apply T in LV as [_ D].
    cbn in D. destruct (d_hex v) as [u|] eqn:DV; [|congruence]. symmetry. rewrite <- DV. rewrite DV. symmetry. apply stable_hex, DV. }
  unfold hash_map. rewrite (X Sha256), (X Sha512) by auto. reflexivity.
Qed.
#[export] Hint Resolve stable_hashes : stable.

Lemma stable_meta_desc : stable d_meta_desc.
Proof. unfold d_meta_desc. stable_struct. Qed.
Lemma stable_custom : stable d_custom.
Proof. unfold d_custom. eauto with stable. Qed.
#[export] Hint Resolve stable_meta_desc stable_custom : stable.
Lemma stable_target_desc : stable d_target_desc.
Proof. unfold d_target_desc. stable_struct. Qed.
Lemma stable_role_def : stable d_role_def.
Proof. unfold d_role_def. stable_struct. Qed.
#[export] Hint Resolve stable_target_desc stable_role_def : stable.
Lemma stable_role_defs : stable d_role_defs.
Proof. unfold d_role_defs. stable_struct. Qed.
Lemma stable_delegation : stable d_delegation.
Proof. unfold d_delegation. stable_struct. Qed.
#[export] Hint Resolve stable_role_defs stable_delegation : stable.
Lemma stable_delegations C : stable (d_delegations C).
Proof. unfold d_delegations. stable_struct. Qed.
#[export] Hint Resolve stable_delegations : stable.
Lemma stable_root C : stable (d_root C).
Proof. unfold d_root. stable_struct. Qed.
Lemma stable_targets C : stable (d_targets C).
Proof. unfold d_targets. stable_struct. Qed.
Lemma stable_timestamp_meta : stable d_timestamp_meta.
Proof. unfold d_timestamp_meta. stable_struct. Qed.
#[export] Hint Resolve stable_timestamp_meta : stable.
Lemma stable_timestamp : stable d_timestamp.
Proof. unfold d_timestamp. stable_struct. Qed.
Lemma stable_snapshot : stable d_snapshot.
Proof. unfold d_snapshot. stable_struct. Qed.
Lemma stable_metadata C r : stable (d_metadata C r).
Proof. destruct r; [apply stable_root|apply stable_snapshot|apply stable_targets|apply stable_timestamp]. Qed.
Lemma stable_signature : stable d_signature.
Proof. unfold d_signature. stable_struct. Qed.
#[export] Hint Resolve stable_signature : stable.
Lemma stable_signed : stable d_signed.
Proof. unfold d_signed. stable_struct. Qed.

(** ** Sorted maps and sets *)
Lemma sorted_increasing {V} (m : list (string * V)) : sorted m <-> increasing (map fst m).
Proof.
  unfold sorted, increasing. induction m as [|a m IH]; cbn; split; intros H; try constructor; inversion H; subst.
  - apply IH; assumption.
  - rewrite Forall_map. assumption.
  - apply IH; assumption.
  - rewrite Forall_map in *. assumption.
Qed.
Lemma btree_increasing {V} (l : list (string * V)) : increasing (map fst (btree l)).
Proof. apply sorted_increasing, btree_sorted. Qed.
Lemma increasing_NoDup l : increasing l -> NoDup l.
Proof.
  intros H. replace l with (map fst (map (fun s => (s, tt)) l)).
  - apply sorted_NoDup, sorted_increasing. rewrite map_map. cbn. now rewrite map_id.
  - rewrite map_map. cbn. apply map_id.
Qed.
Lemma set_of_increasing l : increasing (set_of l).
Proof. apply btree_increasing. Qed.
Lemma set_of_sorted l : increasing l -> set_of l = l.
Proof.
  intros H. unfold set_of. rewrite btree_of_sorted.
  - rewrite map_map. apply map_id.
  - apply sorted_increasing. rewrite map_map. cbn. now rewrite map_id.
Qed.
Lemma set_of_perm l : NoDup l -> Permutation l (set_of l).
Proof.
  intros N. unfold set_of. rewrite <- (map_id l) at 1.
  replace (map (fun x => x) l) with (map fst (map (fun s => (s, tt)) l)) by (rewrite map_map; reflexivity).
  apply Permutation_map, btree_NoDup_perm. rewrite map_map. cbn. now rewrite map_id.
Qed.

(** ** Decoded metadata is well formed *)
Lemma d_uint_Some m j n : d_uint m j = Some n -> (n <= m)%N.
Proof.
  destruct j as [| |z| | | |]; try discriminate. cbn.
  destruct (Z.leb_spec 0 z); [|discriminate]. destruct (Z.leb_spec z (Z.of_N m)); [|discriminate].
  intros H'; inversion H'; subst. lia.
Qed.
Lemma required {A} (d : decoder A) f a : d_required d f = Some a -> exists j, f = Some j /\ d j = Some a.
Proof. intros H. unfold d_required in H. bound H. subst. eauto. Qed.
Lemma optional {A} (d : decoder A) f o : d_optional d f = Some o ->
  match o with None => True | Some a => exists j, f = Some j /\ d j = Some a end.
Proof.
  unfold d_optional. destruct f as [j|]; [|intros H; inversion H; subst; exact I].
  destruct o as [a|]; [|auto]. intros H. exists j. split; [reflexivity|].
  assert (Z : j = JNull \/ j <> JNull) by (destruct j; auto; right; discriminate).
  destruct Z as [->|Z]; [discriminate|]. rewrite d_opt_nonnull in H by exact Z. bound H. congruence.
Qed.
Lemma vec {A} (d : decoder A) j l : d_vec d j = Some l -> Forall (fun a => exists x, d x = Some a) l.
Proof.
  destruct j; try discriminate. cbn. intros H. apply all_some_Some in H. induction H; constructor; eauto.
Qed.
Lemma map_Some {A} k (d : decoder A) j m : keeps k -> d_map k d j = Some m ->
  increasing (map fst m) /\ Forall (fun nv => k (fst nv) = Some (fst nv) /\ exists x, d x = Some (snd nv)) m.
Proof.
  intros K H. unfold d_map in H. bound H. inversion H; subst. split; [apply btree_increasing|].
  apply btree_Forall. apply (d_entries_Some k d j a K) in E as (es & -> & F).
  clear -F. induction F as [|x [n v] es m (E & N & D) _ IH]; constructor; auto. cbn in *. rewrite <- E. eauto.
Qed.
Lemma map_unique_Some {A} k (d : decoder A) j m : keeps k -> d_map_unique k d j = Some m ->
  increasing (map fst m) /\ Forall (fun nv => k (fst nv) = Some (fst nv) /\ exists x, d x = Some (snd nv)) m.
Proof.
  intros K H. apply (map_Some k d j m K). unfold d_map, d_map_unique in *. bound H. rewrite E. cbn [obind].
  destruct (no_repeats _); [exact H|discriminate].
Qed.

Ltac fields H :=
  match type of H with
  | match d_fields ?n ?dn ?o ?j with _ => _ end = _ =>
      let fs := fresh "fs" in let F := fresh "F" in
      destruct (d_fields n dn o j) as [fs|] eqn:F; [|discriminate];
      repeat match type of H with context [match ?l with [] => _ | _ :: _ => _ end] => is_var l; destruct l; try discriminate end;
      clear F
  end;
  bounds H;
  repeat match goal with
  | E : d_required _ _ = Some _ |- _ => apply required in E; let j := fresh "j" in destruct E as (j & -> & E)
  end.

Lemma get_ok_Some {A} (r : result A) a : get_ok r = Some a <-> r = Ok a.
Proof. destruct r; cbn; split; intros H; inversion H; reflexivity. Qed.

Lemma key_id_Some j s : d_key_id j = Some s -> id_like s.
Proof.
  intros H. unfold d_key_id in H. bound H. unfold key_id_of_string in H.
  destruct (Nat.eqb_spec (String.length a) 64); inversion H; subst. assumption.
Qed.
Lemma key_id_of_string_Some s s' : key_id_of_string s = Some s' <-> s' = s /\ id_like s.
Proof.
  unfold key_id_of_string, id_like. destruct (Nat.eqb_spec (String.length s) 64); split; intros H; try discriminate.
  - inversion H; subst; auto.
  - destruct H; congruence.
  - destruct H; contradiction.
Qed.

Lemma role_def_wf j d : d_role_def j = Some d -> wf_role_def d.
Proof.
  intros H. unfold d_role_def in H. fields H. apply d_uint_Some in E. apply vec in E0.
  destruct a0 as [|i r]; [discriminate|]. remember (i :: r) as ids eqn:EI.
  destruct (no_repeats ids) eqn:NR; [|discriminate]. apply no_repeats_NoDup in NR. apply get_ok_Some in H.
  unfold role_def_new in H. destruct (N.ltb_spec a 1); [discriminate|].
  assert (X : (if (N.of_nat (length ids) <? a)%N then Err IllegalArgument else Ok (mkRoleDef a ids)) = Ok d)
    by (rewrite EI in *; exact H).
  destruct (N.ltb_spec (N.of_nat (length ids)) a); [discriminate|]. inversion X; subst d.
  unfold wf_role_def, threshold_ok. cbn. change u32_max with 4294967295%N in E. repeat split; try assumption.
  revert E0. apply Forall_impl. intros s (x & D). eapply key_id_Some, D.
Qed.

Lemma role_defs_wf j r s t m : d_role_defs j = Some (r, s, t, m) ->
  wf_role_def r /\ wf_role_def s /\ wf_role_def t /\ wf_role_def m.
Proof.
  intros H. unfold d_role_defs in H. fields H. inversion H; subst.
  repeat split; eapply role_def_wf; eassumption.
Qed.

Lemma keys_wf C j m : d_map_unique key_id_of_string (d_key C) j = Some m -> wf_keys C m.
Proof.
  intros H. apply (map_unique_Some _ _ _ _ keeps_key_id) in H as [I F]. split; [exact I|].
  revert F. apply Forall_impl. intros [i k] [K (x & D)]. cbn in *. apply key_id_of_string_Some in K as [_ K].
  apply d_key_sound in D. tauto.
Qed.

Lemma increasing_filter {V} (f : string * V -> bool) m : increasing (map fst m) -> increasing (map fst (filter f m)).
Proof.
  rewrite <- !sorted_increasing. unfold sorted. induction 1 as [|a m S IH F]; cbn; [constructor|].
  destruct (f a); [|exact IH]. constructor; [exact IH|]. rewrite Forall_forall in *. intros x I.
  apply filter_In in I as [I _]. auto.
Qed.

Lemma date_wf t z : parse_datetime t = Ok z -> nameable z.
Proof. intros H. apply parse_datetime_iff in H as (x & _ & R & Y & A). exists x. auto. Qed.

Lemma version_wf a v : (a <= u32_max)%N -> (a <? 1)%N = v -> v = false -> version_ok a.
Proof. intros L <- H. apply N.ltb_ge in H. unfold version_ok. change u32_max with 4294967295%N in L. lia. Qed.

Lemma root_wf C j m : d_root C j = Some m -> wf_root C m.
Proof.
  intros H. unfold d_root in H. fields H. destruct a5 as [[[root snap] tgts] ts].
  destruct (labelled Root a a0); [|discriminate]. bound H. apply get_ok_Some in E6. apply get_ok_Some in H.
  unfold root_new in H. destruct (a1 <? 1)%N eqn:V; [discriminate|]. inversion H; subst. clear H.
  apply role_defs_wf in E5. apply keys_wf in E4 as [I F]. unfold wf_root; cbn.
  split; [eapply version_wf; eauto using d_uint_Some|]. split; [eapply date_wf; eassumption|].
  split; [split|split].
  - apply increasing_filter, I.
  - rewrite Forall_forall in *. intros x X. apply filter_In in X as [X _]. auto.
  - rewrite Forall_forall. intros x X. apply filter_In in X as [_ X]. now apply String.eqb_eq in X.
  - tauto.
Qed.

Lemma hash_map_wf l : hash_map l <> [] -> wf_hashes (hash_map l).
Proof. unfold hash_map. destruct (lookup Sha256 (rev l)), (lookup Sha512 (rev l)); cbn; intros H; try constructor. congruence. Qed.
Lemma hashes_wf j l : d_hashes j = Some l -> l <> [] -> wf_hashes l.
Proof. intros H N. unfold d_hashes in H. bound H. inversion H; subst. now apply hash_map_wf. Qed.

Lemma meta_desc_wf j d : d_meta_desc j = Some d -> wf_desc d.
Proof.
  intros H. unfold d_meta_desc in H. fields H. apply get_ok_Some in H. unfold meta_desc_new in H.
  destruct (a <? 1)%N eqn:V; [discriminate|]. destruct a1 as [|h r]; [discriminate|]. inversion H; subst.
  split; [eapply version_wf; eauto using d_uint_Some|]. cbn. split.
  - apply d_uint_Some in E0. change u64_max with 18446744073709551615%N in E0. exact E0.
  - eapply hashes_wf; [eassumption|discriminate].
Qed.

Lemma target_desc_wf j d : d_target_desc j = Some d -> wf_target d.
Proof.
  intros H. unfold d_target_desc in H. fields H. apply get_ok_Some in H. unfold target_desc_new in H.
  destruct a0 as [|h r]; [discriminate|]. inversion H; subst. split; [|split]; cbn.
  - apply d_uint_Some in E. change u64_max with 18446744073709551615%N in E. exact E.
  - eapply hashes_wf; [eassumption|discriminate].
  - apply optional in E1. destruct a1 as [c|]; [|exact I]. destruct E1 as (x & _ & D).
    apply (map_Some Some _ _ _ keeps_Some) in D as [I F]. split; [exact I|]. revert F. apply Forall_impl.
    intros [n v] [_ (y & E1)]. cbn in *. inversion E1. apply to_value_normal.
Qed.

Lemma path_wf j p : d_path j = Some p -> acceptable_path p.
Proof. intros H. unfold d_path in H. bound H. apply path_of_string_Some in H as [-> A]. exact A. Qed.

Lemma delegation_wf j d : d_delegation j = Some d -> wf_delegation d.
Proof.
  intros H. unfold d_delegation in H. fields H.
  destruct (no_repeats a3 && no_repeats a2)%bool eqn:NR; [|discriminate].
  apply andb_true_iff in NR as [NP NI]. apply no_repeats_NoDup in NP, NI.
  pose proof (set_of_perm _ NP) as PP. pose proof (set_of_perm _ NI) as PI.
  apply get_ok_Some in H. unfold delegation_new in H.
  destruct (set_of a2) as [|i ids] eqn:SI; [discriminate|]. destruct (set_of a3) as [|p ps] eqn:SP; [discriminate|].
  destruct (N.ltb_spec a1 1); [discriminate|]. destruct (N.ltb_spec (N.of_nat (length (i :: ids))) a1); [discriminate|].
  inversion H; subst. unfold wf_delegation; cbn [dg_role dg_threshold dg_key_ids dg_paths].
  split; [eapply path_wf; eassumption|]. split; [|split; [|split; [|split]]].
  - apply d_uint_Some in E1. change u32_max with 4294967295%N in E1. unfold threshold_ok. repeat split; try assumption.
    + eapply Permutation_NoDup; eassumption.
    + eapply Permutation_Forall; [exact PI|]. apply vec in E2. revert E2. apply Forall_impl.
      intros s (x & D). eapply key_id_Some, D.
  - rewrite <- SI. apply set_of_increasing.
  - discriminate.
  - rewrite <- SP. apply set_of_increasing.
  - eapply Permutation_Forall; [exact PP|]. apply vec in E3. revert E3. apply Forall_impl.
    intros s (x & D). eapply path_wf, D.
Qed.

Lemma delegations_wf C j d : d_delegations C j = Some d -> wf_delegations C d.
Proof.
  intros H. unfold d_delegations in H. fields H. apply get_ok_Some in H. unfold delegations_new in H.
  destruct a as [|k ks]; [discriminate|]. destruct a0 as [|r rs]; [discriminate|].
  destruct (no_repeats (map dg_role (r :: rs))) eqn:NR; [|discriminate]. apply no_repeats_NoDup in NR.
  inversion H; subst. unfold wf_delegations; cbn [dgs_keys dgs_roles].
  split; [discriminate|]. split; [eapply keys_wf; eassumption|]. split; [discriminate|]. split; [exact NR|].
  apply vec in E0. revert E0. apply Forall_impl. intros d (x & D). eapply delegation_wf, D.
Qed.

Lemma targets_wf C j m : d_targets C j = Some m -> wf_targets C m.
Proof.
  intros H. unfold d_targets in H. fields H. destruct (labelled Targets a a0); [|discriminate]. bound H.
  apply get_ok_Some in E5. apply get_ok_Some in H. unfold targets_new in H. destruct (a1 <? 1)%N eqn:V; [discriminate|].
  inversion H; subst. unfold wf_targets; cbn. apply (map_Some _ _ _ _ keeps_path) in E3 as [I F].
  split; [eapply version_wf; eauto using d_uint_Some|]. split; [eapply date_wf; eassumption|]. split; [exact I|].
  split.
  - revert F. apply Forall_impl. intros [p d] [K (x & D)]. cbn in *. apply path_of_string_Some in K as [_ K].
    split; [exact K|]. eapply target_desc_wf, D.
  - apply optional in E4. destruct a4 as [d|]; [|exact Logic.I]. destruct E4 as (x & _ & D). eapply delegations_wf, D.
Qed.

Lemma strip_json_Some s p : strip_json s = Some p <-> s = p ++ ".json".
Proof.
  revert p. induction s as [|c s IH]; intros p.
  - cbn. split; [discriminate|]. destruct p; discriminate.
  - cbn [strip_json]. destruct (String.eqb_spec (String c s) ".json") as [E|N].
    + rewrite E. split; intros H; [inversion H; reflexivity|].
      destruct p as [|d p]; [reflexivity|]. exfalso. apply (f_equal String.length) in H. cbn in H.
      rewrite slength_app in H. cbn in H. lia.
    + split.
      * intros H. bound H. inversion H; subst. apply IH in E. now rewrite E.
      * intros H. destruct p as [|d p]; [exfalso; exact (N H)|]. cbn in H. inversion H; subst.
        rewrite (proj2 (IH p) eq_refl). reflexivity.
Qed.

Lemma snapshot_wf j m : d_snapshot j = Some m -> wf_snapshot m.
Proof.
  intros H. unfold d_snapshot in H. fields H. destruct (labelled Snapshot a a0); [|discriminate]. bounds H.
  apply get_ok_Some in E4. apply get_ok_Some in H. unfold snapshot_new in H. destruct (a1 <? 1)%N eqn:V; [discriminate|].
  inversion H; subst. unfold wf_snapshot; cbn. apply (map_unique_Some _ _ _ _ keeps_Some) in E3 as [I F].
  split; [eapply version_wf; eauto using d_uint_Some|]. split; [eapply date_wf; eassumption|].
  apply all_some_Some in E5.
  assert (X : map (fun pd => fst pd ++ ".json") a5 = map fst a3 /\
              Forall (fun pd => acceptable_path (fst pd) /\ wf_desc (snd pd)) a5).
  { clear -E5 F. induction E5 as [|[n d] [p d'] l l' E _ IH]; [auto|]. inversion F as [|? ? [_ (x & D)] F']; subst.
    destruct (IH F') as [IH1 IH2]. cbn in *. bounds E. inversion E; subst. apply strip_json_Some in E0.
    apply path_of_string_Some in E1 as [-> A]. split; [congruence|]. constructor; [|exact IH2]. cbn. split; [exact A|].
    eapply meta_desc_wf, D. }
  destruct X as [-> X]. split; [exact I|exact X].
Qed.

Lemma timestamp_wf j m : d_timestamp j = Some m -> wf_timestamp m.
Proof.
  intros H. unfold d_timestamp in H. fields H. destruct (labelled Timestamp a a0); [|discriminate]. bounds H.
  apply get_ok_Some in E4. apply get_ok_Some in H. unfold timestamp_new in H. destruct (a1 <? 1)%N eqn:V; [discriminate|].
  inversion H; subst. unfold wf_timestamp; cbn.
  split; [eapply version_wf; eauto using d_uint_Some|]. split; [eapply date_wf; eassumption|].
  unfold d_timestamp_meta in E3. fields E3. eapply meta_desc_wf, E3.
Qed.

Lemma metadata_wf C r j m : d_metadata C r j = Some m -> wf_metadata C r m.
Proof.
  destruct r; cbn; [apply root_wf|apply snapshot_wf|apply targets_wf|apply timestamp_wf].
Qed.

(** ** Encoding and decoding again *)
Ltac proj := cbn [rd_threshold rd_key_ids md_version md_length md_hashes td_length td_hashes td_custom dg_role dg_terminating
  dg_threshold dg_key_ids dg_paths dgs_keys dgs_roles tg_version tg_expires tg_targets tg_delegations sm_version sm_expires sm_meta
  tm_version tm_expires tm_snapshot] in *.
Ltac read_fields :=
  cbn [d_fields map fst snd forallb filter Datatypes.length Nat.leb String.eqb Ascii.eqb Bool.eqb negb orb andb lookup
       eqb EqDec_string d_required d_optional obind mem app opt_member d_str d_bool d_role d_enum role_of_name role_name
       labelled role_eqb spec_version d_path]; proj.
Lemma plain_date z : plain_time z -> parse_datetime (format_datetime z) = Ok z.
Proof.
  intros (x & (R & S & Y) & A).
  assert (E : no_leap_second x = x).
  { unfold no_leap_second. rewrite Z.min_l by exact S. now destruct x. }
  assert (F := format_spells x z R Y A). rewrite E in F.
  apply parse_datetime_iff. exists x. split; [apply fixed_spells, F|]. split; [exact R|]. split; [|exact A].
  unfold chrono_year. destruct (s_date x) as [[y m] d]. lia.
Qed.

Lemma d_uint_e max n : (n <= max)%N -> d_uint max (e_uint n) = Some n.
Proof.
  intros L. unfold e_uint, d_uint. destruct (Z.leb_spec 0 (Z.of_N n)); [|lia].
  destruct (Z.leb_spec (Z.of_N n) (Z.of_N max)); [|lia]. cbn [andb]. f_equal. lia.
Qed.

Lemma d_list_e {A B} (d : decoder B) (e : A -> json) (g : A -> B) l :
  Forall (fun a => d (e a) = Some (g a)) l -> d_vec d (JArr (map e l)) = Some (map g l).
Proof. intros F. cbn. apply all_some_map. rewrite Forall_forall in F. exact F. Qed.
Lemma d_ids_e l : Forall id_like l -> d_vec d_key_id (e_strings l) = Some l.
Proof.
  intros F. unfold e_strings. rewrite (d_list_e d_key_id JStr (fun x => x)); [now rewrite map_id|].
  revert F. apply Forall_impl. intros s I. cbn. apply key_id_of_string_Some. auto.
Qed.
Lemma d_paths_e l : Forall acceptable_path l -> d_vec d_path (e_strings l) = Some l.
Proof.
  intros F. unfold e_strings. rewrite (d_list_e d_path JStr (fun x => x)); [now rewrite map_id|].
  revert F. apply Forall_impl. intros s I. cbn. apply path_of_string_Some. auto.
Qed.

Lemma d_role_def_e d : wf_role_def d -> d_role_def (e_role_def d) = Some d.
Proof.
  destruct d as [t ids]. intros ((T1 & T2) & T3 & N & F). proj.
  unfold d_role_def, e_role_def. read_fields.
  rewrite d_uint_e by exact T3. cbn [obind]. rewrite d_ids_e by exact F. cbn [obind].
  destruct ids as [|i ids]; [cbn in T2; lia|]. rewrite (proj2 (no_repeats_NoDup _) N).
  unfold role_def_new. destruct (N.ltb_spec t 1); [lia|]. destruct (N.ltb_spec (N.of_nat (length (i :: ids))) t); [lia|]. reflexivity.
Qed.

(** Maps. *)
Lemma e_map_d {A} k (d : decoder A) (e : A -> option json) m : keeps k ->
  Forall (fun nv => k (fst nv) = Some (fst nv) /\ exists j, e (snd nv) = Some j /\ d j = Some (snd nv)) m ->
  exists js, e_map e m = Some (JObj js) /\ d_entries k d (JObj js) = Some m.
Proof.
  intros K F.
  assert (X : exists js, all_some (fun nv => have v := e (snd nv) in Some (fst nv, v)) m = Some js /\ Forall2 (entry_ok k d) js m).
  { induction F as [|[n v] m [N (j & E & D)] _ (js & IH1 & IH2)]; [exists []; split; [reflexivity|constructor]|].
    exists ((n, j) :: js). cbn in *. rewrite E. cbn. rewrite IH1. cbn. split; [reflexivity|]. constructor; [|exact IH2].
    repeat split; assumption. }
  destruct X as (js & E & D). exists js. unfold e_map. rewrite E. split; [reflexivity|].
  apply d_entries_Some; [exact K|]. eauto.
Qed.
Lemma d_map_e {A} k (d : decoder A) (e : A -> option json) m : keeps k -> increasing (map fst m) ->
  Forall (fun nv => k (fst nv) = Some (fst nv) /\ exists j, e (snd nv) = Some j /\ d j = Some (snd nv)) m ->
  exists j, e_map e m = Some j /\ d_map k d j = Some m /\ d_map_unique k d j = Some m.
Proof.
  intros K I F. destruct (e_map_d k d e m K F) as (js & E & D). exists (JObj js). split; [exact E|].
  unfold d_map, d_map_unique. rewrite D. cbn [obind].
  rewrite (proj2 (no_repeats_NoDup _)) by (apply increasing_NoDup, I).
  rewrite btree_of_sorted by (apply sorted_increasing, I). auto.
Qed.

Lemma d_keys_e C m : wf_keys C m ->
  exists j, e_map e_key m = Some j /\ d_map_unique key_id_of_string (d_key C) j = Some m.
Proof.
  intros [I F]. destruct (d_map_e key_id_of_string (d_key C) e_key m keeps_key_id I) as (j & E & _ & D).
  - revert F. apply Forall_impl. intros [i k] (L & O & P). cbn in *. split; [apply key_id_of_string_Some; auto|].
    destruct (d_key_e C k O P) as (j & E & _ & D). eauto.
  - eauto.
Qed.

Lemma filter_all {A} (f : A -> bool) l : Forall (fun a => f a = true) l -> filter f l = l.
Proof. induction 1 as [|a l H _ IH]; cbn; [reflexivity|]. rewrite H. now rewrite IH. Qed.

Lemma version_not_zero v : version_ok v -> (v <? 1)%N = false.
Proof. intros [L _]. apply N.ltb_ge. exact L. Qed.
Lemma version_max v : version_ok v -> (v <= u32_max)%N.
Proof. intros [_ L]. exact L. Qed.

Lemma d_root_e C m : wf_root C m -> plain_time (rm_expires m) ->
  exists j, e_root m = Some j /\ d_root C j = Some m.
Proof.
  intros (V & _ & K & O & R1 & R2 & R3 & R4) P. destruct (d_keys_e C (rm_keys m) K) as (kj & KE & KD).
  unfold e_root. rewrite KE. cbn [obind]. eexists. split; [reflexivity|]. unfold d_root.
  read_fields.
  rewrite d_uint_e by (apply version_max, V). cbn [obind]. rewrite KD. cbn [obind].
  match goal with |- context [d_role_defs ?x] => assert (RD : d_role_defs x = Some (rm_root m, rm_snapshot m, rm_targets m, rm_timestamp m)) end.
  { unfold d_role_defs. read_fields. now rewrite !d_role_def_e by assumption. }
  rewrite RD. cbn [obind]. rewrite plain_date by exact P. cbn [obind get_ok].
  unfold root_new. rewrite (version_not_zero _ V). cbn [get_ok]. rewrite filter_all; [now destruct m|].
  revert O. apply Forall_impl. intros ik E. now apply String.eqb_eq.
Qed.

Lemma d_hashes_e l : wf_hashes l -> exists j, e_hashes l = Some j /\ d_hashes j = Some l.
Proof.
  intros H; inversion H; subst; unfold e_hashes; cbn -[hex_encode]; eexists; (split; [reflexivity|]);
    unfold d_hashes; cbn -[hex_encode hex_decode]; rewrite !hex_decode_encode; reflexivity.
Qed.

Lemma d_meta_desc_e d : wf_desc d -> exists j, e_meta_desc d = Some j /\ d_meta_desc j = Some d.
Proof.
  intros (V & S & H). destruct (d_hashes_e _ H) as (hj & HE & HD). unfold e_meta_desc. rewrite HE. cbn [obind].
  eexists. split; [reflexivity|]. unfold d_meta_desc. read_fields.
  rewrite d_uint_e by (apply version_max, V). cbn [obind]. rewrite d_uint_e by exact S. cbn [obind].
  rewrite HD. cbn [obind]. unfold meta_desc_new. rewrite (version_not_zero _ V).
  destruct d as [v l h]; cbn in *. inversion H; reflexivity.
Qed.

Lemma d_custom_e c : wf_custom c -> d_custom (JObj c) = Some c.
Proof.
  intros [I F]. unfold d_custom, d_map. cbn [d_entries].
  rewrite (proj2 (all_some_Some _ _ c)).
  - cbn [obind]. rewrite btree_of_sorted by (apply sorted_increasing, I). reflexivity.
  - clear I. induction F as [|[n v] c N _ IH]; constructor; [|exact IH]. cbn in *. now rewrite to_value_of_normal.
Qed.

Lemma d_target_desc_e d : wf_target d -> exists j, e_target_desc d = Some j /\ d_target_desc j = Some d.
Proof.
  destruct d as [l h c]. intros (S & H & K). proj. destruct (d_hashes_e _ H) as (hj & HE & HD). unfold e_target_desc.
  cbn [td_hashes td_length td_custom]. rewrite HE. cbn [obind]. eexists. split; [reflexivity|]. unfold d_target_desc.
  assert (N : target_desc_new l h c = Ok (mkTargetDesc l h c)) by (inversion H; reflexivity).
  destruct c as [c|]; read_fields; rewrite d_uint_e by exact S; cbn [obind];
    rewrite HD; cbn [obind]; [cbn [d_opt]; rewrite d_custom_e by exact K; cbn [obind]|]; now rewrite N.
Qed.

Lemma d_delegation_e d : wf_delegation d -> d_delegation (e_delegation d) = Some d.
Proof.
  destruct d as [r tm t ids ps]. intros (A & ((T1 & T2) & T3 & N & F) & I & PN & PI & PF). proj.
  unfold d_delegation, e_delegation. read_fields.
  rewrite (proj2 (path_of_string_Some r r)) by auto. cbn [obind].
  rewrite d_uint_e by exact T3. cbn [obind]. rewrite !set_of_sorted by assumption.
  rewrite d_ids_e by exact F. cbn [obind]. rewrite d_paths_e by exact PF. cbn [obind].
  rewrite (proj2 (no_repeats_NoDup ps)), (proj2 (no_repeats_NoDup ids)) by auto using increasing_NoDup. cbn [andb].
  rewrite !set_of_sorted by assumption. unfold delegation_new.
  destruct ids as [|i ids]; [cbn in T2; lia|]. destruct ps as [|p ps]; [congruence|].
  destruct (N.ltb_spec t 1); [lia|]. destruct (N.ltb_spec (N.of_nat (length (i :: ids))) t); [lia|]. reflexivity.
Qed.

Lemma d_delegations_e C d : wf_delegations C d -> exists j, e_delegations d = Some j /\ d_delegations C j = Some d.
Proof.
  destruct d as [ks rs]. intros (KN & K & RN & N & F). proj. destruct (d_keys_e C ks K) as (kj & KE & KD).
  unfold e_delegations. cbn [dgs_keys dgs_roles]. rewrite KE. cbn [obind]. eexists. split; [reflexivity|].
  unfold d_delegations. read_fields. rewrite KD. cbn [obind].
  rewrite (d_list_e d_delegation e_delegation (fun x => x)).
  - rewrite map_id. cbn [obind]. unfold delegations_new. destruct ks; [congruence|]. destruct rs; [congruence|].
    now rewrite (proj2 (no_repeats_NoDup _) N).
  - revert F. apply Forall_impl. exact d_delegation_e.
Qed.

Lemma d_targets_e C m : wf_targets C m -> plain_time (tg_expires m) ->
  exists j, e_targets m = Some j /\ d_targets C j = Some m.
Proof.
  destruct m as [v e ts ds]. intros (V & _ & I & F & D) P. proj.
  destruct (d_map_e path_of_string d_target_desc e_target_desc ts keeps_path I) as (tj & TE & TD & _).
  { revert F. apply Forall_impl. intros [p d] [A W]. cbn in *. split; [apply path_of_string_Some; auto|]. now apply d_target_desc_e. }
  unfold e_targets. cbn [tg_targets tg_delegations tg_version tg_expires]. rewrite TE. cbn [obind].
  destruct ds as [ds|].
  - destruct (d_delegations_e C ds D) as (dj & DE & DD). rewrite DE. cbn [obind]. eexists. split; [reflexivity|].
    unfold d_targets. read_fields.
    rewrite d_uint_e by (apply version_max, V). cbn [obind]. rewrite TD. cbn [obind].
    assert (NN : dj <> JNull) by (intros ->; discriminate). rewrite d_opt_nonnull by exact NN. rewrite DD. cbn [obind].
    rewrite plain_date by exact P. cbn [obind get_ok]. unfold targets_new. now rewrite (version_not_zero _ V).
  - cbn [obind]. eexists. split; [reflexivity|].
    unfold d_targets. read_fields.
    rewrite d_uint_e by (apply version_max, V). cbn [obind]. rewrite TD. cbn [obind].
    rewrite plain_date by exact P. cbn [obind get_ok]. unfold targets_new. now rewrite (version_not_zero _ V).
Qed.

Lemma d_snapshot_e m : wf_snapshot m -> plain_time (sm_expires m) ->
  exists j, e_snapshot m = Some j /\ d_snapshot j = Some m.
Proof.
  destruct m as [v e ms]. intros (V & _ & I & F) P. proj.
  destruct (d_map_e Some d_meta_desc e_meta_desc (map (fun pd => (fst pd ++ ".json", snd pd)) ms) keeps_Some) as (mj & ME & _ & MD).
  { rewrite map_map. exact I. }
  { rewrite Forall_map. revert F. apply Forall_impl. intros [p d] [A W]. cbn in *. split; [reflexivity|]. now apply d_meta_desc_e. }
  unfold e_snapshot. cbn [sm_meta sm_version sm_expires]. rewrite ME. cbn [obind]. eexists. split; [reflexivity|].
  unfold d_snapshot. read_fields.
  rewrite d_uint_e by (apply version_max, V). cbn [obind]. rewrite MD. cbn [obind].
  rewrite plain_date by exact P. cbn [obind get_ok].
  rewrite (all_some_map _ (fun pd => (fst pd ++ ".json", snd pd)) (fun pd => pd)).
  - rewrite map_id. cbn [obind]. unfold snapshot_new. now rewrite (version_not_zero _ V).
  - rewrite Forall_forall in F. intros [p d] X. apply F in X as [A _]. cbn in *.
    rewrite (proj2 (strip_json_Some _ p) eq_refl). cbn [obind]. rewrite (proj2 (path_of_string_Some p p)) by auto. reflexivity.
Qed.

Lemma d_timestamp_e m : wf_timestamp m -> plain_time (tm_expires m) ->
  exists j, e_timestamp m = Some j /\ d_timestamp j = Some m.
Proof.
  destruct m as [v e d]. intros (V & _ & W) P. proj. destruct (d_meta_desc_e d W) as (dj & DE & DD).
  unfold e_timestamp. cbn [tm_snapshot tm_version tm_expires]. rewrite DE. cbn [obind]. eexists. split; [reflexivity|].
  unfold d_timestamp. read_fields.
  rewrite d_uint_e by (apply version_max, V). cbn [obind].
  unfold d_timestamp_meta. read_fields. rewrite DD. cbn [obind].
  rewrite plain_date by exact P. cbn [obind get_ok]. unfold timestamp_new. now rewrite (version_not_zero _ V).
Qed.

Lemma metadata_again C r m : wf_metadata C r m -> plain_time (expiry r m) ->
  exists j, e_metadata r m = Some j /\ d_metadata C r j = Some m.
Proof.
  destruct r; cbn; [apply d_root_e|apply d_snapshot_e|apply d_targets_e|apply d_timestamp_e].
Qed.
