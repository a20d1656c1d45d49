(** * C98: targets are found through delegations of any depth *)
From Coq Require Import String Ascii List NArith ZArith Bool Lia.
From Verif Require Import Base BaseFacts JsonValue JsonText SpecJson JsonProofs Metadata Verify Tuf SpecVerify VerifyProofs SpecTuf TufProofs
     SpecPaths PathProofs SpecLookup LookupProofs Reader SpecReader Codec Dates SpecDates Serde Keys Shims SpecMeta JsonLayer Builders SpecBuilders BuilderProofs
     SpecDelegated DelegatedProofs Props_Tuf Props_Json Props_Lookup Props_Builders KeyToy Toy JsonToy.
Import ListNotations.
Open Scope nat_scope.
Open Scope string_scope.
Open Scope list_scope.

(** ** The search *)

(** The roles a Tuf trusts. *)
Notation trusted t := (fun r => lookup r (t_delegations t)).

(** In a tree of trusted, unexpired, not terminating delegations, whatever its depth and
    width, a target that one role lists is found if it lies in the paths of the delegations
    on the way to that role. *)
Theorem C98_tree_is_searched :
  forall (t : tuf) (c : clock) (target : string) (g : targets_metadata) (ds : delegations) (names : list string)
         (desc : target_desc),
  usable_targets t c g -> lookup target (tg_targets g) = None -> tg_delegations g = Some ds ->
  all_loaded (trusted t) (at_deleg c) (dgs_roles ds) names -> NoDup names ->
  listed_once (trusted t) target names -> listed_below (trusted t) target desc [] (dgs_roles ds) ->
  target_description t c target = Some (Ok desc).
Proof.
  intros t c target g ds names desc U L D T N O B.
  destruct (tree_found _ _ _ _ _ _ B _ T N O) as (names' & F & N' & _). eapply found_description; eauto.
Qed.
Print Assumptions C98_tree_is_searched.

(** Also with terminating delegations, and roles that list the target after the one that is
    found: what counts is that there is nothing before it. *)
Theorem C98_first_in_order :
  forall (t : tuf) (c : clock) (target : string) (g : targets_metadata) (ds : delegations) (names : list string)
         (desc : target_desc),
  usable_targets t c g -> lookup target (tg_targets g) = None -> tg_delegations g = Some ds ->
  found_in (trusted t) (at_deleg c) target desc [] (dgs_roles ds) names -> NoDup names ->
  target_description t c target = Some (Ok desc).
Proof. intros. eapply found_description; eauto. Qed.
Print Assumptions C98_first_in_order.

(** ** Documents made with the builders *)

Lemma told_in l p : NoDup (map pc_role l) -> In p l -> told l (pc_role p) = Some (pc_meta p).
Proof.
  unfold told. induction l as [|q l IH]; [intros _ []|]. cbn [map]. intros N I. inversion N as [|? ? X Y]; subst. cbn [List.find].
  destruct (String.eqb_spec (pc_role q) (pc_role p)) as [E|E].
  - destruct I as [->|I]; [reflexivity|]. elim X. rewrite E. now apply in_map.
  - destruct I as [->|I]; [now elim E|]. now apply IH.
Qed.

Lemma told_none l r : ~ In r (map pc_role l) -> told l r = None.
Proof.
  unfold told. induction l as [|q l IH]; [reflexivity|]. cbn [map]. intros X. cbn [List.find].
  destruct (String.eqb_spec (pc_role q) r) as [E|E]; [elim X; now left|]. apply IH. intros I. apply X. now right.
Qed.

Definition carried (x : clock * parcel * bytes) : parcel := snd (fst x).

Lemma delivered C o s g : let E := mkEnv C o (json_interchange C) in tg_delegations g <> None ->
  forall l earlier t,
  t_snapshot t = Some s -> t_targets t = Some g ->
  consignment C s g earlier (map carried l) ->
  NoDup (map pc_role (map carried l)) ->
  (forall q, In q earlier -> lookup (pc_role q) (t_delegations t) = Some (pc_meta q)) ->
  (forall x, In x l -> lookup (pc_role (carried x)) (t_delegations t) = None) ->
  (forall c p b, In (c, p, b) l -> to_raw (pc_document p) = Ok b /\ at_hand t s g c (pc_meta p)) ->
  exists t', deliver E t l = (t', map (fun _ => Ok true) l) /\
    t_root t' = t_root t /\ t_timestamp t' = t_timestamp t /\ t_snapshot t' = Some s /\ t_targets t' = Some g /\
    forall r, lookup r (t_delegations t') =
      match told (map carried l) r with Some m => Some m | None => lookup r (t_delegations t) end.
Proof.
  intros E Gd. induction l as [|[[c p] b] l IH]; intros earlier t Hs Hg Cs Nd He Hn Hb.
  - exists t. cbn. auto 10.
  - cbn [map carried fst snd] in Cs, Nd. inversion Cs as [|? ? by_ ? Par Pr Cs']; subst.
    inversion Nd as [|? ? X Nd']; subst.
    destruct (Hb c p b (or_introl eq_refl)) as (B & F1 & F2 & F3 & F4).
    destruct Pr as (ds & algs & desc & Hds & Hf & P & Sf & D & L).
    pose proof (Hn _ (or_introl eq_refl)) as H0. cbn [carried fst snd] in H0.
    assert (Tp : trusted_parent t (pc_parent p) by_).
    { destruct Par as [(E1 & ->)|(E1 & q & Iq & E2 & ->)]; [left; auto|right; split; [exact E1|]]. rewrite <- E2. now apply He. }
    assert (Vm : (delegation_version t (pc_role p) < tg_version (pc_meta p))%N).
    { unfold delegation_version. rewrite H0. cbn [ver].
      destruct P as (_ & _ & _ & ((W & _) & _) & _). cbn in W. lia. }
    destruct (C73_built_delegation_is_accepted C o t c (pc_parent p) (pc_role p) s g by_ ds (pc_delegation p) (pc_meta p) (pc_keys p)
      (pc_document p) algs desc Hs Hg Gd Tp F1 F2 F3 F4 Hds Hf P Sf D L Vm) as (b' & B' & R & Lk).
    assert (b' = b) as -> by congruence. fold E in R, Lk.
    pose proof (update_delegation_inv E t c (pc_parent p) (pc_role p) b) as Inv.
    destruct (update_delegation E t c (pc_parent p) (pc_role p) b) as [t1 r1] eqn:U. cbn [fst snd] in R, Lk. subst r1.
    assert (Q : t1 = set_delegations (insert (pc_role p) (pc_meta p) (t_delegations t)) t).
    { destruct (C15_delegation_acceptance E t c (pc_parent p) (pc_role p) b) as (Y & Z). rewrite U in Y, Z. cbn [fst snd] in Y, Z.
      destruct (proj1 Y eq_refl) as (m' & A). clear Inv.
      revert U. unfold update_delegation. destruct (rbind _ _) as [[m|]|e]; intros U; inversion U; subst t1.
      f_equal. f_equal. cbn [set_delegations t_delegations] in Lk. rewrite lookup_insert, eqb_refl in Lk. congruence. }
    subst t1.
    assert (Lk' : forall r, lookup r (insert (pc_role p) (pc_meta p) (t_delegations t)) =
      if eqb r (pc_role p) then Some (pc_meta p) else lookup r (t_delegations t)) by (intros r; apply lookup_insert).
    destruct (IH (earlier ++ [p]) (set_delegations (insert (pc_role p) (pc_meta p) (t_delegations t)) t)) as (t' & Dl & Q1 & Q2 & Q3 & Q4 & Q5).
    + exact Hs.
    + exact Hg.
    + exact Cs'.
    + exact Nd'.
    + intros q I. cbn [set_delegations t_delegations]. rewrite Lk'. apply in_app_or in I as [I|[<-|[]]]; [|now rewrite eqb_refl].
      destruct (eqb (pc_role q) (pc_role p)) eqn:Eq; [|now apply He]. apply eqb_eq in Eq.
      pose proof (He q I) as Y. rewrite Eq in Y. congruence.
    + intros x I. cbn [set_delegations t_delegations]. rewrite Lk'.
      destruct (eqb (pc_role (carried x)) (pc_role p)) eqn:Eq; [|apply Hn; now right]. apply eqb_eq in Eq. elim X. rewrite <- Eq.
      now apply in_map, in_map.
    + intros c' p' b0 I. destruct (Hb c' p' b0 (or_intror I)) as (B1 & F). split; [exact B1|]. exact F.
    + exists t'. cbn [deliver map]. rewrite U, Dl. split; [reflexivity|]. split; [exact Q1|]. split; [exact Q2|]. split; [exact Q3|]. split; [exact Q4|].
      intros r. rewrite Q5. cbn [set_delegations t_delegations]. rewrite Lk'. cbn [map carried fst snd].
      assert (Tc : told (p :: map carried l) r = if String.eqb (pc_role p) r then Some (pc_meta p) else told (map carried l) r).
      { unfold told. cbn [List.find]. now destruct (String.eqb (pc_role p) r). }
      change (carried (c, p, b)) with p. rewrite Tc. clear Tc.
      destruct (String.eqb_spec (pc_role p) r) as [Eqr|Ne].
      * subst r. rewrite told_none by exact X. now rewrite eqb_refl.
      * destruct (told (map carried l) r); [reflexivity|].
        destruct (eqb r (pc_role p)) eqn:Eq; [|reflexivity]. apply eqb_eq in Eq. now elim Ne.
Qed.

(** Documents for delegated roles that are made with the builders, and described by the
    snapshot, are all accepted, each after that of the role that delegates to it; what they
    list is then found. *)
Theorem C98_built_delegations_are_found :
  forall (C : crypto) (o : hash_order) (t : tuf) (s : snapshot_metadata) (g : targets_metadata) (ds : delegations)
         (l : list (clock * parcel * bytes)),
  let E := mkEnv C o (json_interchange C) in
  let parcels := map (fun x => snd (fst x)) l in
  t_snapshot t = Some s -> t_targets t = Some g -> tg_delegations g = Some ds -> t_delegations t = [] ->
  consignment C s g [] parcels -> NoDup (map pc_role parcels) ->
  (forall c p b, In (c, p, b) l -> to_raw (pc_document p) = Ok b /\ at_hand t s g c (pc_meta p)) ->
  let t' := fst (deliver E t l) in
  snd (deliver E t l) = map (fun _ => Ok true) l /\
  t_root t' = t_root t /\ t_timestamp t' = t_timestamp t /\ t_snapshot t' = t_snapshot t /\ t_targets t' = t_targets t /\
  (forall r, lookup r (t_delegations t') = told parcels r) /\
  forall (c : clock) (target : string) (names : list string) (desc : target_desc),
  usable_targets t c g -> lookup target (tg_targets g) = None ->
  all_loaded (told parcels) (at_deleg c) (dgs_roles ds) names -> NoDup names ->
  listed_once (told parcels) target names -> listed_below (told parcels) target desc [] (dgs_roles ds) ->
  target_description t' c target = Some (Ok desc).
Proof.
  intros C o t s g ds l E parcels Hs Hg Hd Hn Cs Nd Hb.
  destruct (delivered C o s g ltac:(congruence) l [] t Hs Hg Cs Nd) as (t' & D & Q1 & Q2 & Q3 & Q4 & Q5).
  - intros q [].
  - intros x _. now rewrite Hn.
  - exact Hb.
  - fold E in D. rewrite D. cbn [fst snd]. split; [reflexivity|]. split; [exact Q1|]. split; [exact Q2|]. split; [congruence|]. split; [congruence|].
    assert (K : forall r, lookup r (t_delegations t') = told parcels r).
    { intros r. rewrite Q5, Hn. fold carried in parcels. change (map carried l) with parcels. now destruct (told parcels r). }
    split; [exact K|]. intros c target names desc (U1 & U2 & U3 & U4) L T N O B.
    destruct (tree_found _ _ _ _ _ _ B _ T N O) as (names' & F & N' & _).
    apply (found_description t' c target g ds names'); [|exact L|exact Hd| |exact N'].
    + split; [exact Q4|]. split; [exact U2|]. split; [rewrite Q1; exact U3|]. destruct U4 as (s' & Es & Fs). exists s'. split; [congruence|exact Fs].
    + clear - F K. unfold trusted_roles.
      assert (H : forall k above dl nm, nothing_in k (at_deleg c) target above dl nm -> (forall r, lookup r (t_delegations t') = k r) ->
        nothing_in (trusted t') (at_deleg c) target above dl nm).
      { intros k above dl nm H Kk. induction H as [above|above d m rest nm (H1 & H2) H3 H4 H5 H6 IH|above d m rest inner nm (H1 & H2) H3 H4 H5 H6 IH H7 IH'|above d m e more rest nm (H1 & H2) H3 H4 H5 H6 H7 IH|above d m e more rest nm (H1 & H2) H3 H4 H5 H6 H7 IH].
        - constructor.
        - apply (nothing_leaf _ _ _ _ _ m); auto. split; [now rewrite Kk|exact H2].
        - apply (nothing_inside _ _ _ _ _ m); auto. split; [now rewrite Kk|exact H2].
        - apply (nothing_outside _ _ _ _ _ m e more); auto. split; [now rewrite Kk|exact H2].
        - apply (nothing_circular _ _ _ _ _ m e more); auto. split; [now rewrite Kk|exact H2]. }
      induction F as [above before d after m nm H1 (H2 & H3) H4|above before d after m nm inner H1 (H2 & H3) H4 H5 H6 IH].
      * apply (found_here _ _ _ _ _ _ _ _ m); [now apply (H (told parcels))|split; [now rewrite K|exact H3]|exact H4].
      * apply (found_further _ _ _ _ _ _ _ _ m); [now apply (H (told parcels))|split; [now rewrite K|exact H3]|exact H4|exact H5|exact IH].
Qed.
Print Assumptions C98_built_delegations_are_found.

(** ** Cases *)

(** carol's delegation is terminating; what she delegates to dave is found. *)
Example C98_case_first :
  exists g ds, usable_targets tM c50 g /\ tg_delegations g = Some ds /\ lookup "c/d/z" (tg_targets g) = None /\
    found_in (trusted tM) (at_deleg c50) "c/d/z" (tdesc 6) [] (dgs_roles ds) ["carol"; "dave"] /\
    map dg_terminating (dgs_roles ds) = [true; false; false].
Proof.
  exists many_targets. eexists. split.
  { split; [vm_compute; reflexivity|]. split; [vm_compute; reflexivity|]. split; [vm_compute; reflexivity|].
    eexists. split; vm_compute; reflexivity. }
  split; [reflexivity|]. split; [reflexivity|]. split; [|reflexivity].
  apply (found_further _ _ _ _ [] [] (deleg "carol" true ["kd"] ["c/"]) _ carol1 [] ["dave"]).
  - constructor.
  - split; vm_compute; reflexivity.
  - reflexivity.
  - apply matches_chain_iff. vm_compute. reflexivity.
  - apply (found_here _ _ _ _ _ [] (deleg "dave" false ["kd"] ["c/d/"]) [] dave1 []).
    + constructor.
    + split; vm_compute; reflexivity.
    + reflexivity.
Qed.

(** carol delegates to herself; dave, after her, lists the target. *)
Definition c98_self : targets_metadata :=
  mkTargets 1 400 [] (Some (mkDelegations (keys_of_names ["kd"]) [deleg "carol" false ["kd"] ["c/"]])).
Definition c98_top : targets_metadata :=
  mkTargets 1 500 []
    (Some (mkDelegations (keys_of_names ["kd"]) [deleg "carol" false ["kd"] ["c/"]; deleg "dave" false ["kd"] ["c/d/"]])).
Definition c98_circle : tuf :=
  mkTuf (t_root tM) (t_snapshot tM) (Some c98_top) (t_timestamp tM) [("carol", c98_self); ("dave", dave1)].

Example C98_case_circle :
  exists ds, usable_targets c98_circle c50 c98_top /\ tg_delegations c98_top = Some ds /\ lookup "c/d/z" (tg_targets c98_top) = None /\
    found_in (trusted c98_circle) (at_deleg c50) "c/d/z" (tdesc 6) [] (dgs_roles ds) ["carol"; "dave"] /\
    NoDup ["carol"; "dave"] /\ target_description c98_circle c50 "c/d/z" = Some (Ok (tdesc 6)).
Proof.
  eexists. split.
  { split; [vm_compute; reflexivity|]. split; [vm_compute; reflexivity|]. split; [vm_compute; reflexivity|].
    eexists. split; vm_compute; reflexivity. }
  split; [reflexivity|]. split; [reflexivity|]. split.
  - apply (found_here _ _ _ _ _ [deleg "carol" false ["kd"] ["c/"]] (deleg "dave" false ["kd"] ["c/d/"]) [] dave1 ["carol"]).
    + apply (nothing_circular _ _ _ [] (deleg "carol" false ["kd"] ["c/"]) c98_self (deleg "carol" false ["kd"] ["c/"]) [] [] []).
      * split; vm_compute; reflexivity.
      * reflexivity.
      * reflexivity.
      * reflexivity.
      * reflexivity.
      * constructor.
    + split; vm_compute; reflexivity.
    + reflexivity.
  - split; [|vm_compute; reflexivity]. constructor; [intros [Q|[]]; discriminate|]. constructor; [intros []|constructor].
Qed.

(** A repository made with the builders: the targets role delegates to bob and alice, bob
    to erin, alice to dave; alice's metadata needs two signatures. *)
Definition built_targets (ops : list targets_op) : targets_metadata :=
  the (mkTargets 0 0 [] None) (rbind (gb_run checksums (gb_new 0) (GoExpires new_year :: ops)) gb_build).
Definition to_dave := mkDelegation "dave" false 1 (ids [key_d]) ["a/d/"].
Definition to_erin := mkDelegation "erin" false 1 (ids [key_d]) ["b/e/"].
Definition to_bob := mkDelegation "bob" false 1 (ids [key_s]) ["b/"].
Definition to_alice := mkDelegation "alice" false 2 (ids [key_t; key_d]) ["a/"; "c/"].
Definition c98_dave := built_targets [GoVersion 5; GoReader "a/d/z" [Ready "deep"] [Sha256]].
Definition c98_erin := built_targets [GoReader "b/e/y" [Ready "else"] [Sha256]].
Definition c98_alice := built_targets [GoVersion 2; GoReader "a/x" [Ready "hel"; Ready "lo"] [Sha512];
  GoDelegations (mkDelegations (key_table [key_d]) [to_dave])].
Definition c98_bob := built_targets [GoDelegations (mkDelegations (key_table [key_d]) [to_erin])].
Definition c98_targets := built_targets [GoVersion 3; GoReader "top" [Ready "up"] [Sha256];
  GoDelegations (mkDelegations (key_table [key_d; key_s; key_t]) [to_bob; to_alice])].
Definition doc_dave := one_by Targets c98_dave sk_d.
Definition doc_erin := one_by Targets c98_erin sk_d.
Definition doc_alice := fst (add_signature (one_by Targets c98_alice sk_d) sk_t 0).
Definition doc_bob := one_by Targets c98_bob sk_s.
Definition doc_targets := one_by Targets c98_targets sk_g.
Definition c98_snapshot : snapshot_metadata :=
  the (mkSnapshot 0 0 []) (rbind (nb_run checksums (nb_new 0)
    [NoExpires new_year; NoInsert FJson Targets doc_targets [Sha256]; NoInsertPath FJson "alice" doc_alice [Sha256; Sha512];
     NoInsertPath FJson "bob" doc_bob [Sha256]; NoInsertPath FJson "dave" doc_dave [Sha512];
     NoInsertPath FJson "erin" doc_erin [Sha256]]) nb_build).
Definition c98_timestamp : timestamp_metadata :=
  the (mkTimestamp 0 0 no_desc) (rbind (tb_from_snapshot checksums FJson 0 (one_by Snapshot c98_snapshot sk_s) [Sha256])
    (fun b => tb_build (fold_left tb_apply [ToExpires new_year] b))).
Definition before_new_year : clock := now (new_year - 1).
Definition c98_env : env := mkEnv checksums id_order (json_interchange checksums).
Definition c98_tuf : tuf :=
  run c98_env (tuf_of_root c73_root)
    [OpTimestamp before_new_year (jraw (one_by Timestamp c98_timestamp sk_t));
     OpSnapshot before_new_year (jraw (one_by Snapshot c98_snapshot sk_s)); OpTargets before_new_year (jraw doc_targets)].
Definition c98_parcels : list parcel :=
  [mkParcel "targets" to_alice c98_alice (map toy_private [key_t; key_d]) doc_alice;
   mkParcel "alice" to_dave c98_dave (map toy_private [key_d]) doc_dave;
   mkParcel "targets" to_bob c98_bob (map toy_private [key_s]) doc_bob;
   mkParcel "bob" to_erin c98_erin (map toy_private [key_d]) doc_erin].
Definition c98_line : list (clock * parcel * bytes) :=
  map (fun p => (before_new_year, p, jraw (pc_document p))) c98_parcels.

Definition c98_deep : target_desc :=
  match lookup "a/d/z" (tg_targets c98_dave) with Some d => d | None => mkTargetDesc 0 [] None end.

Lemma c98_keys l : (forall k, In k l -> In k [key_r; key_t; key_s; key_g; key_d]) -> Forall (working_key checksums) (map toy_private l).
Proof. intros I. apply Forall_forall. intros x J. apply in_map_iff in J as (k & <- & J). apply toy_works, I, J. Qed.

Example C98_case :
  t_snapshot c98_tuf = Some c98_snapshot /\ t_targets c98_tuf = Some c98_targets /\ t_delegations c98_tuf = [] /\
  consignment checksums c98_snapshot c98_targets [] c98_parcels /\
  NoDup (map pc_role c98_parcels) /\
  (forall c p b, In (c, p, b) c98_line -> to_raw (pc_document p) = Ok b /\ at_hand c98_tuf c98_snapshot c98_targets c (pc_meta p)) /\
  usable_targets c98_tuf before_new_year c98_targets /\
  all_loaded (told c98_parcels) (at_deleg before_new_year) [to_bob; to_alice] ["bob"; "erin"; "alice"; "dave"] /\
  listed_once (told c98_parcels) "a/d/z" ["bob"; "erin"; "alice"; "dave"] /\
  (exists desc, listed_below (told c98_parcels) "a/d/z" desc [] [to_bob; to_alice] /\
     target_description (fst (deliver c98_env c98_tuf c98_line)) before_new_year "a/d/z" = Some (Ok desc)).
Proof.
  split; [vm_compute; reflexivity|]. split; [vm_compute; reflexivity|]. split; [vm_compute; reflexivity|].
  assert (P : forall m k, In k [key_r; key_t; key_s; key_g; key_d] -> tg_expires m = new_year ->
    json_serialize (e_metadata Targets m) = Ok (value_of Targets m) -> json_deserialize (d_metadata checksums Targets) (value_of Targets m) = Ok m ->
    parse (write (value_of Targets m)) = Ok (value_of Targets m) -> Nat.leb (depth (value_of Targets m)) 126 = true ->
    made checksums Targets (value_of Targets m) (map toy_private [k]) (one_by Targets m (toy_private k)) ->
    published checksums Targets m (map toy_private [k]) (one_by Targets m (toy_private k))).
  { intros m k I X S D R Dp M. apply published_one; [exact X|apply c98_keys; intros q [<-|[]]; exact I|assumption..]. }
  assert (Own : forall k, In k [key_r; key_t; key_s; key_g; key_d] -> forall t keys, t = 1%N -> no_repeats (map pk_id keys) = true -> In k keys ->
    sufficient t keys (map toy_private [k])).
  { intros k _ t keys -> Nr I. apply sufficient_by; [reflexivity|lia|exact Nr|reflexivity|]. intros q [<-|[]]. exact I. }
  split.
  { apply (consigned_next _ _ _ [] _ c98_targets); [left; split; reflexivity| |].
    { eexists _, [Sha256; Sha512], _. split; [vm_compute; reflexivity|]. split; [|split; [|split; [|split]]].
      - exists [to_bob], []. split; [reflexivity|]. split; [reflexivity|]. intros d' [<-|[]]. discriminate.
      - apply published_one; [vm_compute; reflexivity|apply c98_keys; cbn [In]; tauto|vm_compute; reflexivity|vm_compute; reflexivity|vm_compute; reflexivity|vm_compute; reflexivity|].
        apply (ma_add checksums Targets _ [sk_d] (one_by Targets c98_alice sk_d) sk_t 0%N); [|vm_compute; reflexivity].
        apply (ma_new checksums Targets _ c98_alice _ 0%N); vm_compute; reflexivity.
      - apply sufficient_by; [reflexivity|vm_compute; discriminate|vm_compute; reflexivity|vm_compute; reflexivity|].
        intros k I; cbn [In] in I; repeat (destruct I as [<-|I]; [vm_compute; auto 10|]); destruct I.
      - vm_compute; reflexivity.
      - vm_compute; reflexivity. }
    apply (consigned_next _ _ _ _ _ c98_alice).
    { right. split; [discriminate|]. eexists. split; [apply in_or_app; right; now left|]. split; reflexivity. }
    { eexists _, [Sha512], _. split; [vm_compute; reflexivity|]. split; [|split; [|split; [|split]]].
      - exists [], []. split; [reflexivity|]. split; [reflexivity|]. intros d' [].
      - apply P; [cbn [In]; tauto|vm_compute; reflexivity..|]. apply (ma_new checksums Targets _ c98_dave _ 0%N); vm_compute; reflexivity.
      - apply Own; [cbn [In]; tauto|reflexivity|vm_compute; reflexivity|vm_compute; auto].
      - vm_compute; reflexivity.
      - vm_compute; reflexivity. }
    apply (consigned_next _ _ _ _ _ c98_targets); [left; split; reflexivity| |].
    { eexists _, [Sha256], _. split; [vm_compute; reflexivity|]. split; [|split; [|split; [|split]]].
      - exists [], [to_alice]. split; [reflexivity|]. split; [reflexivity|]. intros d' [].
      - apply P; [cbn [In]; tauto|vm_compute; reflexivity..|]. apply (ma_new checksums Targets _ c98_bob _ 0%N); vm_compute; reflexivity.
      - apply Own; [cbn [In]; tauto|reflexivity|vm_compute; reflexivity|vm_compute; auto].
      - vm_compute; reflexivity.
      - vm_compute; reflexivity. }
    apply (consigned_next _ _ _ _ _ c98_bob).
    { right. split; [discriminate|]. eexists. split; [apply in_or_app; right; now left|]. split; reflexivity. }
    { eexists _, [Sha256], _. split; [vm_compute; reflexivity|]. split; [|split; [|split; [|split]]].
      - exists [], []. split; [reflexivity|]. split; [reflexivity|]. intros d' [].
      - apply P; [cbn [In]; tauto|vm_compute; reflexivity..|]. apply (ma_new checksums Targets _ c98_erin _ 0%N); vm_compute; reflexivity.
      - apply Own; [cbn [In]; tauto|reflexivity|vm_compute; reflexivity|vm_compute; auto].
      - vm_compute; reflexivity.
      - vm_compute; reflexivity. }
    constructor. }
  split; [apply SerdeProofs.no_repeats_NoDup; vm_compute; reflexivity|].
  split.
  { intros c p b I. apply in_map_iff in I as (q & E & I).
    assert (c = before_new_year /\ p = q /\ b = jraw (pc_document q)) as (-> & -> & ->) by (inversion E; auto). clear E.
    assert (Fr : forall z, z = new_year -> fresh z (new_year - 1)) by (intros z ->; unfold fresh; lia).
    split; [|split; [|split; [|split]]].
    - repeat (destruct I as [<-|I]; [vm_compute; reflexivity|]). destruct I.
    - apply Fr. vm_compute. reflexivity.
    - apply Fr. vm_compute. reflexivity.
    - apply Fr. vm_compute. reflexivity.
    - apply Fr. repeat (destruct I as [<-|I]; [vm_compute; reflexivity|]). destruct I. }
  split.
  { split; [vm_compute; reflexivity|]. split; [vm_compute; reflexivity|]. split; [vm_compute; reflexivity|].
    exists c98_snapshot. split; vm_compute; reflexivity. }
  split.
  { apply (loaded_cons _ _ to_bob c98_bob [to_alice] ["erin"] ["alice"; "dave"]).
    - split; vm_compute; reflexivity.
    - reflexivity.
    - change (children c98_bob) with [to_erin]. apply (loaded_cons _ _ to_erin c98_erin [] [] []); [split; vm_compute; reflexivity|reflexivity|constructor|constructor].
    - apply (loaded_cons _ _ to_alice c98_alice [] ["dave"] []); [split; vm_compute; reflexivity|reflexivity| |constructor].
      change (children c98_alice) with [to_dave]. apply (loaded_cons _ _ to_dave c98_dave [] [] []); [split; vm_compute; reflexivity|reflexivity|constructor|constructor]. }
  split.
  { assert (H : forall n m x, In n ["bob"; "erin"; "alice"; "dave"] -> told c98_parcels n = Some m -> lookup "a/d/z" (tg_targets m) = Some x -> n = "dave").
    { intros n m x I. repeat (destruct I as [<-|I]; [intros K L; try reflexivity; exfalso; vm_compute in K; injection K as <-; discriminate L|]). destruct I. }
    intros n n' m m' x x' I I' K K' L L'. rewrite (H n m x I K L). symmetry. exact (H n' m' x' I' K' L'). }
  exists c98_deep.
  split; [|vm_compute; reflexivity].
  apply (listed_further _ _ _ [] _ to_alice c98_alice); [right; now left|vm_compute; reflexivity|apply matches_chain_iff; vm_compute; reflexivity|].
  apply (listed_here _ _ _ _ _ to_dave c98_dave); [now left|vm_compute; reflexivity|vm_compute; reflexivity].
Qed.
