(** * Proofs about looking for targets: C48, C51, C52, C53, C54 *)
From Coq Require Import String List NArith ZArith Bool Lia.
From Verif Require Import Base BaseFacts Metadata Verify Paths Tuf SpecVerify SpecTuf TufProofs TufHistory
     Reader SpecReader ReaderProofs Repo Client SpecClient ClientLogic ClientProofs ClientUpdates.
Import ListNotations.
Open Scope string_scope.
Open Scope list_scope.
Open Scope N_scope.

(** *** C53: a delegated target is never found *)

Lemma wp_DT {A} (p : prog A) (Q : list event -> A -> Prop) : (forall h a, Q h a) -> forall h, wp DT p Q h.
Proof. intros HQ. induction p; cbn; intros h; auto. Qed.

Definition not_found : list event -> tuf * (bool * result target_desc) -> Prop :=
  fun _ x => is_ok (snd (snd x)) = false.

Lemma walk_loop_fails E recur dt depth target snapshot trole : forall roles t h,
  wp DT (walk_loop E recur dt depth target snapshot trole roles t) not_found h.
Proof.
  induction roles as [|d rest IH]; intros t h; [reflexivity|]. cbn [walk_loop].
  assert (HC : forall t e h, wp DT (if dg_terminating d then Ret (t, (true, Err e)) else
            walk_loop E recur dt depth target snapshot trole rest t) not_found h).
  { intros t1 e h1. destruct (dg_terminating d); [reflexivity|apply IH]. }
  destruct (negb _); [apply HC|]. destruct (lookup _ _) as [desc|]; [|apply HC].
  destruct (hash_preference _) as [hash|e]; [|reflexivity].
  eapply (wp_seq DT _ _ (fun _ _ => True)); [now apply wp_DT|]. intros h1 r1 _.
  eapply (wp_seq DT _ _ (fun _ _ => True)); [now apply wp_DT|]. intros h2 [raw|e] _; [|apply HC].
  cbn [wp]. intros cl _. split; [exact I|].
  destruct (update_delegation E t cl trole (dg_role d) raw) as [t' r]. cbn [wp]. intros _. split; [exact I|].
  destruct r as [b|e]; [|apply HC].
  eapply (wp_seq DT _ _ (fun _ _ => True)); [now apply wp_DT|]. intros h3 _ _.
  destruct (lookup _ _) as [meta|]; [|exact I]. destruct (u32_max <=? depth); [exact I|].
  eapply (wp_seq DT _ _ (fun _ _ => True)); [now apply wp_DT|]. intros h4 [t'' [term res]] _.
  destruct (term && negb (is_ok res)) eqn:B; [|apply IH].
  apply andb_true_iff in B as [_ B]. now destruct res.
Qed.

Lemma exec_ret {A} (a : A) tr q : exec (Ret a) tr q -> tr = [] /\ q = Ret a.
Proof. intros X. inversion X; auto. Qed.

Lemma along_DT h tr : along (rely DT) h tr.
Proof. intros pre e post _. exact I. Qed.

Lemma description_ok_iff E cfg fuel t p t' d tr :
  exec (fetch_target_description E cfg fuel t p) tr (Ret (t', Ok d)) <->
  fuel <> 0%nat /\ tr = [] /\ t' = t /\
  exists s tg virt, t_snapshot t = Some s /\ t_targets t = Some tg /\
    cf_translate cfg p = Ok virt /\ lookup virt (tg_targets tg) = Some d.
Proof.
  unfold fetch_target_description. destruct (cf_translate cfg p) as [virt|e].
  2:{ split; [intros X; apply exec_ret in X as [_ X]; discriminate|].
      intros (_ & _ & _ & s & tg & v & _ & _ & X & _). discriminate. }
  destruct (t_snapshot t) as [s|].
  2:{ split; [intros X; apply exec_ret in X as [_ X]; discriminate|].
      intros (_ & _ & _ & s & tg & v & X & _). discriminate. }
  destruct fuel as [|fuel].
  { cbn. split; [intros X; inversion X|]. intros (F & _). now destruct F. }
  cbn [lookup_target_description].
  replace (cf_max_depth cfg <? 0) with false by (symmetry; apply N.ltb_ge; lia).
  destruct (t_targets t) as [tg|] eqn:G.
  2:{ cbn. split; [intros X; apply exec_ret in X as [_ X]; discriminate|].
      intros (_ & _ & _ & s' & tg & v & _ & X & _). discriminate. }
  destruct (lookup virt (tg_targets tg)) as [d'|] eqn:L.
  { cbn. split.
    - intros X. apply exec_ret in X as [-> X]. inversion X; subst. split; [discriminate|]. repeat split.
      now exists s, tg, virt.
    - intros (_ & -> & -> & s' & tg' & v' & _ & X1 & X2 & X3). inversion X1; inversion X2; subst.
      rewrite L in X3. inversion X3; subst. constructor. }
  split; [|intros (_ & _ & _ & s' & tg' & v' & _ & X1 & X2 & X3); inversion X1; inversion X2; subst; congruence].
  intros X. exfalso. destruct (tg_delegations tg) as [ds|].
  2:{ cbn in X. apply exec_ret in X as [_ X]. discriminate. }
  apply exec_bind_ret in X as ([t1 [b r]] & tr1 & tr2 & -> & X1 & X2).
  destruct (wp_sound DT _ _ _ X1 _ [] (walk_loop_fails _ _ _ _ _ _ _ _ _ _) (along_DT _ _)) as [_ W].
  cbn in W. unfold not_found in W. cbn in W. apply exec_ret in X2 as [_ X2]. inversion X2; subst. discriminate.
Qed.

(** *** C48, C54: panics and requests of the search *)

Lemma leads_to_more t tr tr' n r tg : leads_to t tr n r tg -> leads_to t (tr ++ tr') n r tg.
Proof.
  induction 1 as [tg H|n r tg ds d t' tg' _ IH D I P L].
  - now apply leads_top.
  - eapply leads_step; eauto. apply in_app_iff. auto.
Qed.

Section Walk.
  Variable E : env.
  Variable cfg : config.
  Variable t0 : tuf.
  Variable target : string.
  Variable snapshot : snapshot_metadata.
  Hypothesis positive : forall r d, lookup r (sm_meta snapshot) = Some d -> 1 <= md_version d.
  Hypothesis depth_fits : cf_max_depth cfg < u32_max.

  Definition D54 : demands :=
    mkDemands (fun _ _ => True)
      (fun h e => forall s path v max hash ans, e = EvFetchMeta s path v max hash ans ->
         walk_request t0 h (cf_max_depth cfg) target path)
      (fun _ => False) False.

  Lemma D54_calm h e : (forall s path v max hash ans, e <> EvFetchMeta s path v max hash ans) -> guar D54 h e.
  Proof. intros H s path v max hash ans ->. exfalso. now apply (H s path v max hash ans). Qed.

  Lemma walk_request_more h h' path : walk_request t0 h (cf_max_depth cfg) target path ->
    walk_request t0 (h ++ h') (cf_max_depth cfg) target path.
  Proof.
    intros (n & r & tg & ds & d & p & L & H). exists n, r, tg, ds, d, p. split; [now apply leads_to_more|exact H].
  Qed.

  Definition at_snapshot_ (h : list event) (x : tuf * (bool * result target_desc)) : Prop :=
    t_snapshot (fst x) = Some snapshot.

  (** [recent h h']: [h'] continues [h]. *)
  Definition recent (h h' : list event) : Prop := exists x, h' = h ++ x.
  Lemma recent_refl h : recent h h.
  Proof. exists []. now rewrite app_nil_r. Qed.
  Lemma recent_trans a b c : recent a b -> recent b c -> recent a c.
  Proof. intros [x ->] [y ->]. exists (x ++ y). now rewrite app_assoc. Qed.
  Lemma recent_snoc h e : recent h (h ++ [e]).
  Proof. now exists [e]. Qed.

  Lemma fetch_walk s r path v max hash h : walk_request t0 h (cf_max_depth cfg) target path ->
    wp D54 (fetch_metadata E s r path v max hash) (fun h' _ => recent h h') h.
  Proof.
    intros W. apply wp_fetch_any; [intros _; apply recent_refl|]. intros ans e _. split; [|apply recent_snoc].
    intros s' p' v' m' h' a' Q. unfold e in Q. inversion Q; subst. exact W.
  Qed.

  (** What is left of the search, from a role that is [depth] delegations away. *)
  Definition fine (p : prog (tuf * (bool * result target_desc))) (h : list event) : Prop :=
    wp D54 p (fun h' x => recent h h' /\ t_snapshot (fst x) = Some snapshot) h.

  Lemma walk_loop_fine recur dt depth trole tg ds :
    depth <= cf_max_depth cfg -> tg_delegations tg = Some ds ->
    (forall t d tg' dt h, t_snapshot t = Some snapshot -> In d (dgs_roles ds) ->
       leads_to t0 h (depth + 1) (dg_role d) tg' ->
       fine (recur t dt (depth + 1) (Some (tg', dg_role d))) h) ->
    forall roles t h, incl roles (dgs_roles ds) -> leads_to t0 h depth trole tg -> t_snapshot t = Some snapshot ->
      fine (walk_loop E recur dt depth target snapshot trole roles t) h.
  Proof.
    intros LD TD HR. induction roles as [|d rest IH]; intros t h IN LT S; [split; [apply recent_refl|exact S]|].
    cbn [walk_loop].
    assert (IH' : forall t h', recent h h' -> t_snapshot t = Some snapshot ->
       wp D54 (walk_loop E recur dt depth target snapshot trole rest t)
         (fun h2 x => recent h h2 /\ t_snapshot (fst x) = Some snapshot) h').
    { intros t1 h1 [x ->] S1. eapply wp_mono; [|apply (IH t1 (h ++ x)); auto].
      - intros h2 y [R2 S2]. split; [|exact S2]. eapply recent_trans; [|exact R2]. now exists x.
      - intros y Hy. apply IN. now right.
      - now apply leads_to_more. }
    assert (HC : forall t e h', recent h h' -> t_snapshot t = Some snapshot ->
       wp D54 (if dg_terminating d then Ret (t, (true, Err e)) else walk_loop E recur dt depth target snapshot trole rest t)
         (fun h2 x => recent h h2 /\ t_snapshot (fst x) = Some snapshot) h').
    { intros t1 e h1 R1 S1. destruct (dg_terminating d); [now split|now apply IH']. }
    assert (R0 := recent_refl h). unfold fine.
    destruct (existsb _ _) eqn:CH; cbn [negb]; [|now apply HC].
    apply existsb_exists in CH as (p & Pp & Cp).
    assert (W : walk_request t0 h (cf_max_depth cfg) target (dg_role d)).
    { exists depth, trole, tg, ds, d, p. repeat split; auto. apply IN. now left. }
    destruct (lookup (dg_role d) (sm_meta snapshot)) as [desc|] eqn:Ed; [|now apply HC].
    destruct (hash_preference _) as [hash|e]; [|now split].
    eapply (wp_seq D54 _ _ (fun h' _ => recent h h')); [now apply fetch_walk|]. intros h1 r1 R1.
    eapply (wp_seq D54 _ _ (fun h' _ => recent h h')).
    { destruct r1 as [raw|e]; [exact R1|]. destruct R1 as [x ->].
      eapply wp_mono; [|apply fetch_walk; now apply walk_request_more]. intros h2 a2 R2.
      eapply recent_trans; [|exact R2]. now exists x. }
    clear r1 h1 R1. intros h1 [raw|e] R1; [|now apply HC].
    cbn [wp]. intros cl _. split; [apply D54_calm; discriminate|].
    destruct (update_delegation E t cl trole (dg_role d) raw) as [t' r] eqn:U. cbn [wp]. intros _.
    split; [apply D54_calm; discriminate|].
    set (h2 := (h1 ++ [EvNow cl]) ++ [EvPut t']).
    assert (R2 : recent h h2).
    { eapply recent_trans; [exact R1|]. exists [EvNow cl; EvPut t']. unfold h2. now rewrite <- app_assoc. }
    assert (S' := U). apply update_delegation_frame in S' as (S' & _). rewrite S in S'.
    destruct r as [b|e]; [|now apply HC].
    eapply (wp_seq D54 _ _ (fun h' _ => recent h2 h')).
    { apply wp_store_any; [intros _; apply recent_refl|]. intros ans e _. split; [apply D54_calm; discriminate|].
      apply recent_snoc. }
    intros h3 _ R3. destruct (lookup (dg_role d) (t_delegations t')) as [meta|] eqn:Em.
    2:{ exfalso. apply update_delegation_inv in U. destruct b.
        - destruct U as (new & _ & ->). cbn [t_delegations] in Em. rewrite lookup_insert_eq in Em. discriminate.
        - destruct U as (-> & new & desc' & (_ & sn & g & q & Hs & _ & _ & _ & _ & Hl & _) & V).
          assert (sn = snapshot) as -> by congruence. assert (desc' = desc) as -> by congruence.
          unfold delegation_version in V. rewrite Em in V. cbn in V. specialize (positive _ _ Ed). lia. }
    destruct (N.leb_spec u32_max depth) as [B|B]; [exfalso; lia|].
    assert (L3 : leads_to t0 h3 (depth + 1) (dg_role d) meta).
    { assert (R03 : recent h h3) by (eapply recent_trans; eauto).
      apply (leads_step t0 h3 depth trole tg ds d t' meta); auto.
      - destruct R03 as [x E3]. rewrite E3. now apply leads_to_more.
      - apply IN. now left.
      - destruct R3 as [x E3]. rewrite E3. apply in_app_iff. left. unfold h2. apply in_app_iff. right. now left. }
    eapply wp_seq; [apply HR; auto; apply IN; now left|].
    intros h4 [t4 [term res]] [R4 S4]. cbn [fst] in S4.
    assert (R04 : recent h h4) by (eapply recent_trans; [exact R2|]; eapply recent_trans; eauto).
    destruct (term && negb (is_ok res)); [now split|now apply IH'].
  Qed.

  Lemma lookup_fine fuel : forall t dt depth tgs h, t_snapshot t = Some snapshot ->
    cf_max_depth cfg + 1 - depth < N.of_nat fuel ->
    match tgs with
    | Some (tg, r) => leads_to t0 h depth r tg
    | None => forall tg, t_targets t = Some tg -> leads_to t0 h depth "targets" tg
    end ->
    fine (lookup_target_description E cfg fuel t dt depth target snapshot tgs) h.
  Proof.
    induction fuel as [|fuel IH]; intros t dt depth tgs h S F L; [lia|]. cbn [lookup_target_description].
    assert (R0 := recent_refl h).
    destruct (N.ltb_spec (cf_max_depth cfg) depth) as [B|B]; [now split|].
    destruct (match tgs with Some x => Some x | None => _ end) as [[tg trole]|] eqn:ET; [|now split].
    assert (L' : leads_to t0 h depth trole tg).
    { destruct tgs as [[tg' r']|]; [inversion ET; subst; exact L|].
      destruct (t_targets t); inversion ET; subst. now apply L. }
    destruct (lookup target (tg_targets tg)); [now split|].
    destruct (tg_delegations tg) as [ds|] eqn:ED; [|now split].
    apply walk_loop_fine with (tg := tg) (ds := ds); auto.
    - intros t1 d tg' dt' h1 S1 _ L1. apply IH; auto. lia.
    - apply incl_refl.
  Qed.
End Walk.

Lemma reachable_positive E t s : positive_versions (e_ic E) -> reachable E t -> t_snapshot t = Some s ->
  forall r d, lookup r (sm_meta s) = Some d -> 1 <= md_version d.
Proof.
  intros P R S r d L. apply reachable_inv in R as (_ & (_ & S2 & _) & _).
  destruct (S2 s S) as (raw & _ & sigs & signed & msg & _ & _ & _ & D). exact (P _ _ _ _ D L).
Qed.

Lemma description_fine E cfg fuel t p virt :
  reachable E t -> positive_versions (e_ic E) -> cf_max_depth cfg < u32_max ->
  cf_max_depth cfg + 1 < N.of_nat fuel -> cf_translate cfg p = Ok virt ->
  wp (D54 cfg t virt) (fetch_target_description E cfg fuel t p) (fun _ x => t_snapshot (fst x) = t_snapshot t) [].
Proof.
  intros R P B F TR. unfold fetch_target_description. rewrite TR.
  destruct (t_snapshot t) as [s|] eqn:S; [|exact S].
  eapply wp_seq.
  - apply lookup_fine with (t0 := t); auto.
    + exact (reachable_positive E t s P R S).
    + lia.
    + intros tg H. now apply leads_top.
  - intros h [t' [b r]] [_ S']. exact S'.
Qed.
