(** Proofs about [target_description]. *)
From Coq Require Import String List Arith NArith ZArith Bool Lia.
From Verif Require Import Base BaseFacts Metadata Paths Tuf SpecTuf SpecPaths SpecLookup PathProofs TufProofs.
Import ListNotations.
Open Scope nat_scope.
Open Scope list_scope.
Local Arguments lookup : simpl never.

(** *** Termination *)

(** Trusted delegations that are not yet visited. *)
Definition todo (t : tuf) (visited : list string) : nat :=
  length (filter (fun r => negb (mem r visited)) (map fst (t_delegations t))).

Lemma todo_mono t v v' : incl v v' -> todo t v' <= todo t v.
Proof.
  intros I. unfold todo. induction (map fst (t_delegations t)) as [|r l IH]; cbn; auto.
  destruct (mem r v) eqn:M; cbn.
  - apply mem_In in M. apply I, mem_In in M. rewrite M. cbn. exact IH.
  - destruct (mem r v'); cbn; lia.
Qed.

Lemma mem_cons (r : string) v x : mem x (r :: v) = eqb x r || mem x v.
Proof. reflexivity. Qed.

Lemma filter_visit (r : string) v l :
  length (filter (fun x => negb (mem x (r :: v))) l) <= length (filter (fun x => negb (mem x v)) l).
Proof.
  induction l as [|y l IH]; [reflexivity|]. cbn [filter]. rewrite mem_cons.
  destruct (eqb y r), (mem y v); cbn in *; lia.
Qed.

Lemma todo_visit t v r td : mem r v = false -> lookup r (t_delegations t) = Some td ->
  todo t (r :: v) < todo t v.
Proof.
  intros M L. apply lookup_In_key in L. unfold todo, keys_of in *.
  induction (map fst (t_delegations t)) as [|x l IH]; cbn [filter] in *; [contradiction|].
  pose proof (filter_visit r v l) as LE. rewrite mem_cons. destruct L as [->|L].
  - rewrite M, eqb_refl. cbn [orb negb length]. lia.
  - specialize (IH L). destruct (eqb x r), (mem x v); cbn [orb negb length]; lia.
Qed.

Section Search.
  Variable t : tuf.
  Variable c : clock.
  Variable target : string.

  Definition terminates (recur : bool -> N -> delegations -> list (list string) -> list string -> lookup_result)
             (n : nat) : Prop :=
    forall dt depth ds parents visited, todo t visited < n ->
      exists out v', recur dt depth ds parents visited = Some (out, v') /\ incl visited v'.

  Lemma loop_terminates recur n dt depth parents : terminates recur n ->
    forall roles visited, todo t visited <= n ->
      exists out v', lookup_loop recur t c dt depth target parents roles visited = Some (out, v') /\ incl visited v'.
  Proof.
    intros R. induction roles as [|d roles IH]; intros visited T; cbn.
    - eexists _, _. split; [reflexivity|]. apply incl_refl.
    - destruct (mem (dg_role d) visited) eqn:M.
      { eexists _, _. split; [reflexivity|]. apply incl_refl. }
      assert (IC : incl visited (dg_role d :: visited)) by (apply incl_tl, incl_refl).
      destruct ((0 <? depth)%N && negb (matches_chain target parents)); [eauto|].
      destruct (lookup (dg_role d) (t_delegations t)) as [td|] eqn:L; [|eauto].
      destruct (expired _ _); [eauto|].
      destruct (lookup target (tg_targets td)); [eauto|].
      pose proof (todo_visit t visited _ td M L) as D.
      destruct (tg_delegations td) as [child|].
      + destruct (R (dg_terminating d) (depth + 1)%N child (parents ++ [dg_paths d]) (dg_role d :: visited))
          as ([term res] & v' & -> & I); [lia|].
        assert (I' : incl visited v') by (eapply incl_tran; eauto).
        destruct term; [eauto|]. destruct res; [eauto|].
        destruct (IH v') as (out & v'' & -> & I2).
        * pose proof (todo_mono t _ _ I'). lia.
        * eexists _, _. split; [reflexivity|]. eapply incl_tran; eauto.
      + destruct (IH (dg_role d :: visited)) as (out & v'' & -> & I2); [lia|].
        eexists _, _. split; [reflexivity|]. eapply incl_tran; eauto.
  Qed.

  Lemma rec_terminates fuel :
    terminates (fun dt dep child ps vis => lookup_rec fuel t c target dt dep child ps vis) fuel.
  Proof.
    induction fuel as [|f IH]; intros dt depth ds parents visited T; [lia|]. cbn.
    apply (loop_terminates _ f); auto. lia.
  Qed.

  Lemma lookup_fuel_suffices ds : exists out v, lookup_rec (lookup_fuel t) t c target false 0 ds [] [] = Some (out, v).
  Proof.
    destruct (rec_terminates (lookup_fuel t) false 0%N ds [] []) as (out & v & H & _); eauto.
    unfold lookup_fuel, todo. rewrite <- (map_length fst).
    induction (map fst (t_delegations t)); cbn in *; lia.
  Qed.

  (** *** Each role is visited at most once *)

  Definition once (recur : bool -> N -> delegations -> list (list string) -> list string -> lookup_result) : Prop :=
    forall dt depth ds parents visited out v', recur dt depth ds parents visited = Some (out, v') ->
      NoDup visited -> NoDup v'.

  Lemma loop_once recur dt depth parents : once recur ->
    forall roles visited out v', lookup_loop recur t c dt depth target parents roles visited = Some (out, v') ->
      NoDup visited -> NoDup v'.
  Proof.
    intros R. induction roles as [|d roles IH]; intros visited out v'; cbn.
    - intros H ND. now inversion H; subst.
    - destruct (mem (dg_role d) visited) eqn:M.
      { intros H ND. now inversion H; subst. }
      intros H ND. apply mem_not_In in M.
      assert (ND' : NoDup (dg_role d :: visited)) by (constructor; auto).
      destruct ((0 <? depth)%N && negb (matches_chain target parents)); [now inversion H; subst|].
      destruct (lookup (dg_role d) (t_delegations t)) as [td|] eqn:L; [|now inversion H; subst].
      destruct (expired _ _); [now inversion H; subst|].
      destruct (lookup target (tg_targets td)); [now inversion H; subst|].
      destruct (tg_delegations td) as [child|]; [|eauto].
      destruct (recur _ _ _ _ _) as [[[term res] v1]|] eqn:RC; [|discriminate].
      specialize (R _ _ _ _ _ _ _ RC ND').
      destruct term; [now inversion H; subst|]. destruct res; [now inversion H; subst|]. eauto.
  Qed.

  Lemma rec_once fuel : once (fun dt dep child ps vis => lookup_rec fuel t c target dt dep child ps vis).
  Proof.
    induction fuel as [|f IH]; intros dt depth ds parents visited out v' H; cbn in H; [discriminate|].
    eapply loop_once; eauto.
  Qed.

  (** *** Soundness *)

  (** What a found description means. *)
  Definition found (ds : delegations) (parents : list (list string)) (depth : N) (visited : list string)
             (desc : target_desc) : Prop :=
    exists p last, route t (at_deleg c) ds p last /\ lookup target (tg_targets last) = Some desc /\
      NoDup (map dg_role p) /\ (forall d, In d p -> ~ In (dg_role d) visited) /\
      ((0 < depth)%N \/ (1 < length p)%nat ->
         matches_chain target (parents ++ map dg_paths (removelast p)) = true).

  Definition sound (recur : bool -> N -> delegations -> list (list string) -> list string -> lookup_result) : Prop :=
    forall dt depth ds parents visited term desc v',
      recur dt depth ds parents visited = Some ((term, Some desc), v') ->
      found ds parents depth visited desc.

  Lemma in_skip ds roles (d : delegation) rest : (forall x, In x roles -> In x (dgs_roles ds)) ->
    roles = d :: rest -> In d (dgs_roles ds) /\ forall x, In x rest -> In x (dgs_roles ds).
  Proof. intros H ->. split; [apply H; now left|]. intros x I. apply H. now right. Qed.

  Definition grows (recur : bool -> N -> delegations -> list (list string) -> list string -> lookup_result) : Prop :=
    forall dt depth ds parents visited out v', recur dt depth ds parents visited = Some (out, v') -> incl visited v'.

  Lemma loop_grows recur dt depth parents : grows recur ->
    forall roles visited out v', lookup_loop recur t c dt depth target parents roles visited = Some (out, v') ->
      incl visited v'.
  Proof.
    intros R. induction roles as [|d roles IH]; intros visited out v'; cbn.
    - intros H. inversion H. apply incl_refl.
    - destruct (mem (dg_role d) visited) eqn:M.
      { intros H. inversion H. apply incl_refl. }
      intros H.
      assert (IC : incl visited (dg_role d :: visited)) by (apply incl_tl, incl_refl).
      destruct ((0 <? depth)%N && negb (matches_chain target parents)); [now inversion H; subst|].
      destruct (lookup (dg_role d) (t_delegations t)) as [td|] eqn:L; [|now inversion H; subst].
      destruct (expired _ _); [now inversion H; subst|].
      destruct (lookup target (tg_targets td)); [now inversion H; subst|].
      destruct (tg_delegations td) as [child|].
      2:{ apply IH in H. eapply incl_tran; eauto. }
      destruct (recur _ _ _ _ _) as [[[term res] v1]|] eqn:RC; [|discriminate].
      apply R in RC.
      destruct term; [inversion H; subst; eapply incl_tran; eauto|].
      destruct res; [inversion H; subst; eapply incl_tran; eauto|].
      apply IH in H. eapply incl_tran; [|eauto]. eapply incl_tran; eauto.
  Qed.

  Lemma rec_grows fuel : grows (fun dt dep child ps vis => lookup_rec fuel t c target dt dep child ps vis).
  Proof.
    induction fuel as [|f IH]; intros dt depth ds parents visited out v' H; cbn in H; [discriminate|].
    eapply loop_grows; eauto.
  Qed.

  Lemma found_visited ds parents depth visited visited' desc :
    incl visited visited' -> found ds parents depth visited' desc -> found ds parents depth visited desc.
  Proof.
    intros I (p & last & R & L & N & V & M). exists p, last. repeat (split; auto).
    intros d Id H. apply (V d Id). auto.
  Qed.

  Lemma loop_sound recur dt depth ds parents : sound recur -> grows recur ->
    forall roles, (forall x, In x roles -> In x (dgs_roles ds)) ->
    forall visited term desc v',
      lookup_loop recur t c dt depth target parents roles visited = Some ((term, Some desc), v') ->
      found ds parents depth visited desc.
  Proof.
    intros R G. induction roles as [|d roles IH]; intros Hin visited term desc v'; cbn.
    - discriminate.
    - destruct (in_skip ds _ d roles Hin eq_refl) as [Hd Hrest]. specialize (IH Hrest).
      destruct (mem (dg_role d) visited) eqn:M; [discriminate|]. apply mem_not_In in M.
      destruct ((0 <? depth)%N && negb (matches_chain target parents)) eqn:MC; [discriminate|].
      assert (MC' : (0 < depth)%N -> matches_chain target parents = true).
      { intros P. apply N.ltb_lt in P. rewrite P in MC. cbn in MC. now apply negb_false_iff in MC. }
      destruct (lookup (dg_role d) (t_delegations t)) as [td|] eqn:L; [|discriminate].
      destruct (expired _ _) eqn:X; [discriminate|]. apply expired_false in X.
      assert (IC : incl visited (dg_role d :: visited)) by (apply incl_tl, incl_refl).
      destruct (lookup target (tg_targets td)) as [ds'|] eqn:LT.
      { intros H. inversion H; subst. exists [d], td. split; [econstructor; eauto|].
        split; auto. split; [repeat constructor; auto|].
        split; [intros d' [<-|[]]; auto|].
        cbn. rewrite app_nil_r. intros [H1|H1]; [auto|lia]. }
      destruct (tg_delegations td) as [child|] eqn:Hc.
      2:{ intros H. apply IH in H. eapply found_visited; eauto. }
      destruct (recur _ _ _ _ _) as [[[term' res] v1]|] eqn:RC; [|discriminate].
      assert (F : forall x, res = Some x -> found ds parents depth visited x).
      { intros x ->. apply R in RC as (p & last & Rt & Ll & ND & V & MCp).
        exists (d :: p), last. split; [eapply route_next; eauto|]. split; auto.
        assert (Np : p <> []) by (intros ->; inversion Rt).
        split.
        { cbn. constructor; auto. intros I. apply in_map_iff in I as (d' & E & I).
          apply (V d' I). left. auto. }
        split.
        { intros d' [<-|I]; auto. intros H. apply (V d' I). now right. }
        intros _. assert (Q : (0 < depth + 1)%N \/ (1 < length p)%nat) by (left; lia).
        specialize (MCp Q). rewrite <- app_assoc in MCp. cbn [app] in MCp.
        destruct p; [contradiction|]. exact MCp. }
      apply G in RC.
      destruct term'.
      { intros H. inversion H; subst. eauto. }
      destruct res as [x|].
      { intros H. inversion H; subst. eauto. }
      intros H. apply IH in H. eapply found_visited; [|eauto]. eapply incl_tran; eauto.
  Qed.

  Lemma rec_sound fuel : sound (fun dt dep child ps vis => lookup_rec fuel t c target dt dep child ps vis).
  Proof.
    induction fuel as [|f IH]; intros dt depth ds parents visited term desc v' H; cbn in H; [discriminate|].
    eapply loop_sound; eauto. apply rec_grows.
  Qed.
End Search.

Lemma target_description_total t c target : exists r, target_description t c target = Some r.
Proof.
  unfold target_description.
  destruct (let? _ := trusted_root_unexpired c t in
            let? _ := trusted_snapshot_unexpired c t in trusted_targets_unexpired c t) as [g|e]; eauto.
  destruct (lookup target (tg_targets g)); eauto.
  destruct (tg_delegations g) as [ds|]; eauto.
  destruct (lookup_fuel_suffices t c target ds) as ([b [d|]] & v & ->); eauto.
Qed.

Lemma target_description_sound t c target desc :
  target_description t c target = Some (Ok desc) ->
  exists s g, t_snapshot t = Some s /\ t_targets t = Some g /\
    fresh (rm_expires (t_root t)) (at_root c) /\ fresh (sm_expires s) (at_snapshot c) /\
    fresh (tg_expires g) (at_targets c) /\
    (lookup target (tg_targets g) = Some desc \/
     (lookup target (tg_targets g) = None /\
      exists ds p last, tg_delegations g = Some ds /\ route t (at_deleg c) ds p last /\
        lookup target (tg_targets last) = Some desc /\ NoDup (map dg_role p) /\
        forall d, In d (removelast p) -> permits d target)).
Proof.
  unfold target_description, trusted_root_unexpired, trusted_snapshot_unexpired, trusted_targets_unexpired.
  destruct (expired (rm_expires (t_root t)) (at_root c)) eqn:X1; [discriminate|]. cbn [rbind].
  destruct (t_snapshot t) as [s|]; [|discriminate].
  destruct (expired (sm_expires s) (at_snapshot c)) eqn:X2; [discriminate|]. cbn [rbind].
  destruct (t_targets t) as [g|]; [|discriminate].
  destruct (expired (tg_expires g) (at_targets c)) eqn:X3; [discriminate|].
  apply expired_false in X1, X2, X3. intros H. exists s, g. do 5 (split; auto).
  destruct (lookup target (tg_targets g)) as [d|] eqn:L; [left; congruence|]. right. split; auto.
  destruct (tg_delegations g) as [ds|]; [|discriminate].
  destruct (lookup_rec _ _ _ _ _ _ _ _ _) as [[[term [d|]] v]|] eqn:R; inversion H; subst.
  apply (rec_sound t c target) in R as (p & last & Rt & Ll & ND & _ & MC).
  exists ds, p, last. split; auto. split; auto. split; auto. split; auto.
  intros d Id. destruct (le_lt_dec (length p) 1) as [Lp|Lp].
  - destruct p as [|a [|b p]]; cbn in *; try contradiction. lia.
  - specialize (MC (or_intror Lp)). cbn [app] in MC. apply matches_chain_iff in MC.
    apply (in_chain_above _ _ MC). now apply in_map.
Qed.

(** A top-level entry always wins. *)
Lemma target_description_top t c target s g desc :
  t_snapshot t = Some s -> t_targets t = Some g ->
  fresh (rm_expires (t_root t)) (at_root c) -> fresh (sm_expires s) (at_snapshot c) ->
  fresh (tg_expires g) (at_targets c) -> lookup target (tg_targets g) = Some desc ->
  target_description t c target = Some (Ok desc).
Proof.
  intros Hs Hg F1 F2 F3 L. apply expired_false in F1, F2, F3.
  unfold target_description, trusted_root_unexpired, trusted_snapshot_unexpired, trusted_targets_unexpired.
  rewrite F1, Hs, F2, Hg, F3. cbn [rbind]. now rewrite L.
Qed.

(** ** Order of the search *)

Lemma target_description_delegated t c target g ds :
  usable_targets t c g -> lookup target (tg_targets g) = None -> tg_delegations g = Some ds ->
  target_description t c target =
  match lookup_rec (lookup_fuel t) t c target false 0 ds [] [] with
  | None => None
  | Some ((_, Some d), _) => Some (Ok d)
  | Some ((_, None), _) => Some (Err TargetUnavailable)
  end.
Proof.
  intros (Hg & F3 & F1 & s & Hs & F2) L D. apply expired_false in F1, F2, F3.
  unfold target_description, trusted_root_unexpired, trusted_snapshot_unexpired, trusted_targets_unexpired.
  rewrite F1, Hs, F2, Hg, F3. cbn [rbind]. now rewrite L, D.
Qed.

Lemma loop_barren recur t c dt depth target parents pre rest visited :
  Forall (barren t (at_deleg c) target) pre -> NoDup (map dg_role pre) ->
  (forall d, In d pre -> ~ In (dg_role d) visited) ->
  ((0 < depth)%N -> matches_chain target parents = true) ->
  lookup_loop recur t c dt depth target parents (pre ++ rest) visited =
  lookup_loop recur t c dt depth target parents rest (rev (map dg_role pre) ++ visited).
Proof.
  intros B ND V MC. revert visited V. induction pre as [|d pre IH]; intros visited V; cbn [app map rev].
  - reflexivity.
  - inversion B as [|x l (td & L & F & LT & D) B']; subst. inversion ND as [|x l NI ND']; subst.
    cbn [lookup_loop]. rewrite (proj2 (mem_not_In _ _) (V d (or_introl eq_refl))).
    assert (M : ((0 <? depth)%N && negb (matches_chain target parents))%bool = false).
    { destruct (N.ltb_spec 0 depth) as [H|H]; cbn; auto. now rewrite (MC H). }
    rewrite M, L. apply expired_false in F. rewrite F, LT, D.
    rewrite (IH B' ND' (dg_role d :: visited)).
    + now rewrite <- app_assoc.
    + intros d' I [E|I']; [|apply (V d'); [now right|auto]].
      apply NI. rewrite E. now apply in_map.
Qed.

Lemma fresh_after (pre : list delegation) d : NoDup (map dg_role (pre ++ [d])) ->
  NoDup (map dg_role pre) /\ mem (dg_role d) (rev (map dg_role pre) ++ []) = false.
Proof.
  rewrite map_app. cbn [map]. intros ND. apply List.NoDup_remove in ND as (ND & NI).
  rewrite app_nil_r in ND, NI. split; auto. apply mem_not_In. rewrite app_nil_r. now rewrite <- in_rev.
Qed.

(** After a prefix of barren delegations the next one decides, if it describes the
    target or is unusable. *)
Lemma after_barren t c target g ks pre d post res :
  usable_targets t c g -> lookup target (tg_targets g) = None ->
  tg_delegations g = Some (mkDelegations ks (pre ++ d :: post)) ->
  Forall (barren t (at_deleg c) target) pre -> NoDup (map dg_role (pre ++ [d])) ->
  (exists desc, describes t (at_deleg c) target d desc /\ res = Ok desc) \/
  (unusable t (at_deleg c) d /\ res = Err TargetUnavailable) ->
  target_description t c target = Some res.
Proof.
  intros U L D B ND H. rewrite (target_description_delegated _ _ _ _ _ U L D).
  unfold lookup_fuel. cbn [lookup_rec dgs_roles].
  apply fresh_after in ND as (ND & M).
  rewrite loop_barren; auto; [|lia]. cbn [lookup_loop]. rewrite M. cbn [N.ltb N.compare andb].
  destruct H as [(desc & (td & Ld & F & LT) & ->)|(H & ->)].
  - rewrite Ld. apply expired_false in F. now rewrite F, LT.
  - destruct (lookup (dg_role d) (t_delegations t)) as [td|] eqn:Ld; auto.
    specialize (H td Ld). apply expired_true in H. now rewrite H.
Qed.

Lemma NoDup_parts {A} (l1 l2 : list A) : NoDup (l1 ++ l2) -> NoDup l1 /\ NoDup l2.
Proof.
  induction l1 as [|x l1 IH]; cbn; intros H; [split; [constructor|auto]|].
  inversion H as [|y l N ND]; subst. destruct (IH ND). split; auto. constructor; auto.
  intros I. apply N, in_or_app. now left.
Qed.

(** A delegation with children that are all barren: a terminating one ends the search,
    another one does not. *)
Lemma after_children t c target g ks pre d post td kc children :
  usable_targets t c g -> lookup target (tg_targets g) = None ->
  tg_delegations g = Some (mkDelegations ks (pre ++ d :: post)) ->
  Forall (barren t (at_deleg c) target) pre -> NoDup (map dg_role ((pre ++ [d]) ++ children)) ->
  lookup (dg_role d) (t_delegations t) = Some td -> fresh (tg_expires td) (at_deleg c (dg_role d)) ->
  lookup target (tg_targets td) = None -> tg_delegations td = Some (mkDelegations kc children) ->
  permits d target -> Forall (barren t (at_deleg c) target) children -> dg_terminating d = true ->
  target_description t c target = Some (Err TargetUnavailable).
Proof.
  intros U L D B ND Ld F LT Dc P Bc T. rewrite (target_description_delegated _ _ _ _ _ U L D).
  unfold lookup_fuel. cbn [lookup_rec dgs_roles].
  rewrite map_app in ND. pose proof (NoDup_parts _ _ ND) as [ND1 ND2].
  assert (DJ : forall x, In x children -> ~ In (dg_role x) (dg_role d :: rev (map dg_role pre) ++ [])).
  { intros x I J. apply (in_map dg_role) in I. clear - ND I J.
    rewrite app_nil_r in J. assert (J' : In (dg_role x) (map dg_role (pre ++ [d]))).
    { rewrite map_app, in_app_iff. destruct J as [J|J]; [right; now left|left; now apply in_rev]. }
    clear J. induction (map dg_role (pre ++ [d])) as [|y l IH]; [destruct J'|]. inversion ND; subst.
    destruct J' as [->|J']; [|now apply IH]. apply H1. apply in_or_app. now right. }
  apply fresh_after in ND1 as (ND1 & M).
  rewrite loop_barren; auto; [|lia]. cbn [lookup_loop]. rewrite M. cbn [N.ltb N.compare andb].
  rewrite Ld. apply expired_false in F. rewrite F, LT, Dc, T.
  destruct (length (t_delegations t)) as [|n] eqn:Len.
  { destruct (t_delegations t); [discriminate Ld|discriminate Len]. }
  cbn [lookup_rec dgs_roles app].
  rewrite <- (app_nil_r children), loop_barren; auto.
  intros _. apply matches_chain_iff. destruct P as (p & Ip & Bp).
  exists p, (dg_paths d), []. split; auto. split; auto. now constructor.
Qed.

(** More fuel changes nothing. *)
Lemma rec_more_fuel t c target : forall f f' dt depth ds parents visited r, (f <= f')%nat ->
  lookup_rec f t c target dt depth ds parents visited = Some r ->
  lookup_rec f' t c target dt depth ds parents visited = Some r.
Proof.
  induction f as [|f IH]; intros f' dt depth ds parents visited r Lf H; [discriminate|].
  destruct f' as [|f']; [lia|]. cbn in H |- *. revert visited r H.
  induction (dgs_roles ds) as [|d roles IHr]; intros visited r H; cbn in *; auto.
  destruct (mem (dg_role d) visited); auto.
  destruct ((0 <? depth)%N && negb (matches_chain target parents)); auto.
  destruct (lookup (dg_role d) (t_delegations t)) as [td|]; auto.
  destruct (expired _ _); auto. destruct (lookup target (tg_targets td)); auto.
  destruct (tg_delegations td) as [child|]; [|auto].
  destruct (lookup_rec f t c target (dg_terminating d) (depth + 1) child (parents ++ [dg_paths d])
              (dg_role d :: visited)) as [[[term res] v]|] eqn:R; [|discriminate].
  rewrite (IH f' _ _ _ _ _ _ ltac:(lia) R). destruct term; auto. destruct res; auto.
Qed.
