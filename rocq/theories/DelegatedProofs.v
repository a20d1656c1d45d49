(** * Proofs about finding targets through delegations of any depth *)
From Coq Require Import String List NArith ZArith Bool Lia.
From Verif Require Import Base BaseFacts Metadata Verify Paths Builders SpecBuilders Tuf SpecTuf SpecPaths PathProofs SpecLookup
     TufProofs LookupProofs SpecDelegated.
Import ListNotations.
Open Scope nat_scope.

Definition trusted_roles (t : tuf) : roles_known := fun r => lookup r (t_delegations t).

Lemma apart_head (x : string) l v : NoDup (x :: l) -> (forall n, In n (x :: l) -> ~ In n v) ->
  mem x v = false /\ NoDup l /\ forall n, In n l -> ~ In n (x :: v).
Proof.
  intros N V. inversion N as [|? ? X N']; subst. split; [apply mem_not_In, V; now left|]. split; [exact N'|].
  intros n I [<-|J]; [exact (X I)|]. apply (V n); [now right|exact J].
Qed.

Lemma apart_app (l1 l2 v : list string) : NoDup (l1 ++ l2) -> (forall n, In n (l1 ++ l2) -> ~ In n v) ->
  NoDup l1 /\ (forall n, In n l1 -> ~ In n v) /\ NoDup l2 /\ forall n, In n l2 -> ~ In n (rev l1 ++ v).
Proof.
  intros N V. split; [apply (NoDup_parts l1 l2 N)|]. split; [intros n I; apply V, in_or_app; now left|].
  split; [apply (NoDup_parts l1 l2 N)|]. intros n I J. apply in_app_or in J as [J|J].
  - apply in_rev in J. revert N J I. clear. induction l1 as [|x l1 IH]; [intros _ []|]. intros N [<-|J] I; inversion N as [|? ? X N']; subst.
    + apply X, in_or_app. now right.
    + now apply IH.
  - apply (V n); [apply in_or_app; now right|exact J].
Qed.

Lemma chain_open target depth parents : ((0 < depth)%N -> in_chain target parents) ->
  ((0 <? depth)%N && negb (matches_chain target parents))%bool = false.
Proof.
  intros H. destruct (N.ltb_spec 0 depth) as [L|L]; [|reflexivity]. cbn [andb].
  now rewrite (proj2 (matches_chain_iff target parents) (H L)).
Qed.

Lemma children_some m ds : tg_delegations m = Some ds -> children m = dgs_roles ds.
Proof. unfold children. now intros ->. Qed.

Section Search.
  Variables (t : tuf) (c : clock) (target : string).
  Notation known := (trusted_roles t).
  Notation now := (at_deleg c).
  Notation recur f := (fun dt dep child ps vis => lookup_rec f t c target dt dep child ps vis).

  Lemma rec_step f dt dep child ps vis :
    lookup_rec (S f) t c target dt dep child ps vis = lookup_loop (recur f) t c dt dep target ps (dgs_roles child) vis.
  Proof. reflexivity. Qed.

  (** Lists with nothing are passed. *)
  Lemma nothing_passed above ds names : nothing_in known now target above ds names ->
    exists f0, forall f, f0 <= f -> forall dt depth rest visited,
      NoDup names -> (forall n, In n names -> ~ In n visited) -> ((0 < depth)%N -> in_chain target above) ->
      lookup_loop (recur f) t c dt depth target above (ds ++ rest) visited =
      lookup_loop (recur f) t c dt depth target above rest (rev names ++ visited).
  Proof.
    induction 1 as [above
      |above d m rest names (K & F) L Ch T _ (f0 & IH)
      |above d m rest inner names (K & F) L T I _ (f1 & IH1) _ (f2 & IH2)
      |above d m e more rest names (K & F) L O Ch T _ (f0 & IH)
      |above d m e more rest names (K & F) L Ch Se T _ (f0 & IH)].
    - exists 0. reflexivity.
    - exists (S f0). intros f Lf dt depth after visited N V O. destruct f as [|f]; [lia|].
      destruct (apart_head _ _ _ N V) as (M & N' & V'). cbn [app lookup_loop]. rewrite M, (chain_open _ _ _ O).
      unfold trusted_roles in K. rewrite K. apply expired_false in F. rewrite F, L.
      cbn [rev]. rewrite <- app_assoc. cbn [app].
      destruct (tg_delegations m) as [ds|] eqn:D.
      + destruct T as [T|T]; [discriminate T|]. rewrite rec_step. rewrite (children_some _ _ D) in Ch. rewrite Ch.
        cbn [lookup_loop]. rewrite T. apply IH; [lia|assumption..].
      + apply IH; [lia|assumption..].
    - exists (S (Nat.max f1 f2)). intros f Lf dt depth after visited N V O. destruct f as [|f]; [lia|].
      destruct (apart_head _ _ _ N V) as (M & N' & V'). cbn [app lookup_loop]. rewrite M, (chain_open _ _ _ O).
      unfold trusted_roles in K. rewrite K. apply expired_false in F. rewrite F, L.
      cbn [rev]. rewrite rev_app_distr, <- !app_assoc. cbn [app].
      destruct (apart_app _ _ _ N' V') as (N1 & V1 & N2 & V2).
      destruct (tg_delegations m) as [ds|] eqn:D.
      + rewrite rec_step. rewrite (children_some _ _ D) in IH1. rewrite <- (app_nil_r (dgs_roles ds)).
        rewrite IH1; [|lia|assumption|assumption|intros _; exact I]. cbn [lookup_loop]. rewrite T.
        apply IH2; [lia|assumption..].
      + assert (E : children m = []) by (unfold children; now rewrite D). rewrite E in IH1.
        specialize (IH1 f ltac:(lia) true depth [] (dg_role d :: visited)).
        assert (inner = []) as ->; [|apply IH2; [lia|assumption..]].
        specialize (IH1 N1 V1). destruct (N.eq_dec depth 0) as [->|Z].
        * specialize (IH1 ltac:(lia)). cbn [app lookup_loop] in IH1. injection IH1 as IH1.
          apply (f_equal (@length string)) in IH1. rewrite app_length, rev_length in IH1. cbn in IH1. destruct inner; [reflexivity|cbn in IH1; lia].
        * specialize (IH1 (fun _ => I)). cbn [app lookup_loop] in IH1. injection IH1 as IH1.
          apply (f_equal (@length string)) in IH1. rewrite app_length, rev_length in IH1. cbn in IH1. destruct inner; [reflexivity|cbn in IH1; lia].
    - exists (S f0). intros f Lf dt depth after visited N V Oc. destruct f as [|f]; [lia|].
      destruct (apart_head _ _ _ N V) as (M & N' & V'). destruct (apart_head _ _ _ N' V') as (M' & N'' & V'').
      cbn [app lookup_loop]. rewrite M, (chain_open _ _ _ Oc).
      unfold trusted_roles in K. rewrite K. apply expired_false in F. rewrite F, L.
      cbn [rev]. rewrite <- !app_assoc. cbn [app].
      destruct (tg_delegations m) as [ds|] eqn:D; [|unfold children in Ch; rewrite D in Ch; discriminate Ch].
      rewrite rec_step. rewrite (children_some _ _ D) in Ch. rewrite Ch. cbn [lookup_loop]. rewrite M'.
      assert (X : ((0 <? depth + 1)%N && negb (matches_chain target (above ++ [dg_paths d])))%bool = true).
      { apply andb_true_iff. split; [apply N.ltb_lt; lia|]. destruct (matches_chain _ _) eqn:Y; [|reflexivity].
        apply matches_chain_iff in Y. now elim O. }
      rewrite X, T. apply IH; [lia|assumption..].
    - exists (S f0). intros f Lf dt depth after visited N V Oc. destruct f as [|f]; [lia|].
      destruct (apart_head _ _ _ N V) as (M & N' & V'). cbn [app lookup_loop]. rewrite M, (chain_open _ _ _ Oc).
      unfold trusted_roles in K. rewrite K. apply expired_false in F. rewrite F, L.
      cbn [rev]. rewrite <- app_assoc. cbn [app].
      destruct (tg_delegations m) as [ds|] eqn:D; [|unfold children in Ch; rewrite D in Ch; discriminate Ch].
      rewrite rec_step. rewrite (children_some _ _ D) in Ch. rewrite Ch. cbn [lookup_loop].
      assert (M' : mem (dg_role e) (dg_role d :: visited) = true) by (apply mem_In; rewrite Se; now left).
      rewrite M', T. apply IH; [lia|assumption..].
  Qed.

  Lemma found_reached above ds names desc : found_in known now target desc above ds names ->
    exists f0, forall f, f0 <= f -> forall dt depth visited,
      NoDup names -> (forall n, In n names -> ~ In n visited) -> ((0 < depth)%N -> in_chain target above) ->
      exists term v, lookup_loop (recur f) t c dt depth target above ds visited = Some ((term, Some desc), v).
  Proof.
    induction 1 as [above before d after m names Nb (K & F) L|above before d after m names inner Nb (K & F) L I _ (f1 & IH)].
    - destruct (nothing_passed _ _ _ Nb) as (f0 & P). exists f0. intros f Lf dt depth visited N V O.
      destruct (apart_app _ _ _ N V) as (N1 & V1 & N2 & V2). rewrite P by assumption.
      destruct (apart_head _ _ _ N2 V2) as (M & _). cbn [lookup_loop]. rewrite M, (chain_open _ _ _ O).
      unfold trusted_roles in K. rewrite K. apply expired_false in F. rewrite F, L. eauto.
    - destruct (nothing_passed _ _ _ Nb) as (f0 & P). exists (S (Nat.max f0 f1)). intros f Lf dt depth visited N V O.
      destruct f as [|f]; [lia|].
      destruct (apart_app _ _ _ N V) as (N1 & V1 & N2 & V2). rewrite P by (assumption || lia).
      destruct (apart_head _ _ _ N2 V2) as (M & N3 & V3). cbn [lookup_loop]. rewrite M, (chain_open _ _ _ O).
      unfold trusted_roles in K. rewrite K. apply expired_false in F. rewrite F, L.
      destruct (tg_delegations m) as [ds|] eqn:D.
      + rewrite rec_step. rewrite (children_some _ _ D) in IH.
        destruct (IH f ltac:(lia) (dg_terminating d) (depth + 1)%N (dg_role d :: rev names ++ visited) N3 V3 (fun _ => I)) as (term & v & ->).
        destruct term; eauto.
      + unfold children in IH. rewrite D in IH.
        destruct (IH f ltac:(lia) false (depth + 1)%N (dg_role d :: rev names ++ visited) N3 V3 (fun _ => I)) as (term & v & E). discriminate E.
  Qed.
End Search.

Lemma found_description t c target g ds names desc :
  usable_targets t c g -> lookup target (tg_targets g) = None -> tg_delegations g = Some ds ->
  found_in (trusted_roles t) (at_deleg c) target desc [] (dgs_roles ds) names -> NoDup names ->
  target_description t c target = Some (Ok desc).
Proof.
  intros U L D F N. rewrite (target_description_delegated _ _ _ _ _ U L D).
  destruct (found_reached _ _ _ _ _ _ _ F) as (f0 & R).
  destruct (lookup_fuel_suffices t c target ds) as (out & v & H). rewrite H.
  pose proof (rec_more_fuel t c target (lookup_fuel t) (S (Nat.max f0 (lookup_fuel t))) _ _ _ _ _ _ ltac:(lia) H) as H'.
  rewrite rec_step in H'. destruct (R (Nat.max f0 (lookup_fuel t)) ltac:(lia) false 0%N [] N (fun _ _ X => X)) as (term & v' & E); [lia|].
  rewrite E in H'. injection H' as H' _. now rewrite <- H'.
Qed.

(** ** Trees *)

Lemma tree_app known now a b names : all_loaded known now (a ++ b) names ->
  exists n1 n2, names = n1 ++ n2 /\ all_loaded known now a n1 /\ all_loaded known now b n2.
Proof.
  revert names. induction a as [|d a IH]; cbn [app]; intros names T.
  - exists [], names. split; [reflexivity|]. split; [constructor|exact T].
  - inversion T as [|? m ? inner nm H1 H2 H3 H4]; subst. destruct (IH _ H4) as (n1 & n2 & -> & T1 & T2).
    exists (dg_role d :: inner ++ n1), n2. split; [cbn [app]; now rewrite <- app_assoc|]. split; [now apply (loaded_cons _ _ d m)|exact T2].
Qed.

Lemma chain_dec target groups : in_chain target groups \/ ~ in_chain target groups.
Proof.
  destruct (matches_chain target groups) eqn:E; [left; now apply matches_chain_iff|right].
  intros I. apply matches_chain_iff in I. congruence.
Qed.

Lemma NoDup_join {A} (l1 l2 : list A) : NoDup l1 -> NoDup l2 -> (forall x, In x l1 -> ~ In x l2) -> NoDup (l1 ++ l2).
Proof.
  induction l1 as [|x l1 IH]; cbn; intros N1 N2 D; [exact N2|]. inversion N1 as [|? ? X Y]; subst. constructor.
  - rewrite in_app_iff. intros [I|I]; [exact (X I)|]. apply (D x); [now left|exact I].
  - apply IH; [exact Y|exact N2|]. intros y I. apply D. now right.
Qed.

Lemma apart_lists {A} (l1 l2 : list A) : NoDup (l1 ++ l2) -> forall x, In x l1 -> ~ In x l2.
Proof.
  induction l1 as [|y l1 IH]; cbn; intros N x []; inversion N as [|? ? X Y]; subst.
  - intros I. apply X, in_or_app. now right.
  - now apply IH.
Qed.

Lemma tree_nothing known now target ds names : all_loaded known now ds names -> NoDup names ->
  (forall n m, In n names -> known n = Some m -> lookup target (tg_targets m) = None) ->
  forall above, exists names', nothing_in known now target above ds names' /\ NoDup names' /\ incl names' names.
Proof.
  induction 1 as [|d m rest inner names H Tm T1 IH1 T2 IH2]; intros N Nl above.
  - exists []. split; [constructor|]. split; [constructor|apply incl_refl].
  - inversion N as [|? ? X N']; subst. destruct (NoDup_parts _ _ N') as (Ni & Nn). pose proof (apart_lists _ _ N') as Ap.
    destruct (IH2 Nn (fun n m' I => Nl n m' (or_intror (in_or_app _ _ _ (or_intror I)))) above) as (nr & Rr & Dr & Ir).
    assert (Lm : lookup target (tg_targets m) = None) by (apply (Nl (dg_role d) m); [now left|apply H]).
    assert (Xr : ~ In (dg_role d) nr) by (intros I; apply X, in_or_app; right; now apply Ir).
    destruct (chain_dec target (above ++ [dg_paths d])) as [I|O].
    + destruct (IH1 Ni (fun n m' I => Nl n m' (or_intror (in_or_app _ _ _ (or_introl I)))) (above ++ [dg_paths d])) as (ni & Ri & Di & Ii).
      exists (dg_role d :: ni ++ nr). split; [now apply (nothing_inside _ _ _ _ _ m)|]. split.
      * constructor.
        -- rewrite in_app_iff. intros [J|J]; [apply X, in_or_app; left; now apply Ii|exact (Xr J)].
        -- apply NoDup_join; [exact Di|exact Dr|]. intros x J J'. apply (Ap x); [now apply Ii|now apply Ir].
      * intros x [<-|J]; [now left|right]. apply in_app_or in J as [J|J]; apply in_or_app; [left; now apply Ii|right; now apply Ir].
    + destruct (children m) as [|e more] eqn:Ch.
      * exists (dg_role d :: nr). split; [apply (nothing_leaf _ _ _ _ _ m); auto|]. split; [now constructor|].
        intros x [<-|J]; [now left|right; apply in_or_app; right; now apply Ir].
      * inversion T1 as [|? me ? ie ne He Te T3 T4]; subst.
        exists (dg_role d :: dg_role e :: nr). split; [now apply (nothing_outside _ _ _ _ _ m e more)|]. split.
        -- constructor; [intros [J|J]; [apply X, in_or_app; left; rewrite J; now left|exact (Xr J)]|].
           constructor; [|exact Dr]. intros J. apply (Ap (dg_role e)); [now left|now apply Ir].
        -- intros x [<-|[<-|J]]; [now left|right; now left|right; apply in_or_app; right; now apply Ir].
Qed.

Lemma listed_in_tree known now target desc above ds : listed_below known target desc above ds ->
  forall names, all_loaded known now ds names ->
  exists n m, In n names /\ known n = Some m /\ lookup target (tg_targets m) = Some desc.
Proof.
  induction 1 as [above ds d m I K L|above ds d m I K Ic _ IH]; intros names T;
    apply in_split in I as (a & b & ->); apply tree_app in T as (n1 & n2 & -> & _ & T);
    inversion T as [|? m' ? inner nm (K' & _) _ T1 _]; subst; assert (m' = m) as -> by congruence.
  - exists (dg_role d), m. split; [apply in_or_app; right; now left|]. auto.
  - destruct (IH _ T1) as (n & q & J & Q). exists n, q. split; [|exact Q]. apply in_or_app. right. right. apply in_or_app. now left.
Qed.

Lemma tree_found known now target desc above ds : listed_below known target desc above ds ->
  forall names, all_loaded known now ds names -> NoDup names -> listed_once known target names ->
  exists names', found_in known now target desc above ds names' /\ NoDup names' /\ incl names' names.
Proof.
  induction 1 as [above ds d m I K L|above ds d m I K Ic Lb IH]; intros names T N O;
    apply in_split in I as (a & b & ->); apply tree_app in T as (n1 & n2 & -> & T1 & T);
    inversion T as [|? m' ? inner nm (K' & F) Tm Ti Tr]; subst; assert (m' = m) as -> by congruence;
    destruct (NoDup_parts _ _ N) as (N1 & N2); pose proof (apart_lists _ _ N) as Ap.
  - destruct (tree_nothing known now target a n1 T1 N1) with (above := above) as (na & Ra & Da & Ia).
    { intros n q J Kq. destruct (lookup target (tg_targets q)) as [x|] eqn:E; [|reflexivity]. exfalso.
      assert (n = dg_role d) as -> by (apply (O n (dg_role d) q m x desc); auto; apply in_or_app; [now left|right; now left]).
      apply (Ap _ J). now left. }
    exists (na ++ [dg_role d]). split; [now apply (found_here _ _ _ _ _ _ _ _ m)|]. split.
    + apply NoDup_join; [exact Da|constructor; [intros []|constructor]|]. intros x J [<-|[]]. apply (Ap (dg_role d)); [now apply Ia|now left].
    + intros x J. apply in_app_or in J as [J|[<-|[]]]; apply in_or_app; [left; now apply Ia|right; now left].
  - destruct (listed_in_tree known now target desc _ _ Lb _ Ti) as (n0 & q0 & J0 & K0 & L0).
    inversion N2 as [|? ? X N3]; subst. destruct (NoDup_parts _ _ N3) as (Ni & Nn).
    assert (I0 : In n0 (n1 ++ dg_role d :: inner ++ nm)) by (apply in_or_app; right; right; apply in_or_app; now left).
    destruct (tree_nothing known now target a n1 T1 N1) with (above := above) as (na & Ra & Da & Ia).
    { intros n q J Kq. destruct (lookup target (tg_targets q)) as [x|] eqn:E; [|reflexivity]. exfalso.
      assert (n = n0) as -> by (apply (O n n0 q q0 x desc); auto; apply in_or_app; now left).
      apply (Ap _ J). right. apply in_or_app. now left. }
    destruct (IH inner Ti Ni) as (ni & Ri & Di & Ii).
    { intros n n' q q' x x' J J' Kn Kn' Lq Lq'. apply (O n n' q q' x x'); auto; apply in_or_app; right; right; apply in_or_app; now left. }
    assert (Lm : lookup target (tg_targets m) = None).
    { destruct (lookup target (tg_targets m)) as [x|] eqn:E; [|reflexivity]. exfalso. apply X, in_or_app. left.
      assert (dg_role d = n0) as -> by (apply (O (dg_role d) n0 m q0 x desc); auto; apply in_or_app; right; now left). exact J0. }
    exists (na ++ dg_role d :: ni). split; [now apply (found_further _ _ _ _ _ _ _ _ m)|]. split.
    + apply NoDup_join; [exact Da| |].
      * constructor; [|exact Di]. intros J. apply X, in_or_app. left. now apply Ii.
      * intros x J J'. apply (Ap x); [now apply Ia|]. destruct J' as [<-|J']; [now left|right; apply in_or_app; left; now apply Ii].
    + intros x J. apply in_app_or in J as [J|[<-|J]]; apply in_or_app; [left; now apply Ia|right; now left|].
      right. right. apply in_or_app. left. now apply Ii.
Qed.
