(** * Searches in trees of delegations: the proofs for C100 *)
From Coq Require Import String List NArith ZArith Bool Lia.
From Verif Require Import Base BaseFacts Metadata Verify Paths Tuf Reader Repo Client ClientLogic SpecWork.
Import ListNotations.
Open Scope string_scope.
Open Scope list_scope.

Section Tree.
  Context (parent : string -> string) (rank : string -> nat).

  (** [y] is [x] or above it. *)
  Inductive reach : string -> string -> Prop :=
  | reach_here x : reach x x
  | reach_up x y : (rank (parent x) < rank x)%nat -> reach (parent x) y -> reach x y.

  Lemma reach_rank x y : reach x y -> (rank y <= rank x)%nat.
  Proof. induction 1; lia. Qed.
  Lemma reach_linear x y : reach x y -> forall z, reach x z -> reach y z \/ reach z y.
  Proof.
    induction 1 as [x|x y L H IH]; intros z Z; [now left|].
    inversion Z; subst; [right; now apply reach_up|]. now apply IH.
  Qed.
  Lemma reach_trans x y z : reach x y -> reach y z -> reach x z.
  Proof. induction 1; intros Z; [exact Z|]. apply reach_up; auto. Qed.

  Definition child (r d : string) : Prop := parent d = r /\ (rank r < rank d)%nat.
  Definition below (r x : string) : Prop := exists d, child r d /\ reach x d.

  Lemma siblings_apart r a b x : child r a -> child r b -> reach x a -> reach x b -> a = b.
  Proof.
    intros [Pa Ra] [Pb Rb] A B.
    assert (K : forall u v, parent u = r -> (rank r < rank v)%nat -> reach u v -> u = v).
    { intros u v P R H. inversion H as [|? ? L H' Q1 Q2]; [reflexivity|]. apply reach_rank in H'. rewrite P in H'. lia. }
    destruct (reach_linear _ _ A _ B) as [H|H]; [now apply K|symmetry; now apply K].
  Qed.
  Lemma below_child r d x : child r d -> below d x -> reach x d /\ x <> d.
  Proof.
    intros _ (y & (P & R) & X). split.
    - eapply reach_trans; [exact X|]. apply reach_up; [rewrite P; exact R|rewrite P; apply reach_here].
    - intros ->. apply reach_rank in X. lia.
  Qed.

  Definition asked_in (h : list event) (s : side) (x : string) : Prop := exists e, In e h /\ asks_for s x e.
  Lemma asked_snoc h e s x : asked_in (h ++ [e]) s x <-> asked_in h s x \/ asks_for s x e.
  Proof.
    split.
    - intros (e' & H & A). apply in_app_or in H as [H|[<-|[]]]; [left; now exists e'|now right].
    - intros [(e' & H & A)|A]; [exists e'|exists e]; (split; [|exact A]); apply in_or_app; [now left|right; now left].
  Qed.
  (** Between [h] and [h'] only roles in [P] were asked for. *)
  Definition only (P : string -> Prop) (h h' : list event) : Prop := forall s x, asked_in h' s x -> P x \/ asked_in h s x.

  Definition DT : demands :=
    mkDemands (fun _ e => match e with EvPut t => tree_shaped parent rank t | _ => True end)
              (fun h e => forall s x, asks_for s x e -> ~ asked_in h s x) (fun _ => True) True.
  Notation ok := (tree_shaped parent rank).
  Definition out {A} (P : string -> Prop) (h0 h : list event) (x : tuf * A) : Prop := ok (fst x) /\ only P h0 h.

  Lemma only_refl P h : only P h h.
  Proof. intros s x A. now right. Qed.
  Lemma only_trans P h1 h2 h3 : only P h1 h2 -> only P h2 h3 -> only P h1 h3.
  Proof. intros A B s x H. destruct (B s x H) as [K|K]; [now left|]. now apply A. Qed.
  Lemma only_mono (P Q : string -> Prop) h h' : (forall x, P x -> Q x) -> only P h h' -> only Q h h'.
  Proof. intros M A s x H. destruct (A s x H) as [K|K]; [left; now apply M|now right]. Qed.
  Lemma only_quiet P h e : (forall s x, ~ asks_for s x e) -> only P h (h ++ [e]).
  Proof. intros N s x A. apply asked_snoc in A as [A|A]; [now right|]. now apply N in A. Qed.

  Section Env.
  Context (E : env) (cfg : config).

  (** Asking for role [r] in repository [s]; nothing but that request happens. *)
  Lemma wp_ask s r ro v max hash h : ~ asked_in h s r ->
    wp DT (fetch_metadata E s ro r v max hash)
       (fun h' _ => forall s' x, asked_in h' s' x -> asked_in h s' x \/ s' = s /\ x = r) h.
  Proof.
    intros N. unfold fetch_metadata. destruct (repo_check ro r) as [[]|e]; cbn; [|auto].
    intros ans _. split.
    - intros s' x [<- <-]. exact N.
    - intros s' x A. apply asked_snoc in A as [A|[<- <-]]; auto.
  Qed.
  Lemma wp_keep_quiet ro r v b h : wp DT (store_metadata ro r v b) (fun h' _ => only (fun _ => False) h h') h.
  Proof.
    unfold store_metadata. destruct (repo_check ro r) as [[]|e]; cbn; [|apply only_refl].
    intros ans _. split; [intros s x []|]. apply only_quiet. intros s x [].
  Qed.

  Lemma wp_tree_walk recur dt depth target snapshot trole :
    (forall t d g r h, ok t -> grows parent rank r g -> (forall s x, below r x -> ~ asked_in h s x) ->
       wp DT (recur t d (depth + 1)%N (Some (g, r))) (out (below r) h) h) ->
    forall roles t h, ok t -> NoDup (map dg_role roles) -> (forall d, In d roles -> child trole (dg_role d)) ->
    (forall d s x, In d roles -> reach x (dg_role d) -> ~ asked_in h s x) ->
    wp DT (walk_loop E recur dt depth target snapshot trole roles t) (out (below trole) h) h.
  Proof.
    intros Rec. induction roles as [|d rest IH]; intros t h O ND Ch Un; [split; [exact O|apply only_refl]|].
    cbn [map] in ND. inversion ND as [|? ? Nd ND']; subst.
    assert (C0 : child trole (dg_role d)) by (apply Ch; now left).
    assert (Bd : forall x, reach x (dg_role d) -> below trole x) by (intros x X; exists (dg_role d); now split).
    assert (Go : forall t' h', ok t' -> only (fun x => reach x (dg_role d)) h h' ->
      wp DT (walk_loop E recur dt depth target snapshot trole rest t') (out (below trole) h) h').
    { intros t' h' O' L. eapply wp_mono; [|apply IH; [exact O'|exact ND'|intros d' I'; apply Ch; now right|]].
      - intros h2 [t2 b] [O2 L2]. split; [exact O2|]. eapply only_trans; [|exact L2]. eapply only_mono; [|exact L]. exact Bd.
      - intros d' s x I' X A. destruct (L s x A) as [K|K].
        + apply Nd. rewrite (siblings_apart trole (dg_role d) (dg_role d') x); auto; [now apply in_map|]. apply Ch. now right.
        + revert K. apply (Un d'); [now right|exact X]. }
    assert (B : forall t' h' x, ok t' -> only (fun x => reach x (dg_role d)) h h' ->
      out (below trole) h h' ((t', x) : tuf * (bool * result target_desc))).
    { intros t' h' x O' L. split; [exact O'|]. eapply only_mono; [exact Bd|exact L]. }
    pose proof (Go t h O (only_refl _ _)) as Go0. pose proof (fun x => B t h x O (only_refl _ _)) as B0.
    cbn [walk_loop].
    destruct (negb _). { destruct (dg_terminating d); [apply B0|exact Go0]. }
    destruct (lookup (dg_role d) (sm_meta snapshot)) as [desc|].
    2: { destruct (dg_terminating d); [apply B0|exact Go0]. }
    destruct (hash_preference (md_hashes desc)) as [hash|e]; [|apply B0].
    assert (Un0 : forall s x, reach x (dg_role d) -> ~ asked_in h s x) by (intros s x; apply Un; now left).
    eapply wp_seq; [apply wp_ask; apply Un0; apply reach_here|].
    intros h1 res1 L1.
    eapply (wp_seq _ _ _ (fun h2 _ => forall s x, asked_in h2 s x -> asked_in h s x \/ x = dg_role d)).
    { destruct res1 as [raw|e].
      - cbn. intros s x A. destruct (L1 s x A) as [K|[_ K]]; auto.
      - eapply wp_mono; [|apply wp_ask].
        + intros h2 a L2 s x A. destruct (L2 s x A) as [K|[_ K]]; [|auto]. destruct (L1 s x K) as [K'|[_ K']]; auto.
        + intros A. destruct (L1 _ _ A) as [K|[K _]]; [|discriminate]. revert K. apply Un0, reach_here. }
    intros h2 res2 L2.
    assert (L2' : only (fun x => reach x (dg_role d)) h h2).
    { intros s x A. destruct (L2 s x A) as [K| ->]; [now right|left; apply reach_here]. }
    destruct res2 as [raw|e].
    2: { destruct (dg_terminating d); [now apply B|now apply Go]. }
    cbn [wp]. intros c _. split; [intros s x []|].
    destruct (update_delegation E t c trole (dg_role d) raw) as [t' res].
    cbn [wp]. intros O'. split; [intros s x []|]. cbn in O'.
    set (h4 := (h2 ++ [_]) ++ [_]).
    assert (L4 : forall s x, asked_in h4 s x -> asked_in h s x \/ x = dg_role d).
    { intros s x A. apply asked_snoc in A as [A|[]]. apply asked_snoc in A as [A|[]]. now apply L2 in A. }
    assert (L4' : only (fun x => reach x (dg_role d)) h h4).
    { intros s x A. destruct (L4 s x A) as [K| ->]; [now right|left; apply reach_here]. }
    destruct res as [new|e].
    2: { destruct (dg_terminating d); [now apply B|now apply Go]. }
    eapply wp_seq; [apply wp_keep_quiet|]. intros h5 stored L5.
    assert (L5' : forall s x, asked_in h5 s x -> asked_in h s x \/ x = dg_role d).
    { intros s x A. destruct (L5 s x A) as [[]|K]. now apply L4. }
    destruct (lookup (dg_role d) (t_delegations t')) as [meta|] eqn:Lk; [|exact I].
    destruct (u32_max <=? depth)%N; [exact I|].
    eapply wp_seq; [apply (Rec t' (dg_terminating d) meta (dg_role d) h5 O')|].
    - exact (proj2 O' _ _ Lk).
    - intros s x X A. destruct (below_child _ _ _ C0 X) as [X1 X2]. destruct (L5' s x A) as [K|K]; [|contradiction].
      revert K. now apply Un0.
    - intros h6 [t'' [term res]] [O'' L6]. cbn [fst] in O''.
      assert (L6' : only (fun x => reach x (dg_role d)) h h6).
      { intros s x A. destruct (L6 s x A) as [K|K]; [left; exact (proj1 (below_child _ _ _ C0 K))|].
        destruct (L5' s x K) as [K'| ->]; [now right|left; apply reach_here]. }
      destruct (term && negb (is_ok res)); [now apply B|now apply Go].
  Qed.

  Lemma wp_tree_lookup fuel target snapshot : forall t dt depth tgs h, ok t ->
    match tgs with Some (g, r) => grows parent rank r g /\ (forall s x, below r x -> ~ asked_in h s x)
                 | None => forall s x, below "targets" x -> ~ asked_in h s x end ->
    wp DT (lookup_target_description E cfg fuel t dt depth target snapshot tgs)
       (out (below (match tgs with Some (_, r) => r | None => "targets" end)) h) h.
  Proof.
    induction fuel as [|f IH]; intros t dt depth tgs h O T; [exact I|]. cbn [lookup_target_description].
    assert (B : forall P x, out P h h ((t, x) : tuf * (bool * result target_desc))) by (intros; split; [exact O|apply only_refl]).
    destruct (cf_max_depth cfg <? depth)%N; [apply B|].
    assert (K : forall g r, grows parent rank r g -> (forall s x, below r x -> ~ asked_in h s x) ->
      wp DT match lookup target (tg_targets g) with
            | Some d => Ret (t, (dt, Ok d))
            | None => match tg_delegations g with
                      | None => Ret (t, (dt, Err NotFound))
                      | Some ds => walk_loop E (fun t dt dep tgs => lookup_target_description E cfg f t dt dep target snapshot tgs)
                                     dt depth target snapshot r (dgs_roles ds) t
                      end
            end (out (below r) h) h).
    { intros g r G Un. destruct (lookup target (tg_targets g)); [apply B|]. unfold grows in G.
      destruct (tg_delegations g) as [ds|]; [|apply B]. destruct G as [ND Ch].
      apply wp_tree_walk; [|exact O|exact ND|exact Ch|].
      - intros t' d g' r' h' O' G' Un'. apply (IH t' d (depth + 1)%N (Some (g', r')) h' O'). now split.
      - intros d s x I' X. apply Un. exists (dg_role d). split; [now apply Ch|exact X]. }
    destruct tgs as [[g r]|]; [destruct T as [G Un]; now apply K|].
    destruct (t_targets t) as [g|] eqn:Tg; [|apply B]. apply (K g "targets"); [now apply (proj1 O)|exact T].
  Qed.

  Lemma wp_tree_description fuel t target : ok t ->
    wp DT (fetch_target_description E cfg fuel t target) (fun _ _ => True) [].
  Proof.
    intros O. unfold fetch_target_description. destruct (cf_translate cfg target) as [virt|e]; [|exact I].
    destruct (t_snapshot t) as [snapshot|]; [|exact I].
    eapply wp_seq; [apply (wp_tree_lookup fuel virt snapshot t false 0%N None [] O)|].
    - intros s x _ (e & [] & _).
    - intros h [t' [u res]] _. exact I.
  Qed.
  Lemma wp_tree_stream path d h : wp DT (fetch_target_stream E path d) (fun _ _ => True) h.
  Proof.
    unfold fetch_target_stream. destruct (hash_preference (td_hashes d)) as [[alg v]|e]; cbn; [|exact I].
    intros ans _. split; [intros s x []|exact I].
  Qed.
  Lemma wp_tree_reader fuel t target : ok t -> wp DT (fetch_target_reader E cfg fuel t target) (fun _ _ => True) [].
  Proof.
    intros O. unfold fetch_target_reader. eapply wp_seq; [now apply wp_tree_description|]. intros h [t' [d|e]] _; [|exact I].
    assert (S : forall path, wp DT (do res <- fetch_target_stream E path d in Ret (t', res)) (fun _ _ => True) h).
    { intros path. eapply wp_seq; [apply wp_tree_stream|]. intros h' r _. exact I. }
    destruct (rm_consistent (t_root t')); [|apply S]. destruct (rbind _ _) as [p|e]; [apply S|exact I].
  Qed.
  Lemma wp_tree_copy rs : forall h, wp DT (copy_to_writer rs) (fun _ _ => True) h.
  Proof.
    induction rs as [|[|k|data] rs IH]; intros h; cbn; auto. destruct (_ =? 0)%N; [exact I|]. cbn. intros ans _.
    split; [intros s x []|]. destruct ans; [exact I|apply IH].
  Qed.

  Lemma wp_tree_call fuel t k : k <> CallUpdate -> ok t -> wp DT (call_prog E cfg fuel t k) (fun _ _ => True) [].
  Proof.
    intros N O. destruct k as [|p|p|p]; [now elim N| | |]; cbn [call_prog].
    - unfold forget. eapply wp_seq; [now apply wp_tree_description|]. intros h [t' res] _. exact I.
    - unfold fetch_target. eapply wp_seq; [now apply wp_tree_reader|]. intros h [t' [rs|e]] _; [|exact I].
      cbn. intros ans _. split; [intros s x []|exact I].
    - unfold fetch_target_to_writer. eapply wp_seq; [now apply wp_tree_reader|]. intros h [t' [rs|e]] _; [|exact I].
      eapply wp_seq; [apply wp_tree_copy|]. intros h' r _. exact I.
  Qed.
  End Env.
End Tree.
