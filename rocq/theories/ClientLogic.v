(** * A program logic for client programs *)
From Coq Require Import String List NArith ZArith Bool.
From Verif Require Import Base Metadata Tuf Reader Repo Client.
Import ListNotations.
Open Scope list_scope.

(** What is assumed of the answers ([rely]), demanded of every event ([guar]), of panics
    and of running out of fuel, all relative to the events so far. *)
Record demands := mkDemands {
  rely : list event -> event -> Prop;
  guar : list event -> event -> Prop;
  on_panic : list event -> Prop;
  on_fuel : Prop
}.

Section Logic.
  Variable D : demands.

  (** [p] started after events [h] meets the demands, and returns only with [Q]. *)
  Fixpoint wp {A} (p : prog A) (Q : list event -> A -> Prop) (h : list event) : Prop :=
    match p with
    | Ret a => Q h a
    | Panic => on_panic D h
    | OutOfFuel => on_fuel D
    | FetchMeta s path v max hash k => forall ans,
        let e := EvFetchMeta s path v max hash ans in rely D h e -> guar D h e /\ wp (k ans) Q (h ++ [e])
    | StoreMeta path v b k => forall ans,
        let e := EvStoreMeta path v b ans in rely D h e -> guar D h e /\ wp (k ans) Q (h ++ [e])
    | FetchTarget path d k => forall ans,
        let e := EvFetchTarget path d ans in rely D h e -> guar D h e /\ wp (k ans) Q (h ++ [e])
    | StoreTarget path rs k => forall ans,
        let e := EvStoreTarget path rs ans in rely D h e -> guar D h e /\ wp (k ans) Q (h ++ [e])
    | Write b k => forall ans,
        let e := EvWrite b ans in rely D h e -> guar D h e /\ wp (k ans) Q (h ++ [e])
    | Now k => forall c,
        let e := EvNow c in rely D h e -> guar D h e /\ wp (k c) Q (h ++ [e])
    | Put t q =>
        let e := EvPut t in rely D h e -> guar D h e /\ wp q Q (h ++ [e])
    end.

  Lemma wp_mono {A} (p : prog A) (Q Q' : list event -> A -> Prop) :
    (forall h a, Q h a -> Q' h a) -> forall h, wp p Q h -> wp p Q' h.
  Proof.
    intros HQ. induction p; cbn; intros h W; auto;
      try (intros ans R; destruct (W ans R) as [G W']; split; [exact G|now apply H]).
    intros R. destruct (W R) as [G W']. split; [exact G|now apply IHp].
  Qed.

  Lemma wp_bind {A B} (p : prog A) (f : A -> prog B) Q : forall h,
    wp p (fun h' a => wp (f a) Q h') h -> wp (bind p f) Q h.
  Proof.
    induction p; cbn; intros h W; auto;
      try (intros ans R; destruct (W ans R) as [G W']; split; [exact G|now apply H]).
    intros R. destruct (W R) as [G W']. split; [exact G|now apply IHp].
  Qed.

  Lemma wp_seq {A B} (p : prog A) (f : A -> prog B) (M : list event -> A -> Prop) Q h :
    wp p M h -> (forall h' a, M h' a -> wp (f a) Q h') -> wp (bind p f) Q h.
  Proof. intros W HM. apply wp_bind. eapply wp_mono; [|exact W]. exact HM. Qed.

  (** All events of [tr], which came after [h], satisfy [R]. *)
  Definition along (R : list event -> event -> Prop) (h tr : list event) : Prop :=
    forall pre e post, tr = pre ++ e :: post -> R (h ++ pre) e.

  Lemma along_nil R h : along R h [].
  Proof. intros [|] ? ? H; discriminate. Qed.
  Lemma along_cons R h e tr : along R h (e :: tr) <-> R h e /\ along R (h ++ [e]) tr.
  Proof.
    split.
    - intros H. split.
      + specialize (H [] e tr eq_refl). now rewrite app_nil_r in H.
      + intros pre e' post ->. specialize (H (e :: pre) e' post eq_refl). now rewrite <- app_assoc.
    - intros [H1 H2] [|e' pre] e'' post H; inversion H; subst.
      + now rewrite app_nil_r.
      + specialize (H2 pre e'' post eq_refl). now rewrite <- app_assoc in H2.
  Qed.
  Lemma along_app R h a b : along R h (a ++ b) <-> along R h a /\ along R (h ++ a) b.
  Proof.
    revert h. induction a as [|e a IH]; intros h; cbn.
    - rewrite app_nil_r. split; [intros H; split; [apply along_nil|exact H]|tauto].
    - rewrite !along_cons, IH, <- app_assoc. cbn. tauto.
  Qed.

  Theorem wp_sound {A} (p : prog A) tr q : exec p tr q -> forall Q h, wp p Q h -> along (rely D) h tr ->
    along (guar D) h tr /\ wp q Q (h ++ tr).
  Proof.
    induction 1; intros Q h W R.
    - rewrite app_nil_r. split; [apply along_nil|exact W].
    - apply along_cons in R as [R1 R2]. destruct (W ans R1) as [G W'].
      destruct (IHexec Q _ W' R2) as [G' W'']. rewrite <- app_assoc in W''. cbn in W''. rewrite along_cons. auto.
    - apply along_cons in R as [R1 R2]. destruct (W ans R1) as [G W'].
      destruct (IHexec Q _ W' R2) as [G' W'']. rewrite <- app_assoc in W''. cbn in W''. rewrite along_cons. auto.
    - apply along_cons in R as [R1 R2]. destruct (W ans R1) as [G W'].
      destruct (IHexec Q _ W' R2) as [G' W'']. rewrite <- app_assoc in W''. cbn in W''. rewrite along_cons. auto.
    - apply along_cons in R as [R1 R2]. destruct (W ans R1) as [G W'].
      destruct (IHexec Q _ W' R2) as [G' W'']. rewrite <- app_assoc in W''. cbn in W''. rewrite along_cons. auto.
    - apply along_cons in R as [R1 R2]. destruct (W ans R1) as [G W'].
      destruct (IHexec Q _ W' R2) as [G' W'']. rewrite <- app_assoc in W''. cbn in W''. rewrite along_cons. auto.
    - apply along_cons in R as [R1 R2]. destruct (W c R1) as [G W'].
      destruct (IHexec Q _ W' R2) as [G' W'']. rewrite <- app_assoc in W''. cbn in W''. rewrite along_cons. auto.
    - apply along_cons in R as [R1 R2]. destruct (W R1) as [G W'].
      destruct (IHexec Q _ W' R2) as [G' W'']. rewrite <- app_assoc in W''. cbn in W''. rewrite along_cons. auto.
  Qed.
End Logic.

(** Runs of [bind]. *)
Lemma exec_bind_ret {A B} (p : prog A) (f : A -> prog B) tr b :
  exec (bind p f) tr (Ret b) -> exists a tr1 tr2, tr = tr1 ++ tr2 /\ exec p tr1 (Ret a) /\ exec (f a) tr2 (Ret b).
Proof.
  revert tr. induction p; cbn; intros tr X;
    try (inversion X; subst;
         match goal with X' : exec (bind _ _) _ _ |- _ => first [apply H in X'|apply IHp in X'];
           destruct X' as (a0 & tr1 & tr2 & -> & X1 & X2) end;
         eexists a0, (_ :: tr1), tr2; repeat split; [constructor; eassumption|assumption]).
  - exists a, [], tr. repeat split; [constructor|exact X].
  - inversion X.
  - inversion X.
Qed.

Lemma exec_app {A} (p : prog A) tr q : exec p tr q -> forall tr' q', exec q tr' q' -> exec p (tr ++ tr') q'.
Proof. induction 1; intros tr' q' X; cbn; auto; constructor; auto. Qed.

Lemma exec_bind {A B} (p : prog A) (f : A -> prog B) tr a tr' q :
  exec p tr (Ret a) -> exec (f a) tr' q -> exec (bind p f) (tr ++ tr') q.
Proof.
  intros X. remember (Ret a) as r. revert Heqr. induction X; intros ->; intros Y; cbn; auto; constructor; auto.
Qed.

(** A run of [bind] is one of the first part only, or goes on with the second one. *)
Lemma exec_bind_inv {A B} (p : prog A) (f : A -> prog B) tr q : exec (bind p f) tr q ->
  (exists p', exec p tr p' /\ q = bind p' f) \/
  (exists a tr1 tr2, tr = tr1 ++ tr2 /\ exec p tr1 (Ret a) /\ exec (f a) tr2 q).
Proof.
  revert tr. induction p; cbn; intros tr X;
    try (inversion X; subst;
         [left; eexists; split; [apply exec_here|reflexivity]|];
         match goal with X' : exec (bind _ _) _ _ |- _ => first [apply H in X'|apply IHp in X'];
           destruct X' as [(p' & X1 & ->)|(a0 & tr1 & tr2 & -> & X1 & X2)] end;
         [left; exists p'; split; [constructor; exact X1|reflexivity]|
          right; eexists a0, (_ :: tr1), tr2; repeat split; [constructor; eassumption|assumption]]).
  - right. exists a, [], tr. repeat split; [constructor|exact X].
  - left. inversion X; subst. exists Panic. split; constructor.
  - left. inversion X; subst. exists OutOfFuel. split; constructor.
Qed.
