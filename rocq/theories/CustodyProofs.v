(** * Lemmas for C116 *)
From Coq Require Import String List NArith ZArith Bool Lia.
From Verif Require Import Base BaseFacts Metadata Verify Paths Tuf SpecVerify SpecTuf VerifyProofs TufProofs TufHistory
     Reader SpecReader Repo Client SpecClient ClientLogic ClientProofs ClientUpdates ClientHistory ClientTargets SpecAttack
     AttackProofs SpecCustody.
Import ListNotations.
Open Scope string_scope.
Open Scope list_scope.
Open Scope N_scope.

Lemma authentic_content E r raw th keys m : authentic E r raw th keys m -> content E r raw m.
Proof. intros (_ & sigs & sg & msg & A & B & _ & D). exists sigs, sg, msg. auto. Qed.
Lemma content_fun E r raw m m' : content E r raw m -> content E r raw m' -> m = m'.
Proof.
  intros (sigs & sg & msg & A & B & D) (sigs' & sg' & msg' & A' & B' & D').
  rewrite A in A'. inversion A'; subst. rewrite B in B'. inversion B'; subst. congruence.
Qed.

Lemma fetched_more tr e raw : fetched tr raw -> fetched (tr ++ [e]) raw.
Proof. intros (s & p & v & mx & h & a & I & A). exists s, p, v, mx, h, a. split; [apply in_or_app; now left|exact A]. Qed.
Lemma just_fetched_fetched tr path v raw : just_fetched tr path v raw -> fetched tr raw.
Proof.
  intros (tr1 & s & mx & h & a & rest & -> & A & _). exists s, path, v, mx, h, a. split; [|exact A].
  apply in_or_app. right. now left.
Qed.
Lemma snapshot_custody_more E tr e root s : snapshot_custody E tr root s -> snapshot_custody E (tr ++ [e]) root s.
Proof. intros (raw & raw' & ts & F & H). exists raw, raw', ts. split; [now apply fetched_more|exact H]. Qed.
Lemma role_custody_more E tr e root n g : role_custody E tr root n g -> role_custody E (tr ++ [e]) root n g.
Proof.
  intros (raw & s & d & F & C & S & H). exists raw, s, d. split; [now apply fetched_more|]. split; [exact C|].
  split; [now apply snapshot_custody_more|exact H].
Qed.

Definition custody (E : env) (tr : list event) (t : tuf) : Prop :=
  (forall s, t_snapshot t = Some s -> snapshot_custody E tr (t_root t) s) /\
  (forall g, t_targets t = Some g -> role_custody E tr (t_root t) "targets" g) /\
  (forall r g, lookup r (t_delegations t) = Some g -> role_custody E tr (t_root t) r g).

Lemma custody_more E tr e t : custody E tr t -> custody E (tr ++ [e]) t.
Proof.
  intros (S & G & D). split; [|split].
  - intros s H. apply snapshot_custody_more. auto.
  - intros g H. apply role_custody_more. auto.
  - intros r g H. apply role_custody_more. auto.
Qed.

(** One update. *)
Lemma custody_step E cfg tr t o t' res path v : reachable E t -> custody E tr t -> step E t o = (t', res) ->
  within_limits (e_crypto E) cfg t o -> just_fetched tr path v (op_raw o) -> custody E tr t'.
Proof.
  intros R (S & G & D) St W F. apply just_fetched_fetched in F. apply reachable_inv in R as (_ & (ST & _) & _).
  destruct o as [raw|c raw|c raw|c raw|c p r raw]; cbn [step op_raw] in *.
  - destruct (update_root E t raw) as [t1 [[]|e]] eqn:U; inversion St; subst.
    + apply update_root_ok in U as (new & _ & ->). repeat split; cbn; discriminate.
    + apply update_root_err in U as ->. repeat split; auto.
  - destruct (update_timestamp E t c raw) as [t1 r1] eqn:U. inversion St; subst.
    apply update_timestamp_inv in U as (Hr & Hg & Hd & Hs & _). unfold custody. rewrite Hr, Hg, Hd.
    split; [|split; assumption]. intros s Q. apply S. destruct Hs; congruence.
  - destruct (update_snapshot E t c raw) as [t1 r1] eqn:U. inversion St; subst. apply update_snapshot_inv in U.
    destruct res as [[]|]; [|destruct U as [-> _]; repeat split; assumption..].
    destruct U as (new & A & (Hr & Ht & Hs & Hg & Hd)). unfold custody. rewrite Hr, Hs. split; [|split].
    + intros s Q. inversion Q; subst. destruct W as (d & (ts & TS & ->) & De). destruct (ST ts TS) as (raw' & TT).
      destruct A as (_ & ts' & _ & _ & _ & TSn & _). exists raw, raw', ts. auto.
    + intros g Q. apply G. rewrite Hg in Q. destruct (_ =? _); [exact Q|discriminate].
    + intros r g Q. apply D. rewrite Hd in Q. destruct (lookup r (t_delegations t)); [|discriminate].
      destruct (existsb _ _); [discriminate|exact Q].
  - destruct (update_targets E t c raw) as [t1 r1] eqn:U. inversion St; subst. apply update_targets_inv in U.
    destruct res as [[]|]; [|destruct U as [-> _]; repeat split; assumption..].
    destruct U as (new & A & ->). unfold custody. cbn [t_root t_snapshot t_targets t_delegations]. split; [exact S|]. split; [|exact D].
    intros g Q. inversion Q; subst. destruct W as (d & (s & Hs & L) & De).
    destruct A as (_ & s' & d' & _ & _ & _ & _ & T & _). apply authentic_content in T.
    exists raw, s, d. repeat (split; [solve [auto]|]). exact De.
  - destruct (update_delegation E t c p r raw) as [t1 r1] eqn:U. inversion St; subst. apply update_delegation_inv in U.
    destruct res as [[]|]; [|destruct U as [-> _]; repeat split; assumption..].
    destruct U as (new & A & ->). unfold custody. cbn [t_root t_snapshot t_targets t_delegations]. split; [exact S|]. split; [exact G|].
    intros r' g Q. destruct (string_dec r' r) as [->|N].
    + rewrite lookup_insert_eq in Q. inversion Q; subst. destruct W as (d & (s & Hs & L) & De).
      assert (T : content E Targets raw g).
      { destruct A as (d' & Cx & _). unfold delegation_context, delegated_by in Cx.
        repeat match type of Cx with ex _ => destruct Cx as (? & Cx) | _ /\ _ => destruct Cx as (? & Cx) end.
        repeat match goal with H : _ /\ _ |- _ => destruct H | H : ex _ |- _ => destruct H end.
        eapply authentic_content; eassumption. }
      exists raw, s, d. repeat (split; [solve [auto]|]). exact De.
    + rewrite lookup_insert_neq in Q by auto. now apply D.
Qed.

Lemma sound_custody E cfg c tr : along (sound_event E cfg c) [] tr -> forall t, trusted_at tr = Some t -> custody E tr t.
Proof.
  induction tr as [|e tr IH] using rev_ind; intros A t T; [discriminate|].
  pose proof A as A0. apply along_app in A as [A1 A2]. rewrite trusted_at_snoc in T.
  destruct e; try (apply custody_more; now apply IH). inversion T; subst. clear T.
  specialize (A2 [] (EvPut t) [] eq_refl). rewrite app_nil_r in A2. destruct A2 as (raw & res & place & Ch).
  apply custody_more. destruct Ch as [raw t' N F _|t1 o t' res path v T1 S W _ J _]; cbn [app] in *.
  - apply first_initial, initial_shape in F as (root & ->). repeat split; cbn; discriminate.
  - eapply custody_step; eauto. exact (follows_reachable E c t1 (sound_follows E cfg c tr A1 t1 T1)).
Qed.

(** Two files with one description. *)
Lemma described_twice C d raw raw' : as_described C d raw -> as_described C d raw' -> raw = raw' \/ exists alg, collision C alg raw raw'.
Proof.
  intros (_ & alg & v & P & D) (_ & alg' & v' & P' & D'). destruct (string_dec raw raw') as [Q|Q]; [now left|right].
  exists alg. split; [exact Q|].
  assert (alg = alg' /\ v = v') as [<- <-].
  { destruct P as [[-> X]|(-> & X & Y)], P' as [[-> X']|(-> & X' & Y')]; rewrite X in X'; try discriminate.
    - inversion X'. auto.
    - rewrite Y in Y'. inversion Y'. auto. }
  congruence.
Qed.

Section Keys.
  Variable E : env.
  Variable w : holders.
  Variable p : published.
  Hypothesis U : unforgeable (e_crypto E) w.
  Hypothesis Files : described_files E p.

  (** Whoever lacks the timestamp keys, or the snapshot keys. *)
  Lemma snapshot_published tr root s :
    kept_role E w root Timestamp (describes_snapshot E p) \/ kept_role E w root Snapshot (published_snapshot E p) ->
    snapshot_custody E tr root s -> published_snapshot E p s \/ collision_found E p tr.
  Proof.
    intros K (raw & raw' & ts & F & TS & TT & D). destruct K as [K|K].
    - destruct (kept_authentic _ _ _ _ _ _ _ _ U K TT) as (rawp & Fp & Dp).
      destruct (described_twice _ _ _ _ D Dp) as [<-|(alg & Co)].
      + left. exists raw. split; [exact Fp|]. eapply authentic_content; exact TS.
      + right. exists alg, raw, rawp. auto.
    - left. exact (kept_authentic _ _ _ _ _ _ _ _ U K TS).
  Qed.
  Lemma role_published tr root name g :
    kept_role E w root Timestamp (describes_snapshot E p) \/ kept_role E w root Snapshot (published_snapshot E p) ->
    role_custody E tr root name g -> published_role E p name g \/ collision_found E p tr.
  Proof.
    intros K (raw & s & d & F & C & S & L & D). destruct (snapshot_published tr root s K S) as [P|P]; [|now right].
    destruct (Files s name d P L) as (rawp & Fp & Dp). destruct (described_twice _ _ _ _ D Dp) as [<-|(alg & Co)].
    - left. exists raw. auto.
    - right. exists alg, raw, rawp. split; [exact F|]. split; [right; eauto|exact Co].
  Qed.
End Keys.
