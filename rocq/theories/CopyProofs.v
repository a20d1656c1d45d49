(** * Proofs about Copy.v *)
From Coq Require Import String Ascii List NArith Bool Lia.
From Verif Require Import Base BaseFacts StringFacts Metadata Tuf Reader SpecReader ReaderProofs Repo Client SpecClient ClientLogic ClientTargets Copy SpecCopy.
Import ListNotations.
Open Scope string_scope.
Open Scope list_scope.
Open Scope N_scope.

Lemma empty_length b : (byte_length b =? 0) = true <-> b = "".
Proof. unfold byte_length. rewrite N.eqb_eq. destruct b; cbn; split; intros H; try reflexivity; try discriminate; lia. Qed.
Lemma nonempty_length b : (byte_length b =? 0) = false <-> b <> "".
Proof. rewrite <- not_true_iff_false, empty_length. reflexivity. Qed.

Lemma first_consume n : forall b, (first_bytes n b ++ consume n b)%string = b.
Proof. induction n as [|n IH]; intros [|c b]; try reflexivity. cbn. now rewrite IH. Qed.
Lemma first_length n : forall b, (n <= String.length b)%nat -> String.length (first_bytes n b) = n.
Proof. induction n as [|n IH]; intros [|c b] L; cbn in *; try lia. rewrite IH; lia. Qed.
Lemma taken_app a b : taken (a ++ b) = (taken a ++ taken b)%string.
Proof.
  induction a as [|e a IH]; [reflexivity|]. destruct e as [o [|k|n]|w]; cbn [app taken]; rewrite ?IH; try reflexivity.
  now rewrite sapp_assoc.
Qed.

Lemma copy_run ws : forall s evs x data e, copy_with s ws = (evs, x) -> contains (cp_rest s) data e ->
  (Forall no_flush evs /\ (exists r, (taken evs ++ r)%string = (cp_buf s ++ data)%string) /\
   forall o, x = inr o -> exists k, o = inr k /\ (e = Some k /\ taken evs = (cp_buf s ++ data)%string \/ write_failed evs k)) \/
  (exists evs1 w evs2, evs = evs1 ++ Flush w :: evs2 /\ Forall no_flush evs1 /\ e = None /\ taken evs1 = (cp_buf s ++ data)%string /\
   match w with
   | WPending => True
   | WFailed k => evs2 = [] /\ x = inr (inr k)
   | Took _ => evs2 = [] /\ exists n, x = inr (inl n)
   end).
Proof.
  induction ws as [|w ws IH]; intros [buf rs a] evs x data e C H; cbn [cp_rest cp_buf] in *.
  { cbn in C. inversion C; subst. left. split; [constructor|]. split; [exists (buf ++ data)%string; reflexivity|]. discriminate. }
  cbn [copy_with] in C. unfold turn in C. cbn [cp_rest cp_buf cp_amount] in C. unfold fill in C.
  destruct (byte_length buf =? 0) eqn:B; cbn [negb] in C.
  - (* the reader is asked *)
    apply empty_length in B. subst buf. cbn [append].
    inversion H; subst; clear H.
    + cbn [byte_length String.length N.of_nat N.eqb] in C. destruct w as [|k|n].
      * destruct (copy_with _ ws) as [evs' y]. inversion C; subst. right. exists [], WPending, evs'. repeat split; constructor.
      * inversion C; subst. right. exists [], (WFailed k), []. repeat split; constructor.
      * inversion C; subst. right. exists [], (Took n), []. split; [reflexivity|]. split; [constructor|]. split; [reflexivity|]. split; [reflexivity|]. eauto.
    + cbn [byte_length String.length N.of_nat N.eqb] in C. destruct w as [|k|n].
      * destruct (copy_with _ ws) as [evs' y]. inversion C; subst. right. exists [], WPending, evs'. repeat split; constructor.
      * inversion C; subst. right. exists [], (WFailed k), []. repeat split; constructor.
      * inversion C; subst. right. exists [], (Took n), []. split; [reflexivity|]. split; [constructor|]. split; [reflexivity|]. split; [reflexivity|]. eauto.
    + inversion C; subst. left. split; [constructor|]. split; [exists ""; reflexivity|]. intros o Eo. inversion Eo; subst. eauto.
    + destruct (copy_with _ ws) as [evs' y] eqn:D. inversion C; subst. cbn [app]. exact (IH _ _ _ _ _ D H0).
    + rename H0 into Nd. rename H1 into H. apply nonempty_length in Nd as Nl. rewrite Nl in C.
      destruct w as [|k|[|n]].
      * destruct (copy_with _ ws) as [evs' y] eqn:D. inversion C; subst.
        destruct (IH _ _ _ _ _ D H) as [(F & R & O)|(e1 & w' & e2 & -> & F & E & T & M)]; cbn [cp_buf] in *.
        -- left. split; [constructor; [intros w'; discriminate|exact F]|]. split; [exact R|]. intros o Eo.
           destruct (O o Eo) as (k & -> & [Q|(pre & b' & w' & -> & Q)]); exists k; split; auto.
           right. exists (Wrote d WPending :: pre), b', w'. auto.
        -- right. exists (Wrote d WPending :: e1), w', e2. split; [reflexivity|]. split; [constructor; [intros w2; discriminate|exact F]|]. auto.
      * inversion C; subst. left. split; [constructor; [intros w'; discriminate|constructor]|]. split; [eexists; reflexivity|].
        intros o Eo. inversion Eo; subst. exists k. split; [reflexivity|]. right. exists [], d, (WFailed k). auto.
      * inversion C; subst. left. split; [constructor; [intros w'; discriminate|constructor]|]. split; [eexists; reflexivity|].
        intros o Eo. inversion Eo; subst. exists IoOther. split; [reflexivity|]. right. exists [], d, (Took 0). auto.
      * destruct (copy_with _ ws) as [evs' y] eqn:D. inversion C; subst.
        pose proof (first_consume (S n) d) as FC.
        destruct (IH _ _ _ _ _ D H) as [(F & (r & R) & O)|(e1 & w' & e2 & -> & F & E & T & M)]; cbn [cp_buf] in *.
        -- left. split; [constructor; [intros w'; discriminate|exact F]|]. split.
           { exists r. cbn [taken app]. rewrite sapp_assoc, R, <- sapp_assoc, FC. reflexivity. }
           intros o Eo. destruct (O o Eo) as (k & -> & [[-> Q]|(pre & b' & w' & -> & Q)]); exists k; split; auto.
           { left. split; [reflexivity|]. cbn [taken app]. rewrite Q, <- sapp_assoc, FC. reflexivity. }
           right. exists (Wrote d (Took (S n)) :: pre), b', w'. auto.
        -- right. exists (Wrote d (Took (S n)) :: e1), w', e2. split; [reflexivity|].
           split; [constructor; [intros w2; discriminate|exact F]|]. split; [exact E|].
           split; [cbn [taken]; rewrite T, <- sapp_assoc, FC; reflexivity|]. exact M.
  - (* something is left in the buffer *)
    destruct w as [|k|[|n]]; rewrite B in C.
    + destruct (copy_with _ ws) as [evs' y] eqn:D. inversion C; subst.
      destruct (IH _ _ _ _ _ D H) as [(F & R & O)|(e1 & w' & e2 & -> & F & E & T & M)]; cbn [cp_buf] in *.
      * left. split; [constructor; [intros w'; discriminate|exact F]|]. split; [exact R|]. intros o Eo.
        destruct (O o Eo) as (k & -> & [Q|(pre & b' & w' & -> & Q)]); exists k; split; auto.
        right. exists (Wrote buf WPending :: pre), b', w'. auto.
      * right. exists (Wrote buf WPending :: e1), w', e2. split; [reflexivity|]. split; [constructor; [intros w2; discriminate|exact F]|]. auto.
    + inversion C; subst. left. split; [constructor; [intros w'; discriminate|constructor]|]. split; [eexists; reflexivity|].
      intros o Eo. inversion Eo; subst. exists k. split; [reflexivity|]. right. exists [], buf, (WFailed k). auto.
    + inversion C; subst. left. split; [constructor; [intros w'; discriminate|constructor]|]. split; [eexists; reflexivity|].
      intros o Eo. inversion Eo; subst. exists IoOther. split; [reflexivity|]. right. exists [], buf, (Took 0). auto.
    + destruct (copy_with _ ws) as [evs' y] eqn:D. inversion C; subst.
      pose proof (first_consume (S n) buf) as FC.
      destruct (IH _ _ _ _ _ D H) as [(F & (r & R) & O)|(e1 & w' & e2 & -> & F & E & T & M)]; cbn [cp_buf] in *.
      * left. split; [constructor; [intros w'; discriminate|exact F]|]. split.
        { exists r. cbn [taken app]. rewrite sapp_assoc, R, <- sapp_assoc, FC. reflexivity. }
        intros o Eo. destruct (O o Eo) as (k & -> & [[-> Q]|(pre & b' & w' & -> & Q)]); exists k; split; auto.
        { left. split; [reflexivity|]. cbn [taken app]. rewrite Q, <- sapp_assoc, FC. reflexivity. }
        right. exists (Wrote buf (Took (S n)) :: pre), b', w'. auto.
      * right. exists (Wrote buf (Took (S n)) :: e1), w', e2. split; [reflexivity|].
        split; [constructor; [intros w2; discriminate|exact F]|]. split; [exact E|].
        split; [cbn [taken]; rewrite T, <- sapp_assoc, FC; reflexivity|]. exact M.
Qed.

(** *** The count *)

Lemma copy_count ws : forall s evs x, copy_with s ws = (evs, x) -> Forall within evs ->
  match x with inl s' => cp_amount s' | inr (inl n) => n | inr (inr _) => cp_amount s + byte_length (taken evs) end
  = cp_amount s + byte_length (taken evs).
Proof.
  assert (L0 : byte_length "" = 0) by reflexivity.
  induction ws as [|w ws IH]; intros s evs x C F.
  { cbn in C. inversion C; subst. cbn [taken]. rewrite L0. lia. }
  cbn [copy_with] in C. destruct (turn s w) as [ev y] eqn:T. unfold turn in T.
  assert (Step : match y with
    | inl s' => Forall within ev -> cp_amount s' = cp_amount s + byte_length (taken ev)
    | inr (inl n) => n = cp_amount s + byte_length (taken ev)
    | inr (inr _) => True end).
  { destruct (fill (cp_buf s) (cp_rest s)) as [rest|k|buf rest].
    - inversion T; subst. cbn [cp_amount taken]. rewrite L0. lia.
    - inversion T; subst. exact I.
    - destruct (byte_length buf =? 0) eqn:B.
      + destruct w as [|k|n]; inversion T; subst; cbn [taken cp_amount]; rewrite ?L0; try exact I; try intros _; lia.
      + destruct w as [|k|[|n]]; inversion T; subst; cbn [taken cp_amount]; rewrite ?L0; try exact I; try (intros _; lia).
        intros W. inversion W as [|? ? W1 _]; subst. cbn [within] in W1.
        rewrite sapp_nil_r. unfold byte_length. rewrite first_length by exact W1. reflexivity. }
  assert (Bl : forall a b, byte_length (a ++ b) = byte_length a + byte_length b)
    by (intros; unfold byte_length; rewrite slength_app; lia).
  destruct y as [s'|o].
  - destruct (copy_with s' ws) as [evs' z] eqn:D. inversion C; subst. apply Forall_app in F as [F1 F2].
    specialize (IH _ _ _ D F2). specialize (Step F1). rewrite taken_app, Bl.
    destruct x as [s2|[n|k]]; lia.
  - inversion C; subst. destruct o as [n|k]; [exact Step|reflexivity].
Qed.

(** *** A writer that makes progress *)

Lemma copy_finishes ws : forall s data e, contains (cp_rest s) data e ->
  Forall (fun w => exists n, w = Took (S n)) ws ->
  (String.length (cp_buf s ++ data) + List.length (cp_rest s) < List.length ws)%nat ->
  exists evs o, copy_with s ws = (evs, inr o) /\ Forall prompt evs /\
                match e with None => exists n, o = inl n | Some k => o = inr k end.
Proof.
  assert (CL : forall n b, b <> "" -> (String.length (consume (S n) b) < String.length b)%nat).
  { intros n b NE. destruct b as [|c b]; [congruence|]. cbn [consume String.length].
    assert (G : forall m b, (String.length (consume m b) <= String.length b)%nat).
    { induction m as [|m IHm]; intros [|c0 b0]; cbn; auto. }
    specialize (G n b). lia. }
  induction ws as [|w ws IH]; intros [buf rs a] data e H F L; cbn [cp_rest cp_buf List.length] in *; [lia|].
  inversion F as [|? ? (n & ->) F']; subst. cbn [copy_with]. unfold turn. cbn [cp_rest cp_buf cp_amount]. unfold fill.
  rewrite slength_app in L.
  destruct (byte_length buf =? 0) eqn:B; cbn [negb].
  - apply empty_length in B. subst buf. cbn [String.length append] in L.
    inversion H; subst; clear H; cbn [List.length] in *.
    + eexists _, _. split; [reflexivity|]. split; [constructor; [discriminate|constructor]|]. eauto.
    + eexists _, _. split; [reflexivity|]. split; [constructor; [discriminate|constructor]|]. eauto.
    + eexists _, _. split; [reflexivity|]. split; [constructor|]. reflexivity.
    + destruct (IH (mkCopy "" rest a) data e H0 F') as (evs & o & D & P & O); [cbn [cp_buf cp_rest append]; lia|].
      rewrite D. exists evs, o. auto.
    + apply nonempty_length in H0 as Nl. rewrite slength_app in L. rewrite Nl.
      destruct (IH (mkCopy (consume (S n) d) rest (a + N.of_nat (S n))) b e H1 F') as (evs & o & D & P & O).
      { cbn [cp_buf cp_rest]. rewrite slength_app. specialize (CL n d H0). lia. }
      rewrite D. eexists _, o. split; [reflexivity|]. split; [constructor; [discriminate|exact P]|exact O].
  - rewrite B. apply nonempty_length in B as NE.
    destruct (IH (mkCopy (consume (S n) buf) rs (a + N.of_nat (S n))) data e H F') as (evs & o & D & P & O).
    { cbn [cp_buf cp_rest]. rewrite slength_app. specialize (CL n buf NE). lia. }
    rewrite D. eexists _, o. split; [reflexivity|]. split; [constructor; [discriminate|exact P]|exact O].
Qed.

(** *** The copy of Client.v *)

Lemma copy_exec rs : forall data e, contains rs data e ->
  (exists tr, exec (copy_to_writer rs) tr (Ret match e with None => Ok tt | Some k => Err (of_io k) end) /\ written tr = data) /\
  (forall k, data <> "" -> exists tr, exec (copy_to_writer rs) tr (Ret (Err (of_io k)))).
Proof.
  intros data e H. induction H as [|rest|k rest|rest b e H IH|d rest b e NE H IH]; cbn [copy_to_writer].
  - split; [exists []; split; [constructor|reflexivity]|]. intros k Q. congruence.
  - cbn. split; [exists []; split; [constructor|reflexivity]|]. intros k Q. congruence.
  - split; [exists []; split; [constructor|reflexivity]|]. intros k' Q. congruence.
  - exact IH.
  - apply nonempty_length in NE as ->. destruct IH as [(tr & X & W) _]. split.
    + exists (EvWrite d None :: tr). split; [constructor; exact X|]. cbn. now rewrite W.
    + intros k _. exists [EvWrite d (Some k)]. constructor. constructor.
Qed.

(** *** What a checked reader can deliver *)

Lemma checked_deliverable C rs : forall s, sr_read s <= sr_max s ->
  sr_read s + deliverable (checked_stream C s rs) <= sr_max s.
Proof.
  assert (L0 : byte_length "" = 0) by reflexivity.
  assert (Z : forall s, sr_read s <= sr_max s -> sr_read s + deliverable [fst (safe_poll C s (Ready ""))] <= sr_max s).
  { intros s L. unfold safe_poll. rewrite L0. cbn [N.eqb]. destruct (sr_hasher s) as [[[alg fed] ex]|];
    [destruct (String.eqb _ _)|]; cbn [negb fst deliverable]; rewrite ?L0; lia. }
  induction rs as [|[|k|d] rs IH]; intros s L; cbn [checked_stream].
  - now apply Z.
  - cbn [safe_poll deliverable]. now apply IH.
  - cbn [safe_poll deliverable]. lia.
  - unfold safe_poll. destruct (byte_length d =? 0) eqn:B.
    + apply N.eqb_eq in B. destruct (sr_hasher s) as [[[alg fed] ex]|].
      * destruct (String.eqb _ _); cbn [negb deliverable]; [|lia]. rewrite L0.
        specialize (IH (mkSafe (sr_max s) None (sr_read s)) L). cbn [sr_read sr_max] in IH. lia.
      * cbn [deliverable]. rewrite L0. specialize (IH s L). lia.
    + destruct ((sr_read s + byte_length d <=? u64_max) && (sr_read s + byte_length d <=? sr_max s)) eqn:Q; cbn [deliverable]; [|lia].
      apply andb_prop in Q as [_ Q]. apply N.leb_le in Q.
      match goal with |- context [checked_stream C ?s' rs] => specialize (IH s') end. cbn [sr_read sr_max] in IH. specialize (IH Q). lia.
Qed.

Lemma checked_target_deliverable C d hash ans rs : checked_target C (td_length d) hash ans = Ok rs ->
  deliverable rs <= td_length d.
Proof.
  unfold checked_target. intros H. apply rbind_Ok in H as (src & _ & H). apply rbind_Ok in H as (s & S & H).
  inversion H; subst. unfold safe_new in S. apply rbind_Ok in S as (h & _ & S). inversion S; subst.
  pose proof (checked_deliverable C src (mkSafe (td_length d) h 0)) as Q. cbn [sr_read sr_max] in Q. lia.
Qed.

(** The writer never gets more than the reader delivers. *)
Lemma copy_deliverable ws : forall s evs x, copy_with s ws = (evs, x) ->
  byte_length (taken evs) <= byte_length (cp_buf s) + deliverable (cp_rest s).
Proof.
  assert (L0 : byte_length "" = 0) by reflexivity.
  assert (Bl : forall a b, byte_length (a ++ b) = byte_length a + byte_length b)
    by (intros; unfold byte_length; rewrite slength_app; lia).
  assert (FC : forall n b, byte_length (first_bytes n b) + byte_length (consume n b) = byte_length b).
  { intros n b. rewrite <- Bl. now rewrite first_consume. }
  induction ws as [|w ws IH]; intros [buf rs a] evs x C; cbn [cp_buf cp_rest].
  { cbn in C. inversion C; subst. cbn [taken]. rewrite L0. lia. }
  cbn [copy_with] in C. unfold turn in C. cbn [cp_rest cp_buf cp_amount] in C.
  assert (Fi : match fill buf rs with
    | Waits rest => deliverable rest <= byte_length buf + deliverable rs
    | Breaks _ => True
    | Has b rest => byte_length b + deliverable rest <= byte_length buf + deliverable rs end).
  { unfold fill. destruct (byte_length buf =? 0) eqn:B; cbn [negb]; [|lia].
    destruct rs as [|[|k|d] rs]; cbn [deliverable]; rewrite ?L0; try exact I; lia. }
  destruct (fill buf rs) as [rest|k|b rest].
  - destruct (copy_with _ ws) as [evs' y] eqn:D. inversion C; subst. apply IH in D. cbn [cp_buf cp_rest] in D. rewrite L0 in D. cbn [app]. lia.
  - inversion C; subst. cbn [taken]. rewrite L0. lia.
  - destruct (byte_length b =? 0).
    + destruct w as [|k|n].
      * destruct (copy_with _ ws) as [evs' y] eqn:D. inversion C; subst. apply IH in D. cbn [cp_buf cp_rest taken app] in *. rewrite L0 in D. lia.
      * inversion C; subst. cbn [taken]. rewrite L0. lia.
      * inversion C; subst. cbn [taken]. rewrite L0. lia.
    + destruct w as [|k|[|n]].
      * destruct (copy_with _ ws) as [evs' y] eqn:D. inversion C; subst. apply IH in D. cbn [cp_buf cp_rest taken app] in *. lia.
      * inversion C; subst. cbn [taken]. rewrite L0. lia.
      * inversion C; subst. cbn [taken first_bytes append]. rewrite L0. lia.
      * destruct (copy_with _ ws) as [evs' y] eqn:D. inversion C; subst. apply IH in D. cbn [cp_buf cp_rest taken app] in *.
        rewrite Bl. specialize (FC (S n) b). lia.
Qed.
