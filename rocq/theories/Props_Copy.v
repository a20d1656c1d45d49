(** * C101: writing a target to any writer *)
From Coq Require Import String List NArith ZArith Bool Lia.
From Verif Require Import Base BaseFacts StringFacts Metadata Tuf Reader SpecReader Repo Client SpecClient ClientLogic ClientTargets Copy SpecCopy CopyProofs Toy ClientToy.
Import ListNotations.
Open Scope string_scope.
Open Scope list_scope.
Open Scope N_scope.

(** ** Any reader, any writer *)

(** Whatever the reader and the writer answer, and whenever the copy is dropped: until the
    first flush the writer has accepted a beginning of what the reader contains, nothing
    twice and nothing left out.  It is flushed only when it has accepted everything.  The
    copy fails only with the failure of the reader, once all before it has been written,
    with the failure of a write or a flush, or with a write that accepts nothing. *)
Theorem C101_nothing_lost_nothing_twice :
  forall (rs : stream) (data : bytes) (e : option io_kind) (ws : list wreply) (evs : list wevent) (x : copying + (N + io_kind)),
  contains rs data e -> copy rs ws = (evs, x) -> Forall prompt evs ->
  exists rest, (taken evs ++ rest)%string = data /\
    ((exists w pre, evs = pre ++ [Flush w]) -> rest = "" /\ e = None) /\
    (forall n, x = inr (inl n) -> rest = "" /\ e = None /\
       exists pre m, evs = pre ++ [Flush (Took m)] /\ Forall no_flush pre) /\
    (forall k, x = inr (inr k) -> e = Some k /\ rest = "" \/ write_failed evs k \/ flush_failed evs k /\ rest = "").
Proof.
  intros rs data e ws evs x H C P. destruct (copy_run ws _ _ _ _ _ C H) as [(F & (r & R) & O)|(e1 & w & e2 & -> & F & -> & T & M)];
    cbn [cp_buf append] in *.
  - exists r. split; [exact R|]. split; [|split].
    + intros (w & pre & ->). apply Forall_app in F as [_ F]. inversion F; subst. exfalso. eapply H2. reflexivity.
    + intros n E. destruct (O _ E) as (k & Q & _). discriminate.
    + intros k E. destruct (O _ E) as (k' & Q & [[-> Q2]|W]); inversion Q; subst; auto.
      left. split; [reflexivity|]. apply (sapp_cancel_l (taken evs)). now rewrite sapp_nil_r.
  - destruct w as [|k|m].
    + apply Forall_app in P as [_ P]. inversion P; subst. exfalso. apply H2. reflexivity.
    + destruct M as [-> ->]. exists "". rewrite taken_app, T. cbn [taken]. rewrite !sapp_nil_r. split; [reflexivity|].
      split; [auto|]. split; [discriminate|]. intros k' E. inversion E; subst. right. right. split; [eexists; reflexivity|reflexivity].
    + destruct M as [-> (n & ->)]. exists "". rewrite taken_app, T. cbn [taken]. rewrite !sapp_nil_r. split; [reflexivity|].
      split; [auto|]. split; [|discriminate]. intros n' _. split; [reflexivity|]. split; [reflexivity|]. exists e1, m. auto.
Qed.
Print Assumptions C101_nothing_lost_nothing_twice.

Example C101_nothing_lost_case :
  let rs := [Ready "hel"; Pending; Ready "lo"; Ready ""] in
  let ws := [Took 2; WPending; Took 1; Took 9; Took 1; WPending; Took 1; Took 0] in
  contains rs "hello" None /\
  copy rs ws = ([Wrote "hel" (Took 2); Wrote "l" WPending; Wrote "l" (Took 1); Wrote "lo" (Took 1); Wrote "o" WPending;
                 Wrote "o" (Took 1); Flush (Took 0)], inr (inl 5)).
Proof.
  cbv zeta. split; [|vm_compute; reflexivity].
  apply (contains_data "hel" _ "lo"); [discriminate|]. apply contains_pending.
  apply (contains_data "lo" _ ""); [discriminate|]. apply contains_zero.
Qed.

(** The number that the copy returns is what the writer accepted, if the writer does not
    claim more than it was given. *)
Theorem C101_the_count_is_right :
  forall (rs : stream) (ws : list wreply) (evs : list wevent) (n : N),
  copy rs ws = (evs, inr (inl n)) -> Forall within evs -> n = byte_length (taken evs).
Proof. intros rs ws evs n C F. exact (copy_count ws _ _ _ C F). Qed.
Print Assumptions C101_the_count_is_right.

(** A writer that accepts something each time it is asked gets everything, in a bounded
    number of turns; the copy then ends as the reader does. *)
Theorem C101_a_working_writer_gets_everything :
  forall (rs : stream) (data : bytes) (e : option io_kind) (ws : list wreply),
  contains rs data e -> Forall (fun w => exists n, w = Took (S n)) ws ->
  (String.length data + List.length rs < List.length ws)%nat ->
  exists evs o, copy rs ws = (evs, inr o) /\ taken evs = data /\
                match e with None => exists n, o = inl n | Some k => o = inr k end.
Proof.
  intros rs data e ws H F L. destruct (copy_finishes ws (mkCopy "" rs 0) data e H F L) as (evs & o & C & P & O).
  exists evs, o. split; [exact C|]. split; [|exact O].
  destruct (C101_nothing_lost_nothing_twice rs data e ws evs _ H C P) as (rest & R & _ & Ok & Er).
  enough (rest = "") by (subst rest; now rewrite sapp_nil_r in R).
  destruct o as [n|k]; [now destruct (Ok n eq_refl)|].
  destruct e as [k'|]; [|destruct O; discriminate]. inversion O; subst k'.
  destruct (Er k eq_refl) as [[_ Q]|[(pre & b & w & E & Q)|[_ Q]]]; auto. exfalso.
  (* every answer is [Took (S n)] *)
  assert (A : forall ws s evs x, copy_with s ws = (evs, x) -> Forall (fun w => exists n, w = Took (S n)) ws ->
              Forall (fun ev => forall b w, ev = Wrote b w -> exists n, w = Took (S n)) evs).
  { clear. induction ws as [|w ws IH]; intros s evs x C F; [inversion C; constructor|].
    inversion F as [|? ? (n & ->) F']; subst. cbn [copy_with] in C. destruct (turn s _) as [ev y] eqn:T.
    assert (G : Forall (fun ev => forall b w, ev = Wrote b w -> exists n, w = Took (S n)) ev).
    { unfold turn in T. destruct (fill _ _) as [r|k|b r]; [inversion T; constructor|inversion T; constructor|].
      destruct (byte_length b =? 0); inversion T; subst; (constructor; [|constructor]); intros b' w' E; inversion E; subst; eauto. }
    destruct y as [s'|o]; [|inversion C; subst; exact G].
    destruct (copy_with s' ws) as [evs' z] eqn:D. inversion C; subst. apply Forall_app. split; [exact G|]. eapply IH; eauto. }
  specialize (A _ _ _ _ C F). subst evs. apply Forall_app in A as [_ A]. inversion A as [|? ? A1 _]; subst.
  destruct (A1 _ _ eq_refl) as (n & ->). destruct Q as [Q|[Q _]]; discriminate.
Qed.
Print Assumptions C101_a_working_writer_gets_everything.

Example C101_working_case :
  snd (copy [Ready "ab"; Failed IoTimedOut] (repeat (Took 1) 5)) = inr (inr IoTimedOut) /\
  snd (copy [Ready "ab"; Pending] (repeat (Took 1) 5)) = inr (inl 2).
Proof. split; vm_compute; reflexivity. Qed.

(** ** As the client has it *)

(** The simpler copy of Client.v, where a write takes all or fails and there is no flush,
    has a run for everything that this one does, except for flushes that wait: with the
    same result, and if that is success with the same bytes. *)
Theorem C101_the_client_model_covers_it :
  forall (rs : stream) (ws : list wreply) (evs : list wevent) (o : N + io_kind),
  copy rs ws = (evs, inr o) -> Forall prompt evs -> ~ (exists k, flush_failed evs k) ->
  exists tr, exec (copy_to_writer rs) tr (Ret match o with inl _ => Ok tt | inr k => Err (of_io k) end) /\
             ((exists n, o = inl n) -> written tr = taken evs).
Proof.
  intros rs ws evs o C P NF. destruct (ReaderProofs.contains_total rs) as (data & e & H).
  destruct (copy_exec rs data e H) as [(tr & X & W) Xe].
  destruct (C101_nothing_lost_nothing_twice rs data e ws evs _ H C P) as (rest & R & _ & Ok & Er).
  destruct o as [n|k].
  - destruct (Ok n eq_refl) as (-> & -> & _). exists tr. split; [exact X|]. intros _. now rewrite W, <- R, sapp_nil_r.
  - destruct (Er k eq_refl) as [[-> Q]|[Wf|[Ff _]]].
    + exists tr. split; [exact X|]. intros (n & Q'). discriminate.
    + assert (NE : data <> "").
      { destruct Wf as (pre & b & w & E & _). intros ->.
        assert (B : forall ws s evs x, copy_with s ws = (evs, x) -> contains (cp_rest s) "" e -> cp_buf s = "" -> Forall prompt evs ->
                    forall b w, ~ In (Wrote b w) evs).
        { clear. induction ws as [|w ws IH]; intros [buf rs a] evs x C H B P b' w' I; [inversion C; subst; destruct I|].
          cbn [cp_buf cp_rest] in *. subst buf. cbn [copy_with] in C. unfold turn, fill in C. cbn [cp_buf cp_rest cp_amount] in C.
          inversion H; subst; clear H; cbn in C.
          - destruct w; [destruct (copy_with _ ws)|..]; inversion C; subst; [|destruct I as [I|[]]; discriminate|destruct I as [I|[]]; discriminate].
            inversion P; subst. now apply H1.
          - destruct w; [destruct (copy_with _ ws)|..]; inversion C; subst; [|destruct I as [I|[]]; discriminate|destruct I as [I|[]]; discriminate].
            inversion P; subst. now apply H1.
          - inversion C; subst. destruct I.
          - destruct (copy_with _ ws) as [evs' z] eqn:D. inversion C; subst. revert I. apply (IH _ _ _ D); auto.
          - destruct d; [congruence|discriminate]. }
        exfalso. apply (B ws (mkCopy "" rs 0) evs _ C H eq_refl P b w). rewrite E. apply in_or_app. right. now left. }
      destruct (Xe k NE) as (tr' & X'). exists tr'. split; [exact X'|]. intros (n & Q'). discriminate.
    + exfalso. apply NF. exists k. exact Ff.
Qed.
Print Assumptions C101_the_client_model_covers_it.

(** ** What ends up in the writer *)

(** If [fetch_target_to_writer] reports success, the writer has accepted exactly an authentic
    content of the target, and the number of bytes is right.  This is so if no flush had to
    wait, and in any case if the length in the description is the length of all contents
    that have its hash. *)
Theorem C101_any_writer_gets_authentic_content_partial :
  forall (E : env) (cfg : config) (fuel : nat) (t t' : tuf) (target : string) (tr : list event) (rs : stream)
         (ws : list wreply) (evs : list wevent) (n : N),
  exec (fetch_target_reader E cfg fuel t target) tr (Ret (t', Ok rs)) ->
  copy rs ws = (evs, inr (inl n)) -> Forall within evs ->
  exists d path src, t' = t /\ listed cfg t target d /\ target_place t target d path /\
    In (EvFetchTarget path d (Ok src)) tr /\
    (Forall prompt evs \/ (forall b, target_authentic (e_crypto E) d b -> byte_length b = td_length d) ->
     contains src (taken evs) None /\ target_authentic (e_crypto E) d (taken evs) /\ n = byte_length (taken evs)).
Proof.
  intros E cfg fuel t t' target tr rs ws evs n X C F.
  destruct (reader_cases E cfg fuel t target) as [(d & p' & hash & L & P & HP & Q)|H].
  - rewrite Q in X. inversion X; subst. destruct (checked_target _ _ _ ans) as [rs0|er] eqn:CT;
      (match goal with Y : exec (Ret _) _ _ |- _ => inversion Y; subst end).
    destruct (checked_target_authentic _ _ _ _ _ HP CT) as (src & -> & A).
    exists d, p', src. split; [reflexivity|]. split; [exact L|]. split; [exact P|]. split; [now left|].
    intros D. pose proof (copy_count ws _ _ _ C F) as N. cbn [cp_amount] in N. rewrite N.add_0_l in N.
    enough (B : contains rs (taken evs) None) by (destruct (A _ B); auto).
    destruct (ReaderProofs.contains_total rs) as (data & e & H).
    destruct (copy_run ws _ _ _ _ _ C H) as [(_ & _ & O)|(e1 & w & e2 & -> & _ & -> & Tk & M)].
    { destruct (O _ eq_refl) as (k & Q' & _). discriminate. }
    cbn [cp_buf append] in Tk. destruct w as [|k|m].
    + destruct D as [D|D].
      { apply Forall_app in D as [_ D]. inversion D; subst. exfalso. now apply H2. }
      destruct (A _ H) as [_ Au]. specialize (D _ Au).
      apply copy_deliverable in C. cbn [cp_buf cp_rest] in C. apply checked_target_deliverable in CT.
      change (byte_length "") with 0 in C. rewrite taken_app in *. cbn [taken] in *. rewrite Tk in *.
      unfold byte_length in C, D. rewrite slength_app in C.
      assert (Z : String.length (taken e2) = 0%nat) by lia. destruct (taken e2); [|discriminate]. now rewrite sapp_nil_r.
    + destruct M as [_ M]. discriminate.
    + destruct M as [-> _]. rewrite taken_app, Tk. cbn [taken]. now rewrite sapp_nil_r.
  - exfalso. apply exec_quiet in X as [_ X]; [|exact H]. discriminate X.
Qed.
Print Assumptions C101_any_writer_gets_authentic_content_partial.

(** A client of a repository that describes a target as longer than it is. *)
Definition loose : target_desc := mkTargetDesc 10 [(Sha512, "5hello")] None.
Definition El : env := toy_env (("targets1", (["kg"], DTargets (mkTargets 1 500 [("top", loose)] None))) :: crepo).
Definition started_l : list event * ephemeral * prog (result tuf) :=
  drive 50 ephemeral_new remote1 c50 (construct El default_config 9 (FromRoot "root1")).
Definition updated_l : list event * ephemeral * prog (tuf * result bool) :=
  drive 50 (snd (fst started_l)) remote1 c50 (update El default_config 9 t_started).
Definition t_loose : tuf := fst (result_of updated_l (t_started, Err NotFound)).

Lemma life_loose : life El default_config 9 (FromRoot "root1") (fst (fst started_l) ++ fst (fst updated_l)) t_loose.
Proof.
  assert (T : tuf_after t_started (fst (fst updated_l)) = t_loose) by (vm_compute; reflexivity).
  assert (E1 : snd started_l = Ret (Ok t_started)) by (vm_compute; reflexivity).
  assert (E2 : snd updated_l = Ret (t_loose, Ok true)) by (vm_compute; reflexivity).
  rewrite <- T. eapply life_call with (k := CallUpdate).
  - apply life_new. destruct started_l as [[tr l] q] eqn:S. cbn [fst snd] in *. rewrite <- E1.
    now apply drive_exec in S as [X _].
  - cbn [call_prog]. unfold forget. destruct updated_l as [[tr l] q] eqn:S. cbn [fst snd] in *.
    apply drive_exec in S as [X _]. rewrite <- (app_nil_r tr). rewrite E2 in X.
    eapply exec_bind; [exact X|]. constructor.
Qed.

Definition first_end : stream := [Ready "hello"; Ready ""; Ready "evil"; Ready ""].

(** Without that: the hash is checked when the reader reports its end the first time.  If
    the flush then waits, the reader is asked again, and what it delivers now is written
    too, up to the described length, with success as the result. *)
Theorem C101_any_writer_gets_authentic_content_refuted :
  exists (E : env) (cfg : config) (fuel : nat) (c : ctor) (tr0 : list event) (t : tuf) (target : string) (tr : list event)
         (rs : stream) (ws : list wreply) (evs : list wevent) (n : N) (d : target_desc),
  life E cfg fuel c tr0 t /\ exec (fetch_target_reader E cfg fuel t target) tr (Ret (t, Ok rs)) /\ listed cfg t target d /\
  copy rs ws = (evs, inr (inl n)) /\ Forall within evs /\
  taken evs = "helloevil" /\ ~ target_authentic (e_crypto E) d (taken evs).
Proof.
  exists El, default_config, 9%nat, (FromRoot "root1"), (fst (fst started_l) ++ fst (fst updated_l)), t_loose, "top",
    [EvFetchTarget "top" loose (Ok first_end)],
    (first_end ++ [Ready ""]), [Took 5; WPending; Took 4; Took 0],
    [Wrote "hello" (Took 5); Flush WPending; Wrote "evil" (Took 4); Flush (Took 0)], 9, loose.
  split; [exact life_loose|]. split.
  { destruct (reader_cases El default_config 9 t_loose "top") as [(d & p' & hash & L & P & HP & ->)|H].
    - destruct L as (tg & virt & L1 & L2 & L3).
      assert (T1 : t_targets t_loose = Some (mkTargets 1 500 [("top", loose)] None)) by (vm_compute; reflexivity).
      rewrite T1 in L1. inversion L1; subst tg. inversion L2; subst virt. inversion L3; subst d.
      assert (p' = "top") by (unfold target_place in P; replace (rm_consistent (t_root t_loose)) with false in P by (vm_compute; reflexivity); exact P).
      subst p'. assert (hash = (Sha512, "5hello")) by (inversion HP; reflexivity). subst hash.
      constructor.
      replace (checked_target (e_crypto El) (td_length loose) (Sha512, "5hello") (Ok first_end)) with (@Ok stream (first_end ++ [Ready ""])) by (vm_compute; reflexivity).
      constructor.
    - exfalso. destruct (drive 50 (snd (fst updated_l)) remote1 c50 (fetch_target_reader El default_config 9 t_loose "top")) as [[tr l] q] eqn:D.
      assert (G : match q with Ret (_, Ok _) => True | _ => False end).
      { change q with (snd (tr, l, q)). rewrite <- D. vm_compute. exact I. }
      apply drive_exec in D as [X _]. apply exec_quiet in X as [_ X]; [|exact H].
      destruct q as [[t0 [rs|er]]| | | | | | | | |]; try contradiction. discriminate X. }
  split.
  { exists (mkTargets 1 500 [("top", loose)] None), "top". split; [vm_compute; reflexivity|]. split; reflexivity. }
  split; [vm_compute; reflexivity|]. split; [repeat constructor; cbn; lia|]. split; [reflexivity|].
  intros (_ & alg & value & P & Q). destruct P as [[-> P]|[-> [P _]]]; [|discriminate P].
  rewrite <- Q in P. vm_compute in P. discriminate P.
Qed.
Print Assumptions C101_any_writer_gets_authentic_content_refuted.

(** The same writer with the right description: the copy fails, or the content is right. *)
Example C101_authentic_case :
  let y := drive 50 local_updated remote1 c50 (fetch_target_reader Ec default_config 9 t_updated "top") in
  match result_of y (t_updated, Err NotFound) with
  | (_, Ok rs) => copy rs [Took 2; WPending; Took 3; Took 0] =
      ([Wrote "hello" (Took 2); Wrote "llo" WPending; Wrote "llo" (Took 3); Flush (Took 0)], inr (inl 5))
  | _ => False
  end /\
  match checked_target (e_crypto Ec) 5 (Sha512, "5hello") (Ok first_end) with
  | Ok rs => snd (copy rs [Took 5; WPending; Took 4; Took 0]) = inr (inr IoInvalidData)
  | _ => False
  end.
Proof. vm_compute. split; reflexivity. Qed.
