(** * C96: publishing while clients update *)
From Coq Require Import String List Arith NArith ZArith Bool Lia.
From Verif Require Import Base BaseFacts Metadata Verify Paths Tuf SpecVerify SpecTuf VerifyProofs TufProofs TufHistory
     Reader SpecReader ReaderProofs Repo Client SpecClient SpecHonest SpecLive ClientLogic ClientProofs ClientUpdates ClientHistory
     ClientTargets ClientRestart ClientHonest LiveProofs Toy ClientToy Props_Client Props_Honest.
Import ListNotations.
Open Scope string_scope.
Open Scope list_scope.
Open Scope nat_scope.

Theorem C96_publishing_while_clients_update :
  forall (E : env) (cfg : config) (P : nat -> publication) (from upto fuel : nat) (t : tuf),
  series E cfg P from upto -> reachable E t ->
  (forall i j, from <= i -> i <= j -> j <= upto -> not_ahead (mixed (P i) (P j)) t) ->
  (forall i, from <= i -> i <= upto -> (rm_version (pb_root (P i)) - rm_version (t_root t) < N.of_nat fuel)%N) ->
  (* whatever is published meanwhile *)
  (forall tr q, exec (update E cfg fuel t) tr q -> during P from from tr upto ->
   (forall c i, In (EvNow c) tr -> from <= i -> i <= upto -> current (P i) c) ->
   q <> Panic /\ q <> OutOfFuel /\
   forall t' r, q = Ret (t', r) ->
   exists i j, from <= i /\ i <= j /\ j <= upto /\ up_to_date (mixed (P i) (P j)) t' /\
     exists b, r = Ok b /\ (b = false <-> up_to_date (mixed (P i) (P j)) t)) /\
  (* and such a run there is, if everything published is served *)
  ((forall path v, exists ans, offers_at P from from path v ans) -> from <= upto ->
   (exists c, forall i, from <= i -> i <= upto -> current (P i) c) ->
   exists tr t' b, exec (update E cfg fuel t) tr (Ret (t', Ok b)) /\ during P from from tr upto /\
     forall c i, In (EvNow c) tr -> from <= i -> i <= upto -> current (P i) c).
Proof.
  intros E cfg P from upto fuel t Se R NA F.
  assert (Main : forall tr q, exec (update E cfg fuel t) tr q -> during P from from tr upto ->
   (forall c i, In (EvNow c) tr -> from <= i -> i <= upto -> current (P i) c) ->
   q <> Panic /\ q <> OutOfFuel /\
   forall t' r, q = Ret (t', r) ->
   exists i j, from <= i /\ i <= j /\ j <= upto /\ up_to_date (mixed (P i) (P j)) t' /\
     exists b, r = Ok b /\ (b = false <-> up_to_date (mixed (P i) (P j)) t)).
  { intros tr q X D Cu. destruct (as_if_still _ _ _ _ _ Se _ _ _ _ X D Cu) as (i & j & I1 & I2 & I3 & G).
    destruct (C74_honest_repository_is_followed E cfg (mixed (P i) (P j)) fuel t) as [Fo _];
      [apply Se; assumption|exact R|apply NA; assumption|cbn; apply F; lia|].
    destruct (Fo tr q X G) as (Q1 & Q2 & Q3). split; [exact Q1|]. split; [exact Q2|]. intros t' r Q.
    destruct (Q3 t' r Q) as (U & B). exists i, j. auto. }
  split; [exact Main|]. intros Sv Le (c0 & C0).
  edestruct (exec_total (fun e => event_at P from from e /\ match e with EvNow c => c = c0 | _ => True end))
    with (q := update E cfg fuel t) as (tr & q & X & G & O).
  - intros [] path v max hash; [exists (Err NotFound); split; exact I|]. destruct (Sv path v) as (ans & A). exists ans. split; [exact A|exact I].
  - intros. exists (Ok tt). split; [reflexivity|exact I].
  - intros. exists (Err NotFound). split; exact I.
  - intros. exists (Ok tt). split; exact I.
  - intros. exists None. split; exact I.
  - exists c0. split; [exact I|reflexivity].
  - intros. split; exact I.
  - assert (D : during P from from tr upto).
    { apply timed_at with upto; [|exact Le|constructor]. eapply Forall_impl; [|exact G]. intros e (A & _). exact A. }
    assert (Cu : forall c i, In (EvNow c) tr -> from <= i -> i <= upto -> current (P i) c).
    { intros c i J. rewrite Forall_forall in G. destruct (G _ J) as [_ ->]. apply C0. }
    destruct (Main tr q X D Cu) as (Q1 & Q2 & Q3).
    destruct q as [[t' r]| | | | | | | | | ]; try contradiction; try (exfalso; now (apply Q1 || apply Q2)).
    destruct (Q3 t' r eq_refl) as (i & j & _ & _ & _ & _ & b & -> & _). exists tr, t', b. auto.
Qed.
Print Assumptions C96_publishing_while_clients_update.

(** A repository that replaces all its documents, and then its root. *)
Definition root3c : root_metadata :=
  mkRoot 3 1000 true (keys_of_names ["kr2"; "kr3"; "ks"; "kg"; "kt"])
         (rd 2 ["kr2"; "kr3"]) (rd 1 ["ks"]) (rd 1 ["kg"]) (rd 1 ["kt"]).
Definition tg_new : targets_metadata := mkTargets 2 500 [("top", content_desc "hello, world")] None.
Definition sn_new := mkSnapshot 2 600 [("targets", mdesc 2 "targets2")].
Definition ldb : toydb :=
  [ ("root1", (["kr1"; "kr2"], DRoot root1));
    ("root2", (["kr1"; "kr2"; "kr3"], DRoot root2));
    ("root2c", (["kr1"; "kr2"; "kr3"], DRoot root2c));
    ("root3c", (["kr2"; "kr3"], DRoot root3c));
    ("ts1", (["kt"], DTimestamp ts_one));
    ("ts2", (["kt"], DTimestamp ts_two));
    ("snap1", (["ks"], DSnapshot sn_one));
    ("snap2", (["ks"], DSnapshot sn_new));
    ("targets1", (["kg"], DTargets ctargets1));
    ("targets2", (["kg"], DTargets tg_new)) ].
Definition El : env := toy_env ldb.
Definition live (i : nat) : publication :=
  match i with
  | 0 => mkPublication [("root1", root1); ("root2c", root2c)] root2c "ts1" ts_one "snap1" sn_one "targets1" ctargets1
  | 1 => mkPublication [("root1", root1); ("root2c", root2c)] root2c "ts2" ts_two "snap2" sn_new "targets2" tg_new
  | _ => mkPublication [("root1", root1); ("root2c", root2c); ("root3c", root3c)] root3c "ts2" ts_two "snap2" sn_new "targets2" tg_new
  end.
Definition live_repo (i : nat) : ephemeral :=
  mkEphemeral ([(("root", VNumber 1), "root1"); (("root", VNumber 2), "root2c");
                (("timestamp", VNone), match i with 0 => "ts1" | _ => "ts2" end);
                (("snapshot", VNumber 1), "snap1"); (("targets", VNumber 1), "targets1")]
               ++ (match i with 0 => [] | _ => [(("snapshot", VNumber 2), "snap2"); (("targets", VNumber 2), "targets2")] end)
               ++ (match i with 0 | 1 => [] | _ => [(("root", VNumber 3), "root3c")] end)) [].

Lemma line2 : root_line El [("root1", root1); ("root2", root2)] root2.
Proof.
  apply (line_next El [("root1", root1)] root1 "root2" root2); [constructor|].
  split; [toy_trust|]. split; [toy_trust|]. vm_compute. auto.
Qed.
Lemma line2c : root_line El [("root1", root1); ("root2c", root2c)] root2c.
Proof.
  apply (line_next El [("root1", root1)] root1 "root2c" root2c); [constructor|].
  split; [toy_trust|]. split; [toy_trust|]. vm_compute. auto.
Qed.
Lemma line3c : root_line El [("root1", root1); ("root2c", root2c); ("root3c", root3c)] root3c.
Proof.
  apply (line_next El [("root1", root1); ("root2c", root2c)] root2c "root3c" root3c); [apply line2c|].
  split; [toy_trust|]. split; [toy_trust|]. vm_compute. auto.
Qed.
Ltac live_in_order snap targets version :=
  split;
  [ first [exact line2|exact line2c|exact line3c]
  | let I := fresh in intros ? ? I; cbn in I; repeat (destruct I as [I|I]; [inversion I; subst; toy_fetch|]); destruct I
  | vm_compute; reflexivity
  | toy_trust | toy_fetch | vm_compute; discriminate
  | toy_trust | vm_compute; discriminate | vm_compute; discriminate
  | split; [reflexivity|toy_described snap]
  | toy_trust | vm_compute; discriminate | vm_compute; discriminate
  | exists (mdesc version targets); split; [reflexivity|]; split; [reflexivity|toy_described targets] ].

Lemma live_series upto : series El default_config live 0 upto.
Proof.
  split.
  - intros i j _ L _. destruct i as [|[|i]], j as [|[|j]]; try lia; cbn;
      first [now exists []|now exists [("root3c", root3c)]].
  - intros i j _ L _. destruct i as [|[|i]], j as [|[|j]]; try lia.
    + live_in_order "snap1" "targets1" 1%N.
    + live_in_order "snap2" "targets2" 2%N.
    + live_in_order "snap2" "targets2" 2%N.
    + live_in_order "snap2" "targets2" 2%N.
    + live_in_order "snap2" "targets2" 2%N.
    + live_in_order "snap2" "targets2" 2%N.
  - intros [|[|i]] _ _; reflexivity.
Qed.
Lemma live_offers i : forall path v, offers_at live 0 i path v (ephemeral_fetch_metadata (live_repo i) path v).
Proof.
  intros path v.
  assert (K : forall raw, answered (Ok (cursor raw)) raw).
  { intros raw. exists (cursor raw). split; [reflexivity|apply contains_cursor]. }
  split; [|split; [|split]].
  - intros n -> ->. destruct (N.eq_dec n 1) as [-> |N1]; [|destruct (N.eq_dec n 2) as [-> |N2]; [|destruct (N.eq_dec n 3) as [-> |N3]]].
    + left. exists "root1", root1. destruct i as [|[|i]]; (split; [now left|]; split; [reflexivity|apply K]).
    + left. exists "root2c", root2c. destruct i as [|[|i]]; (split; [right; now left|]; split; [reflexivity|apply K]).
    + destruct i as [|[|i]].
      1-2: right; split; [|reflexivity]; intros raw x [J|[J|[]]]; inversion J; subst; discriminate.
      left. exists "root3c", root3c. split; [right; right; now left|]. split; [reflexivity|apply K].
    + right. split.
      * intros raw x J. destruct i as [|[|i]]; cbn in J; repeat (destruct J as [J|J]; [inversion J; subst; cbn; congruence|]); destruct J.
      * unfold ephemeral_fetch_metadata. destruct (lookup _ _) as [b|] eqn:L; [|reflexivity]. exfalso.
        apply lookup_In in L. destruct i as [|[|i]]; cbn in L;
        repeat (destruct L as [L|L]; [inversion L; subst; congruence|]); exact L.
  - intros -> ->. destruct i as [|[|i]]; apply K.
  - intros j _ L -> ->. destruct i as [|[|i]], j as [|[|j]]; try lia; apply K.
  - intros j _ L -> ->. destruct i as [|[|i]], j as [|[|j]]; try lia; apply K.
Qed.
Lemma live_current i : current (live i) c50.
Proof.
  intros n H. cbn in H. destruct i as [|[|i]]; (repeat split); repeat (destruct H as [<-|H]; [vm_compute; reflexivity|]); destruct H.
Qed.
Lemma live_not_ahead i j : i <= j -> not_ahead (mixed (live i) (live j)) (tuf_of_root root1).
Proof.
  intros _. split; [exists "root1"; destruct i as [|[|i]]; now left|]. intros Q. destruct i as [|[|i]]; discriminate Q.
Qed.

(** Runs of [drive] while the repository does not change. *)
Lemma drive_during {A} P from i r c : (forall path v, offers_at P from i path v (ephemeral_fetch_metadata r path v)) ->
  forall n l (q : prog A) tr l' q', drive n l r c q = (tr, l', q') ->
  during P from i tr i /\ forall c', In (EvNow c') tr -> c' = c.
Proof.
  intros O. induction n as [|n IH]; intros l q tr l' q' H; cbn in H; [inversion H; split; [constructor|intros ? []]|].
  destruct q as [a| | |s path v max hash k|path v data k|path d k|path rs k|data k|k|t q]; try (inversion H; split; [constructor|intros ? []]).
  1: destruct (drive n l r c (k _)) as [[tr1 l1] q1] eqn:D; inversion H; subst; apply IH in D as [D N].
  2: rewrite store_cursor in H; destruct (drive n _ r c _) as [[tr1 l1] q1] eqn:D; inversion H; subst; apply IH in D as [D N].
  3: destruct (drive n l r c _) as [[tr1 l1] q1] eqn:D; inversion H; subst; apply IH in D as [D N].
  4: destruct (ephemeral_store_target l path rs) as [l2 ans]; destruct (drive n l2 r c _) as [[tr1 l1] q1] eqn:D;
     inversion H; subst; apply IH in D as [D N].
  5-7: destruct (drive n l r c _) as [[tr1 l1] q1] eqn:D; inversion H; subst; apply IH in D as [D N].
  all: split; [constructor; [|exact D]; try exact I; try reflexivity|intros c' [J|J]; [|now apply N]; try discriminate J; try now inversion J].
  destruct s; [exact I|apply O].
Qed.
(** [n] events at time [i], and the rest at time [j]. *)
Definition two_drives {A} (p : prog A) (r r' : ephemeral) (n m : nat) : list event * ephemeral * prog A :=
  let x := drive n ephemeral_new r c50 p in
  let y := drive m (snd (fst x)) r' c50 (snd x) in
  (fst (fst x) ++ fst (fst y), snd (fst y), snd y).
Lemma two_drives_run {A} (p : prog A) P n m i j r r' : i <= j ->
  (forall path v, offers_at P 0 i path v (ephemeral_fetch_metadata r path v)) ->
  (forall path v, offers_at P 0 j path v (ephemeral_fetch_metadata r' path v)) ->
  exec p (fst (fst (two_drives p r r' n m))) (snd (two_drives p r r' n m)) /\
  during P 0 i (fst (fst (two_drives p r r' n m))) j /\
  forall c, In (EvNow c) (fst (fst (two_drives p r r' n m))) -> c = c50.
Proof.
  intros L O O'. unfold two_drives.
  destruct (drive n ephemeral_new r c50 p) as [[tr1 l1] q1] eqn:D1. cbn [fst snd].
  destruct (drive m l1 r' c50 q1) as [[tr2 l2] q2] eqn:D2. cbn [fst snd].
  destruct (drive_during P 0 i _ _ O _ _ _ _ _ _ D1) as [A1 B1].
  destruct (drive_during P 0 j _ _ O' _ _ _ _ _ _ D2) as [A2 B2].
  apply drive_exec in D1 as [X1 _]. apply drive_exec in D2 as [X2 _].
  split; [eapply exec_app; eassumption|]. split; [eapply timed_join; [exact A1|eapply timed_later; eassumption]|].
  intros c J. apply in_app_or in J as [J|J]; auto.
Qed.
Definition two_times (n i j : nat) : list event * ephemeral * prog (tuf * result bool) :=
  two_drives (update El default_config 9 (tuf_of_root root1)) (live_repo i) (live_repo j) n 50.
Lemma two_times_run n i j : i <= j ->
  exec (update El default_config 9 (tuf_of_root root1)) (fst (fst (two_times n i j))) (snd (two_times n i j)) /\
  during live 0 i (fst (fst (two_times n i j))) j /\
  forall c, In (EvNow c) (fst (fst (two_times n i j))) -> forall k, current (live k) c.
Proof.
  intros L. destruct (two_drives_run (update El default_config 9 (tuf_of_root root1)) live n 50 i j _ _ L (live_offers i) (live_offers j))
    as (A & B & C).
  split; [exact A|]. split; [exact B|]. intros c J k. rewrite (C c J). apply live_current.
Qed.

Definition what_came (x : list event * ephemeral * prog (tuf * result bool)) : option (N * option N * option N * option N * bool) :=
  match snd x with
  | Ret (t, Ok b) => Some (rm_version (t_root t), option_map tm_version (t_timestamp t), option_map sm_version (t_snapshot t),
                           option_map tg_version (t_targets t), b)
  | _ => None
  end.

(** The hypotheses hold for a new client.  If the documents are replaced after the
    timestamp was fetched, it gets the former ones; if they are replaced earlier, the new
    ones; if also the root is replaced after the client has seen the last one, it has the
    former root and the new documents. *)
Example C96_case : forall upto,
  series El default_config live 0 upto /\ reachable El (tuf_of_root root1) /\
  (forall i j, 0 <= i -> i <= j -> j <= upto -> not_ahead (mixed (live i) (live j)) (tuf_of_root root1)) /\
  (forall i, 0 <= i -> i <= upto -> (rm_version (pb_root (live i)) - rm_version (t_root (tuf_of_root root1)) < N.of_nat 9)%N) /\
  (forall path v, exists ans, offers_at live 0 0 path v ans) /\
  (exists c, forall i, 0 <= i -> i <= upto -> current (live i) c) /\
  (forall n i j, i <= j ->
    exec (update El default_config 9 (tuf_of_root root1)) (fst (fst (two_times n i j))) (snd (two_times n i j)) /\
    during live 0 i (fst (fst (two_times n i j))) j) /\
  what_came (two_times 9 0 2) = Some (2, Some 1, Some 1, Some 1, true)%N /\
  what_came (two_times 3 0 2) = Some (3, Some 2, Some 2, Some 2, true)%N /\
  what_came (two_times 6 0 2) = Some (2, Some 2, Some 2, Some 2, true)%N.
Proof.
  intros upto. split; [apply live_series|]. split; [apply toy_start with "root1"; vm_compute; reflexivity|].
  split; [intros i j _ L _; now apply live_not_ahead|]. split; [intros [|[|i]] _ _; reflexivity|].
  split; [intros path v; eexists; apply live_offers|]. split; [exists c50; intros; apply live_current|].
  split; [intros n i j L; destruct (two_times_run n i j L) as (A & B & _); auto|].
  split; [vm_compute; reflexivity|]. split; vm_compute; reflexivity.
Qed.

(** Without consistent snapshots it can go wrong: the client asks for the snapshot, and
    gets the one of a later timestamp. *)
Definition in_turn (P : nat -> publication) : nat -> list event -> nat -> Prop := timed (fun i => good_event (P i)).

Definition plain (i : nat) : publication :=
  match i with
  | 0 => mkPublication [("root1", root1); ("root2", root2)] root2 "ts1" ts_one "snap1" sn_one "targets1" ctargets1
  | _ => mkPublication [("root1", root1); ("root2", root2)] root2 "ts2" ts_two "snap2" sn_new "targets2" tg_new
  end.
Definition plain_repo (i : nat) : ephemeral :=
  mkEphemeral ([(("root", VNumber 1), "root1"); (("root", VNumber 2), "root2")] ++
               match i with
               | 0 => [(("timestamp", VNone), "ts1"); (("snapshot", VNone), "snap1"); (("targets", VNone), "targets1")]
               | _ => [(("timestamp", VNone), "ts2"); (("snapshot", VNone), "snap2"); (("targets", VNone), "targets2")]
               end) [].
Lemma plain_in_order i j : in_order El default_config (mixed (plain i) (plain j)).
Proof.
  destruct i as [|i], j as [|j];
    [live_in_order "snap1" "targets1" 1%N|live_in_order "snap2" "targets2" 2%N|live_in_order "snap1" "targets1" 1%N|live_in_order "snap2" "targets2" 2%N].
Qed.
Lemma plain_offers i : forall path v, offers (plain i) path v (ephemeral_fetch_metadata (plain_repo i) path v).
Proof.
  intros path v.
  assert (K : forall raw, answered (Ok (cursor raw)) raw).
  { intros raw. exists (cursor raw). split; [reflexivity|apply contains_cursor]. }
  split; [|split; [|split]].
  - intros n -> ->. destruct (N.eq_dec n 1) as [-> |N1]; [|destruct (N.eq_dec n 2) as [-> |N2]].
    + left. exists "root1", root1. destruct i as [|i]; (split; [now left|]; split; [reflexivity|apply K]).
    + left. exists "root2", root2. destruct i as [|i]; (split; [right; now left|]; split; [reflexivity|apply K]).
    + right. split.
      * intros raw x J. destruct i as [|i]; cbn in J; repeat (destruct J as [J|J]; [inversion J; subst; cbn; congruence|]); destruct J.
      * unfold ephemeral_fetch_metadata. destruct (lookup _ _) as [b|] eqn:L; [|reflexivity]. exfalso.
        apply lookup_In in L. destruct i as [|i]; cbn in L;
        repeat (destruct L as [L|L]; [inversion L; subst; congruence|]); exact L.
  - intros -> ->. destruct i as [|i]; apply K.
  - intros -> ->. destruct i as [|i]; apply K.
  - intros -> ->. destruct i as [|i]; apply K.
Qed.
Lemma plain_current i : current (plain i) c50.
Proof.
  intros n H. cbn in H. destruct i as [|i]; (repeat split); repeat (destruct H as [<-|H]; [vm_compute; reflexivity|]); destruct H.
Qed.
Definition plain_run : list event * ephemeral * prog (tuf * result bool) :=
  two_drives (update El default_config 9 (tuf_of_root root1)) (plain_repo 0) (plain_repo 1) 8 50.
Lemma drive_clock {A} n : forall l r (p : prog A) tr l' q, drive n l r c50 p = (tr, l', q) -> forall c, In (EvNow c) tr -> c = c50.
Proof.
  induction n as [|n IH]; intros l r p tr l' q H c J; cbn in H; [inversion H; subst; destruct J|].
  destruct p as [a| | |s path v max hash k|path v data k|path d k|path rs k|data k|k|t p]; try (inversion H; subst; now destruct J).
  2: destruct (ephemeral_store_metadata l path v (cursor data)) as [l0 ans].
  4: destruct (ephemeral_store_target l path rs) as [l0 ans].
  all: destruct (drive n _ r c50 _) as [[tr3 l3] q3] eqn:D; inversion H; subst; destruct J as [J|J]; [try discriminate J|eauto].
  now inversion J.
Qed.
Lemma two_drives_turn {A} (p : prog A) P n m i r r' :
  (forall path v, offers (P i) path v (ephemeral_fetch_metadata r path v)) -> current (P i) c50 ->
  (forall path v, offers (P (S i)) path v (ephemeral_fetch_metadata r' path v)) -> current (P (S i)) c50 ->
  exec p (fst (fst (two_drives p r r' n m))) (snd (two_drives p r r' n m)) /\
  in_turn P i (fst (fst (two_drives p r r' n m))) (S i) /\
  forall c, In (EvNow c) (fst (fst (two_drives p r r' n m))) -> c = c50.
Proof.
  intros O C O' C'. unfold two_drives.
  destruct (drive n ephemeral_new r c50 p) as [[tr1 l1] q1] eqn:D1. cbn [fst snd].
  destruct (drive m l1 r' c50 q1) as [[tr2 l2] q2] eqn:D2. cbn [fst snd].
  pose proof (drive_good (P i) _ _ O C _ _ _ _ _ _ D1) as G1.
  pose proof (drive_good (P (S i)) _ _ O' C' _ _ _ _ _ _ D2) as G2.
  pose proof (drive_clock _ _ _ _ _ _ _ D1) as N1. pose proof (drive_clock _ _ _ _ _ _ _ D2) as N2.
  apply drive_exec in D1 as [X1 _]. apply drive_exec in D2 as [X2 _].
  split; [eapply exec_app; eassumption|]. split; [eapply timed_join; [apply timed_still; exact G1|]; apply timed_wait, timed_still, G2|].
  intros c J. apply in_app_or in J as [J|J]; auto.
Qed.
Definition failed (q : prog (tuf * result bool)) : bool := match q with Ret (_, Err _) => true | _ => false end.
Lemma failed_iff q : failed q = true -> exists t e, q = Ret (t, Err e).
Proof. destruct q as [[t [b|e]]| | | | | | | | | ]; try discriminate. eauto. Qed.
Lemma plain_fails : failed (snd plain_run) = true.
Proof. vm_compute. reflexivity. Qed.

Theorem C96_plain_names_may_fail :
  exists (E : env) (cfg : config) (P : nat -> publication) (t : tuf) (tr : list event) (t' : tuf) (e : error),
  (forall i j, pb_roots (P i) = pb_roots (P j) /\ pb_root (P i) = pb_root (P j) /\ in_order E cfg (mixed (P i) (P j))) /\
  reachable E t /\ (forall i j, not_ahead (mixed (P i) (P j)) t) /\
  (forall c i, In (EvNow c) tr -> current (P i) c) /\
  in_turn P 0 tr 1 /\ exec (update E cfg 9 t) tr (Ret (t', Err e)).
Proof.
  destruct (failed_iff _ plain_fails) as (t' & e & Y).
  destruct (two_drives_turn (update El default_config 9 (tuf_of_root root1)) plain 8 50 0 _ _ (plain_offers 0) (plain_current 0) (plain_offers 1) (plain_current 1))
    as (A & B & C).
  exists El, default_config, plain, (tuf_of_root root1), (fst (fst plain_run)), t', e.
  split; [intros i j; split; [now destruct i, j|]; split; [now destruct i, j|apply plain_in_order]|].
  split; [apply toy_start with "root1"; vm_compute; reflexivity|].
  split; [intros i j; split; [exists "root1"; destruct i; now left|]; intros H; destruct i; discriminate H|].
  split; [intros c i J; rewrite (C c J); apply plain_current|]. split; [exact B|]. rewrite <- Y. exact A.
Qed.
Print Assumptions C96_plain_names_may_fail.
