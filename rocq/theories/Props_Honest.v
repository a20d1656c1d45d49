(** * C74, C75, C76: clients of repositories that are in order

    Safety alone would be met by a client that refuses everything.  Here the remote
    repository offers what it should, and the client has to follow it. *)
From Coq Require Import String List NArith ZArith Bool Lia.
From Verif Require Import Base BaseFacts Metadata Verify Paths Tuf SpecVerify SpecTuf VerifyProofs TufProofs TufHistory
     Reader SpecReader Repo Client SpecClient SpecHonest ClientLogic ClientProofs ClientUpdates ClientHistory ClientTargets
     ClientRestart ClientHonest Toy ClientToy Props_Client.
Import ListNotations.
Open Scope string_scope.
Open Scope list_scope.
Open Scope N_scope.

(** ** C74 *)

(** What it means that updates go well from [t] on. *)
Definition follows_repository (E : env) (cfg : config) (p : publication) (fuel : nat) (t : tuf) : Prop :=
  (* whatever a well-behaved world answers, [update] does not panic and ends, if it is run
     to its end, with the published metadata; it says whether there was anything new *)
  (forall tr q, exec (update E cfg fuel t) tr q -> Forall (good_event p) tr ->
     q <> Panic /\ q <> OutOfFuel /\
     forall t' r, q = Ret (t', r) ->
       up_to_date p t' /\ exists b, r = Ok b /\ (b = false <-> up_to_date p t)) /\
  (* and it does end *)
  (exists tr t' b, exec (update E cfg fuel t) tr (Ret (t', Ok b)) /\ Forall (good_event p) tr).

Theorem C74_honest_repository_is_followed :
  forall (E : env) (cfg : config) (p : publication) (fuel : nat) (t : tuf),
  in_order E cfg p -> reachable E t -> not_ahead p t ->
  rm_version (pb_root p) - rm_version (t_root t) < N.of_nat fuel ->
  follows_repository E cfg p fuel t.
Proof.
  intros E cfg p fuel t OK R NA F. apply reachable_inv in R as HI. split.
  - intros tr q X G. destruct (honest_runs E cfg p fuel t tr q OK HI NA F X G) as (Q1 & Q2 & Q3).
    split; [exact Q1|]. split; [exact Q2|]. intros t' r Q. destruct (Q3 t' r Q) as (U & b & ->).
    split; [exact U|]. exists b. split; [reflexivity|]. subst q.
    destruct (C45_update_reports_truthfully _ _ _ _ _ _ _ X) as (_ & B1 & B2). split.
    + intros B. now rewrite (B1 B) in U.
    + intros (U1 & U2 & U3 & U4). destruct U as (V1 & V2 & V3 & V4). destruct b; [|reflexivity]. exfalso.
      destruct (B2 eq_refl) as [N|[N|[N|N]]]; apply N; congruence.
  - destruct (good_total p (update E cfg fuel t)) as (tr & q & X & G & O).
    destruct (honest_runs E cfg p fuel t tr q OK HI NA F X G) as (Q1 & Q2 & Q3).
    destruct q as [[t' r]| | | | | | | | | ]; try contradiction; try (exfalso; now (apply Q1 || apply Q2)).
    destruct (Q3 t' r eq_refl) as (_ & b & ->). exists tr, t', b. auto.
Qed.
Print Assumptions C74_honest_repository_is_followed.

(** The toy repository, twice: with plain names, and with consistent snapshots. *)
Definition ts_one := mkTimestamp 1 300 (mdesc 1 "snap1").
Definition ts_two := mkTimestamp 2 300 (mdesc 2 "snap2").
Definition sn_one := mkSnapshot 1 600 [("targets", mdesc 1 "targets1"); ("alice", mdesc 1 "alice1"); ("bob", mdesc 1 "bob1")].
Definition sn_two := mkSnapshot 2 600 [("targets", mdesc 1 "targets1"); ("alice", mdesc 1 "alice1")].
Definition pub1 (name : string) (r : root_metadata) : publication :=
  mkPublication [("root1", root1); (name, r)] r "ts1" ts_one "snap1" sn_one "targets1" ctargets1.
Definition pub2 : publication :=
  mkPublication [("root1", root1); ("root2", root2)] root2 "ts2" ts_two "snap2" sn_two "targets1" ctargets1.

(** Only what has been published. *)
Definition hrepo : toydb :=
  [ ("root1", (["kr1"; "kr2"], DRoot root1));
    ("root2", (["kr1"; "kr2"; "kr3"], DRoot root2));
    ("ts1", (["kt"], DTimestamp ts_one));
    ("ts2", (["kt"], DTimestamp ts_two));
    ("snap1", (["ks"], DSnapshot sn_one));
    ("snap2", (["ks"], DSnapshot sn_two));
    ("targets1", (["kg"], DTargets ctargets1)) ].
Definition Eh : env := toy_env hrepo.

Lemma toy_trusted E root r raw m :
  verify_signatures E r raw (rd_threshold (role_def_of root r))
    (listed_keys (rm_keys root) (rd_key_ids (role_def_of root r))) = Ok m -> trusted_by E root r raw m.
Proof. apply verify_signatures_iff. Qed.

Ltac toy_trust := apply toy_trusted; vm_compute; reflexivity.
Ltac toy_fetch := split; [let m := fresh in let M := fresh in intros m M; inversion M; subst|]; vm_compute; discriminate.
Ltac toy_described name := split; [vm_compute; discriminate|]; exists Sha256, ("2" ++ name)%string;
  split; [right; repeat split; reflexivity|reflexivity].
Ltac toy_in_order root r snap targets :=
  split;
  [ apply (line_next _ [("root1", root1)] root1 root r);
    [constructor|split; [toy_trust|]; split; [toy_trust|]; vm_compute; auto]
  | let I := fresh in intros ? ? I; destruct I as [I|[I|[]]]; inversion I; subst; toy_fetch
  | vm_compute; reflexivity
  | toy_trust | toy_fetch | vm_compute; discriminate
  | toy_trust | vm_compute; discriminate | vm_compute; discriminate
  | split; [reflexivity|toy_described snap]
  | toy_trust | vm_compute; discriminate | vm_compute; discriminate
  | exists (mdesc 1 targets); split; [reflexivity|]; split; [reflexivity|toy_described targets] ].

Lemma pub1_in_order : in_order Ec default_config (pub1 "root2" root2).
Proof. toy_in_order "root2" root2 "snap1" "targets1". Qed.
Lemma pub1c_in_order : in_order Ec default_config (pub1 "root2c" root2c).
Proof. toy_in_order "root2c" root2c "snap1" "targets1". Qed.
Lemma pub2_in_order : in_order Eh default_config pub2.
Proof. toy_in_order "root2" root2 "snap2" "targets1". Qed.

Lemma toy_start E raw r : from_trusted_root E raw = Ok (tuf_of_root r) -> reachable E (tuf_of_root r).
Proof. intros H. exists (tuf_of_root r), []. split; [right; eauto|reflexivity]. Qed.

(** New clients of both. *)
Example C74_case_new : forall name r, In (name, r) [("root2", root2); ("root2c", root2c)] ->
  in_order Ec default_config (pub1 name r) /\ reachable Ec (tuf_of_root root1) /\ not_ahead (pub1 name r) (tuf_of_root root1).
Proof.
  intros name r I. split; [|split].
  - destruct I as [I|[I|[]]]; inversion I; [apply pub1_in_order|apply pub1c_in_order].
  - apply toy_start with "root1". vm_compute. reflexivity.
  - split; [exists "root1"; now left|]. intros H. destruct I as [I|[I|[]]]; inversion I; subst; discriminate.
Qed.

(** The in-memory repositories of the examples are such repositories, and the runs of
    [drive] are such runs. *)
Lemma drive_good {A} p r c : (forall path v, offers p path v (ephemeral_fetch_metadata r path v)) -> current p c ->
  forall n l (q : prog A) tr l' q', drive n l r c q = (tr, l', q') -> Forall (good_event p) tr.
Proof.
  intros O K. induction n as [|n IH]; intros l q tr l' q' H; cbn in H; [inversion H; constructor|].
  destruct q as [a| | |s path v max hash k|path v data k|path d k|path rs k|data k|k|t q]; try (inversion H; constructor).
  1: destruct (drive n l r c (k _)) as [[tr1 l1] q1] eqn:D; inversion H; subst; constructor; [|eauto];
     destruct s; [exact I|apply O].
  1: rewrite store_cursor in H; destruct (drive n _ r c _) as [[tr1 l1] q1] eqn:D; inversion H; subst; constructor; [reflexivity|eauto].
  1: destruct (drive n l r c _) as [[tr1 l1] q1] eqn:D; inversion H; subst; constructor; [exact I|eauto].
  1: destruct (ephemeral_store_target l path rs) as [l2 ans]; destruct (drive n l2 r c _) as [[tr1 l1] q1] eqn:D;
     inversion H; subst; constructor; [exact I|eauto].
  1-3: destruct (drive n l r c _) as [[tr1 l1] q1] eqn:D; inversion H; subst; constructor; [first [exact I|exact K]|eauto].
Qed.

Lemma served_offers name r : In (name, r) [("root2", root2); ("root2c", root2c)] ->
  forall path v, offers (pub1 name r) path v (ephemeral_fetch_metadata (served name "ts1") path v).
Proof.
  intros I path v.
  assert (K : forall raw, answered (Ok (cursor raw)) raw).
  { intros raw. exists (cursor raw). split; [reflexivity|apply contains_cursor]. }
  split; [|repeat split].
  - intros n -> ->. destruct (N.eq_dec n 1) as [-> |N1]; [|destruct (N.eq_dec n 2) as [-> |N2]].
    + left. exists "root1", root1. split; [now left|]. split; [reflexivity|apply K].
    + left. exists name, r. split; [right; now left|]. split; [|apply K].
      destruct I as [I|[I|[]]]; inversion I; reflexivity.
    + right. split.
      * intros raw x [J|[J|[]]]; inversion J; subst; [exact (fun H => N1 (eq_sym H))|].
        destruct I as [I|[I|[]]]; inversion I; subst; exact (fun H => N2 (eq_sym H)).
      * unfold ephemeral_fetch_metadata. destruct (lookup _ _) as [b|] eqn:L; [|reflexivity]. exfalso.
        apply lookup_In in L. cbn in L.
        repeat (destruct L as [L|L]; [inversion L; subst; congruence|]). exact L.
  - intros -> ->. apply K.
  - intros -> ->. destruct I as [I|[I|[]]]; inversion I; apply K.
  - intros -> ->. destruct I as [I|[I|[]]]; inversion I; apply K.
Qed.

Lemma current50 : current (pub1 "root2" root2) c50 /\ current (pub1 "root2c" root2c) c50 /\ current pub2 c50.
Proof.
  repeat split; cbn in H; repeat (destruct H as [<-|H]); try contradiction; vm_compute; reflexivity.
Qed.

Example C74_case_run : forall name r, In (name, r) [("root2", root2); ("root2c", root2c)] ->
  let x := drive 50 ephemeral_new (served name "ts1") c50 (update Ec default_config 9 (tuf_of_root root1)) in
  let t := mkTuf r (Some sn_one) (Some ctargets1) (Some ts_one) [] in
  exec (update Ec default_config 9 (tuf_of_root root1)) (fst (fst x)) (Ret (t, Ok true)) /\
  Forall (good_event (pub1 name r)) (fst (fst x)) /\ up_to_date (pub1 name r) t.
Proof.
  intros name r I x t.
  assert (Q : snd x = Ret (t, Ok true)).
  { subst x t. destruct I as [I|[I|[]]]; inversion I; subst; vm_compute; reflexivity. }
  pose proof (served_offers name r I) as O.
  assert (K : current (pub1 name r) c50).
  { destruct current50 as (K1 & K2 & _). destruct I as [I|[I|[]]]; inversion I; subst; assumption. }
  pose proof (@drive_good (tuf * result bool) (pub1 name r) (served name "ts1") c50 O K 50%nat ephemeral_new
                (update Ec default_config 9 (tuf_of_root root1))) as G.
  pose proof (@drive_exec (tuf * result bool) 50%nat ephemeral_new (served name "ts1") c50
                (update Ec default_config 9 (tuf_of_root root1))) as X.
  fold x in G, X. destruct x as [[tr l] q]. cbn [fst snd] in *. subst q.
  split; [exact (proj1 (X _ _ _ eq_refl))|]. split; [exact (G _ _ _ eq_refl)|]. repeat split.
Qed.

(** ** C75 *)

(** A client that has been through anything, as long as nobody else has the current keys
    and the repository has kept all roots that are signed by the line of its roots. *)
Theorem C75_recovery :
  forall (E : env) (cfg : config) (p : publication) (fuel : nat) (c : ctor) (tr : list event) (t : tuf),
  in_order E cfg p -> nobody_else_signs E p ->
  (forall raw t0, first_trust E c raw t0 -> exists raw', In (raw', t_root t0) (pb_roots p)) ->
  life E cfg fuel c tr t ->
  rm_version (pb_root p) < N.of_nat fuel ->
  follows_repository E cfg p fuel t.
Proof.
  intros E cfg p fuel c tr t OK N F L Fu. apply life_sound in L as [A T].
  pose proof (sound_follows _ _ _ _ A t T) as Fo.
  apply C74_honest_repository_is_followed; auto.
  - exact (follows_reachable E c t Fo).
  - exact (follows_not_ahead E c p t N F Fo).
  - lia.
Qed.
Print Assumptions C75_recovery.

(** All documents of the toy world are the published ones and the older ones. *)
Lemma toy_document db r raw th keys m : authentic (toy_env db) r raw th keys m ->
  exists signers d, In (raw, (signers, d)) db /\ toy_decode r d = Ok m.
Proof.
  intros (_ & sigs & signed & msg & H1 & H2 & _ & H3). cbn in H1, H2, H3. inversion H2; subst msg. clear H2.
  destruct (lookup raw db) as [[sg d]|] eqn:L; inversion H1; subst. rewrite L in H3. exists sg, d.
  split; [now apply lookup_In|exact H3].
Qed.
Ltac toy_documents H := apply toy_document in H; destruct H as (? & ? & H & ?); cbn in H;
  repeat (destruct H as [H|H]; [inversion H; subst; cbn in *|]); try contradiction; try discriminate.

Lemma pub2_nobody_else : nobody_else_signs Eh pub2.
Proof.
  split; [|split; [|split]].
  - intros raw r raw' r' I (T & _ & V & _). toy_documents T;
      match goal with Q : Ok _ = Ok _ |- _ => inversion Q; subst end; cbn in V;
      (exists "root1"; left; reflexivity) || (exists "root2"; right; left; reflexivity).
  - intros raw ts T. toy_documents T; match goal with Q : Ok _ = Ok _ |- _ => inversion Q; subst end;
      (split; [vm_compute; discriminate|]); intros X; (reflexivity || (vm_compute in X; discriminate)).
  - intros raw s T. toy_documents T; match goal with Q : Ok _ = Ok _ |- _ => inversion Q; subst end;
      intros X; (reflexivity || (vm_compute in X; discriminate)).
  - intros raw g T. toy_documents T; match goal with Q : Ok _ = Ok _ |- _ => inversion Q; subst end;
      intros X; (reflexivity || (vm_compute in X; discriminate)).
Qed.

(** A client that was shown nothing but the old metadata by somebody in between. *)
Definition stale : ephemeral :=
  mkEphemeral [(("root", VNumber 1), "root1"); (("timestamp", VNone), "ts1"); (("snapshot", VNone), "snap1");
               (("targets", VNone), "targets1")] [].
Definition misled : list event * ephemeral * prog (tuf * result bool) :=
  drive 50 ephemeral_new stale c50 (update Eh default_config 9 (tuf_of_root root1)).
Definition t_misled : tuf := mkTuf root1 (Some sn_one) (Some ctargets1) (Some ts_one) [].

Example C75_case : exists tr, life Eh default_config 9 (FromRoot "root1") tr t_misled /\
  in_order Eh default_config pub2 /\ nobody_else_signs Eh pub2 /\
  (forall raw t0, first_trust Eh (FromRoot "root1") raw t0 -> exists raw', In (raw', t_root t0) (pb_roots pub2)) /\
  rm_version (pb_root pub2) < 9 /\ ~ up_to_date pub2 t_misled.
Proof.
  set (s := drive 50 ephemeral_new stale c50 (construct Eh default_config 9 (FromRoot "root1"))).
  assert (S : snd s = Ret (Ok (tuf_of_root root1))) by (vm_compute; reflexivity).
  assert (U : snd misled = Ret (t_misled, Ok true)) by (vm_compute; reflexivity).
  assert (T : tuf_after (tuf_of_root root1) (fst (fst misled)) = t_misled) by (vm_compute; reflexivity).
  exists (fst (fst s) ++ fst (fst misled)). split; [|split; [|split; [|split; [|split]]]].
  - rewrite <- T. eapply life_call with (k := CallUpdate).
    + apply life_new. rewrite <- S. subst s. destruct (drive _ _ _ _ (construct _ _ _ _)) as [[tr l] q] eqn:D.
      cbn [fst snd] in *. now apply drive_exec in D as [X _].
    + cbn [call_prog]. unfold forget. rewrite <- (app_nil_r (fst (fst misled))).
      eapply exec_bind; [|constructor]. rewrite <- U. unfold misled.
      destruct (drive _ _ _ _ (update _ _ _ _)) as [[tr l] q] eqn:D. cbn [fst snd]. now apply drive_exec in D as [X _].
  - apply pub2_in_order.
  - apply pub2_nobody_else.
  - intros raw t0 [-> F]. vm_compute in F. inversion F. exists "root1". now left.
  - vm_compute. reflexivity.
  - intros (R & _). discriminate R.
Qed.

(** ** C76 *)

Theorem C76_honest_downloads :
  forall (E : env) (cfg : config) (fuel : nat) (t : tuf) (path path' : string) (d : target_desc) (data : bytes),
  fuel <> O -> t_snapshot t <> None ->
  listed cfg t path d -> target_place t path d path' ->
  target_authentic (e_crypto E) d data -> length_ok u64_max data ->
  (* the target is stored in the local repository *)
  (forall tr q, exec (fetch_target E cfg fuel t path) tr q -> Forall (good_download path' data) tr ->
     q <> Panic /\ q <> OutOfFuel /\
     forall t' r, q = Ret (t', r) -> t' = t /\ r = Ok tt /\
       exists src rs, tr = [EvFetchTarget path' d (Ok src); EvStoreTarget path rs (Ok tt)] /\ contains rs data None) /\
  (exists tr, exec (fetch_target E cfg fuel t path) tr (Ret (t, Ok tt)) /\ Forall (good_download path' data) tr) /\
  (* or handed to the writer *)
  (forall tr q, exec (fetch_target_to_writer E cfg fuel t path) tr q -> Forall (good_download path' data) tr ->
     q <> Panic /\ q <> OutOfFuel /\
     forall t' r, q = Ret (t', r) -> t' = t /\ r = Ok tt /\ written tr = data) /\
  (exists tr, exec (fetch_target_to_writer E cfg fuel t path) tr (Ret (t, Ok tt)) /\ Forall (good_download path' data) tr).
Proof.
  intros E cfg fuel t path path' d data Fu Sn Li Pl Au L64.
  destruct (reader_honest E cfg fuel t path d path' data Fu Sn Li Pl Au L64) as (hash & R & HR).
  assert (A1 : forall tr q, exec (fetch_target E cfg fuel t path) tr q -> Forall (good_download path' data) tr ->
     q <> Panic /\ q <> OutOfFuel /\
     forall t' r, q = Ret (t', r) -> t' = t /\ r = Ok tt /\
       exists src rs, tr = [EvFetchTarget path' d (Ok src); EvStoreTarget path rs (Ok tt)] /\ contains rs data None).
  { intros tr q X G. unfold fetch_target in X. rewrite R in X. cbn [bind] in X.
    inversion X; subst; [repeat split; discriminate|]. inversion G; subst.
    match goal with H : good_download _ _ _ |- _ => cbn in H; specialize (H eq_refl); pose proof H as An end.
    destruct (HR _ An) as (rs & CT & B). destruct An as (src & -> & _). 
    match goal with H : exec _ tr0 q |- _ => rewrite CT in H; inversion H; subst end; [repeat split; discriminate|].
    match goal with H : Forall _ (_ :: _) |- _ => inversion H; subst end.
    match goal with H : Forall _ (EvStoreTarget _ _ _ :: _) |- _ => inversion H; subst end.
    match goal with H : good_download _ _ (EvStoreTarget _ _ _) |- _ => cbn in H; specialize (H (ex_intro _ data B)); subst end.
    match goal with H : exec (Ret _) _ _ |- _ => inversion H; subst end.
    repeat split; try discriminate; try congruence.
    match goal with H : Ret _ = Ret _ |- _ => inversion H; subst end. exists src, rs. auto. }
  assert (A2 : forall tr q, exec (fetch_target_to_writer E cfg fuel t path) tr q -> Forall (good_download path' data) tr ->
     q <> Panic /\ q <> OutOfFuel /\
     forall t' r, q = Ret (t', r) -> t' = t /\ r = Ok tt /\ written tr = data).
  { intros tr q X G. unfold fetch_target_to_writer in X. rewrite R in X. cbn [bind] in X.
    inversion X; subst; [repeat split; discriminate|]. inversion G; subst.
    match goal with H : good_download _ _ _ |- _ => cbn in H; specialize (H eq_refl); pose proof H as An end.
    destruct (HR _ An) as (rs & CT & B).
    match goal with H : exec _ tr0 q |- _ => rewrite CT in H; rename H into Y end.
    assert (W : Forall (fun e => forall b a, e = EvWrite b a -> a = None) tr0).
    { eapply Forall_impl; [|eassumption]. intros e Ge b a ->. exact Ge. }
    apply exec_bind_inv in Y as [(q0 & Y & Q)|(r0 & tr1 & tr2 & -> & Y & Z)].
    - destruct (copy_honest rs data tr0 q0 B Y W) as (Q1 & Q2 & Q3). subst q.
      destruct q0; cbn [bind]; try (repeat split; discriminate); try contradiction; try (now destruct Q1); try (now destruct Q2).
      split; [discriminate|]. split; [discriminate|]. intros t' r Q. inversion Q; subst.
      destruct (Q3 _ eq_refl) as [-> Q']. cbn [written]. auto.
    - apply Forall_app in W as [W _]. destruct (copy_honest rs data tr1 _ B Y W) as (_ & _ & Q3).
      destruct (Q3 _ eq_refl) as [-> Q']. inversion Z; subst. split; [discriminate|]. split; [discriminate|].
      intros t' r Q. inversion Q; subst. cbn [written]. rewrite app_nil_r. auto. }
  assert (G : forall A (q : prog A), exists tr q', exec q tr q' /\ Forall (good_download path' data) tr /\ over q').
  { intros A q. apply exec_total; intros.
    - now exists (Err NotFound).
    - now exists (Ok tt).
    - exists (Ok (cursor data)). intros _. exists (cursor data). split; [reflexivity|apply contains_cursor].
    - now exists (Ok tt).
    - now exists None.
    - now exists c50.
    - exact I. }
  split; [exact A1|]. split; [|split; [exact A2|]].
  - destruct (G _ (fetch_target E cfg fuel t path)) as (tr & q & X & F & O). destruct (A1 tr q X F) as (Q1 & Q2 & Q3).
    destruct q as [[t' r]| | | | | | | | | ]; try contradiction; try (exfalso; now (apply Q1 || apply Q2)).
    destruct (Q3 t' r eq_refl) as (-> & -> & _). eauto.
  - destruct (G _ (fetch_target_to_writer E cfg fuel t path)) as (tr & q & X & F & O). destruct (A2 tr q X F) as (Q1 & Q2 & Q3).
    destruct q as [[t' r]| | | | | | | | | ]; try contradiction; try (exfalso; now (apply Q1 || apply Q2)).
    destruct (Q3 t' r eq_refl) as (-> & -> & _). eauto.
Qed.
Print Assumptions C76_honest_downloads.

(** With plain names and with hash prefixes. *)
Example C76_case : forall t path', In (t, path')
    [(mkTuf root2 (Some sn_one) (Some ctargets1) (Some ts_one) [], "top");
     (mkTuf root2c (Some sn_one) (Some ctargets1) (Some ts_one) [], "3568656c6c6f.top")] ->
  t_snapshot t <> None /\ listed default_config t "top" (content_desc "hello") /\
  target_place t "top" (content_desc "hello") path' /\
  target_authentic (e_crypto Ec) (content_desc "hello") "hello" /\ length_ok u64_max "hello" /\
  lookup path' (ep_targets (served "root2" "ts1")) = Some "hello".
Proof.
  intros t path' I.
  assert (P : preferred (td_hashes (content_desc "hello")) Sha512 "5hello") by (left; split; reflexivity).
  destruct I as [I|[I|[]]]; inversion I; subst; (split; [discriminate|]);
    (split; [exists ctargets1, "top"; repeat split; reflexivity|]);
    (split; [try reflexivity|]);
    try (split; [split; [vm_compute; discriminate|exists Sha512, "5hello"; split; [exact P|reflexivity]]|
                 split; [vm_compute; discriminate|vm_compute; reflexivity]]).
  exists Sha512, "5hello". split; [exact P|vm_compute; reflexivity].
Qed.

(** ** C77 *)

(** What a successful [update] has done: all requests were answered with documents, except
    the last one for a root, of which [stop] holds; everything was stored; the timestamp
    that the repository offers now is signed by the trusted root, and of the trusted
    version; the metadata are complete. *)
Definition thorough (E : env) (cfg : config) (stop : result stream -> Prop) (tr : list event) (t' : tuf) : Prop :=
  Forall (went_well stop (t_root t')) tr /\
  (exists ans, In (EvFetchMeta Remote "root" (VNumber (rm_version (t_root t') + 1)) (cf_max_root cfg) None ans) tr /\
     stop ans) /\
  (exists ans raw ts, In (EvFetchMeta Remote "timestamp" VNone (cf_max_timestamp cfg) None ans) tr /\
     answered ans raw /\ trusted_by E (t_root t') Timestamp raw ts /\ tm_version ts = timestamp_version t') /\
  complete t'.

Theorem C77_success_is_thorough_partial :
  forall (E : env) (cfg : config) (fuel : nat) (t t' : tuf) (tr : list event) (b : bool),
  positive_versions (e_ic E) -> reachable E t ->
  exec (update E cfg fuel t) tr (Ret (t', Ok b)) ->
  thorough E cfg (fun ans => no_such ans \/ broken_off ans) tr t'.
Proof.
  intros E cfg fuel t t' tr b Pos R X. apply reachable_inv in R.
  destruct (wp_sound DT _ _ _ X _ [] (update_done E cfg Pos fuel t R) (along_true _ _)) as [_ W].
  cbn [wp app fst snd] in W. destruct (W b eq_refl) as ((_ & W1 & W2) & W3 & W4).
  assert (K : forall ans, read_metadata (e_crypto E) (cf_max_root cfg) None ans = Err NotFound -> no_such ans \/ broken_off ans).
  { intros ans. apply read_not_found. }
  split; [|split; [|split; [|exact W4]]].
  - eapply Forall_impl; [|exact W1]. intros [] G; cbn in *; auto. destruct G as [G|(G1 & G2 & G3)]; auto.
  - destruct W2 as (_ & ans & I & A). exists ans. auto.
  - destruct W3 as (ans & raw & ts & I & A & G). exists ans, raw, ts. split; [exact I|]. split; [|exact G]. eapply read_ok_answered; exact A.
Qed.
Print Assumptions C77_success_is_thorough_partial.

(** Answers of the remote repository given by a function; everything is stored. *)
Fixpoint drive_with {A} (n : nat) (remote : string -> meta_version -> result stream) (c : clock) (p : prog A)
  : list event * prog A :=
  match n, p with
  | S n, FetchMeta s path v max hash k =>
      let (tr, q) := drive_with n remote c (k (remote path v)) in (EvFetchMeta s path v max hash (remote path v) :: tr, q)
  | S n, StoreMeta path v data k => let (tr, q) := drive_with n remote c (k (Ok tt)) in (EvStoreMeta path v data (Ok tt) :: tr, q)
  | S n, Now k => let (tr, q) := drive_with n remote c (k c) in (EvNow c :: tr, q)
  | S n, Put t p => let (tr, q) := drive_with n remote c p in (EvPut t :: tr, q)
  | _, _ => ([], p)
  end.
Lemma drive_with_exec {A} n remote c : forall (p : prog A), exec p (fst (drive_with n remote c p)) (snd (drive_with n remote c p)).
Proof.
  induction n as [|n IH]; intros p; [destruct p; constructor|].
  destruct p as [a| | |s path v max hash k|path v data k|path d k|path rs k|data k|k|t q]; cbn; try constructor;
    match goal with |- context [drive_with n remote c ?x] => specialize (IH x); destruct (drive_with n remote c x) as [tr q'] end;
    cbn in *; now constructor.
Qed.

(** Version 3 of the root exists, but its download breaks off. *)
Definition cut_off (path : string) (v : meta_version) : result stream :=
  if (path =? "root")%string then Ok [Ready "roo"; Failed IoNotFound]
  else ephemeral_fetch_metadata remote1 path v.

Lemma toy_updated_reachable : reachable Ec t_updated.
Proof.
  pose proof life_updated as L. apply life_sound in L as [A T].
  exact (follows_reachable _ _ _ (sound_follows _ _ _ _ A _ T)).
Qed.

Theorem C77_success_is_thorough_refuted :
  exists (E : env) (cfg : config) (fuel : nat) (t t' : tuf) (tr : list event) (b : bool),
  positive_versions (e_ic E) /\ reachable E t /\ exec (update E cfg fuel t) tr (Ret (t', Ok b)) /\
  ~ thorough E cfg no_such tr t'.
Proof.
  set (x := drive_with 50 cut_off c50 (update Ec default_config 9 t_updated)).
  exists Ec, default_config, 9%nat, t_updated, t_updated, (fst x), false.
  split; [apply toy_positive; reflexivity|]. split; [exact toy_updated_reachable|]. split.
  - assert (Q : snd x = Ret (t_updated, Ok false)) by (vm_compute; reflexivity). rewrite <- Q. apply drive_with_exec.
  - intros (_ & (ans & I & S) & _). unfold no_such in S. subst ans.
    assert (Y : existsb (fun e => match e with EvFetchMeta _ _ _ _ _ (Err NotFound) => true | _ => false end) (fst x) = false)
      by (vm_compute; reflexivity).
    assert (Z : existsb (fun e => match e with EvFetchMeta _ _ _ _ _ (Err NotFound) => true | _ => false end) (fst x) = true).
    { apply existsb_exists. eexists. split; [exact I|reflexivity]. }
    rewrite Y in Z. discriminate.
Qed.
Print Assumptions C77_success_is_thorough_refuted.

(** The ordinary case. *)
Example C77_case : positive_versions (e_ic Ec) /\ reachable Ec t_started /\
  exec (update Ec default_config 9 t_started) (fst (fst updated)) (Ret (t_updated, Ok true)) /\
  Exists (fun e => exists ans, e = EvFetchMeta Remote "root" (VNumber 3) (cf_max_root default_config) None ans /\ no_such ans)
    (fst (fst updated)).
Proof.
  split; [apply toy_positive; reflexivity|]. split; [|split].
  - assert (S : t_started = tuf_of_root root1) by (vm_compute; reflexivity). rewrite S. apply toy_start with "root1".
    vm_compute. reflexivity.
  - destruct updated_ok as (_ & Q & _). rewrite <- Q. unfold updated.
    destruct (drive _ _ _ _ (update _ _ _ _)) as [[tr l] q] eqn:D. cbn [fst snd]. now apply drive_exec in D as [X _].
  - vm_compute. do 4 apply Exists_cons_tl. 
    repeat first [apply Exists_cons_hd; eexists; split; reflexivity|apply Exists_cons_tl].
Qed.
