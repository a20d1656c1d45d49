(** * Running clients in a concrete world, for the examples *)
From Coq Require Import String List NArith ZArith Bool.
From Verif Require Import Base Metadata Verify Paths Tuf Reader SpecReader Repo Client SpecClient ClientLogic Toy.
Import ListNotations.
Open Scope string_scope.
Open Scope list_scope.
Open Scope N_scope.

(** Both repositories are in memory, the writer takes everything, the clock stands
    still; at most [n] events. *)
Fixpoint drive {A} (n : nat) (l r : ephemeral) (c : clock) (p : prog A) : list event * ephemeral * prog A :=
  match n with
  | O => ([], l, p)
  | S n =>
      match p with
      | Ret _ | Panic | OutOfFuel => ([], l, p)
      | FetchMeta s path v max hash k =>
          let ans := ephemeral_fetch_metadata (match s with Local => l | Remote => r end) path v in
          let '(tr, l', q) := drive n l r c (k ans) in (EvFetchMeta s path v max hash ans :: tr, l', q)
      | StoreMeta path v data k =>
          let (l1, ans) := ephemeral_store_metadata l path v (cursor data) in
          let '(tr, l', q) := drive n l1 r c (k ans) in (EvStoreMeta path v data ans :: tr, l', q)
      | FetchTarget path d k =>
          let ans := ephemeral_fetch_target r path in
          let '(tr, l', q) := drive n l r c (k ans) in (EvFetchTarget path d ans :: tr, l', q)
      | StoreTarget path rs k =>
          let (l1, ans) := ephemeral_store_target l path rs in
          let '(tr, l', q) := drive n l1 r c (k ans) in (EvStoreTarget path rs ans :: tr, l', q)
      | Write data k =>
          let '(tr, l', q) := drive n l r c (k None) in (EvWrite data None :: tr, l', q)
      | Now k => let '(tr, l', q) := drive n l r c (k c) in (EvNow c :: tr, l', q)
      | Put t p => let '(tr, l', q) := drive n l r c p in (EvPut t :: tr, l', q)
      end
  end.

Lemma drive_exec {A} n : forall l r c (p : prog A) tr l' q, drive n l r c p = (tr, l', q) ->
  exec p tr q /\ in_memory l tr l'.
Proof.
  induction n as [|n IH]; intros l r c p tr l' q H; cbn in H; [inversion H; subst; split; constructor|].
  destruct p as [a| | |s path v max hash k|path v data k|path d k|path rs k|data k|k|t p];
    try (inversion H; subst; split; constructor).
  - destruct (drive n l r c _) as [[tr1 l1] q1] eqn:D. inversion H; subst. apply IH in D as [X M].
    split; [now constructor|]. apply in_memory_cons with l; [|exact M]. destruct s; cbn; auto.
  - destruct (ephemeral_store_metadata l path v (cursor data)) as [l1 ans] eqn:S.
    destruct (drive n l1 r c _) as [[tr1 l2] q1] eqn:D. inversion H; subst. apply IH in D as [X M].
    split; [now constructor|]. now apply in_memory_cons with l1.
  - destruct (drive n l r c _) as [[tr1 l1] q1] eqn:D. inversion H; subst. apply IH in D as [X M].
    split; [now constructor|]. now apply in_memory_cons with l.
  - destruct (ephemeral_store_target l path rs) as [l1 ans] eqn:S.
    destruct (drive n l1 r c _) as [[tr1 l2] q1] eqn:D. inversion H; subst. apply IH in D as [X M].
    split; [now constructor|]. now apply in_memory_cons with l1.
  - destruct (drive n l r c _) as [[tr1 l1] q1] eqn:D. inversion H; subst. apply IH in D as [X M].
    split; [now constructor|]. now apply in_memory_cons with l.
  - destruct (drive n l r c _) as [[tr1 l1] q1] eqn:D. inversion H; subst. apply IH in D as [X M].
    split; [now constructor|]. now apply in_memory_cons with l.
  - destruct (drive n l r c _) as [[tr1 l1] q1] eqn:D. inversion H; subst. apply IH in D as [X M].
    split; [now constructor|]. now apply in_memory_cons with l.
Qed.

(** The result of a program that has been run. *)
Definition result_of {A} (x : list event * ephemeral * prog A) (dflt : A) : A :=
  match snd x with Ret a => a | _ => dflt end.

(** ** A repository whose documents list the right hashes *)

Definition mdesc (v : N) (name : string) : meta_desc :=
  mkMetaDesc v 10 [(Sha256, ("2" ++ name)%string)].
Definition content_desc (content : string) : target_desc :=
  mkTargetDesc (N.of_nat (String.length content)) [(Sha512, ("5" ++ content)%string)] None.

Definition ctargets1 : targets_metadata :=
  mkTargets 1 500 [("top", content_desc "hello")]
    (Some (mkDelegations (keys_of_names ["kd"]) [deleg "alice" false ["kd"] ["a/"]])).
Definition calice1 : targets_metadata :=
  mkTargets 1 400 [("a/x", content_desc "world")]
    (Some (mkDelegations (keys_of_names ["kd"]) [deleg "bob" true ["kd"] ["a/b/"]])).
Definition cbob1 : targets_metadata := mkTargets 1 400 [("a/b/y", content_desc "deep")] None.

(** The last root there can be. *)
Definition root_max : root_metadata :=
  mkRoot u32_max 1000 false (keys_of_names ["kr1"; "kr2"; "ks"; "kg"; "kt"])
         (rd 2 ["kr1"; "kr2"]) (rd 1 ["ks"]) (rd 1 ["kg"]) (rd 1 ["kt"]).
Definition root_before_max : root_metadata :=
  mkRoot (u32_max - 1) 1000 false (keys_of_names ["kr1"; "kr2"; "ks"; "kg"; "kt"])
         (rd 2 ["kr1"; "kr2"]) (rd 1 ["ks"]) (rd 1 ["kg"]) (rd 1 ["kt"]).
Definition root2c : root_metadata :=
  mkRoot 2 1000 true (keys_of_names ["kr2"; "kr3"; "ks"; "kg"; "kt"])
         (rd 2 ["kr2"; "kr3"]) (rd 1 ["ks"]) (rd 1 ["kg"]) (rd 1 ["kt"]).

Definition crepo : toydb :=
  [ ("root1", (["kr1"; "kr2"], DRoot root1));
    ("root2", (["kr1"; "kr2"; "kr3"], DRoot root2));
    ("root2c", (["kr1"; "kr2"; "kr3"], DRoot root2c));
    ("rootmax", (["kr1"; "kr2"], DRoot root_max));
    ("rootmax-1", (["kr1"; "kr2"], DRoot root_before_max));
    ("ts1", (["kt"], DTimestamp (mkTimestamp 1 300 (mdesc 1 "snap1"))));
    ("ts2", (["kt"], DTimestamp (mkTimestamp 2 300 (mdesc 2 "snap2"))));
    (* the same snapshot version, with the hash of another document *)
    ("ts2-other", (["kt"], DTimestamp (mkTimestamp 2 300 (mdesc 1 "other"))));
    ("snap1", (["ks"], DSnapshot (mkSnapshot 1 600 [("targets", mdesc 1 "targets1"); ("alice", mdesc 1 "alice1");
                                                    ("bob", mdesc 1 "bob1")])));
    ("snap2", (["ks"], DSnapshot (mkSnapshot 2 600 [("targets", mdesc 1 "targets1"); ("alice", mdesc 1 "alice1")])));
    ("targets1", (["kg"], DTargets ctargets1));
    ("alice1", (["kd"], DTargets calice1));
    ("bob1", (["kd"], DTargets cbob1)) ].
Definition Ec : env := toy_env crepo.

Definition served (root2 ts : string) : ephemeral :=
  mkEphemeral [(("root", VNumber 1), "root1"); (("root", VNumber 2), root2); (("timestamp", VNone), ts);
               (("snapshot", VNone), "snap1"); (("snapshot", VNumber 1), "snap1");
               (("targets", VNone), "targets1"); (("targets", VNumber 1), "targets1");
               (("alice", VNone), "alice1"); (("alice", VNumber 1), "alice1");
               (("bob", VNone), "bob1"); (("bob", VNumber 1), "bob1")]
              [("top", "hello"); ("a/x", "world"); ("a/b/y", "deep");
               ("3568656c6c6f.top", "hello")].
Definition remote1 : ephemeral := served "root2" "ts1".

(** A client with this remote repository and an empty local one, constructed and
    updated. *)
Definition started : list event * ephemeral * prog (result tuf) :=
  drive 50 ephemeral_new remote1 c50 (construct Ec default_config 9 (FromRoot "root1")).
Definition t_started : tuf := match result_of started (Err NotFound) with Ok t => t | Err _ => tuf_of_root root1 end.
Definition updated : list event * ephemeral * prog (tuf * result bool) :=
  drive 50 (snd (fst started)) remote1 c50 (update Ec default_config 9 t_started).
Definition t_updated : tuf := fst (result_of updated (t_started, Err NotFound)).
Definition local_updated : ephemeral := snd (fst updated).

Example updated_ok :
  snd started = Ret (Ok t_started) /\ snd updated = Ret (t_updated, Ok true) /\
  t_root t_updated = root2 /\ t_targets t_updated = Some ctargets1 /\
  ep_metadata local_updated =
    [(("targets", VNone), "targets1"); (("snapshot", VNone), "snap1"); (("timestamp", VNone), "ts1");
     (("root", VNumber 2), "root2"); (("root", VNone), "root2")].
Proof. vm_compute. repeat split; reflexivity. Qed.

Lemma life_updated : life Ec default_config 9 (FromRoot "root1") (fst (fst started) ++ fst (fst updated)) t_updated.
Proof.
  assert (T : tuf_after t_started (fst (fst updated)) = t_updated) by (vm_compute; reflexivity).
  rewrite <- T. destruct updated_ok as (E1 & E2 & _). eapply life_call with (k := CallUpdate).
  - apply life_new. destruct started as [[tr l] q] eqn:S. cbn [fst snd] in *. rewrite <- E1.
    now apply drive_exec in S as [X _].
  - cbn [call_prog]. unfold forget. destruct updated as [[tr l] q] eqn:S. cbn [fst snd] in *.
    apply drive_exec in S as [X _]. rewrite <- (app_nil_r tr). rewrite E2 in X.
    eapply exec_bind; [exact X|]. constructor.
Qed.
