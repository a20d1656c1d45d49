(** * C103: what a client asks for, and where its files are *)
From Coq Require Import String List NArith ZArith Bool Lia.
From Verif Require Import Base StringFacts BaseFacts Metadata Verify Paths PathProofs SpecPaths Tuf SpecVerify SpecTuf TufProofs TufHistory Reader SpecReader
     Repo Client SpecClient ClientLogic ClientProofs ClientHistory SpecNames NamesProofs Shims SpecMeta Props_Paths Props_Json Toy ClientToy KeyToy JsonToy.
Import ListNotations.
Open Scope string_scope.
Open Scope list_scope.
Open Scope N_scope.

(** Whatever the repositories answer, and wherever the client is dropped: the name, version,
    size limit and digest of metadata that is asked for, and the name it is stored under, are
    fixed or are what metadata trusted at that time says. *)
Theorem C103_requests_are_told_by_trusted_metadata :
  forall (E : env) (cfg : config) (fuel : nat) (c : ctor) (tr : list event), history E cfg fuel c tr ->
  (forall pre s path v max hash ans post, tr = pre ++ EvFetchMeta s path v max hash ans :: post ->
     asks cfg c pre path v max hash) /\
  (forall pre path v raw ans post, tr = pre ++ EvStoreMeta path v raw ans :: post -> keeps pre path v).
Proof.
  intros E cfg fuel c tr H. apply history_named in H. split.
  - intros pre s path v max hash ans post Q. exact (H _ _ _ Q).
  - intros pre path v raw ans post Q. exact (H _ _ _ Q).
Qed.
Print Assumptions C103_requests_are_told_by_trusted_metadata.

(** The name of a target is that of the call, with the preferred digest of the trusted
    description in front if the trusted root says so; it is stored under the name of the
    call.  The other calls ask for no targets and store none. *)
Theorem C103_targets_are_those_of_the_call :
  forall (E : env) (cfg : config) (fuel : nat) (c : ctor) (tr : list event) (t : tuf) (k : call) (tr' : list event)
         (q : prog (tuf * result unit)),
  life E cfg fuel c tr t -> exec (call_prog E cfg fuel t k) tr' q ->
  (forall pre path d ans post, tr' = pre ++ EvFetchTarget path d ans :: post ->
     exists p t1, wanted k = Some p /\ trusted_at (tr ++ pre) = Some t1 /\ target_place t1 p d path) /\
  (forall pre path rs ans post, tr' = pre ++ EvStoreTarget path rs ans :: post -> wanted k = Some path).
Proof.
  intros E cfg fuel c tr t k tr' q L X. apply life_sound in L as [_ T].
  pose proof (call_named E cfg c fuel tr t k tr' q T X) as A. split.
  - intros pre path d ans post Q. exact (A _ _ _ Q).
  - intros pre path rs ans post Q. exact (A _ _ _ Q).
Qed.
Print Assumptions C103_targets_are_those_of_the_call.

(** ** No file outside of the directory *)

Lemma fixed_name path : In path ["root"; "timestamp"; "snapshot"; "targets"] -> path_new path = Ok path.
Proof. intros I. repeat (destruct I as [<-|I]; [vm_compute; reflexivity|]). destruct I. Qed.

Lemma delegated_name C o cfg c h role : along (sound_event (mkEnv C o (json_interchange C)) cfg c) [] h ->
  delegated_to h role -> path_new role = Ok role.
Proof.
  intros A (t & tg & ds & d & I & K & Ed & Id & <-).
  pose proof (sound_reachable _ _ _ _ _ A I) as R. apply C62_trusted_metadata_is_well_formed in R as (_ & _ & _ & W1 & W2).
  assert (W : wf_targets C tg) by (destruct K as [K|(r & K)]; eauto).
  destruct W as (_ & _ & _ & _ & W). rewrite Ed in W. destruct W as (_ & _ & _ & _ & F).
  rewrite Forall_forall in F. destruct (F d Id) as (P & _). now apply path_new_iff.
Qed.

Lemma asked_name C o cfg c h path v max hash : along (sound_event (mkEnv C o (json_interchange C)) cfg c) [] h ->
  asks cfg c h path v max hash -> path_new path = Ok path.
Proof.
  intros A Q. destruct Q as [| | | |t path d v alg value T L _ _]; try (apply fixed_name; cbn; auto; fail).
  destruct L as [(-> & _)|[[-> |D] _]]; [apply fixed_name; cbn; auto..|]. eapply delegated_name; eauto.
Qed.

Lemma kept_name C o cfg c h path v : along (sound_event (mkEnv C o (json_interchange C)) cfg c) [] h ->
  keeps h path v -> path_new path = Ok path.
Proof.
  intros A Q. destruct Q as [path I|path D|t _]; [now apply fixed_name|eapply delegated_name; eauto|apply fixed_name; cbn; auto].
Qed.

Lemma metadata_below path v : path_new path = Ok path -> strictly_below (metadata_components "json" path v).
Proof.
  intros P dir. destruct (C28_paths_cannot_escape path) as (_ & _ & M & _). apply (M P); try discriminate.
  rewrite !has_char_cons. intros H. repeat (destruct H as [H|H]; [discriminate|]). now apply has_char_nil in H.
Qed.

Lemma along_prefix (R : list event -> event -> Prop) a b : along R [] (a ++ b) -> along R [] a.
Proof. intros A. now apply along_app in A. Qed.

(** With the JSON interchange: whatever the repositories answer, every file of metadata that
    the client asks for or stores lies below the directory of the repository, and so does
    that of a target if the path in the call is one that [TargetPath::new] accepts. *)
Theorem C103_no_file_outside :
  forall (C : crypto) (o : hash_order) (cfg : config) (fuel : nat) (c : ctor),
  let E := mkEnv C o (json_interchange C) in
  (forall tr e, history E cfg fuel c tr -> In e tr ->
     match e with EvFetchMeta _ _ _ _ _ _ | EvStoreMeta _ _ _ _ => file_inside e | _ => True end) /\
  (forall tr t k tr' q, life E cfg fuel c tr t -> exec (call_prog E cfg fuel t k) tr' q ->
     (forall p, wanted k = Some p -> path_new p = Ok p) -> Forall file_inside tr').
Proof.
  intros C o cfg fuel c E.
  assert (M : forall tr e, history E cfg fuel c tr -> In e tr ->
     match e with EvFetchMeta _ _ _ _ _ _ | EvStoreMeta _ _ _ _ => file_inside e | _ => True end).
  { intros tr e H I. pose proof (history_sound _ _ _ _ _ H) as S. apply history_named in H.
    apply in_split in I as (a & b & ->). pose proof (H a e b eq_refl) as Nm. cbn [app] in Nm.
    apply along_prefix in S. destruct e; try exact Logic.I; cbn [named_meta file_inside] in *; apply metadata_below.
    - exact (asked_name _ _ _ _ _ _ _ _ _ S Nm).
    - exact (kept_name _ _ _ _ _ _ _ S Nm). }
  split; [exact M|]. intros tr t k tr' q L X P. apply Forall_forall. intros e I.
  pose proof (M (tr ++ tr') e (history_call _ _ _ _ tr t k tr' q L X) ltac:(apply in_app_iff; auto)) as Me.
  apply in_split in I as (a & b & Q).
  destruct (C103_targets_are_those_of_the_call E cfg fuel c tr t k tr' q L X) as [T1 T2].
  destruct e as [s path v max hash ans|path v raw ans|path d ans|path rs ans| | |]; try exact Logic.I; try exact Me.
  - destruct (T1 a path d ans b Q) as (p & t1 & Wk & _ & Pl). intros dir. unfold target_place in Pl.
    destruct (C28_paths_cannot_escape p) as (_ & T & _ & Hp). destruct (rm_consistent (t_root t1)).
    + destruct Pl as (alg & value & _ & Pf). exact (Hp (P p Wk) value path dir Pf).
    + subst path. exact (T (P p Wk) dir).
  - pose proof (T2 a path rs ans b Q) as Wk. intros dir.
    destruct (C28_paths_cannot_escape path) as (_ & T & _). exact (T (P path Wk) dir).
Qed.
Print Assumptions C103_no_file_outside.

(** ** A case *)

(** A repository with versioned names: the targets role delegates "src/" to "team/alice". *)
Definition nroot : root_metadata :=
  mkRoot 1 new_year true (key_table [key_r; key_s; key_g; key_t])
    (mkRoleDef 1 (ids [key_r])) (mkRoleDef 1 (ids [key_s])) (mkRoleDef 1 (ids [key_g])) (mkRoleDef 1 (ids [key_t])).
Definition nalice : targets_metadata :=
  mkTargets 4 new_year [("src/a.txt", mkTargetDesc 5 [(Sha256, digest 1 "hello")] None)] None.
Definition ntargets_for (role : string) : targets_metadata :=
  mkTargets 3 new_year [("bin/tool", mkTargetDesc 5 [(Sha256, digest 1 "hello")] None)] (Some (mkDelegations (key_table [key_d]) [mkDelegation role false 1 (ids [key_d]) ["src/"]])).
Definition ntargets : targets_metadata := ntargets_for "team/alice".
Definition nsnapshot : snapshot_metadata :=
  mkSnapshot 2 new_year [("targets", desc_of 3 (publish_metadata Targets [key_g] ntargets));
                         ("team/alice", desc_of 4 (publish_metadata Targets [key_d] nalice))].
Definition ntimestamp : timestamp_metadata :=
  mkTimestamp 7 new_year (desc_of 2 (publish_metadata Snapshot [key_s] nsnapshot)).
Definition nname : string := match with_hash_prefix "bin/tool" (digest 1 "hello") with Ok p => p | Err _ => "" end.
Definition nremote : ephemeral :=
  mkEphemeral [(("timestamp", VNone), publish_metadata Timestamp [key_t] ntimestamp);
               (("snapshot", VNumber 2), publish_metadata Snapshot [key_s] nsnapshot);
               (("targets", VNumber 3), publish_metadata Targets [key_g] ntargets);
               (("team/alice", VNumber 4), publish_metadata Targets [key_d] nalice)]
              [(nname, "hello")].
Definition nfile : bytes := publish_metadata Root [key_r] nroot.
Definition nclock : clock := c50.
Definition nstart := drive 50 ephemeral_new nremote nclock (construct json_env default_config 12 (FromRoot nfile)).
Definition nt1 : tuf := tuf_of_root nroot.
Definition nupdate := drive 50 (snd (fst nstart)) nremote nclock (call_prog json_env default_config 12 nt1 CallUpdate).
Definition nt2 : tuf := tuf_after nt1 (fst (fst nupdate)).
Definition nsearch := drive 50 (snd (fst nupdate)) nremote nclock (call_prog json_env default_config 12 nt2 (CallDescription "src/a.txt")).
Definition nt3 : tuf := tuf_after nt2 (fst (fst nsearch)).
Definition nfetch := drive 50 (snd (fst nsearch)) nremote nclock (call_prog json_env default_config 12 nt3 (CallTarget "bin/tool")).

(** The names in some events, and whether something is stored. *)
Fixpoint names_in (tr : list event) : list (bool * string * meta_version) :=
  match tr with
  | [] => []
  | EvFetchMeta _ path v _ _ _ :: rest => (false, path, v) :: names_in rest
  | EvStoreMeta path v _ _ :: rest => (true, path, v) :: names_in rest
  | EvFetchTarget path _ _ :: rest => (false, path, VNone) :: names_in rest
  | EvStoreTarget path _ _ :: rest => (true, path, VNone) :: names_in rest
  | _ :: rest => names_in rest
  end.

Lemma nstarted : snd nstart = Ret (Ok nt1).
Proof. vm_compute. reflexivity. Qed.

Lemma n_runs :
  life json_env default_config 12 (FromRoot nfile) (fst (fst nstart)) nt1 /\
  exec (call_prog json_env default_config 12 nt1 CallUpdate) (fst (fst nupdate)) (snd nupdate) /\
  exec (call_prog json_env default_config 12 nt2 (CallDescription "src/a.txt")) (fst (fst nsearch)) (snd nsearch) /\
  exec (call_prog json_env default_config 12 nt3 (CallTarget "bin/tool")) (fst (fst nfetch)) (snd nfetch).
Proof.
  assert (R : forall A n l r c (p : prog A), exec p (fst (fst (drive n l r c p))) (snd (drive n l r c p))).
  { intros A n l r c p. destruct (drive n l r c p) as [[tr l'] q'] eqn:H. exact (proj1 (drive_exec n l r c p tr l' q' H)). }
  split; [|split; [apply R|split; [apply R|apply R]]].
  apply life_new. rewrite <- nstarted. apply R.
Qed.

(** The client starts, updates, searches in the metadata of "team/alice" and gets a target. *)
Example C103_case :
  life json_env default_config 12 (FromRoot nfile)
    ((fst (fst nstart) ++ fst (fst nupdate)) ++ fst (fst nsearch)) nt3 /\
  exec (call_prog json_env default_config 12 nt3 (CallTarget "bin/tool")) (fst (fst nfetch)) (snd nfetch) /\
  path_new "bin/tool" = Ok "bin/tool" /\
  names_in (fst (fst nstart)) = [(false, "root", VNumber 2); (false, "timestamp", VNone)] /\
  names_in (fst (fst nupdate)) =
    [(false, "root", VNumber 2); (false, "timestamp", VNone); (true, "timestamp", VNone); (false, "snapshot", VNumber 2);
     (true, "snapshot", VNone); (false, "targets", VNumber 3); (true, "targets", VNone)] /\
  names_in (fst (fst nsearch)) =
    [(false, "team/alice", VNone); (false, "team/alice", VNumber 4); (true, "team/alice", VNone)] /\
  names_in (fst (fst nfetch)) =
    [(false, "bin/0000001823241a0000000000000000000000000000000000000000022b283e56.tool", VNone); (true, "bin/tool", VNone)] /\
  walk ["repo"] (metadata_components "json" "team/alice" (VNumber 4)) = ["4.alice.json"; "team"; "repo"] /\
  (* a role that would be somewhere else *)
  walk ["repo"] ["metadata"; ".."; ".."; "alice.json"] = ["alice.json"] /\
  verify_signatures json_env Targets (publish_metadata Targets [key_g] (ntargets_for "../alice")) 1 [key_g] = Err Encoding.
Proof.
  destruct n_runs as (L & X1 & X2 & X3).
  assert (Next : forall tr t k tr' q t', life json_env default_config 12 (FromRoot nfile) tr t ->
    exec (call_prog json_env default_config 12 t k) tr' q -> t' = tuf_after t tr' ->
    life json_env default_config 12 (FromRoot nfile) (tr ++ tr') t').
  { intros tr t k tr' q t' L0 X0 ->. exact (life_call _ _ _ _ tr t k tr' q L0 X0). }
  assert (E2 : nt2 = tuf_after nt1 (fst (fst nupdate))) by (unfold nt2; reflexivity).
  assert (E3 : nt3 = tuf_after nt2 (fst (fst nsearch))) by (unfold nt3; reflexivity).
  split; [exact (Next _ _ _ _ _ _ (Next _ _ _ _ _ _ L X1 E2) X2 E3)|].
  split; [exact X3|]. split; [vm_compute; reflexivity|]. split; [vm_compute; reflexivity|]. split; [vm_compute; reflexivity|].
  split; [vm_compute; reflexivity|]. split; [vm_compute; reflexivity|]. split; [vm_compute; reflexivity|].
  split; vm_compute; reflexivity.
Qed.
