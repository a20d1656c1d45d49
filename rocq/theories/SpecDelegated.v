(** * Specification of finding targets through delegations of any depth *)
From Coq Require Import String List NArith ZArith Bool.
From Verif Require Import Base Metadata Verify Builders SpecBuilders Tuf SpecTuf SpecPaths.
Import ListNotations.

(** What is known of the delegated roles, by name. *)
Definition roles_known := string -> option targets_metadata.

(** Metadata of the role of [d] is known and has not expired. *)
Definition held (known : roles_known) (now : string -> Z) (d : delegation) (m : targets_metadata) : Prop :=
  known (dg_role d) = Some m /\ fresh (tg_expires m) (now (dg_role d)).

(** What a role delegates to. *)
Definition children (m : targets_metadata) : list delegation :=
  match tg_delegations m with Some ds => dgs_roles ds | None => [] end.

(** The delegations of a list and all below them, in the order of the lists, are to roles
    that are held, and none of them is terminating; these are their names. *)
Inductive all_loaded (known : roles_known) (now : string -> Z) : list delegation -> list string -> Prop :=
| loaded_nil : all_loaded known now [] []
| loaded_cons d m rest inner names :
    held known now d m -> dg_terminating d = false ->
    all_loaded known now (children m) inner -> all_loaded known now rest names ->
    all_loaded known now (d :: rest) (dg_role d :: inner ++ names).

(** From a list of delegations, with the paths of those [above] it, a role is reached that
    lists the target with this description, and the target is in the paths of all
    delegations on the way to it (of the last, C24 says that they do not matter). *)
Inductive listed_below (known : roles_known) (target : string) (desc : target_desc)
  : list (list string) -> list delegation -> Prop :=
| listed_here above ds d m :
    In d ds -> known (dg_role d) = Some m -> lookup target (tg_targets m) = Some desc ->
    listed_below known target desc above ds
| listed_further above ds d m :
    In d ds -> known (dg_role d) = Some m -> in_chain target (above ++ [dg_paths d]) ->
    listed_below known target desc (above ++ [dg_paths d]) (children m) ->
    listed_below known target desc above ds.

(** No two of these roles list the target. *)
Definition listed_once (known : roles_known) (target : string) (names : list string) : Prop :=
  forall n n' m m' x x', In n names -> In n' names -> known n = Some m -> known n' = Some m' ->
    lookup target (tg_targets m) = Some x -> lookup target (tg_targets m') = Some x' -> n = n'.

(** ** Also among terminating delegations *)

(** The search for the target goes through all of this list, and what is below it, without
    finding anything and without being stopped; [names] are the roles it comes by. *)
Inductive nothing_in (known : roles_known) (now : string -> Z) (target : string)
  : list (list string) -> list delegation -> list string -> Prop :=
| nothing_nil above : nothing_in known now target above [] []
(** The role delegates no further (a list of delegations that is there but empty stops the
    search if the role's own delegation is terminating). *)
| nothing_leaf above d m rest names :
    held known now d m -> lookup target (tg_targets m) = None -> children m = [] ->
    (tg_delegations m = None \/ dg_terminating d = false) ->
    nothing_in known now target above rest names ->
    nothing_in known now target above (d :: rest) (dg_role d :: names)
(** The target is in its paths: nothing below it, and it is not terminating. *)
| nothing_inside above d m rest inner names :
    held known now d m -> lookup target (tg_targets m) = None -> dg_terminating d = false ->
    in_chain target (above ++ [dg_paths d]) ->
    nothing_in known now target (above ++ [dg_paths d]) (children m) inner ->
    nothing_in known now target above rest names ->
    nothing_in known now target above (d :: rest) (dg_role d :: inner ++ names)
(** The target is not in its paths: of what it delegates to, the first is not terminating. *)
| nothing_outside above d m e more rest names :
    held known now d m -> lookup target (tg_targets m) = None ->
    ~ in_chain target (above ++ [dg_paths d]) -> children m = e :: more -> dg_terminating e = false ->
    nothing_in known now target above rest names ->
    nothing_in known now target above (d :: rest) (dg_role d :: dg_role e :: names)
(** The role delegates to itself first, and that delegation is not terminating. *)
| nothing_circular above d m e more rest names :
    held known now d m -> lookup target (tg_targets m) = None ->
    children m = e :: more -> dg_role e = dg_role d -> dg_terminating e = false ->
    nothing_in known now target above rest names ->
    nothing_in known now target above (d :: rest) (dg_role d :: names).

(** Before the role that lists the target, nothing. *)
Inductive found_in (known : roles_known) (now : string -> Z) (target : string) (desc : target_desc)
  : list (list string) -> list delegation -> list string -> Prop :=
| found_here above before d after m names :
    nothing_in known now target above before names ->
    held known now d m -> lookup target (tg_targets m) = Some desc ->
    found_in known now target desc above (before ++ d :: after) (names ++ [dg_role d])
| found_further above before d after m names inner :
    nothing_in known now target above before names ->
    held known now d m -> lookup target (tg_targets m) = None ->
    in_chain target (above ++ [dg_paths d]) ->
    found_in known now target desc (above ++ [dg_paths d]) (children m) inner ->
    found_in known now target desc above (before ++ d :: after) (names ++ dg_role d :: inner).

(** ** Documents for delegated roles *)

(** A document for a delegated role: who delegates, the delegation, what it says, the keys
    that signed it, and the document. *)
Record parcel := mkParcel {
  pc_parent : string; pc_delegation : delegation; pc_meta : targets_metadata;
  pc_keys : list private_key; pc_document : signed_metadata }.
Definition pc_role (p : parcel) : string := dg_role (pc_delegation p).

(** Made with the builders, signed as the delegating role [by_] demands, and described by
    the snapshot. *)
Definition prepared (C : crypto) (s : snapshot_metadata) (by_ : targets_metadata) (p : parcel) : Prop :=
  exists ds algs desc, tg_delegations by_ = Some ds /\ first_delegation (dgs_roles ds) (pc_role p) (pc_delegation p) /\
    published C Targets (pc_meta p) (pc_keys p) (pc_document p) /\
    sufficient (dg_threshold (pc_delegation p)) (listed_keys (dgs_keys ds) (dg_key_ids (pc_delegation p))) (pc_keys p) /\
    describe_signed C FJson (pc_document p) algs = Ok desc /\ lookup (pc_role p) (sm_meta s) = Some desc.

(** The documents are prepared, each after that of the role that delegates to it (or the
    targets role does); [earlier] are those before. *)
Inductive consignment (C : crypto) (s : snapshot_metadata) (g : targets_metadata) : list parcel -> list parcel -> Prop :=
| consigned_all earlier : consignment C s g earlier []
| consigned_next earlier p by_ rest :
    (pc_parent p = "targets"%string /\ by_ = g \/
     pc_parent p <> "targets"%string /\ exists q, In q earlier /\ pc_role q = pc_parent p /\ by_ = pc_meta q) ->
    prepared C s by_ p -> consignment C s g (earlier ++ [p]) rest ->
    consignment C s g earlier (p :: rest).

(** What a line of documents says of the roles. *)
Definition told (l : list parcel) : roles_known :=
  fun r => option_map pc_meta (List.find (fun p => String.eqb (pc_role p) r) l).

(** Giving them to the client's metadata one after the other, with the clocks' readings. *)
Fixpoint deliver (E : env) (t : tuf) (l : list (clock * parcel * bytes)) : tuf * list (result bool) :=
  match l with
  | [] => (t, [])
  | (c, p, b) :: rest =>
      let (t, r) := update_delegation E t c (pc_parent p) (pc_role p) b in
      let (t, rs) := deliver E t rest in (t, r :: rs)
  end.

(** At these readings nothing needed for accepting the document has expired. *)
Definition at_hand (t : tuf) (s : snapshot_metadata) (g : targets_metadata) (c : clock) (m : targets_metadata) : Prop :=
  fresh (rm_expires (t_root t)) (at_root c) /\ fresh (sm_expires s) (at_snapshot c) /\
  fresh (tg_expires g) (at_targets c) /\ fresh (tg_expires m) (at_new c).
