(** * Specification of the repository in a directory *)
From Coq Require Import String Ascii List NArith Bool.
From Verif Require Import Base Metadata Paths SpecPaths Reader SpecReader Repo SpecRepo StringFacts Files Http SpecHttp.
Import ListNotations.
Open Scope string_scope.
Open Scope list_scope.
Open Scope N_scope.

(** What is on a disk. *)
Definition content (d : disk) (n : file_name) : option bytes := lookup n (dk_files d).
Definition directory (d : disk) (n : file_name) : Prop := n = [] \/ In n (dk_dirs d).

(** [m] is a directory that leads to [n]. *)
Definition leads_to (m n : file_name) : Prop := exists x rest, n = x :: rest ++ m.

(** A disk: no name stands for a file and a directory, and everything is in a directory. *)
Definition sound_disk (d : disk) : Prop :=
  (forall n, content d n <> None -> ~ directory d n) /\
  (forall m n, content d n <> None \/ directory d n -> leads_to m n -> directory d m).

(** The names of the file of a document. *)
Definition metadata_names (path : string) (v : meta_version) (names : list string) : Prop :=
  exists dir f, split_slash path = dir ++ [f] /\ names = dir ++ [file_of v f].

(** The place of a stored document, as the operating system resolves the path. *)
Definition place (r : fs_repo) (o : ephemeral_op) (n : file_name) : Prop :=
  match o with
  | EpMetadata p v _ => exists names, metadata_names p v names /\ n = walk (fr_metadata r) names
  | EpTarget p _ => n = walk (fr_targets r) (split_slash p)
  end.
Definition input (o : ephemeral_op) : stream := match o with EpMetadata _ _ rs | EpTarget _ rs => rs end.
Definition op_path (o : ephemeral_op) : string := match o with EpMetadata p _ _ | EpTarget p _ => p end.
(** Only targets can have a path that ends in a slash. *)
Definition names_directory (o : ephemeral_op) : Prop :=
  match o with EpTarget p _ => exists a, p = (a ++ "/")%string | _ => False end.

(** Nothing is in the way of a store to [n]: no file where there should be a directory,
    and no directory in its place. *)
Definition free_way (d : disk) (n : file_name) : Prop :=
  (forall m, leads_to m n -> content d m = None) /\ ~ directory d n.

(** A web server for the directory [root] under the path [base] of its URLs. *)
Definition serves (d : disk) (root : file_name) (base : string) (server : request -> option response) : Prop :=
  forall rq b segs, base = b \/ base = (b ++ "/")%string -> split_slash (rq_path rq) = split_slash b ++ segs ->
  match content d (walk root (map url_decode segs)) with
  | Some data => exists body start, server rq = Some (mkResponse 200 body) /\ body_contains body data None /\
      forall t0 t1 r, In (t0, t1, r) body -> start <= t0 /\ t1 < start + 30000000000
  | None => exists body, server rq = Some (mkResponse 404 body)
  end.
