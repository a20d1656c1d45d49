(** * The repository in a directory, one operation after the other: src/repository/file_system.rs

    Repo.v has the single steps of concurrent stores on files only.  Here the operations
    are complete ones, and directories are there: they make stores and fetches fail. *)
From Coq Require Import String Ascii List NArith Bool.
From Verif Require Import Base Metadata Paths Reader Repo.
Import ListNotations.
Open Scope string_scope.
Open Scope list_scope.
Open Scope N_scope.

(** The file system: files with their contents, and directories.  Names are as in Repo.v,
    innermost first; the empty one is the root directory.  There are no links, and no
    errors (permissions, space) other than those that follow from what is there.
    What src/repository/file_system.rs 62-82 and 112-214 work on. *)
Record disk := mkDisk { dk_files : list (file_name * bytes); dk_dirs : list (file_name) }.

(** [Path::is_file], [Path::is_dir] of the standard library.
    As in src/repository/file_system.rs 62-82. *)
Definition is_file (d : disk) (n : file_name) : bool :=
  match lookup n (dk_files d) with Some _ => true | None => false end.
(** [Path::is_dir]: for src/repository/file_system.rs 62-82 and 201-214. *)
Definition is_dir (d : disk) (n : file_name) : bool :=
  match n with [] => true | _ => mem n (dk_dirs d) end.

(** The standard library's [DirBuilder::recursive(true).create] (file_system.rs 68, 75,
    208): goes up to the first directory that exists; a file on the way is an error
    (EEXIST or ENOTDIR, none of them of kind "not found") found before anything is made. *)
Fixpoint make_dirs (d : disk) (n : file_name) : result disk :=
  match n with
  | [] => Ok d
  | _ :: parent =>
      if is_file d n then Err Opaque
      else if is_dir d n then Ok d
      else let? d' := make_dirs d parent in Ok (mkDisk (dk_files d') (n :: dk_dirs d'))
  end.

(** src/repository/file_system.rs 20-25 [struct FileSystemRepositoryBuilder].
    Simplification: the prefixes are lists of names, i.e. relative paths without "." and
    "..". *)
Record fs_builder := mkFsBuilder {
  fb_local : file_name;
  fb_metadata_prefix : option (list string);
  fb_targets_prefix : option (list string)
}.

(** src/repository/file_system.rs 86-93 [struct FileSystemRepository]. *)
Record fs_repo := mkFsRepo { fr_metadata : file_name; fr_targets : file_name }.

(** src/repository/file_system.rs 63-67 and 70-74: [local_path.join(prefix)] or the
    local path itself. *)
Definition prefixed (local : file_name) (prefix : option (list string)) : file_name :=
  match prefix with Some p => fs_path local p | None => local end.

(** src/repository/file_system.rs 62-83 [build]. *)
Definition fs_build (d : disk) (b : fs_builder) : disk * result fs_repo :=
  let metadata_path := prefixed (fb_local b) (fb_metadata_prefix b) in
  match make_dirs d metadata_path with
  | Err e => (d, Err e)
  | Ok d1 =>
      let targets_path := prefixed (fb_local b) (fb_targets_prefix b) in
      match make_dirs d1 targets_path with
      | Err e => (d1, Err e)
      | Ok d2 => (d2, Ok (mkFsRepo metadata_path targets_path))
      end
  end.

(** src/repository/file_system.rs 100-105 [new]. *)
Definition fs_new (d : disk) (local : file_name) : disk * result fs_repo :=
  fs_build d (mkFsBuilder local (Some ["metadata"]) (Some ["targets"])).

(** Does a path of these components end in a slash ([PathBuf::push] of an empty one)?
    As in src/repository/file_system.rs 120-121. *)
Definition slash_at_end (components : list string) : bool := String.eqb (last components "") "".

(** What the operating system finds under a path: a file, a directory, nothing (ENOENT),
    or a file where a directory should be (ENOTDIR).
    For src/repository/file_system.rs 112-148. *)
Inductive found := FoundFile (b : bytes) | FoundDir | FoundNothing | FoundBlocked.
(** A component that is a file, for the paths of src/repository/file_system.rs 112-148. *)
Fixpoint blocked (d : disk) (n : file_name) : bool :=
  match n with [] => false | _ :: parent => is_file d parent || blocked d parent end.
(** What a path of src/repository/file_system.rs 112-198 leads to. *)
Definition find (d : disk) (dir : file_name) (components : list string) : found :=
  let n := fs_path dir components in
  if blocked d n then FoundBlocked
  else match lookup n (dk_files d) with
       | Some b => if slash_at_end components then FoundBlocked else FoundFile b
       | None => if is_dir d n then FoundDir else FoundNothing
       end.

(** [AllowStdIo(File::open(path)?)], src/repository/file_system.rs 123-125, 143-145.  A
    directory can be opened, but not read (EISDIR). *)
Definition open_file (f : found) : result stream :=
  match f with
  | FoundFile b => Ok (cursor b)
  | FoundDir => Ok [Failed IoOther]
  | FoundNothing => Err NotFound
  | FoundBlocked => Err Opaque
  end.

(** src/repository/file_system.rs 112-128 [fetch_metadata]. *)
Definition fs_fetch_metadata (r : fs_repo) (d : disk) (path : string) (v : meta_version) : result stream :=
  open_file (find d (fr_metadata r) (metadata_components "json" path v)).

(** src/repository/file_system.rs 130-148 [fetch_target]: first [path.exists()]. *)
Definition fs_fetch_target (r : fs_repo) (d : disk) (path : string) : result stream :=
  match find d (fr_targets r) (target_components path) with
  | FoundNothing | FoundBlocked => Err NotFound
  | f => open_file f
  end.

(** The common part of the stores, src/repository/file_system.rs 169-171, 191-193 and
    [create_temp_file], 201-214: the directories are made, the input is copied to a
    temporary file there, which then gets the right name.  The temporary file is not part
    of the result: it had a name that was not in use, and has gone whether the store
    succeeds or fails.  Renaming fails if there is a directory of that name, or if the name
    ends in a slash. *)
Definition fs_store (d : disk) (dir : file_name) (components : list string) (rs : stream) : disk * result unit :=
  let dest := fs_path dir components in
  match make_dirs d (tl dest) with
  | Err e => (d, Err e)
  | Ok d1 =>
      match read_plain rs "" with
      | inr k => (d1, Err (of_io k))
      | inl buf =>
          if slash_at_end components || is_dir d1 dest then (d1, Err Opaque)
          else (mkDisk (insert dest buf (dk_files d1)) (dk_dirs d1), Ok tt)
      end
  end.

(** src/repository/file_system.rs 155-176 [store_metadata]. *)
Definition fs_store_metadata (r : fs_repo) (d : disk) (path : string) (v : meta_version) (rs : stream)
  : disk * result unit :=
  fs_store d (fr_metadata r) (metadata_components "json" path v) rs.

(** src/repository/file_system.rs 178-198 [store_target]. *)
Definition fs_store_target (r : fs_repo) (d : disk) (path : string) (rs : stream) : disk * result unit :=
  fs_store d (fr_targets r) (target_components path) rs.

(** Histories of stores, with what they returned.  (The operations are those of the
    in-memory repository.)
    Calls of src/repository/file_system.rs 155-198. *)
Definition fs_step (r : fs_repo) (d : disk) (o : ephemeral_op) : disk * result unit :=
  match o with
  | EpMetadata p v rs => fs_store_metadata r d p v rs
  | EpTarget p rs => fs_store_target r d p rs
  end.
(** A history of calls of src/repository/file_system.rs 155-198. *)
Fixpoint fs_run (r : fs_repo) (d : disk) (ops : list ephemeral_op) : disk * list (ephemeral_op * result unit) :=
  match ops with
  | [] => (d, [])
  | o :: rest =>
      let (d1, res) := fs_step r d o in
      let (d2, l) := fs_run r d1 rest in
      (d2, (o, res) :: l)
  end.
