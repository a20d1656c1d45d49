(** * Repositories: src/repository.rs, src/repository/{ephemeral,file_system,http}.rs *)
From Coq Require Import String Ascii List Arith NArith Bool.
From Verif Require Import Base Metadata Paths Reader.
Import ListNotations.
Open Scope string_scope.
Open Scope list_scope.
Open Scope N_scope.

(** ** src/repository.rs *)

(** src/repository.rs 36-71 [trait RepositoryProvider]: arbitrary answers. *)
Record provider := mkProvider {
  pv_metadata : string -> meta_version -> option N -> option (hash_alg * bytes) -> result stream;
  pv_target : string -> target_desc -> result stream
}.

(** src/repository.rs 227-240 [Repository::check]. *)
Definition repo_check (r : role) (path : string) : result unit :=
  if negb (fuzzy_matches_path r path) then Err IllegalArgument else Ok tt.

(** src/repository.rs 267-280: what happens to the provider's answer.  [usize] has
    64 bits. *)
Definition read_metadata (C : crypto) (max_length : option N) (hash : option (hash_alg * bytes))
           (answer : result stream) : result bytes :=
  let? rs := answer in
  let? s := safe_new (option_get u64_max max_length) hash in
  read_to_end C s rs "".

(** src/repository.rs 255-281 [Repository::fetch_metadata]. *)
Definition repo_fetch_metadata (C : crypto) (P : provider) (r : role) (path : string) (v : meta_version)
           (max_length : option N) (hash : option (hash_alg * bytes)) : result bytes :=
  let? _ := repo_check r path in
  read_metadata C max_length hash (pv_metadata P path v max_length hash).

(** src/repository.rs 290-301 [Repository::fetch_target] after [hash_preference]:
    the provider's answer, checked. *)
Definition checked_target (C : crypto) (length : N) (hash : hash_alg * bytes) (answer : result stream)
  : result stream :=
  let? rs := answer in
  let? s := safe_new length (Some hash) in
  Ok (checked_stream C s rs).

(** src/repository.rs 290-301 [Repository::fetch_target]. *)
Definition repo_fetch_target (C : crypto) (P : provider) (path : string) (d : target_desc) : result stream :=
  let? hash := hash_preference (td_hashes d) in
  checked_target C (td_length d) hash (pv_target P path d).

(** ** src/repository/ephemeral.rs *)

(** The derived [PartialEq], src/metadata.rs 208-214. *)
Definition meta_version_eqb (a b : meta_version) : bool :=
  match a, b with VNone, VNone => true | VNumber x, VNumber y => x =? y | _, _ => false end.
Lemma meta_version_eqb_eq a b : meta_version_eqb a b = true <-> a = b.
Proof.
  destruct a, b; cbn; try (split; congruence). rewrite N.eqb_eq. split; congruence.
Qed.
#[export] Instance EqDec_meta_version : EqDec meta_version :=
  {| eqb := meta_version_eqb; eqb_eq := meta_version_eqb_eq |}.

(** Of the keys of the map in src/repository/ephemeral.rs 23. *)
Definition pair_eqb {A B} `{EqDec A} `{EqDec B} (a b : A * B) : bool :=
  eqb (fst a) (fst b) && eqb (snd a) (snd b).
Lemma pair_eqb_eq {A B} `{EqDec A} `{EqDec B} (a b : A * B) : pair_eqb a b = true <-> a = b.
Proof.
  destruct a, b. unfold pair_eqb. cbn. rewrite andb_true_iff, !eqb_eq. split; [intros []|]; intuition congruence.
Qed.
#[export] Instance EqDec_pair {A B} `{EqDec A} `{EqDec B} : EqDec (A * B) :=
  {| eqb := pair_eqb; eqb_eq := pair_eqb_eq |}.

(** src/repository/ephemeral.rs 22-26 [struct EphemeralRepository]; the locks are
    held only around single map operations, so histories are sequences of those. *)
Record ephemeral := mkEphemeral {
  ep_metadata : list ((string * meta_version) * bytes);
  ep_targets : list (string * bytes)
}.

(** src/repository/ephemeral.rs 33-39 [new]. *)
Definition ephemeral_new : ephemeral := mkEphemeral [] [].

(** A [Cursor] over the bytes (74, 93): one read gives everything.
    Lines of src/repository/ephemeral.rs. *)
Definition cursor (b : bytes) : stream := [Ready b].

(** src/repository/ephemeral.rs 55-78 [fetch_metadata]. *)
Definition ephemeral_fetch_metadata (e : ephemeral) (path : string) (v : meta_version) : result stream :=
  match lookup (path, v) (ep_metadata e) with Some b => Ok (cursor b) | None => Err NotFound end.

(** src/repository/ephemeral.rs 80-97 [fetch_target]. *)
Definition ephemeral_fetch_target (e : ephemeral) (path : string) : result stream :=
  match lookup path (ep_targets e) with Some b => Ok (cursor b) | None => Err NotFound end.

(** src/repository/ephemeral.rs 104-119 [store_metadata]. *)
Definition ephemeral_store_metadata (e : ephemeral) (path : string) (v : meta_version) (rs : stream)
  : ephemeral * result unit :=
  match read_plain rs "" with
  | inl buf => (mkEphemeral (insert (path, v) buf (ep_metadata e)) (ep_targets e), Ok tt)
  | inr k => (e, Err (of_io k))
  end.

(** src/repository/ephemeral.rs 121-135 [store_target]. *)
Definition ephemeral_store_target (e : ephemeral) (path : string) (rs : stream) : ephemeral * result unit :=
  match read_plain rs "" with
  | inl buf => (mkEphemeral (ep_metadata e) (insert path buf (ep_targets e)), Ok tt)
  | inr k => (e, Err (of_io k))
  end.

(** Histories of stores.
    Of src/repository/ephemeral.rs 104-135. *)
Inductive ephemeral_op :=
| EpMetadata (path : string) (v : meta_version) (rs : stream)
| EpTarget (path : string) (rs : stream).

(** One call of src/repository/ephemeral.rs 104-135. *)
Definition ephemeral_step (e : ephemeral) (o : ephemeral_op) : ephemeral * result unit :=
  match o with
  | EpMetadata p v rs => ephemeral_store_metadata e p v rs
  | EpTarget p rs => ephemeral_store_target e p rs
  end.
(** A history of calls of src/repository/ephemeral.rs 104-135. *)
Definition ephemeral_run (e : ephemeral) (ops : list ephemeral_op) : ephemeral :=
  fold_left (fun e o => fst (ephemeral_step e o)) ops e.

(** ** src/repository/file_system.rs *)

(** A file name: names of the directories and the file, innermost first, as the
    operating system resolves it. *)
Notation file_name := (list string) (only parsing).

(** Equality of paths, for src/repository/file_system.rs 112-198. *)
Fixpoint list_eqb {A} `{EqDec A} (a b : list A) : bool :=
  match a, b with
  | [], [] => true
  | x :: a, y :: b => eqb x y && list_eqb a b
  | _, _ => false
  end.
Lemma list_eqb_eq {A} `{EqDec A} (a b : list A) : list_eqb a b = true <-> a = b.
Proof.
  revert b. induction a as [|x a IH]; intros [|y b]; cbn; try (split; congruence).
  rewrite andb_true_iff, eqb_eq, IH. split; [intros []|]; intuition congruence.
Qed.
#[export] Instance EqDec_list {A} `{EqDec A} : EqDec (list A) := {| eqb := list_eqb; eqb_eq := list_eqb_eq |}.
#[export] Instance EqDec_nat : EqDec nat := {| eqb := Nat.eqb; eqb_eq := Nat.eqb_eq |}.

(** src/repository/file_system.rs 120-121, 136-137, 162-163, 184-185:
    [PathBuf::extend].  An empty component only doubles a slash; the components of
    safe paths are never "." or "..".  (Simplification: a path ending in a slash
    names the file without it; the real operations fail for it.) *)
Definition fs_path (dir : file_name) (components : list string) : file_name :=
  rev (filter (fun c => negb (String.eqb c "")) components) ++ dir.

(** Files by name, and the contents by inode: an open file keeps its inode when its
    name is replaced.  Directories are not modelled, the operations on them can only
    make a store fail.
    For src/repository/file_system.rs 155-213. *)
Record fs := mkFs {
  fs_names : list (file_name * nat);
  fs_inodes : list (nat * bytes)
}.

(** The contents of a file: what [File::open] followed by reading gives.
    As in src/repository/file_system.rs 124 and 144. *)
Definition fs_content (f : fs) (name : file_name) : option bytes :=
  match lookup name (fs_names f) with
  | Some i => lookup i (fs_inodes f)
  | None => None
  end.

(** A store in progress, src/repository/file_system.rs 155-198: still to create the
    temporary file; copying, with the rest of the input; input exhausted, about to
    rename; finished; failed. *)
Inductive store_state :=
| StStart (input : stream)
| StCopying (tmp : file_name) (inode : nat) (input : stream)
| StPersist (tmp : file_name) (inode : nat)
| StDone
| StFailed.

(** The names [tempfile::NamedTempFile] uses: ".tmp" and six random characters.
    As in src/repository/file_system.rs 201-213. *)
Definition temp_name (name : string) : Prop := exists r, name = (".tmp" ++ r)%string /\ String.length r = 6%nat.

(** One step of a store to [dest] in file system [f].  Other stores may take steps in
    between.  The directory part of the temporary file is that of [dest] (201-212);
    [NamedTempFile] creates it under a name that does not exist yet (O_EXCL). *)
Inductive store_step (dest : file_name) : fs -> store_state -> fs -> store_state -> Prop :=
| step_create f input name i :                                   (* 169, 191 and 201-213 *)
    temp_name name ->
    lookup (name :: tl dest) (fs_names f) = None ->
    lookup i (fs_inodes f) = None ->
    store_step dest f (StStart input)
      (mkFs (insert (name :: tl dest) i (fs_names f)) (insert i "" (fs_inodes f)))
      (StCopying (name :: tl dest) i input)
| step_wait f tmp i rest :                                       (* 170, 192: [copy] *)
    store_step dest f (StCopying tmp i (Pending :: rest)) f (StCopying tmp i rest)
| step_copy f tmp i d rest old :
    d <> "" -> lookup i (fs_inodes f) = Some old ->
    store_step dest f (StCopying tmp i (Ready d :: rest))
      (mkFs (fs_names f) (insert i (old ++ d)%string (fs_inodes f))) (StCopying tmp i rest)
| step_eof f tmp i :
    store_step dest f (StCopying tmp i []) f (StPersist tmp i)
| step_end f tmp i rest :
    store_step dest f (StCopying tmp i (Ready "" :: rest)) f (StPersist tmp i)
| step_read_error f tmp i k rest :                               (* [NamedTempFile] removes itself *)
    store_step dest f (StCopying tmp i (Failed k :: rest))
      (mkFs (remove tmp (fs_names f)) (fs_inodes f)) StFailed
| step_persist f tmp i j :                                       (* 171, 193: rename *)
    lookup tmp (fs_names f) = Some j ->
    store_step dest f (StPersist tmp i)
      (mkFs (insert dest j (remove tmp (fs_names f))) (fs_inodes f)) StDone
| step_io_start f input :                                        (* any i/o error *)
    store_step dest f (StStart input) f StFailed
| step_io_copying f tmp i input :
    store_step dest f (StCopying tmp i input) (mkFs (remove tmp (fs_names f)) (fs_inodes f)) StFailed
| step_io_persist f tmp i :
    store_step dest f (StPersist tmp i) (mkFs (remove tmp (fs_names f)) (fs_inodes f)) StFailed.

(** Several stores at the same time: each with its destination and state.
    Calls of src/repository/file_system.rs 155-198. *)
Inductive stores_step : fs * list (file_name * store_state) -> fs * list (file_name * store_state) -> Prop :=
| stores_one f f' dest st st' before after :
    store_step dest f st f' st' ->
    stores_step (f, before ++ (dest, st) :: after) (f', before ++ (dest, st') :: after).

(** Any interleaving of calls of src/repository/file_system.rs 155-198. *)
Inductive stores_steps : fs * list (file_name * store_state) -> fs * list (file_name * store_state) -> Prop :=
| stores_none w : stores_steps w w
| stores_more w w' w'' : stores_steps w w' -> stores_step w' w'' -> stores_steps w w''.

(** ** src/repository/http.rs *)

(** src/repository/http.rs 142-149 [URLENCODE_PATH]: control characters, the listed
    ones, and (percent_encoding) every non-ASCII byte. *)
Definition url_must_encode (c : ascii) : bool :=
  let n := N_of_ascii c in
  (n <? 32) || (127 <=? n) ||
  mem n [32; 34; 60; 62; 96; 35; 63; 123; 125].

(** percent_encoding: [%XX] with upper-case digits.
    For src/repository/http.rs 142-149 and 179. *)
Definition hex_digit_upper (n : N) : ascii := ascii_of_N (if n <? 10 then 48 + n else 55 + n).
(** [utf8_percent_encode(.., URLENCODE_PATH)], as in src/repository/http.rs 179. *)
Fixpoint url_encode (s : string) : string :=
  match s with
  | EmptyString => ""
  | String c r =>
      if url_must_encode c then
        let n := N_of_ascii c in
        String "%" (String (hex_digit_upper (n / 16)) (String (hex_digit_upper (n mod 16)) (url_encode r)))
      else String c (url_encode r)
  end.

(** [String::pop] of a final '/', src/repository/http.rs 159-162. *)
Definition pop_slash (s : string) : string :=
  if ends_with_slash s then String.substring 0 (String.length s - 1) s else s.

(** The parts of a string before and after the first [c].
    For [parse()], src/repository/http.rs 185 and 193. *)
Fixpoint cut_at (c : ascii) (s : string) : string * option string :=
  match s with
  | EmptyString => ("", None)
  | String d r => if Ascii.eqb c d then ("", Some r)
                  else let (a, b) := cut_at c r in (String d a, b)
  end.

(** [PathAndQuery::from_str] of the http crate: drops a fragment, separates the query,
    refuses characters not allowed in a path (resp. query).  Not modelled: its length
    limit of 65534 bytes.
    Used in src/repository/http.rs 185 and 193. *)
Definition in_range (n lo hi : N) : bool := (lo <=? n) && (n <=? hi).
(** The characters [PathAndQuery::from_str] accepts, for src/repository/http.rs 185 and 193. *)
Definition uri_path_char (c : ascii) : bool :=
  let n := N_of_ascii c in
  (n =? 33) || in_range n 36 59 || (n =? 61) || in_range n 64 95 || in_range n 97 122 ||
  (n =? 124) || (n =? 126) || (n =? 34) || (n =? 123) || (n =? 125).
(** The characters [PathAndQuery::from_str] accepts, for src/repository/http.rs 185 and 193. *)
Definition uri_query_char (c : ascii) : bool :=
  let n := N_of_ascii c in
  (n =? 33) || in_range n 36 59 || (n =? 61) || in_range n 63 126.
(** The characters [PathAndQuery::from_str] accepts, for src/repository/http.rs 185 and 193. *)
Fixpoint all_chars (f : ascii -> bool) (s : string) : bool :=
  match s with EmptyString => true | String c r => f c && all_chars f r end.
(** [PathAndQuery::from_str] of the http crate, used in src/repository/http.rs 185 and 193. *)
Definition parse_path_and_query (s : string) : result (string * option string) :=
  let (s, _) := cut_at "#" s in
  let (path, query) := cut_at "?" s in
  if all_chars uri_path_char path && match query with Some q => all_chars uri_query_char q | None => true end
  then Ok (path, query) else Err IllegalArgument.

(** src/repository/http.rs 151-204 [extend_uri], on the path and query of the URI (the
    rest of which is kept). *)
Definition extend_uri (path : string) (query : option string) (prefix : option (list string))
           (components : list string) : result (string * option string) :=
  let path_split := split_slash (pop_slash path) in
  let new_path_elements := match prefix with Some p => p | None => [] end ++ components in
  let constructed_path := join_slash (path_split ++ map url_encode new_path_elements) in
  parse_path_and_query
    (match query with Some q => (constructed_path ++ "?" ++ q)%string | None => constructed_path end).

(** src/repository/http.rs 224-236, 258-262: the response as a reader.  [body] are the
    answers of the response body with the clock readings of the reads. *)
Definition http_answer (min_bytes_per_second status : N) (body : list (N * N * reply)) : result stream :=
  if status =? 200 then
    Ok (bitrate_run (bitrate_new min_bytes_per_second)
          (map (fun '(t, r) => (t, match r with Failed _ => Failed IoOther | _ => r end)) body))
  else if status =? 404 then Err NotFound
  else Err (BadHttpStatus status).
