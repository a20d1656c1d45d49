(** * The key rotation tests of tests/interop/main.rs, run on the model

    A test of the model, not a proof: the repositories of tests/metadata/consistent-snapshot-true,
    byte for byte (InteropData.v), are served by the model of [FileSystemRepository] to the model of
    [Client], with SHA-256, SHA-512 and Ed25519 as they are (Sha256.v, Ed25519.v) and with the model of
    serde_json and of the key ids.  The checks at the end are made while this file is compiled; they
    leave nothing behind, and no theorem depends on them. *)
From Coq Require Import String Ascii List NArith ZArith Bool.
From Verif Require Import Base JsonValue JsonText Metadata Verify Paths Tuf Reader Repo Files Codec Dates Serde Keys Shims Client KeyToy Toy JsonToy Sha256 Ed25519 InteropData.
Import ListNotations.
Open Scope string_scope.
Open Scope list_scope.
Open Scope nat_scope.

(** The remote repository is a directory, the local one is in memory, the writer takes
    everything, the clock stands still; at most [n] events.  What has been written, what is
    in the local repository and what is left to run. *)
Fixpoint serve {A} (n : nat) (l : ephemeral) (r : fs_repo) (d : disk) (c : clock) (written : bytes) (p : prog A)
  : bytes * ephemeral * prog A :=
  match n with
  | O => (written, l, p)
  | S n =>
      match p with
      | Ret _ | Panic | OutOfFuel => (written, l, p)
      | FetchMeta s path v max hash k =>
          serve n l r d c written
            (k match s with Local => ephemeral_fetch_metadata l path v | Remote => fs_fetch_metadata r d path v end)
      | StoreMeta path v data k =>
          let (l1, ans) := ephemeral_store_metadata l path v (cursor data) in serve n l1 r d c written (k ans)
      | FetchTarget path _ k => serve n l r d c written (k (fs_fetch_target r d path))
      | StoreTarget path rs k =>
          let (l1, ans) := ephemeral_store_target l path rs in serve n l1 r d c written (k ans)
      | Write data k => serve n l r d c (written ++ data)%string (k None)
      | Now k => serve n l r d c written (k c)
      | Put t p => serve n l r d c written p
      end
  end.

(** A directory with these files, and the directories they are in. *)
Definition disk_of (files : list (list string * bytes)) : disk :=
  mkDisk (map (fun f => (rev (fst f), snd f)) files)
         (nodup (list_eq_dec string_dec)
            (flat_map (fun f => filter (fun n => negb (Nat.eqb (length n) 0))
                                       [tl (rev (fst f)); tl (tl (rev (fst f)))]) files)).

(** tests/interop/main.rs 233-238 [init_remote]. *)
Definition init_remote (files : list (list string * bytes)) : disk * result fs_repo :=
  fs_build (disk_of files) (mkFsBuilder [] (Some ["repository"]) (Some ["repository"; "targets"])).

(** 2020-01-01; the metadata expires in 2100. *)
Definition then_ : clock := now (day "2020-01-01T00:00:00Z").

Section Suite.
  Variable C : crypto.
  Definition E : env := mkEnv C id_order (json_interchange C).

  (** tests/interop/main.rs 209-231 [extract_keys]. *)
  Definition extract_keys (files : list (list string * bytes)) : result (list public_key) :=
    let (d, r) := init_remote files in
    let? r := r in
    let? rs := fs_fetch_metadata r d "root" (VNumber 1) in
    match read_plain rs "" with
    | inr k => Err (of_io k)
    | inl buf =>
        let? env := ic_envelope (e_ic E) buf in
        let? m := ic_deserialize (e_ic E) Root (snd env) in
        Ok (root_keys m)
    end.

  Definition steps_ : nat := 1000.
  Definition fuel_ : nat := 20.

  Definition ok_bool (b : bool) (r : result bool) : bool :=
    match r with Ok b' => Bool.eqb b b' | Err _ => false end.

  (** Fetching a target whose content should be its name. *)
  Definition fetch_one (l : ephemeral) (r : fs_repo) (d : disk) (t : tuf) (name : string) : bool :=
    match serve steps_ l r d then_ "" (fetch_target_to_writer E default_config fuel_ t name) with
    | (written, _, Ret (_, Ok tt)) => String.eqb written name
    | _ => false
    end.

  (** tests/interop/main.rs 172-206 [run_test_step]. *)
  Definition run_step (keys : list public_key) (l : ephemeral) (files : list (list string * bytes))
             (expected : list string) : option ephemeral :=
    let (d, r) := init_remote files in
    match r with
    | Err _ => None
    | Ok r =>
        match serve steps_ l r d then_ "" (construct E default_config fuel_ (FromKeys (VNumber 1) 1 keys)) with
        | (_, l, Ret (Ok t)) =>
            match serve steps_ l r d then_ "" (update E default_config fuel_ t) with
            | (_, l, Ret (t, Ok true)) =>
                match serve steps_ l r d then_ "" (update E default_config fuel_ t) with
                | (_, l, Ret (t, Ok false)) =>
                    if forallb (fetch_one l r d t) expected then Some l else None
                | _ => None
                end
            | _ => None
            end
        | _ => None
        end
    end.

  (** tests/interop/main.rs 158-170 [run_tests]; the number of steps that went as they
      should. *)
  Fixpoint run_steps (keys : list public_key) (l : ephemeral) (steps : list (string * list (list string * bytes)))
           (expected : list string) : nat :=
    match steps with
    | [] => 0
    | (name, files) :: rest =>
        match run_step keys l files (expected ++ [name]) with
        | Some l => S (run_steps keys l rest (expected ++ [name]))
        | None => 0
        end
    end.
  Definition run_suite (steps : list (string * list (list string * bytes))) : nat :=
    match steps with
    | [] => 0
    | (_, files) :: _ =>
        match extract_keys files with
        | Ok keys => run_steps keys ephemeral_new steps []
        | Err _ => 0
        end
    end.
End Suite.

Definition digests (a : hash_alg) (b : bytes) : bytes :=
  match a with Sha256 => sha256 b | Sha512 => sha512 b | _ => "" end.
Definition credulous : crypto := mkCrypto (fun _ _ _ _ => true) digests.

(** Steps with their names. *)
Definition names (steps : list (list (list string * bytes))) : list (string * list (list string * bytes)) :=
  combine ["0"; "1"; "2"; "3"; "4"; "5"; "6"; "7"; "8"; "9"] steps.

(** All keys in the roots among these files, and all that is signed by one of them. *)
Definition sheets (steps : list (list (list string * bytes))) : list bytes :=
  nodup string_dec (flat_map (fun files => map snd (filter (fun f => Nat.eqb (length (fst f)) 2) files)) steps).
Definition all_keys (sheets : list bytes) : list public_key :=
  let ic := json_interchange credulous in
  flat_map (fun b => match ic_envelope ic b with
                     | Ok (_, raw) => match ic_deserialize ic Root raw with Ok m => map snd (rm_keys m) | Err _ => [] end
                     | Err _ => [] end) sheets.
Definition dedup_keys (keys : list public_key) : list public_key :=
  fold_right (fun k acc => if existsb (fun k' => String.eqb (pk_id k) (pk_id k')) acc then acc else k :: acc) [] keys.
Definition signed_texts (keys : list public_key) (sheets : list bytes) : list (bytes * bytes * bytes) :=
  let ic := json_interchange credulous in
  flat_map (fun b => match ic_envelope ic b with
                     | Ok (sigs, raw) =>
                         match ic_canonicalize ic raw with
                         | Ok msg => flat_map (fun k => map (fun s => (pk_value k, msg, sig_value s))
                                         (filter (fun s => String.eqb (sig_keyid s) (pk_id k)) sigs)) keys
                         | Err _ => []
                         end
                     | Err _ => [] end) sheets.
(** Signatures of these are worked out once, and looked up afterwards; others are worked
    out when they turn up. *)
Definition work_out (l : list (bytes * bytes * bytes)) : list (bytes * bytes * bytes * bool) :=
  map (fun x => match x with (k, m, s) => (x, ed25519_verify k m s) end) l.
Definition look_up (table : list (bytes * bytes * bytes * bool)) (key msg sig : bytes) : bool :=
  match List.find (fun x => match x with
                            | (k, m, s, _) => String.eqb key k && String.eqb sig s && String.eqb msg m
                            end) table with
  | Some x => snd x
  | None => ed25519_verify key msg sig
  end.
Definition with_table (table : list (bytes * bytes * bytes * bool)) : crypto :=
  mkCrypto (fun s k m sig => match s with Ed25519 => look_up table k m sig | _ => false end) digests.
Definition table_of (steps : list (list (list string * bytes))) : list (bytes * bytes * bytes * bool) :=
  let sh := sheets steps in work_out (signed_texts (dedup_keys (all_keys sh)) sh).

Lemma table_of_true steps : Forall (fun x => match x with (k, m, s, b) => b = ed25519_verify k m s end) (table_of steps).
Proof. unfold table_of, work_out. rewrite Forall_map. apply Forall_forall. now intros [[k m] s] _. Qed.
(** So the table makes no difference to what a signature is worth. *)
Lemma look_up_true steps key msg sig : look_up (table_of steps) key msg sig = ed25519_verify key msg sig.
Proof.
  unfold look_up. destruct (List.find _ _) as [[[[k m] s] b]|] eqn:F; [|reflexivity].
  apply find_some in F as [I H]. apply (proj1 (Forall_forall _ _) (table_of_true steps)) in I.
  apply andb_prop in H as [H Hm]. apply andb_prop in H as [Hk Hs].
  apply String.eqb_eq in Hk, Hs, Hm. now subst.
Qed.

(** Another character at some place of a file. *)
Fixpoint put_char (n : nat) (c : ascii) (s : bytes) : bytes :=
  match s, n with
  | EmptyString, _ => EmptyString
  | String _ s, O => String c s
  | String a s, S n => String a (put_char n c s)
  end.
Definition spoil (path : list string) (n : nat) (c : ascii) (files : list (list string * bytes))
  : list (list string * bytes) :=
  map (fun f => if list_eq_dec string_dec (fst f) path then (fst f, put_char n c (snd f)) else f) files.

(** The six steps all go as they should.  The first one does not with another character in
    the signature of the timestamp, in its date, in the date of the snapshot, or in the target. *)
Definition checks : list nat :=
  let C := with_table (table_of data_steps) in
  let run steps := run_suite C (names steps) in
  let spoiled path n c := run (map (spoil path n c) (firstn 1 data_steps)) in
  [ run data_steps;
    run (firstn 1 data_steps);
    spoiled ["repository"; "timestamp.json"] 123 "0"%char;
    spoiled ["repository"; "timestamp.json"] 323 "1"%char;
    spoiled ["repository"; "1.snapshot.json"] 322 "1"%char;
    spoiled ["repository"; "targets"; "5feceb66ffc86f38d952786c6d696c79c2dbc239dd4e91b46729d73a27fb57e9.0"] 0 "1"%char ].
Check (@eq_refl (list nat) [6; 1; 0; 0; 0; 0] <: checks = [6; 1; 0; 0; 0; 0]).
