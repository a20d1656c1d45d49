(** * Readers: src/util.rs, src/crypto.rs 84-124 *)
From Coq Require Import String List NArith QArith Bool.
From Verif Require Import Base Metadata F32.
Import ListNotations.
Open Scope string_scope.
Open Scope list_scope.
Open Scope N_scope.

(** The [io::ErrorKind]s the library distinguishes.
    As in src/util.rs 97, 163, 176 and src/error.rs 96-103. *)
Inductive io_kind := IoNotFound | IoInvalidData | IoTimedOut | IoOther.

(** src/error.rs 96-103 [impl From<io::Error> for Error]. *)
Definition of_io (k : io_kind) : error := match k with IoNotFound => NotFound | _ => Opaque end.

(** One answer of [AsyncRead::poll_read] (or [Read::read]); [Ready b] is
    [Poll::Ready(Ok(n))] with [b] the [n] bytes put into the buffer, so [Ready ""] is
    [Ok(0)].
    As in src/util.rs 75-81 and 151-156. *)
Inductive reply := Pending | Failed (k : io_kind) | Ready (data : bytes).

(** An arbitrary reader: some state and a function from the state and the size of the
    buffer to an answer.  That the answer fits into the buffer is part of the
    contract of the trait and needed nowhere below; Rust would panic on slicing the
    buffer.
    The [inner] of src/util.rs 50-58 and 117-125. *)
Record source := mkSource {
  src_state : Type;
  src_init : src_state;
  src_poll : src_state -> nat -> reply * src_state
}.

(** The answers to successive reads with buffers of the given sizes.
    Calls of src/util.rs 75-104 and 151-187. *)
Fixpoint polls_from {S : Type} (poll : S -> nat -> reply * S) (s : S) (sizes : list nat) : list reply :=
  match sizes with
  | [] => []
  | n :: rest => let (r, s') := poll s n in r :: polls_from poll s' rest
  end.
(** Calls of src/util.rs 75-104 and 151-187, from the initial state of the reader. *)
Definition polls (src : source) (sizes : list nat) : list reply :=
  polls_from (src_poll src) (src_init src) sizes.

(** The number of bytes read, as in src/util.rs 156. *)
Definition byte_length (b : bytes) : N := N.of_nat (String.length b).

(** ** [SafeReader] *)

(** src/util.rs 117-122 [struct SafeReader] without the inner reader.  A digest
    context is the algorithm with the bytes fed to it so far. *)
Record safe_reader := mkSafe {
  sr_max : N;
  sr_hasher : option (hash_alg * bytes * bytes);   (* algorithm, fed, expected *)
  sr_read : N
}.

(** src/crypto.rs 851-860 [HashAlgorithm::digest_context]: whether there is one. *)
Definition digest_context (a : hash_alg) : result hash_alg :=
  match a with HashUnknown _ => Err IllegalArgument | _ => Ok a end.

(** src/util.rs 131-147 [SafeReader::new]. *)
Definition safe_new (max_size : N) (hash_data : option (hash_alg * bytes)) : result safe_reader :=
  let? hasher := match hash_data with
                 | Some (alg, value) => let? a := digest_context alg in Ok (Some (a, "", value))
                 | None => Ok None
                 end in
  Ok (mkSafe max_size hasher 0).

(** src/util.rs 150-188 [SafeReader::poll_read], given what the inner reader answered
    to the same call. *)
Definition safe_poll (C : crypto) (s : safe_reader) (inner : reply) : reply * safe_reader :=
  match inner with
  | Pending => (Pending, s)
  | Failed k => (Failed k, s)
  | Ready data =>
      if byte_length data =? 0 then
        match sr_hasher s with
        | Some (alg, fed, expected) =>
            let s' := mkSafe (sr_max s) None (sr_read s) in
            if negb (String.eqb (ring_digest C alg fed) expected)
            then (Failed IoInvalidData, s')
            else (Ready "", s')
        | None => (Ready "", s)
        end
      else
        let sum := sr_read s + byte_length data in
        if (sum <=? u64_max) && (sum <=? sr_max s) then
          (Ready data,
           mkSafe (sr_max s)
             (match sr_hasher s with
              | Some (alg, fed, expected) => Some (alg, (fed ++ data)%string, expected)
              | None => None end)
             sum)
        else (Failed IoInvalidData, s)
  end.

(** The reader made by [check_length_and_hash], src/util.rs 40-46. *)
Definition checked (C : crypto) (src : source) (s : safe_reader) : source :=
  mkSource (src_state src * safe_reader) (src_init src, s)
    (fun st n =>
       let (r, i') := src_poll src (fst st) n in
       let (r', s') := safe_poll C (snd st) r in
       (r', (i', s'))).

(** ** [EnforceMinimumBitrate] *)

(** src/util.rs 50-55 [struct EnforceMinimumBitrate] without the inner reader; times
    are nanoseconds on the monotone clock. *)
Record bitrate := mkBitrate { br_min : N; br_start : option N; br_read : N }.

(** src/util.rs 59-66 [EnforceMinimumBitrate::new]. *)
Definition bitrate_new (min_bytes_per_second : N) : bitrate := mkBitrate min_bytes_per_second None 0.

(** src/util.rs 69-70 [BITRATE_GRACE_PERIOD], 30 s. *)
Definition grace_period : N := 30000000000.

(** src/util.rs 94: [(bytes as f32) / duration.as_secs_f32() < min as f32]. *)
Definition too_slow (bytes_read duration min : N) : bool :=
  f32_lt (f32_div (f32_of_N bytes_read) (as_secs_f32 duration)) (f32_of_N min).

(** src/util.rs 74-105 [EnforceMinimumBitrate::poll_read]; [t0] and [t1] are what the
    clock shows when [Instant::now] (on the first ready read) and [elapsed] are
    called.  The byte counter is not bounded to 64 bits (simplification). *)
Definition bitrate_poll (s : bitrate) (t0 t1 : N) (inner : reply) : reply * bitrate :=
  match inner with
  | Pending => (Pending, s)
  | Failed k => (Failed k, s)
  | Ready data =>
      let start := match br_start s with Some t => t | None => t0 end in
      let n := byte_length data in
      if n =? 0 then (Ready "", mkBitrate (br_min s) (Some start) (br_read s))
      else
        let s' := mkBitrate (br_min s) (Some start) (br_read s + n) in
        let duration := t1 - start in
        if (grace_period <=? duration) && too_slow (br_read s') duration (br_min s')
        then (Failed IoTimedOut, s')
        else (Ready data, s')
  end.

(** Successive reads: the inner answers with the two clock readings of each call.
    Calls of src/util.rs 75-104. *)
Fixpoint bitrate_run (s : bitrate) (calls : list (N * N * reply)) : list reply :=
  match calls with
  | [] => []
  | (t0, t1, r) :: rest => let (r', s') := bitrate_poll s t0 t1 r in r' :: bitrate_run s' rest
  end.

(** ** Reading to the end *)

(** A finite stream: the answers to the reads; when they are used up the stream has
    ended ([Ok(0)] for ever).  A stream that never ends is a client whose future never
    completes, which the prefix executions of Client.v cover.
    The readers of src/repository.rs 36-71. *)
Definition stream := list reply.

(** [AsyncReadExt::read_to_end] of the futures crate on a checked stream: polls until
    [Ok(0)] or an error.
    As in src/repository.rs 276. *)
Fixpoint read_to_end (C : crypto) (s : safe_reader) (rs : stream) (buf : bytes) : result bytes :=
  match rs with
  | [] => match fst (safe_poll C s (Ready "")) with Failed k => Err (of_io k) | _ => Ok buf end
  | r :: rest =>
      match safe_poll C s r with
      | (Pending, s') => read_to_end C s' rest buf
      | (Failed k, _) => Err (of_io k)
      | (Ready data, s') =>
          if byte_length data =? 0 then Ok buf else read_to_end C s' rest (buf ++ data)%string
      end
  end.

(** The same on a stream without checks: [Ok(bytes)] or the [io::Error].
    As in src/repository/ephemeral.rs 112 and 128. *)
Fixpoint read_plain (rs : stream) (buf : bytes) : bytes + io_kind :=
  match rs with
  | [] => inl buf
  | Pending :: rest => read_plain rest buf
  | Failed k :: _ => inr k
  | Ready data :: rest => if byte_length data =? 0 then inl buf else read_plain rest (buf ++ data)%string
  end.

(** A checked stream as a stream again, for consumers that take a reader.
    As src/client.rs 816 takes the result of src/repository.rs 290-301. *)
Fixpoint checked_stream (C : crypto) (s : safe_reader) (rs : stream) : stream :=
  match rs with
  | [] => [fst (safe_poll C s (Ready ""))]
  | r :: rest => let (r', s') := safe_poll C s r in r' :: checked_stream C s' rest
  end.

(** ** [calculate_hashes] *)

(** src/crypto.rs 101-117: the reading loop; contexts are (algorithm, fed bytes).
    A blocking reader never answers [Pending]; it is skipped. *)
Fixpoint calculate_loop (rs : stream) (size : N) (ctxs : list (hash_alg * bytes))
  : result (N * list (hash_alg * bytes)) :=
  match rs with
  | [] => Ok (size, ctxs)
  | Pending :: rest => calculate_loop rest size ctxs
  | Failed k :: _ => Err (of_io k)
  | Ready data :: rest =>
      if byte_length data =? 0 then Ok (size, ctxs)
      else calculate_loop rest (size + byte_length data)
             (map (fun c => (fst c, (snd c ++ data)%string)) ctxs)
  end.

(** src/crypto.rs 95-99: one context per algorithm. *)
Fixpoint contexts (algs : list hash_alg) (m : list (hash_alg * bytes)) : result (list (hash_alg * bytes)) :=
  match algs with
  | [] => Ok m
  | a :: rest => let? a' := digest_context a in contexts rest (insert a' "" m)
  end.

(** src/crypto.rs 85-124 [calculate_hashes]. *)
Definition calculate_hashes (C : crypto) (rs : stream) (algs : list hash_alg)
  : result (N * list (hash_alg * bytes)) :=
  match algs with
  | [] => Err IllegalArgument
  | _ =>
      let? ctxs := contexts algs [] in
      let? (size, ctxs) := calculate_loop rs 0 ctxs in
      Ok (size, map (fun c => (fst c, ring_digest C (fst c) (snd c))) ctxs)
  end.

(** src/metadata.rs 1582-1592 [TargetDescription::from_reader]. *)
Definition target_from_reader (C : crypto) (rs : stream) (algs : list hash_alg) : result target_desc :=
  let? (length, hashes) := calculate_hashes C rs algs in
  Ok (mkTargetDesc length hashes None).

(** src/metadata.rs 1627-1643 [TargetDescription::from_reader_with_custom]. *)
Definition target_from_reader_with_custom (C : crypto) (rs : stream) (algs : list hash_alg) custom
  : result target_desc :=
  let? (length, hashes) := calculate_hashes C rs algs in
  Ok (mkTargetDesc length hashes (Some custom)).

(** src/metadata.rs 1114-1138 [MetadataDescription::from_reader]; [usize] has 64 bits. *)
Definition meta_from_reader (C : crypto) (rs : stream) (version : N) (algs : list hash_alg) : result meta_desc :=
  if version <? 1 then Err IllegalArgument
  else
    let? (length, hashes) := calculate_hashes C rs algs in
    if u64_max <? length then Err IllegalArgument
    else Ok (mkMetaDesc version length hashes).

(** src/metadata.rs 1141-1166 [MetadataDescription::new]. *)
Definition meta_desc_new (version length : N) (hashes : list (hash_alg * bytes)) : result meta_desc :=
  if version <? 1 then Err IllegalArgument
  else match hashes with [] => Err IllegalArgument | _ => Ok (mkMetaDesc version length hashes) end.

(** src/metadata.rs 1539-1555 [TargetDescription::new]. *)
Definition target_desc_new (length : N) (hashes : list (hash_alg * bytes)) custom : result target_desc :=
  match hashes with [] => Err IllegalArgument | _ => Ok (mkTargetDesc length hashes custom) end.
