(** * [futures_util::io::copy], call by call

    As used in src/client.rs 816 and src/repository/file_system.rs 170 and 192.  Its source
    is not in the repository; this is version 0.3.1 as published: a [BufReader] around the
    reader, and a loop that fills the buffer, writes, and at the end of the reader flushes
    the writer. *)
From Coq Require Import String List NArith Bool.
From Verif Require Import Base Reader.
Import ListNotations.
Open Scope string_scope.
Open Scope list_scope.
Open Scope N_scope.

(** An answer of [AsyncWrite::poll_write] or [poll_flush]; [Took n] is [Poll::Ready(Ok(n))],
    any [n] standing for [Ok(())] in the case of a flush.  For src/client.rs 816. *)
Inductive wreply := WPending | WFailed (k : io_kind) | Took (n : nat).

(** What the writer sees, with its answer.  For src/client.rs 816. *)
Inductive wevent := Wrote (offered : bytes) (ans : wreply) | Flush (ans : wreply).

(** The copy in progress: what is left in the buffer, what the reader is going to answer,
    and how much has been written.  For src/client.rs 816. *)
Record copying := mkCopy { cp_buf : bytes; cp_rest : stream; cp_amount : N }.

(** [poll_fill_buf]: only an empty buffer is filled.  For src/client.rs 816. *)
Inductive filled := Waits (rest : stream) | Breaks (k : io_kind) | Has (buf : bytes) (rest : stream).
(** The same function.  For src/client.rs 816. *)
Definition fill (buf : bytes) (rs : stream) : filled :=
  if negb (byte_length buf =? 0) then Has buf rs
  else match rs with
       | [] => Has "" []
       | Pending :: rest => Waits rest
       | Failed k :: _ => Breaks k
       | Ready data :: rest => Has data rest
       end.

(** [consume] of [BufReader], which does not go beyond the buffer.  For src/client.rs 816. *)
Fixpoint consume (n : nat) (b : bytes) : bytes :=
  match n, b with
  | O, _ => b
  | S _, EmptyString => EmptyString
  | S n, String _ b => consume n b
  end.

(** One turn of the loop, or of the calls of [poll] of which one ended with [Pending];
    [w] is what the writer answers if it is called.  A writer that takes nothing ends the
    copy ([ErrorKind::WriteZero], which is one of [IoOther]).  For src/client.rs 816. *)
Definition turn (s : copying) (w : wreply) : list wevent * (copying + (N + io_kind)) :=
  match fill (cp_buf s) (cp_rest s) with
  | Waits rest => ([], inl (mkCopy "" rest (cp_amount s)))
  | Breaks k => ([], inr (inr k))
  | Has buf rest =>
      if byte_length buf =? 0 then
        ([Flush w], match w with
                    | WPending => inl (mkCopy "" rest (cp_amount s))
                    | WFailed k => inr (inr k)
                    | Took _ => inr (inl (cp_amount s))
                    end)
      else
        ([Wrote buf w], match w with
                        | WPending => inl (mkCopy buf rest (cp_amount s))
                        | WFailed k => inr (inr k)
                        | Took O => inr (inr IoOther)
                        | Took n => inl (mkCopy (consume n buf) rest (cp_amount s + N.of_nat n))
                        end)
  end.

(** Turn after turn until the copy ends, or until it is dropped (no more answers).
    For src/client.rs 816. *)
Fixpoint copy_with (s : copying) (ws : list wreply) : list wevent * (copying + (N + io_kind)) :=
  match ws with
  | [] => ([], inl s)
  | w :: ws =>
      let (ev, x) := turn s w in
      match x with
      | inl s' => let (evs, y) := copy_with s' ws in (ev ++ evs, y)
      | inr o => (ev, inr o)
      end
  end.

(** [copy(read, &mut write)], src/client.rs 816. *)
Definition copy (rs : stream) (ws : list wreply) : list wevent * (copying + (N + io_kind)) :=
  copy_with (mkCopy "" rs 0) ws.
