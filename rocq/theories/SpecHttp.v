(** * Specification of the repository behind a web server *)
From Coq Require Import String Ascii List NArith Bool.
From Verif Require Import Base Metadata Paths Reader SpecReader Repo StringFacts SpecRepo Http.
Import ListNotations.
Open Scope string_scope.
Open Scope list_scope.
Open Scope N_scope.

(** A text that can be sent in a header: no control characters other than the tab. *)
Definition sendable (s : string) : Prop :=
  forall c, has_char c s -> N_of_ascii c = 9 \/ (32 <= N_of_ascii c /\ N_of_ascii c <> 127).

(** The path of a request for some components: the path of the base URI (one slash at its
    end does not count), followed by one segment for each name, which a server reads as
    that name.  The server understands percent signs as escapes: see C34. *)
Definition addresses (base : string) (names : list string) (url : string) : Prop :=
  exists b segs, (base = b \/ base = (b ++ "/")%string) /\ split_slash url = split_slash b ++ segs /\
    length segs = length names /\
    ((forall x, In x names -> ~ has_char "%" x) -> map url_decode segs = names).

(** The bytes of a body, up to its end or first failure. *)
Definition body_contains (body : list (N * N * reply)) (b : bytes) (e : option io_kind) : Prop :=
  contains (map snd body) b e.

(** A reader over a body: complete exactly the body; an error of the body is one of kind
    "other"; the only other error is that of a body that comes too slowly. *)
Definition passes_on (body : list (N * N * reply)) (rs : stream) : Prop :=
  (forall b, contains rs b None -> body_contains body b None) /\
  (forall b k, contains rs b (Some k) ->
     (k = IoOther /\ exists k', body_contains body b (Some k')) \/
     (k = IoTimedOut /\ exists more e, body_contains body (b ++ more) e)) /\
  (* a body that comes within 30 seconds is not refused *)
  (forall b e start, (forall t0 t1 r, In (t0, t1, r) body -> start <= t0 /\ t1 < start + 30000000000) ->
     body_contains body b e -> contains rs b (match e with Some _ => Some IoOther | None => None end)).

(** What an answer of the server means. *)
Definition means (reply : option response) (ans : result stream) : Prop :=
  match reply with
  | None => ans = Err HyperError
  | Some rp =>
      (rp_status rp = 200 /\ exists rs, ans = Ok rs /\ passes_on (rp_body rp) rs) \/
      (rp_status rp = 404 /\ ans = Err NotFound) \/
      (rp_status rp <> 200 /\ rp_status rp <> 404 /\ ans = Err (BadHttpStatus (rp_status rp)))
  end.

(** The server said that there is no such document. *)
Definition said_404 (h : http_repo) (path : string) (v : meta_version) (ans : result stream) : Prop :=
  exists server rq rp, http_fetch_metadata server h path v = ([rq], ans) /\
    server rq = Some rp /\ rp_status rp = 404.

(** One fetch of the document with these names: one request to the right place, and the
    answer that the reply means; or nothing at all if the agent cannot be sent. *)
Definition one_get (server : request -> option response) (h : http_repo) (prefix : option (list string))
           (names : list string) (outcome : list request * result stream) : Prop :=
  let pre := match prefix with Some p => p | None => [] end in
  (sendable (hr_user_agent h) ->
     exists rq, fst outcome = [rq] /\ rq_query rq = hr_query h /\ rq_user_agent rq = hr_user_agent h /\
       ((forall x, In x pre -> ~ has_char "/" x) -> addresses (hr_path h) (pre ++ names) (rq_path rq)) /\
       means (server rq) (snd outcome)) /\
  (~ sendable (hr_user_agent h) -> outcome = ([], Err HttpError)).

(** The names of a metadata file. *)
Definition file_of (v : meta_version) (f : string) : string :=
  match v with VNone => f ++ ".json" | VNumber n => decimal n ++ "." ++ f ++ ".json" end.

(** The last setting of a kind, or the default. *)
Definition last_set {A} (pick : http_setting -> option A) (default : A) (l : list http_setting) (a : A) : Prop :=
  (exists pre s post, l = pre ++ s :: post /\ pick s = Some a /\ forall x, In x post -> pick x = None) \/
  ((forall x, In x l -> pick x = None) /\ a = default).
