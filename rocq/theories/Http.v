(** * The repository behind a web server: src/repository/http.rs *)
From Coq Require Import String Ascii List NArith Bool.
From Verif Require Import Base Metadata Paths Reader Repo.
Import ListNotations.
Open Scope string_scope.
Open Scope list_scope.
Open Scope N_scope.

(** src/repository/http.rs 25-37 [struct HttpRepositoryBuilder].  Of the URI the path and
    the query; scheme and authority are never looked at here and kept in all requests.
    The HTTP client is the oracle of [http_get]. *)
Record http_builder := mkHttpBuilder {
  hb_path : string;
  hb_query : option string;
  hb_user_agent : option string;
  hb_metadata_prefix : option (list string);
  hb_targets_prefix : option (list string);
  hb_min_bytes_per_second : N
}.

(** src/repository/http.rs 45-55 [new], 58-68 [new_with_uri]. *)
Definition http_builder_new (path : string) (query : option string) : http_builder :=
  mkHttpBuilder path query None None None 4096.

(** The setters, src/repository/http.rs 75-78 [user_agent], 85-88 [metadata_prefix],
    95-98 [targets_prefix], 101-104 [min_bytes_per_second]. *)
Inductive http_setting :=
| SetUserAgent (agent : string)
| SetMetadataPrefix (prefix : list string)
| SetTargetsPrefix (prefix : list string)
| SetMinimum (min : N).
(** One call of a setter, src/repository/http.rs 75-104. *)
Definition http_set (b : http_builder) (s : http_setting) : http_builder :=
  match s with
  | SetUserAgent a =>
      mkHttpBuilder (hb_path b) (hb_query b) (Some a) (hb_metadata_prefix b) (hb_targets_prefix b) (hb_min_bytes_per_second b)
  | SetMetadataPrefix p =>
      mkHttpBuilder (hb_path b) (hb_query b) (hb_user_agent b) (Some p) (hb_targets_prefix b) (hb_min_bytes_per_second b)
  | SetTargetsPrefix p =>
      mkHttpBuilder (hb_path b) (hb_query b) (hb_user_agent b) (hb_metadata_prefix b) (Some p) (hb_min_bytes_per_second b)
  | SetMinimum m =>
      mkHttpBuilder (hb_path b) (hb_query b) (hb_user_agent b) (hb_metadata_prefix b) (hb_targets_prefix b) m
  end.

(** src/repository/http.rs 126-138 [struct HttpRepository]. *)
Record http_repo := mkHttpRepo {
  hr_path : string;
  hr_query : option string;
  hr_user_agent : string;
  hr_metadata_prefix : option (list string);
  hr_targets_prefix : option (list string);
  hr_min_bytes_per_second : N
}.

(** src/repository/http.rs 107-122 [build]. *)
Definition http_build (b : http_builder) : http_repo :=
  let user_agent := match hb_user_agent b with Some a => a | None => "rust-tuf" end in
  mkHttpRepo (hb_path b) (hb_query b) user_agent (hb_metadata_prefix b) (hb_targets_prefix b)
             (hb_min_bytes_per_second b).

(** [HeaderValue::from_str] of the http crate: no control characters except the tab.
    For src/repository/http.rs 211-238. *)
Definition header_char (c : ascii) : bool :=
  let n := N_of_ascii c in ((32 <=? n) && negb (n =? 127)) || (n =? 9).

(** What is sent: a GET (the default method) for this path and query, with this
    User-Agent header and an empty body.
    src/repository/http.rs 211-238. *)
Record request := mkRequest { rq_path : string; rq_query : option string; rq_user_agent : string }.

(** The answer of the server, as in [http_answer]: status and body.
    For src/repository/http.rs 211-238. *)
Record response := mkResponse { rp_status : N; rp_body : list (N * N * reply) }.

(** src/repository/http.rs 216-222: the request [get] builds. *)
Definition http_request (h : http_repo) (prefix : option (list string)) (components : list string) : result request :=
  let? uri := extend_uri (hr_path h) (hr_query h) prefix components in
  if all_chars header_char (hr_user_agent h) then Ok (mkRequest (fst uri) (snd uri) (hr_user_agent h))
  else Err HttpError.

(** src/repository/http.rs 211-237 [get] and 258-265 resp. 281-287: the requests that are
    sent, and the answer as a reader.  [server] is what becomes of a request: [None] if
    the connection fails. *)
Definition http_get (server : request -> option response) (h : http_repo) (prefix : option (list string))
           (components : list string) : list request * result stream :=
  match http_request h prefix components with
  | Err e => ([], Err e)
  | Ok rq =>
      ([rq], match server rq with
             | None => Err HyperError
             | Some rp => http_answer (hr_min_bytes_per_second h) (rp_status rp) (rp_body rp)
             end)
  end.

(** src/repository/http.rs 245-268 [fetch_metadata], with JSON as the interchange. *)
Definition http_fetch_metadata (server : request -> option response) (h : http_repo) (path : string) (v : meta_version)
  : list request * result stream :=
  http_get server h (hr_metadata_prefix h) (metadata_components "json" path v).

(** src/repository/http.rs 270-290 [fetch_target]. *)
Definition http_fetch_target (server : request -> option response) (h : http_repo) (path : string)
  : list request * result stream :=
  http_get server h (hr_targets_prefix h) (target_components path).
