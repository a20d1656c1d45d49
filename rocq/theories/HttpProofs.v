(** * Proofs about the repository behind a web server *)
From Coq Require Import String Ascii List NArith Bool Lia.
From Verif Require Import Base BaseFacts Metadata Paths SpecPaths PathProofs StringFacts Reader SpecReader ReaderProofs Repo SpecRepo RepoProofs
     Http SpecHttp.
Import ListNotations.
Open Scope string_scope.
Open Scope list_scope.
Open Scope N_scope.

Lemma sendable_iff s : all_chars header_char s = true <-> sendable s.
Proof.
  assert (K : forall c, header_char c = true <-> N_of_ascii c = 9 \/ (32 <= N_of_ascii c /\ N_of_ascii c <> 127)).
  { intros c. unfold header_char. rewrite orb_true_iff, andb_true_iff, N.leb_le, negb_true_iff, N.eqb_neq, N.eqb_eq. tauto. }
  split.
  - intros H c I. apply K. exact (all_chars_has _ _ _ H I).
  - induction s as [|c s IH]; auto. intros H. cbn [all_chars]. apply andb_true_iff. split.
    + apply K, H. apply has_char_cons. now left.
    + apply IH. intros d I. apply H. apply has_char_cons. now right.
Qed.

Definition mapped (body : list (N * N * reply)) : list (N * N * reply) :=
  map (fun '(t, r) => (t, match r with Failed _ => Failed IoOther | _ => r end)) body.

Lemma pending_inv rest b e : contains (Pending :: rest) b e -> contains rest b e.
Proof. intros H. now inversion H. Qed.
Lemma data_inv d rest b e : d <> "" -> contains (Ready d :: rest) b e -> exists b', b = (d ++ b')%string /\ contains rest b' e.
Proof. intros N H. inversion H; subst; [congruence|]. eauto. Qed.

Lemma bitrate_only body : forall s b e, contains (bitrate_run s (mapped body)) b e ->
  match e with
  | None => body_contains body b None
  | Some k => (k = IoOther /\ exists k', body_contains body b (Some k')) \/
              (k = IoTimedOut /\ exists more e', body_contains body (b ++ more) e')
  end.
Proof.
  unfold body_contains. induction body as [|[[t0 t1] r] body IH]; intros s b e H; cbn [mapped map bitrate_run snd] in *.
  - inversion H; subst. constructor.
  - fold (mapped body) in H. destruct r as [|k|d]; cbn [bitrate_poll] in H.
    + apply pending_inv, IH in H. destruct e as [k|]; [|now constructor].
      destruct H as [(-> & k' & H')|(-> & more & e' & H')]; [left|right]; split; auto.
      * exists k'. now constructor.
      * exists more, e'. now constructor.
    + inversion H; subst. left. split; auto. exists k. constructor.
    + destruct (byte_length d =? 0) eqn:Z.
      * apply byte_length_zero in Z. subst d. inversion H; subst; [constructor|congruence].
      * assert (D : d <> "") by (intros ->; discriminate).
        destruct (_ && _).
        -- inversion H; subst. right. split; auto.
           assert (X : forall rs, exists b e, contains rs b e).
           { clear. induction rs as [|[|k|d] rs (b & e & IH)].
             - exists "", None. constructor.
             - exists b, e. now constructor.
             - exists "", (Some k). constructor.
             - destruct d as [|c d]; [exists "", None; constructor|]. exists (String c d ++ b)%string, e.
               constructor; [discriminate|exact IH]. }
           destruct (X (map snd body)) as (b & e & C). exists (d ++ b)%string, e. cbn [append]. constructor; assumption.
        -- apply data_inv in H as (b' & -> & H); auto. apply IH in H. destruct e as [k|]; [|now constructor].
           destruct H as [(-> & k' & H')|(-> & more & e' & H')]; [left|right]; split; auto.
           ++ exists k'. now constructor.
           ++ exists more, e'. rewrite sapp_assoc. now constructor.
Qed.

Lemma bitrate_in_time body : forall s b e start,
  (forall t, br_start s = Some t -> start <= t) ->
  (forall t0 t1 r, In (t0, t1, r) body -> start <= t0 /\ t1 < start + 30000000000) ->
  body_contains body b e ->
  contains (bitrate_run s (mapped body)) b (match e with Some _ => Some IoOther | None => None end).
Proof.
  unfold body_contains. induction body as [|[[t0 t1] r] body IH]; intros s b e start S T H; cbn [mapped map bitrate_run snd] in *.
  - inversion H; subst. constructor.
  - fold (mapped body). destruct (T t0 t1 r (or_introl eq_refl)) as [T0 T1].
    assert (T' : forall t0 t1 r, In (t0, t1, r) body -> start <= t0 /\ t1 < start + 30000000000) by (intros; apply (T t2 t3 r0); now right).
    destruct r as [|k|d]; cbn [bitrate_poll].
    + apply pending_inv in H. constructor. now apply (IH s b e start).
    + inversion H; subst. constructor.
    + set (st := match br_start s with Some t => t | None => t0 end).
      assert (St : start <= st) by (unfold st; destruct (br_start s) as [t|]; auto).
      destruct (byte_length d =? 0) eqn:Z.
      * apply byte_length_zero in Z. subst d. inversion H; subst; [constructor|congruence].
      * assert (D : d <> "") by (intros ->; discriminate).
        assert (G : grace_period <=? t1 - st = false) by (apply N.leb_gt; unfold grace_period; lia).
        rewrite G. cbn [andb]. apply data_inv in H as (b' & -> & H); auto. constructor; auto.
        apply (IH _ _ _ start); auto. cbn. intros t Q. inversion Q; subst. auto.
Qed.

Lemma http_answer_means min rp : means (Some rp) (http_answer min (rp_status rp) (rp_body rp)).
Proof.
  unfold http_answer. cbn [means]. destruct (rp_status rp =? 200) eqn:A.
  - apply N.eqb_eq in A. left. split; auto. eexists. split; [reflexivity|]. fold (mapped (rp_body rp)).
    split; [|split].
    + intros b H. now apply (bitrate_only _ _ _ _ H).
    + intros b k H. now apply (bitrate_only _ _ _ _ H).
    + intros b e start T H. apply (bitrate_in_time _ _ _ _ start); auto. cbn. discriminate.
  - apply N.eqb_neq in A. right. destruct (rp_status rp =? 404) eqn:B.
    + apply N.eqb_eq in B. auto.
    + apply N.eqb_neq in B. auto.
Qed.

(** The answer never breaks off with an error of kind "not found". *)
Lemma http_never_broken server h prefix comps rs b :
  snd (http_get server h prefix comps) = Ok rs -> ~ contains rs b (Some IoNotFound).
Proof.
  unfold http_get. destruct (http_request h prefix comps) as [rq|]; cbn [snd]; [|discriminate].
  destruct (server rq) as [rp|]; [|discriminate].
  intros E C. pose proof (http_answer_means (hr_min_bytes_per_second h) rp) as M. rewrite E in M. cbn [means] in M.
  destruct M as [(_ & rs' & Q & _ & P & _)|[(_ & Q)|(_ & _ & Q)]]; try discriminate. inversion Q; subst.
  destruct (P b IoNotFound C) as [(K & _)|(K & _)]; discriminate.
Qed.

Lemma extend_addresses path query prefix comps : uri_ok path query ->
  let names := match prefix with Some p => p | None => [] end ++ comps in
  (forall x, In x names -> ~ has_char "/" x) ->
  exists url, extend_uri path query prefix comps = Ok (url, query) /\ addresses path names url.
Proof.
  intros U names NS. eexists. split; [now apply extend_uri_ok|]. fold names.
  exists (pop_slash path), (map url_encode names).
  destruct (pop_slash_eq path) as (t & T & E). split.
  { destruct T as [-> | ->]; [left; rewrite sapp_nil_r in E|right]; auto. }
  split.
  - apply split_join.
    + intros C. apply app_eq_nil in C as [C _]. now apply split_nonempty in C.
    + intros x I. apply in_app_or in I as [I|I]; [now apply split_pieces in I|].
      apply in_map_iff in I as (y & <- & I). apply encode_no_slash. auto.
  - split; [apply map_length|]. intros H. rewrite map_map. rewrite <- (map_id names) at 2. apply map_ext_in.
    intros x I. now apply encode_decode, H.
Qed.
