(** Model of src/server/response_writer.rs: the setters of [ResponseWriter]. The writer's state
    is its [Response] (the record [response] of ServerEnc.v; extensions are not modelled). *)
From Verif Require Export Glitch.

(** The response a handler's [ResponseWriter] starts with: [Response::new(Body::empty())],
    src/server/mod.rs:91-94. *)
Definition rw_new : response := mkResp 200 HTTP_11 [] body_empty.

(** [set_status], src/server/response_writer.rs:151-154. *)
Definition rw_set_status (st : N) (r : response) : response := mkResp st (r_version r) (r_headers r) (r_body r).

(** [set_code], src/server/response_writer.rs:160-163; [None]: [from_u16(..).unwrap()] panics. *)
Definition rw_set_code (code : N) (r : response) : option response :=
  if status_ok code then Some (mkResp code (r_version r) (r_headers r) (r_body r)) else None.

(** [set_body], src/server/response_writer.rs:168-171. *)
Definition rw_set_body (b : body) (r : response) : response := mkResp (r_status r) (r_version r) (r_headers r) b.

(** [append_header], src/server/response_writer.rs:174-183. The name is an [IntoHeaderName]: a
    [HeaderName], or a [&'static str] that is converted to one ([None]: that panics). The value
    is a [HeaderValue]. *)
Definition rw_append_header (n v : bytes) (r : response) : option response :=
  match header_name n with
  | Some k => Some (mkResp (r_status r) (r_version r) (hm_append k v (r_headers r)) (r_body r))
  | None => None
  end.

(** [insert_header], src/server/response_writer.rs:186-195. *)
Definition rw_insert_header (n v : bytes) (r : response) : option response :=
  match header_name n with
  | Some k => Some (mkResp (r_status r) (r_version r) (hm_insert k v (r_headers r)) (r_body r))
  | None => None
  end.

(** [set_text], src/server/response_writer.rs:225-231. *)
Definition rw_set_text (t : bytes) (r : response) : response :=
  mkResp (r_status r) (r_version r) (hm_insert h_content_type (B "text/plain") (r_headers r)) (body_from_string t).

(** A stream of results as polled by [set_sse]; [SPend] is a pending poll.
    src/server/response_writer.rs:237-246. *)
Inductive sev := SItem (d : bytes) | SPend (fired : bool) | SErr.

(** futures-util's [TryStreamExt::into_async_read] (not of the source): items are read in turn,
    empty ones are skipped; after an error the reader is at its end. Called in [set_sse],
    src/server/response_writer.rs:237-246. *)
Fixpoint stream_evs (l : list sev) : list ev :=
  match l with
  | [] => []
  | SItem [] :: r => stream_evs r
  | SItem d :: r => Data d :: stream_evs r
  | SPend f :: r => Pend f :: stream_evs r
  | SErr :: _ => [Fail]
  end.
(** The reader made in [set_sse], src/server/response_writer.rs:237-246. *)
Definition stream_src (l : list sev) : src := mkSrc (stream_evs l) Eof.

(** [set_sse], src/server/response_writer.rs:237-246. A stream that never ends is not modelled. *)
Definition rw_set_sse (l : list sev) (r : response) : response :=
  mkResp (r_status r) (r_version r) (hm_insert h_content_type (B "text/event-stream") (r_headers r))
         (body_from_reader (stream_src l) None).

(** The public setters; [CReplace] is an assignment through [response_mut],
    src/server/response_writer.rs:211-213. *)
Inductive call :=
| CStatus (st : N) | CCode (code : N) | CBody (b : body)
| CAppend (n v : bytes) | CInsert (n v : bytes)
| CText (t : bytes) | CSse (l : list sev) | CReplace (r : response).

(** One call of a setter, src/server/response_writer.rs:151-246. *)
Definition rw_call (c : call) (r : response) : option response :=
  match c with
  | CStatus st => Some (rw_set_status st r)
  | CCode code => rw_set_code code r
  | CBody b => Some (rw_set_body b r)
  | CAppend n v => rw_append_header n v r
  | CInsert n v => rw_insert_header n v r
  | CText t => Some (rw_set_text t r)
  | CSse l => Some (rw_set_sse l r)
  | CReplace r' => Some r'
  end.

(** Calls in a row of the setters, src/server/response_writer.rs:151-246. *)
Fixpoint rw_calls (cs : list call) (r : response) : option response :=
  match cs with
  | [] => Some r
  | c :: cs' => match rw_call c r with Some r' => rw_calls cs' r' | None => None end
  end.

(** [send_code], src/server/response_writer.rs:143-148, over [send] ([ResponseWriter::send],
    122-133, passes the parts of the response on unchanged). *)
Definition send_code (fuel : nat) (ev : env) (code : N) (r : response) (w : wtr) : wtr * rres N :=
  match rw_set_code code r with Some r' => send fuel ev r' w | None => (w, RPanic) end.
