(** Model of src/server/decode.rs: obtaining a request from a connection. *)
From Verif Require Export ChunkedDec BodyM.

(** [DecodeFail], src/server/decode.rs:186-208. [HttpNoPath], [HttpNoMethod] and
    [HttpNoVersion] cannot occur after a complete parse (httparse then has set all three) and
    are left out. *)
Inductive fail :=
| FConnLost | FMalformedHead | FUnsupportedTE | FNoHost | FInvalidCL | FBuild | FHttp10
| FHeadParse | FMethod | FHeaderName | FHeaderValue.

(** ** Body of a request, as an [AsyncRead] (src/body.rs:159-167)
    [RFixed rem b]: futures-lite [Take] with [rem] bytes left over the connection's
    [BufReader] (src/server/decode.rs:145).
    [RChunked buf d]: a second [BufReader], holding [buf], over the chunked decoder (line 141). *)
Inductive rbody := RFixed (rem : N) (b : brd) | RChunked (buf : bytes) (d : dec).

(** [Take::poll_read] of futures-lite. The reader made at src/server/decode.rs:145 and
    src/client/decode.rs:118. *)
Definition take_read (n : nat) (rem : N) (b : brd) : rbody * pres bytes :=
  if (rem =? 0)%N then (RFixed rem b, POk [])
  else
    match br_read (N.to_nat (N.min (N.of_nat n) rem)) b with
    | (b', POk d) => (RFixed (rem - N.of_nat (length d)) b', POk d)
    | (b', r) => (RFixed rem b', r)
    end.

(** [BufReader::poll_read] (as [br_read] of Io.v) over the decoder; capacity [e_bufcap]. The
    reader made at src/server/decode.rs:141 and src/client/decode.rs:102. *)
Definition bufdec_read (ev : env) (n : nat) (buf : bytes) (d : dec) : rbody * pres bytes :=
  match buf with
  | [] =>
      if (e_bufcap ev <=? n)%nat
      then let (d', r) := dec_read ev n d in (RChunked [] d', r)
      else
        match dec_read ev (e_bufcap ev) d with
        | (d', POk x) => (RChunked (skipn (length (firstn n x)) x) d', POk (firstn n x))
        | (d', r) => (RChunked [] d', r)
        end
  | x => (RChunked (skipn (length (firstn n x)) x) d, POk (firstn n x))
  end.

(** [poll_read] of a received message's body, src/body.rs:159-167. *)
Definition body_read (ev : env) (n : nat) (b : rbody) : rbody * pres bytes :=
  match b with
  | RFixed rem b => take_read n rem b
  | RChunked buf d => bufdec_read ev n buf d
  end.

(** The transport under a body's reader. The [io.clone()] of src/server/decode.rs:39 that the
    body still reads from. *)
Definition body_src (b : rbody) : src :=
  match b with RFixed _ b => br_src b | RChunked _ d => br_src (d_in d) end.

(** Trailers sent so far on the body's channel (src/body.rs:119-121). *)
Definition body_trailers (b : rbody) : list hmap :=
  match b with RFixed _ _ => [] | RChunked _ d => d_chan d end.

(** What a handler sees of a request besides the body: method, uri, headers and declared
    length ([None] for chunked). The version is always HTTP/1.1. The parts set at
    src/server/decode.rs:115-118, 149-154. *)
Record rhead := mkRhead { q_meth : bytes; q_uri : uri; q_hdrs : hmap; q_len : option N }.

(** Result of [decode]. [OFuel] is the out-of-fuel outcome of the model. The type at
    src/server/decode.rs:33. *)
Inductive outcome :=
| OReq (q : rhead) (b : rbody) | ONone | OFail (f : fail) | OTimeout | OFuel.

(** ** The head loop, src/server/decode.rs:45-61 *)
Inductive headres := HdDone (buf : bytes) | HdNone | HdLost | HdTimeout | HdFuel.

(** The loop at src/server/decode.rs:45-61. *)
Fixpoint read_head_go (fuel : nat) (tmo : bool) (b : brd) (buf : bytes) : brd * headres :=
  match fuel with
  | O => (b, HdFuel)
  | S f =>
      match read_until tmo b with
      | (b', ROk []) => (b', HdNone)
      | (b', ROk x) =>
          if ends_with CRLF2 (buf ++ x) then (b', HdDone (buf ++ x))
          else read_head_go f tmo b' (buf ++ x)
      | (b', RErr) => (b', HdLost)
      | (b', RTimeout) => (b', HdTimeout)
      | (b', RPanic) | (b', RFuel) => (b', HdFuel)
      end
  end.
(** The loop at src/server/decode.rs:45-61, from an empty buffer. *)
Definition req_head (tmo : bool) (b : brd) : brd * headres := read_head_go (S (br_size b)) tmo b [].

(** ** The header loop, src/server/decode.rs:86-119 *)
Record hscan := mkScan { h_cl : option N; h_hashost : bool; h_te : bool; h_chunked : bool; h_map : hmap }.
(** The variables of src/server/decode.rs:86-89. *)
Definition scan0 : hscan := mkScan None false false false [].

(** Lines 92-113: the cases by header name. [from_utf8] failing and [parse] failing give the
    same error; [parse_usize] rejects non-digits, hence non-ASCII, anyway. Of [from_utf8_lossy]
    only ASCII matters here, as the value is [chunked] or [identity]. In src/server/decode.rs. *)
Definition scan_special (nv : bytes * bytes) (a : hscan) : fail + hscan :=
  if eq_ic (fst nv) h_content_length then
    match parse_usize (snd nv) with
    | None => inl FInvalidCL
    | Some n => inr (mkScan (Some n) (h_hashost a) (h_te a) (h_chunked a) (h_map a))
    end
  else if eq_ic (fst nv) h_transfer_encoding then
    let v := lower (snd nv) in
    if beq v (B "chunked") || beq v (B "identity")
    then inr (mkScan (h_cl a) (h_hashost a) true (eq_ic (trim (snd nv)) (B "chunked")) (h_map a))
    else inl FUnsupportedTE
  else if eq_ic (fst nv) h_host
  then inr (mkScan (h_cl a) true (h_te a) (h_chunked a) (h_map a))
  else inr a.

(** Lines 115-118. In src/server/decode.rs. *)
Definition scan_append (nv : bytes * bytes) (a : hscan) : fail + hscan :=
  match header_name (fst nv) with
  | None => inl FHeaderName
  | Some n =>
      match header_value (snd nv) with
      | None => inl FHeaderValue
      | Some v => inr (mkScan (h_cl a) (h_hashost a) (h_te a) (h_chunked a) (hm_append n v (h_map a)))
      end
  end.

(** The loop at src/server/decode.rs:91-119. *)
Fixpoint scan_headers (hs : list (bytes * bytes)) (a : hscan) : fail + hscan :=
  match hs with
  | [] => inr a
  | nv :: r =>
      match scan_special nv a with
      | inl f => inl f
      | inr a' => match scan_append nv a' with inl f => inl f | inr a'' => scan_headers r a'' end
      end
  end.

(** ** [decode] up to the 100-continue, src/server/decode.rs:63-119
    Result: method, path and header scan. *)
Definition parse_head (ev : env) (buf : bytes) : fail + (bytes * bytes * hscan) :=
  match parse_request (e_trim ev) 16 buf with
  | HErr => inl FHeadParse
  | HPart => inl FMalformedHead
  | HDone q =>
      match method_of (q_method q) with
      | None => inl FMethod
      | Some m =>
          if (q_version q =? 1)%N then
            match scan_headers (q_headers q) scan0 with
            | inl f => inl f
            | inr a => inr (m, q_path q, a)
            end
          else inl FHttp10
      end
  end.

(** [handle_100_continue], src/server/decode.rs:159-181. *)
Definition expects_continue (a : hscan) : bool :=
  match hm_get h_expect (h_map a) with Some v => beq v (B "100-continue") | None => false end.
(** [EXPECT_RESPONSE], src/server/decode.rs:160. *)
Definition continue_text : bytes := B "HTTP/1.1 100 Continue" ++ CRLF ++ CRLF.

(** The rest of [decode], src/server/decode.rs:128-156. *)
Definition build_req (ev : env) (m path : bytes) (a : hscan) (b : brd) : outcome :=
  if negb (h_hashost a) then OFail FNoHost
  else
    let cl := match h_cl a with Some n => n | None => 0%N end in
    let chunked := h_te a && h_chunked a in
    match parse_uri (e_uri ev) path with
    | None => OFail FBuild
    | Some u =>
        OReq (mkRhead m u (h_map a) (if chunked then None else Some cl))
             (if chunked then RChunked [] (dec_new ev b) else RFixed cl b)
    end.

(** [decode], src/server/decode.rs:33-157, under a timeout if [tmo]. The transport is the pair
    of a reader and a writer ([io.clone()] shares both); the returned reader is what the
    transport still yields, not counting what the [BufReader] of this call has taken from it. *)
Definition decode (ev : env) (tmo : bool) (s : src) (w : wtr) : src * wtr * outcome :=
  match req_head tmo (br_new (e_bufcap ev) s) with
  | (b, HdNone) => (br_src b, w, ONone)
  | (b, HdLost) => (br_src b, w, OFail FConnLost)
  | (b, HdTimeout) => (br_src b, w, OTimeout)
  | (b, HdFuel) => (br_src b, w, OFuel)
  | (b, HdDone buf) =>
      match parse_head ev buf with
      | inl f => (br_src b, w, OFail f)
      | inr (m, path, a) =>
          if expects_continue a then
            match write_all tmo continue_text w with
            | (w', ROk _) => (br_src b, w', build_req ev m path a b)
            | (w', RErr) => (br_src b, w', OFail FConnLost)
            | (w', RTimeout) => (br_src b, w', OTimeout)
            | (w', RPanic) | (w', RFuel) => (br_src b, w', OFuel)
            end
          else (br_src b, w, build_req ev m path a b)
      end
  end.

(** [InnerResponse::bad_request], [version_not_supported], [not_implemented],
    src/server/response_writer.rs:30-57. *)
Definition plain_response (status : N) : response := mkResp status HTTP_11 [] body_empty.

(** [fail_to_response_and_log], src/server/decode.rs:232-244. *)
Definition fail_response (f : fail) : option response :=
  match f with
  | FConnLost => None
  | FUnsupportedTE => Some (plain_response 501)
  | FHttp10 => Some (plain_response 505)
  | _ => Some (plain_response 400)
  end.

(** [fail_to_crate_err], src/server/decode.rs:246-257: whether [accept] returns the
    unsupported-transfer-encoding error. *)
Definition fail_is_fatal (f : fail) : bool := match f with FUnsupportedTE => true | _ => false end.
