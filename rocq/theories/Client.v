(** Model of src/client: [connect], its encoder and its decoder. *)
From Verif Require Export BodyRead.

(** ** Requests, src/client/encode.rs *)
(** [http::Request<Body>] as far as the client looks at it. The method is its text. The body is
    a reader with a declared length (see BodyM.v). src/request.rs and src/client/encode.rs:30. *)
Record crequest := mkCreq { c_meth : bytes; c_uri : uri; c_hdrs : hmap; c_body : body }.

(** What [Encoder::encode] can end in. src/client/encode.rs:30, 46, 94. *)
Inductive cenced := CHead (h : bytes) | CEncode | CLengthPanic.

(** src/client/encode.rs:44, 76. *)
Definition is_connect (q : crequest) : bool := beq (c_meth q) (B "CONNECT").

(** [host] and [port] of a uri as [{}:{}] or [{}]: src/client/encode.rs:49, 63-67. *)
Definition authority (h : bytes) (p : option bytes) : bytes :=
  h ++ match p with Some p => [COLON] ++ p | None => [] end.

(** src/client/encode.rs:33-50: the request target; [None] is an error. *)
Definition c_target (q : crequest) : option bytes :=
  if is_connect q then
    match u_host (c_uri q), u_port (c_uri q) with
    | Some h, Some p => Some (authority h (Some p))
    | _, _ => None
    end
  else Some (u_path (c_uri q) ++ match u_query (c_uri q) with Some x => [QM] ++ x | None => [] end).

(** src/client/encode.rs:58-73: the host line; [None] is an error. *)
Definition c_host_line (q : crequest) : option bytes :=
  match hm_get h_host (c_hdrs q) with
  | Some _ => Some []
  | None =>
      match u_host (c_uri q) with
      | Some h => Some (B "host: " ++ authority h (u_port (c_uri q)) ++ CRLF)
      | None => None
      end
  end.

(** src/client/encode.rs:99-108: the caller's headers. *)
Definition c_header_lines (m : hmap) : bytes :=
  flat_map (fun nv => fst nv ++ B ": " ++ snd nv ++ CRLF) (hm_iter m).

(** [Encoder::encode], src/client/encode.rs:30-120. Writing to a [Vec] does not fail. *)
Definition c_encode (q : crequest) : cenced :=
  match c_target q with
  | None => CEncode
  | Some t =>
      match c_host_line q with
      | None => CEncode
      | Some hl =>
          match b_len (c_body q) with
          | None => CLengthPanic
          | Some n =>
              CHead (c_meth q ++ [SP] ++ t ++ B " HTTP/1.1" ++ CRLF ++ hl ++
                     (if is_connect q then B "proxy-connection: keep-alive" ++ CRLF else []) ++
                     B "content-length: " ++ to_dec n ++ CRLF ++ c_header_lines (c_hdrs q) ++ CRLF)
          end
      end
  end.

(** The encoder: the part of [headers] from [cursor] on, the body, and [body_done].
    [headers_done] is set when nothing of the head is left; [body_bytes_read] is never used.
    src/client/encode.rs:13-26. *)
Record cenc := mkCenc { ce_head : bytes; ce_src : src; ce_done : bool }.

(** [Encoder::poll_read] with a buffer of [n] bytes, src/client/encode.rs:123-165. *)
Definition cenc_poll (n : nat) (e : cenc) : cenc * pres bytes :=
  let h := firstn n (ce_head e) in
  let hd := skipn n (ce_head e) in
  if ce_done e then (mkCenc hd (ce_src e) true, POk h)
  else
    match src_read (n - length h) (ce_src e) with
    | (s', POk d) => (mkCenc hd s' (match h ++ d with [] => true | _ => false end), POk (h ++ d))
    | (s', PErr) => (mkCenc hd s' false, PErr)
    | (s', PPend f) => (mkCenc hd s' false, match h with [] => PPend f | _ => POk h end)
    | (s', PPanic) => (mkCenc hd s' false, PPanic)
    | (s', PFuel) => (mkCenc hd s' false, PFuel)
    end.

(** ** Responses, src/client/decode.rs *)
(** [http::Response<Body>] as the client returns it; the version is always HTTP/1.1.
    src/response.rs and src/client/decode.rs:96, 118-123. *)
Record cresponse := mkCresp { a_status : N; a_hdrs : hmap; a_body : fbody }.

(** [MAX_HEADERS] and [MAX_HEAD_LENGTH], src/client/decode.rs:17-18. *)
Definition c_max_headers : nat := 128.
(** [MAX_HEAD_LENGTH], src/client/decode.rs:18. *)
Definition c_max_head : N := 8192.

(** The head loop, src/client/decode.rs:32-57. *)
Definition LFLF : bytes := [LF; LF].
(** How the loop at src/client/decode.rs:32-57 ends. *)
Inductive cheadres := ChDone (buf : bytes) | ChErr | ChFuel.
(** The loop at src/client/decode.rs:32-57. *)
Fixpoint c_head_go (fuel : nat) (b : brd) (buf : bytes) : brd * cheadres :=
  match fuel with
  | O => (b, ChFuel)
  | S f =>
      match read_until false b with
      | (b', ROk []) => (b', ChErr)
      | (b', ROk x) =>
          if (c_max_head <=? N.of_nat (length (buf ++ x)))%N then (b', ChErr)
          else if ends_with CRLF2 (buf ++ x) || ends_with LFLF (buf ++ x) then (b', ChDone (buf ++ x))
          else c_head_go f b' (buf ++ x)
      | (b', RErr) => (b', ChErr)
      | (b', _) => (b', ChFuel)
      end
  end.
(** The loop at src/client/decode.rs:32-57, from an empty buffer. *)
Definition c_head (b : brd) : brd * cheadres := c_head_go (S (br_size b)) b [].

(** src/client/decode.rs:75-80: the header map; [None] is an error. *)
Fixpoint c_headers (hs : list (bytes * bytes)) (m : hmap) : option hmap :=
  match hs with
  | [] => Some m
  | (n, v) :: r =>
      match header_value v, header_name n with
      | Some v', Some n' => c_headers r (hm_append n' v' m)
      | _, _ => None
      end
  end.

(** src/client/decode.rs:82-86. *)
Definition c_dated (ev : env) (m : hmap) : hmap :=
  match hm_get h_date m with Some _ => m | None => hm_insert h_date (e_date ev) m end.

(** src/client/decode.rs:88-127: the response from its code, headers and the rest of the connection;
    [None] is an error. [headers.get(..).iter().last()] is the first value (an [Option] is
    iterated over). [from_str] of the date cannot fail on a date. A chunked response is
    returned with the status and headers of [Response::new] (lines 95, 98-109). *)
Definition c_response (ev : env) (code : N) (m : hmap) (b : brd) : option cresponse :=
  match hm_get h_content_length m, hm_get h_transfer_encoding m with
  | Some _, Some _ => None
  | cl, te =>
      if match te with Some v => beq v (B "chunked") | None => false end
      then Some (mkCresp 200 [] (msg_body None (RChunked [] (dec_new ev b))))
      else
        match match cl with
              | None => Some (full body_empty)
              | Some v =>
                  match value_to_str v with
                  | None => None
                  | Some v =>
                      match parse_usize v with
                      | None => None
                      | Some n => Some (msg_body (Some n) (RFixed n b))
                      end
                  end
              end with
        | None => None
        | Some f => if status_ok code then Some (mkCresp code m f) else None
        end
  end.

(** [decode], src/client/decode.rs:22-127, on a connection from which [s] arrives: the reader
    as the call leaves it, and the response. *)
Inductive cout := COk (r : cresponse) | CErr | CPanic | CFuel.
(** [decode], src/client/decode.rs:22-127. *)
Definition c_decode (ev : env) (s : src) : brd * cout :=
  match c_head (br_new (e_bufcap ev) s) with
  | (b, ChErr) => (b, CErr)
  | (b, ChFuel) => (b, CFuel)
  | (b, ChDone buf) =>
      match parse_response (e_trim ev) c_max_headers buf with
      | HErr | HPart => (b, CErr)
      | HDone p =>
          if (p_version p =? 1)%N then
            match c_headers (p_headers p) [] with
            | None => (b, CErr)
            | Some m => (b, match c_response ev (p_code p) (c_dated ev m) b with Some r => COk r | None => CErr end)
            end
          else (b, CErr)
      end
  end.

(** [connect], src/client/mod.rs:15-26, on the transport of reader [s] and writer [w]. [fuel]
    bounds the copying loop. *)
Definition connect (ev : env) (fuel : nat) (q : crequest) (s : src) (w : wtr) : wtr * cout :=
  match c_encode q with
  | CEncode => (w, CErr)
  | CLengthPanic => (w, CPanic)
  | CHead h =>
      match copy_go (cenc_poll (e_bufcap ev)) fuel (mkCenc h (b_src (c_body q)) false) [] w 0 with
      | (w', ROk _) => (w', snd (c_decode ev s))
      | (w', RErr) | (w', RTimeout) => (w', CErr)
      | (w', RPanic) => (w', CPanic)
      | (w', RFuel) => (w', CFuel)
      end
  end.
