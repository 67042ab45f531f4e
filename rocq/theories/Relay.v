(** Sending a body that is itself the body of a received message, e.g.
    [resp_wtr.set_body(req.into_body())]: a response whose reader is any [reader] of BodyRead.v.
    The functions are those of ServerEnc.v and ChunkedEnc.v, which read from a script [src],
    with the reader exchanged. *)
From Verif Require Export BodyRead.

(** [Take::poll_fill_buf] and [Take::consume] of futures-lite (the reader made at
    src/server/decode.rs:145 and src/client/decode.rs:118). *)
Definition take_fill (rem : N) (b : brd) : rbody * pres bytes :=
  if (rem =? 0)%N then (RFixed rem b, POk [])
  else match br_fill b with
       | (b', POk d) => (RFixed rem b', POk (firstn (N.to_nat (N.min rem (N.of_nat (length d)))) d))
       | (b', r) => (RFixed rem b', r)
       end.
(** [Take::consume], for the readers made at src/server/decode.rs:145 and
    src/client/decode.rs:118. *)
Definition take_consume (k : nat) (rem : N) (b : brd) : rbody :=
  let k' := N.to_nat (N.min (N.of_nat k) rem) in RFixed (rem - N.of_nat k') (br_consume k' b).

(** [BufReader::poll_fill_buf] and [BufReader::consume] over the chunked decoder (the reader
    made at src/server/decode.rs:141 and src/client/decode.rs:102); capacity [e_bufcap]. *)
Definition bufdec_fill (ev : env) (buf : bytes) (d : dec) : rbody * pres bytes :=
  match buf with
  | [] => match dec_read ev (e_bufcap ev) d with
          | (d', POk x) => (RChunked x d', POk x)
          | (d', r) => (RChunked [] d', r)
          end
  | x => (RChunked x d, POk x)
  end.

(** [AsyncBufRead for Body], src/body.rs:169-178. *)
Definition rdr_fill (ev : env) (r : reader) : reader * pres bytes :=
  match r with
  | RSrc s => let (s', x) := src_fill s in (RSrc s', x)
  | RMsg (RFixed rem b) => let (b', x) := take_fill rem b in (RMsg b', x)
  | RMsg (RChunked buf d) => let (b', x) := bufdec_fill ev buf d in (RMsg b', x)
  end.
(** [consume], src/body.rs:175-177. *)
Definition rdr_consume (k : nat) (r : reader) : reader :=
  match r with
  | RSrc s => RSrc (src_consume k s)
  | RMsg (RFixed rem b) => RMsg (take_consume k rem b)
  | RMsg (RChunked buf d) => RMsg (RChunked (skipn k buf) d)
  end.

(** [InnerResponse], src/server/response_writer.rs:17-25 *)
Record relayed := mkRel { y_status : N; y_version : version; y_headers : hmap; y_len : option N; y_rdr : reader }.

(** The response as far as its head is concerned (src/server/encode.rs:54-99 does not look at
    the reader). *)
Definition y_head (y : relayed) : response :=
  mkResp (y_status y) (y_version y) (y_headers y) (mkBody (y_len y) (mkSrc [] Eof)).
(** The body's reader has been polled, src/server/encode.rs:163, 195. *)
Definition y_with (y : relayed) (r : reader) : relayed := mkRel (y_status y) (y_version y) (y_headers y) (y_len y) r.

(** A response to which [set_body] (src/server/response_writer.rs:168-171) gave the body [f]. *)
Definition relay_of (status : N) (v : version) (hs : hmap) (f : fbody) : relayed :=
  mkRel status v hs (f_len f) (f_rdr f).

(** [Encoder], src/server/encode.rs:19-34 *)
Record renc := mkRenc {
  rn_resp : relayed; rn_state : est;
  rn_head : bytes; rn_headread : nat;
  rn_bodyread : N; rn_chunked : cest
}.

(** [Encoder::encode], src/server/encode.rs:37-50 *)
Definition renc_new (y : relayed) : renc := mkRenc y EStart [] 0 0 CStart.
(** [content_length], src/server/encode.rs:38, 46. *)
Definition rn_cl (e : renc) : option N := y_len (rn_resp e).

(** [encode_chunks], src/chunked/encoder.rs:122-190 *)
Definition rcenc_chunks (e : env) (dbg : bool) (st : cest) (s : reader) (n : nat)
  : cest * reader * pres bytes :=
  match rdr_fill e s with
  | (s', PErr) => (st, s', PErr)
  | (s', PPend f) => (st, s', PPend f)
  | (s', PPanic) => (st, s', PPanic)
  | (s', PFuel) => (st, s', PFuel)
  | (s', POk []) =>
      match cset dbg st CEndOfChunks with
      | Some st' => let (st'', r) := cenc_chunks_eos dbg st' n in (st'', s', r)
      | None => (st, s', PPanic)
      end
  | (s', POk d) =>
      let buf_len := n in
      let msg0 := Nat.min (length d) buf_len in
      let hex_len := e_hexlen e msg0 in
      let framing := (hex_len + 4)%nat in
      let upper := (buf_len - framing)%nat in
      let msg := Nat.min msg0 upper in
      let prefix := to_hex (N.of_nat msg) in
      if (n <=? framing)%nat then (st, s', POk [])
      else
        let w := prefix ++ CRLF ++ firstn msg d ++ CRLF in
        if (length w <=? n)%nat then (st, rdr_consume msg s', POk w)
        else (st, s', PPanic)
  end.

(** [encode] and [init], src/chunked/encoder.rs:73-89, 111-119 *)
Definition rcenc_poll (e : env) (dbg : bool) (st : cest) (s : reader) (n : nat)
  : cest * reader * pres bytes :=
  match st with
  | CStart =>
      match cset dbg st CChunks with
      | Some st' => rcenc_chunks e dbg st' s n
      | None => (st, s, PPanic)
      end
  | CChunks => rcenc_chunks e dbg st s n
  | CEndOfChunks => let (st', r) := cenc_chunks_eos dbg st n in (st', s, r)
  | CReceive | CTrailers => let (st', r) := cenc_trailers dbg st [] n in (st', s, r)
  | CEndOfStream => let (st', r) := cenc_eos dbg st [] n in (st', s, r)
  | CEnd => (st, s, POk [])
  end.

(** [encode_fixed_body], src/server/encode.rs:140-185 (as [enc_fixed]) *)
Fixpoint renc_fixed (fuel : nat) (ev : env) (en : renc) (out : bytes) (n : nat) : renc * pres bytes :=
  match fuel with
  | O => (en, PFuel)
  | S f =>
      if (length out =? n)%nat then (en, POk out)
      else
        match rn_cl en with
        | None => (en, PPanic)
        | Some cl =>
            match upper_arith (e_ovf ev) (N.of_nat (length out)) cl (rn_bodyread en) with
            | None => (en, PPanic)
            | Some u =>
                let upper := N.to_nat (N.min u (N.of_nat n)) in
                if (upper <? length out)%nat then (en, PPanic)
                else
                  match rdr_poll ev (upper - length out) (y_rdr (rn_resp en)) with
                  | (s', POk d) =>
                      let br := (rn_bodyread en + N.of_nat (length d))%N in
                      let st := if (cl =? br)%N then EDone else rn_state en in
                      let en' := mkRenc (y_with (rn_resp en) s') st (rn_head en)
                                        (rn_headread en) br (rn_chunked en) in
                      if (cl =? br)%N then (en', POk (out ++ d))
                      else renc_fixed f ev en' (out ++ d) n
                  | (s', PErr) =>
                      (mkRenc (y_with (rn_resp en) s') (rn_state en) (rn_head en)
                              (rn_headread en) (rn_bodyread en) (rn_chunked en), PErr)
                  | (s', PPend fi) =>
                      (mkRenc (y_with (rn_resp en) s') (rn_state en) (rn_head en)
                              (rn_headread en) (rn_bodyread en) (rn_chunked en),
                       match out with [] => PPend fi | _ => POk out end)
                  | (_, PPanic) => (en, PPanic)
                  | (_, PFuel) => (en, PFuel)
                  end
            end
        end
  end.

(** [encode_chunked_body], src/server/encode.rs:189-211 *)
Definition renc_chunked (ev : env) (en : renc) (out : bytes) (n : nat) : renc * pres bytes :=
  match rcenc_poll ev (e_ovf ev) (rn_chunked en) (y_rdr (rn_resp en)) (n - length out) with
  | (c', s', r) =>
      let st := match r, out with POk [], [] => EDone | _, _ => rn_state en end in
      let en' := mkRenc (y_with (rn_resp en) s') st (rn_head en) (rn_headread en)
                        (rn_bodyread en) c' in
      (en', match r with
            | POk d => POk (out ++ d)
            | PPend fi => match out with [] => PPend fi | _ => POk out end
            | PErr => PErr | PPanic => PPanic | PFuel => PFuel
            end)
  end.

(** [encode_head], src/server/encode.rs:106-138 *)
Definition renc_head (fuel : nat) (ev : env) (en : renc) (n : nat) : renc * pres bytes :=
  let len := Nat.min (length (rn_head en) - rn_headread en) n in
  let out := firstn len (skipn (rn_headread en) (rn_head en)) in
  let hr := (rn_headread en + len)%nat in
  if (hr =? length (rn_head en))%nat then
    match rn_cl en with
    | Some _ =>
        renc_fixed fuel ev (mkRenc (rn_resp en) EFixed (rn_head en) hr (rn_bodyread en) (rn_chunked en)) out n
    | None =>
        renc_chunked ev (mkRenc (rn_resp en) EChunked (rn_head en) hr (rn_bodyread en) (rn_chunked en)) out n
    end
  else (mkRenc (rn_resp en) (rn_state en) (rn_head en) hr (rn_bodyread en) (rn_chunked en), POk out).

(** [start], src/server/encode.rs:53-104 *)
Definition renc_start (fuel : nat) (ev : env) (en : renc) (n : nat) : renc * pres bytes :=
  let y := rn_resp en in
  let y' := mkRel (y_status y) (y_version y) (with_default_ct (y_head y)) (y_len y) (y_rdr y) in
  renc_head fuel ev (mkRenc y' EHead (rn_head en ++ head_text ev (y_head y)) (rn_headread en)
                            (rn_bodyread en) (rn_chunked en)) n.

(** [AsyncRead for Encoder], src/server/encode.rs:214-232 *)
Definition renc_poll (fuel : nat) (ev : env) (n : nat) (en : renc) : renc * pres bytes :=
  match rn_state en with
  | EStart => renc_start fuel ev en n
  | EHead => renc_head fuel ev en n
  | EFixed => renc_fixed fuel ev en [] n
  | EChunked => renc_chunked ev en [] n
  | EDone => (en, POk [])
  end.

(** [InnerResponse::send], src/server/response_writer.rs:59-76 (as [send]) *)
Definition relay (fuel : nat) (ev : env) (y : relayed) (w : wtr) : wtr * rres N :=
  copy_go (renc_poll fuel ev (e_bufcap ev)) fuel (renc_new y) [] w 0.

(** [copy_go] of Io.v with the encoder it ends with, under src/server/response_writer.rs:63-65:
    the encoder owns the body, and the body's reader sits on the connection. *)
Section Copy.
  Variable E : Type.
  Variable poll : E -> E * pres bytes.

  Fixpoint copy_st (fuel : nat) (e : E) (bb : bytes) (w : wtr) (amt : N) : E * wtr * rres N :=
    match fuel with
    | O => (e, w, RFuel)
    | S f =>
        match bb with
        | [] =>
            match poll e with
            | (e', POk []) =>
                match w_flush w with
                | (w', WrOk _) => (e', w', ROk amt)
                | (w', WrPend _) => copy_st f e' [] w' amt
                | (w', WrErr) => (e', w', RErr)
                end
            | (e', POk d) => copy_st f e' d w amt
            | (e', PPend _) => copy_st f e' [] w amt
            | (e', PErr) => (e', w, RErr)
            | (e', PPanic) => (e', w, RPanic)
            | (e', PFuel) => (e', w, RFuel)
            end
        | _ =>
            match w_write bb w with
            | (w', WrOk O) => (e, w', RErr)                 (* WriteZero *)
            | (w', WrOk k) => copy_st f e (skipn k bb) w' (amt + N.of_nat k)
            | (w', WrPend _) => copy_st f e bb w' amt
            | (w', WrErr) => (e, w', RErr)
            end
        end
    end.
End Copy.
Arguments copy_st {E} poll fuel e bb w amt.

(** [relay] of a request body [b] with the body it leaves behind; the declared length is [len]
    ([set_body(req.into_body())], or [Body::from_reader(req.into_body(), len)],
    src/body.rs:40-52). src/server/response_writer.rs:59-76. *)
Definition relay_body (fuel : nat) (ev : env) (status : N) (v : version) (hs : hmap) (len : option N) (b : rbody) (w : wtr)
  : rbody * wtr * rres N :=
  match copy_st (renc_poll fuel ev (e_bufcap ev)) fuel (renc_new (mkRel status v hs len (RMsg b))) [] w 0 with
  | (e, w', r) => (match y_rdr (rn_resp e) with RMsg b' => b' | RSrc _ => b end, w', r)
  end.
