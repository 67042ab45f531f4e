(** src/server/encode.rs and [InnerResponse::send] (src/server/response_writer.rs:59-76) *)
From Verif Require Export ChunkedEnc.

(** [Body], src/body.rs:14-20, as far as sending it is concerned: declared length and
    reader. (The trailer channel of a body is never used for sending; see BodyM.v.) *)
Record body := mkBody { b_len : option N; b_src : src }.

(** [InnerResponse], src/server/response_writer.rs:17-25 *)
Record response := mkResp { r_status : N; r_version : version; r_headers : hmap; r_body : body }.

(** [EncoderState], src/server/encode.rs:235-241 *)
Inductive est := EStart | EHead | EFixed | EChunked | EDone.

(** [Encoder], src/server/encode.rs:19-34. [bytes_read] is reset by every [poll_read] and is
    represented by the bytes placed in the caller's buffer so far. *)
Record enc := mkEnc {
  en_resp : response; en_state : est;
  en_head : bytes; en_headread : nat;
  en_bodyread : N; en_chunked : cest
}.

(** [Encoder::encode], src/server/encode.rs:37-50 ([content_length] is [resp.body.length]) *)
Definition enc_new (r : response) : enc := mkEnc r EStart [] 0 0 CStart.
(** [content_length], src/server/encode.rs:38, 46. *)
Definition en_cl (e : enc) : option N := b_len (r_body (en_resp e)).

(** The [insert] of a default content-type, src/server/encode.rs:61-67 *)
Definition with_default_ct (r : response) : hmap :=
  let nonempty := match b_len (r_body r) with None => true | Some x => (0 <? x)%N end in
  if nonempty && negb (hm_contains h_content_type (r_headers r))
  then hm_insert h_content_type (B "application/octet-stream") (r_headers r)
  else r_headers r.

(** One line of the loop at src/server/encode.rs:93-98. *)
Definition header_line (nv : bytes * bytes) : bytes :=
  fst nv ++ B ": " ++ snd nv ++ CRLF.

(** The head text written by [start], src/server/encode.rs:54-99 *)
Definition head_text (e : env) (r : response) : bytes :=
  let hs := with_default_ct r in
  let shown := filter (fun nv => negb (beq (fst nv) h_transfer_encoding))
                 (filter (fun nv => negb (beq (fst nv) h_content_length)) (hm_iter hs)) in
  version_text (r_version r) ++ [SP] ++ status_text (r_status r) ++ CRLF
  ++ (match b_len (r_body r) with
      | Some len => B "content-length: " ++ to_dec len ++ CRLF
      | None => B "transfer-encoding: chunked" ++ CRLF
      end)
  ++ (if hm_contains h_date (r_headers r) then [] else B "date: " ++ e_date e ++ CRLF)
  ++ flat_map header_line shown
  ++ CRLF.

(** [usize] subtraction/addition of src/server/encode.rs:159 on 64 bits: [None] is the
    overflow panic of the debug profile. *)
Definition upper_arith (ovf : bool) (bytes_read content_length body_read : N) : option N :=
  let s := (bytes_read + content_length)%N in
  if ovf && (two64 <=? s)%N then None
  else let s' := (s mod two64)%N in
       if (body_read <=? s')%N then Some (s' - body_read)%N
       else if ovf then None else Some (s' + two64 - body_read)%N.

(** The body's reader has been polled: [Pin::new(&mut self.resp.body)], src/server/encode.rs:163,
    195. *)
Definition set_src (r : response) (s : src) : response :=
  mkResp (r_status r) (r_version r) (r_headers r) (mkBody (b_len (r_body r)) s).

(** [encode_fixed_body], src/server/encode.rs:140-185. [out] is the filled part of the
    buffer, [n] the length of the buffer. *)
Fixpoint enc_fixed (fuel : nat) (ev : env) (en : enc) (out : bytes) (n : nat) : enc * pres bytes :=
  match fuel with
  | O => (en, PFuel)
  | S f =>
      if (length out =? n)%nat then (en, POk out)
      else
        match en_cl en with
        | None => (en, PPanic)                              (* expect, line 153-155 *)
        | Some cl =>
            match upper_arith (e_ovf ev) (N.of_nat (length out)) cl (en_bodyread en) with
            | None => (en, PPanic)
            | Some u =>
                let upper := N.to_nat (N.min u (N.of_nat n)) in
                if (upper <? length out)%nat then (en, PPanic)   (* slice range *)
                else
                  match src_read (upper - length out) (b_src (r_body (en_resp en))) with
                  | (s', POk d) =>
                      let br := (en_bodyread en + N.of_nat (length d))%N in
                      let st := if (cl =? br)%N then EDone else en_state en in
                      let en' := mkEnc (set_src (en_resp en) s') st (en_head en)
                                       (en_headread en) br (en_chunked en) in
                      if (cl =? br)%N then (en', POk (out ++ d))
                      else enc_fixed f ev en' (out ++ d) n
                  | (s', PErr) =>
                      (mkEnc (set_src (en_resp en) s') (en_state en) (en_head en)
                             (en_headread en) (en_bodyread en) (en_chunked en), PErr)
                  | (s', PPend fi) =>
                      (mkEnc (set_src (en_resp en) s') (en_state en) (en_head en)
                             (en_headread en) (en_bodyread en) (en_chunked en),
                       match out with [] => PPend fi | _ => POk out end)
                  | (_, PPanic) => (en, PPanic)
                  | (_, PFuel) => (en, PFuel)
                  end
            end
        end
  end.

(** [encode_chunked_body], src/server/encode.rs:189-211 *)
Definition enc_chunked (ev : env) (en : enc) (out : bytes) (n : nat) : enc * pres bytes :=
  match cenc_poll ev (e_ovf ev) (en_chunked en) (b_src (r_body (en_resp en))) (n - length out) with
  | (c', s', r) =>
      let st := match r, out with POk [], [] => EDone | _, _ => en_state en end in
      let en' := mkEnc (set_src (en_resp en) s') st (en_head en) (en_headread en)
                       (en_bodyread en) c' in
      (en', match r with
            | POk d => POk (out ++ d)
            | PPend fi => match out with [] => PPend fi | _ => POk out end
            | PErr => PErr | PPanic => PPanic | PFuel => PFuel
            end)
  end.

(** [encode_head], src/server/encode.rs:106-138 *)
Definition enc_head (fuel : nat) (ev : env) (en : enc) (n : nat) : enc * pres bytes :=
  let len := Nat.min (length (en_head en) - en_headread en) n in
  let out := firstn len (skipn (en_headread en) (en_head en)) in
  let hr := (en_headread en + len)%nat in
  if (hr =? length (en_head en))%nat then
    match en_cl en with
    | Some _ =>
        enc_fixed fuel ev (mkEnc (en_resp en) EFixed (en_head en) hr (en_bodyread en) (en_chunked en)) out n
    | None =>
        enc_chunked ev (mkEnc (en_resp en) EChunked (en_head en) hr (en_bodyread en) (en_chunked en)) out n
    end
  else (mkEnc (en_resp en) (en_state en) (en_head en) hr (en_bodyread en) (en_chunked en), POk out).

(** [start], src/server/encode.rs:53-104 *)
Definition enc_start (fuel : nat) (ev : env) (en : enc) (n : nat) : enc * pres bytes :=
  let r := en_resp en in
  let r' := mkResp (r_status r) (r_version r) (with_default_ct r) (r_body r) in
  enc_head fuel ev (mkEnc r' EHead (en_head en ++ head_text ev r) (en_headread en)
                          (en_bodyread en) (en_chunked en)) n.

(** [AsyncRead for Encoder], src/server/encode.rs:214-232 *)
Definition enc_poll (fuel : nat) (ev : env) (n : nat) (en : enc) : enc * pres bytes :=
  match en_state en with
  | EStart => enc_start fuel ev en n
  | EHead => enc_head fuel ev en n
  | EFixed => enc_fixed fuel ev en [] n
  | EChunked => enc_chunked ev en [] n
  | EDone => (en, POk [])
  end.

(** [InnerResponse::send], src/server/response_writer.rs:59-76: [io::copy] from a fresh
    encoder through a buffer of [e_bufcap] bytes; result: bytes written. *)
Definition send (fuel : nat) (ev : env) (r : response) (w : wtr) : wtr * rres N :=
  copy_go (enc_poll fuel ev (e_bufcap ev)) fuel (enc_new r) [] w 0.
