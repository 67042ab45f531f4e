(** src/chunked/encoder.rs *)
From Verif Require Export Http.

(** [enum State], src/chunked/encoder.rs:19-34 *)
Inductive cest :=
| CStart | CChunks | CEndOfChunks | CReceive | CTrailers | CEndOfStream | CEnd.

(** [set_state], src/chunked/encoder.rs:92-108. [None] is the failing debug assertion. *)
Definition cset (dbg : bool) (old new : cest) : option cest :=
  let ok :=
    match old, new with
    | CStart, CChunks | CChunks, CEndOfChunks | CEndOfChunks, CReceive
    | CReceive, CTrailers | CReceive, CEndOfStream | CTrailers, CEndOfStream
    | CEndOfStream, CEnd => true
    | _, _ => false
    end in
  if dbg && negb ok then None else Some new.

(** [encode_eos], src/chunked/encoder.rs:241-250. [w] is what was written so far by this
    call; indexing past the end of the buffer panics. *)
Definition cenc_eos (dbg : bool) (st : cest) (w : bytes) (n : nat) : cest * pres bytes :=
  if (length w + 2 <=? n)%nat then
    match cset dbg st CEnd with
    | Some st' => (st', POk (w ++ CRLF))
    | None => (st, PPanic)
    end
  else (st, PPanic).

(** [encode_trailers], src/chunked/encoder.rs:229-238 *)
Definition cenc_trailers (dbg : bool) (st : cest) (w : bytes) (n : nat) : cest * pres bytes :=
  match cset dbg st CEndOfStream with
  | Some st' => cenc_eos dbg st' w n
  | None => (st, PPanic)
  end.

(** [receive_trailers], src/chunked/encoder.rs:217-226 *)
Definition cenc_receive (dbg : bool) (st : cest) (w : bytes) (n : nat) : cest * pres bytes :=
  match cset dbg st CTrailers with
  | Some st' => cenc_trailers dbg st' w n
  | None => (st, PPanic)
  end.

(** [encode_chunks_eos], src/chunked/encoder.rs:192-213 ([bytes_written] is 0 here: the
    callers have written nothing) *)
Definition cenc_chunks_eos (dbg : bool) (st : cest) (n : nat) : cest * pres bytes :=
  if (n <? 3)%nat then (st, POk [])
  else match cset dbg st CReceive with
       | Some st' => cenc_receive dbg st' (B "0" ++ CRLF) n
       | None => (st, PPanic)
       end.

(** [encode_chunks], src/chunked/encoder.rs:122-190 ([bytes_written] is 0 on entry; the
    slice writes of lines 169-184 panic exactly when the chunk is longer than the buffer) *)
Definition cenc_chunks (e : env) (dbg : bool) (st : cest) (s : src) (n : nat)
  : cest * src * pres bytes :=
  match src_fill s with
  | (s', PErr) => (st, s', PErr)
  | (s', PPend f) => (st, s', PPend f)
  | (s', PPanic) => (st, s', PPanic)
  | (s', PFuel) => (st, s', PFuel)
  | (s', POk []) =>
      match cset dbg st CEndOfChunks with
      | Some st' => let (st'', r) := cenc_chunks_eos dbg st' n in (st'', s', r)
      | None => (st, s', PPanic)
      end
  | (s', POk d) =>
      let buf_len := n in
      let msg0 := Nat.min (length d) buf_len in
      let hex_len := e_hexlen e msg0 in
      let framing := (hex_len + 4)%nat in
      let upper := (buf_len - framing)%nat in
      let msg := Nat.min msg0 upper in
      let prefix := to_hex (N.of_nat msg) in
      if (n <=? framing)%nat then (st, s', POk [])
      else
        let w := prefix ++ CRLF ++ firstn msg d ++ CRLF in
        if (length w <=? n)%nat then (st, src_consume msg s', POk w)
        else (st, s', PPanic)
  end.

(** [encode] and [init], src/chunked/encoder.rs:73-89, 111-119 *)
Definition cenc_poll (e : env) (dbg : bool) (st : cest) (s : src) (n : nat)
  : cest * src * pres bytes :=
  match st with
  | CStart =>
      match cset dbg st CChunks with
      | Some st' => cenc_chunks e dbg st' s n
      | None => (st, s, PPanic)
      end
  | CChunks => cenc_chunks e dbg st s n
  | CEndOfChunks => let (st', r) := cenc_chunks_eos dbg st n in (st', s, r)
  | CReceive | CTrailers => let (st', r) := cenc_trailers dbg st [] n in (st', s, r)
  | CEndOfStream => let (st', r) := cenc_eos dbg st [] n in (st', s, r)
  | CEnd => (st, s, POk [])
  end.
