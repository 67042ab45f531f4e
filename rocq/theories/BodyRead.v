(** Model of the reading half of src/body.rs: whole bodies as bytes or text, and trailers. *)
From Verif Require Export ServerDec Reads.

(** The reader inside a [Body] (src/body.rs:16): a caller's reader or one of the crate's own
    ([RSrc], see BodyM.v), or that of a decoded message ([RMsg], see ServerDec.v). *)
Inductive reader := RSrc (s : src) | RMsg (b : rbody).

(** [Body], src/body.rs:14-20, with the trailer channel. [f_own]: whether [trailer_sender] is
    still there. The channel itself holds what the chunked decoder has sent ([body_trailers]). *)
Record fbody := mkFbody { f_len : option N; f_rdr : reader; f_own : bool }.

(** The constructors of BodyM.v all keep the sender (src/body.rs:25-64, 133-157). *)
Definition full (b : body) : fbody := mkFbody (b_len b) (RSrc (b_src b)) true.

(** The body of a decoded request or response: [Body::from_reader] keeps the sender for a
    fixed length (src/server/decode.rs:145-146, src/client/decode.rs:118); for a chunked one
    it has been moved into the decoder (src/server/decode.rs:137-143,
    src/client/decode.rs:100-103). *)
Definition msg_body (len : option N) (b : rbody) : fbody :=
  mkFbody len (RMsg b) (match b with RFixed _ _ => true | RChunked _ _ => false end).

(** [Body::send_trailers], src/body.rs:109-115; [None] is the panic of a second call. The
    returned sender can only be dropped or kept by a user of the crate ([send] is private);
    here it is dropped. *)
Definition send_trailers (f : fbody) : option fbody := if f_own f then Some (mkFbody (f_len f) (f_rdr f) false) else None.

(** [AsyncRead for Body], src/body.rs:159-167. *)
Definition rdr_poll (ev : env) (n : nat) (r : reader) : reader * pres bytes :=
  match r with
  | RSrc s => let (s', x) := src_read n s in (RSrc s', x)
  | RMsg b => let (b', x) := body_read ev n b in (RMsg b', x)
  end.

(** futures-lite [read_to_end]: polls with buffers of sizes of its own choosing ([sz i] for the
    i-th poll, never empty) until the reader reports its end. [Hung] also stands for a reader
    not at its end within the fuel. Called at src/body.rs:69 and 89. *)
Definition read_to_end (ev : env) (fuel : nat) (sz : nat -> nat) (r : reader) : reader * rres bytes :=
  match reads (rdr_poll ev) (map sz (seq 0 fuel)) r with
  | (r', out, Ended) => (r', ROk out)
  | (r', _, Failed) => (r', RErr)
  | (r', _, Panicked) => (r', RPanic)
  | (r', _, _) => (r', RFuel)
  end.

(** [str::from_utf8] succeeds (RFC 3629). Used by [read_to_string], src/body.rs:78 and 101. *)
Definition cont (c : byte) : bool := in_range 128 191 c.
(** [str::from_utf8], under [read_to_string], src/body.rs:78 and 101. *)
Fixpoint utf8_valid (l : bytes) : bool :=
  match l with
  | [] => true
  | a :: r =>
      if (bv a <? 128)%N then utf8_valid r
      else match r with
           | [] => false
           | b :: r =>
               if in_range 194 223 a then cont b && utf8_valid r
               else match r with
                    | [] => false
                    | c :: r =>
                        if in_range 224 239 a then
                          (if (bv a =? 224)%N then in_range 160 191 b else if (bv a =? 237)%N then in_range 128 159 b else cont b)
                          && cont c && utf8_valid r
                        else match r with
                             | [] => false
                             | d :: r =>
                                 if in_range 240 244 a then
                                   (if (bv a =? 240)%N then in_range 144 191 b else if (bv a =? 244)%N then in_range 128 143 b else cont b)
                                   && cont c && cont d && utf8_valid r
                                 else false
                             end
                    end
           end
  end.

(** [Body::into_bytes], src/body.rs:67-73. *)
Definition into_bytes (ev : env) (fuel : nat) (sz : nat -> nat) (f : fbody) : rres bytes := snd (read_to_end ev fuel sz (f_rdr f)).

(** [Body::into_string], src/body.rs:76-82: [read_to_string] reads everything, then checks it.
    [String::with_capacity] (line 77) panics when the declared length exceeds [isize::MAX] (64
    bits here); that a smaller allocation may fail is not modelled. *)
Definition isize_max : N := 9223372036854775807.
(** [String::with_capacity], src/body.rs:77 and 100. *)
Definition too_long (f : fbody) : bool := match f_len f with Some n => (isize_max <? n)%N | None => false end.
(** The check of [read_to_string], src/body.rs:78-80. *)
Definition to_string (r : rres bytes) : rres bytes :=
  match r with ROk l => if utf8_valid l then ROk l else RErr | x => x end.
(** [into_string], src/body.rs:76-82. *)
Definition into_string (ev : env) (fuel : nat) (sz : nat -> nat) (f : fbody) : rres bytes :=
  if too_long f then RPanic else to_string (into_bytes ev fuel sz f).

(** ** Trailers *)
(** Whether a sender of the channel still exists: the body's own, the decoder's
    (src/chunked/decoder.rs:41) or the future that is sending (line 391). *)
Definition dec_sender (d : dec) : bool := d_sender d || match d_st d with DTrailerSending _ => true | _ => false end.
(** The channel's senders left: [trailer_sender], src/body.rs:109-115, and the decoder's,
    src/chunked/decoder.rs:41. *)
Definition senders (own : bool) (r : reader) : bool :=
  own || match r with RMsg (RChunked _ d) => dec_sender d | _ => false end.
(** What is in the channel made at src/body.rs:26 (or 44, 56, 135, 148): the trailers sent at
    src/chunked/decoder.rs:165. *)
Definition channel (r : reader) : list hmap := match r with RMsg b => body_trailers b | _ => [] end.

(** [recv_trailers], src/body.rs:119-121: the oldest message; [Closed] (returned as [None])
    when there is none and no sender is left; otherwise it waits, and since the reader is not
    polled meanwhile, for ever. *)
Inductive recv := Got (h : hmap) | Closed | Waits.
(** [recv_trailers], src/body.rs:119-121. *)
Definition recv_trailers (own : bool) (r : reader) : recv :=
  match channel r with h :: _ => Got h | [] => if senders own r then Waits else Closed end.

(** [into_bytes_with_trailer] and [into_string_with_trailer], src/body.rs:85-106. *)
Inductive tres := TOk (l : bytes) (t : option hmap) | TErr | TPanic | THangs | TFuel.
(** src/body.rs:92-93, 104-105. *)
Definition with_trailer (own : bool) (rr : reader * rres bytes) : tres :=
  match snd rr with
  | ROk l => match recv_trailers own (fst rr) with Got h => TOk l (Some h) | Closed => TOk l None | Waits => THangs end
  | RErr | RTimeout => TErr
  | RPanic => TPanic
  | RFuel => TFuel
  end.
(** src/body.rs:85-94. *)
Definition into_bytes_with_trailer (ev : env) (fuel : nat) (sz : nat -> nat) (f : fbody) : tres :=
  with_trailer (f_own f) (read_to_end ev fuel sz (f_rdr f)).
(** The panic of [String::with_capacity] as in [into_string] (src/body.rs:100). *)
Definition into_string_with_trailer (ev : env) (fuel : nat) (sz : nat -> nat) (f : fbody) : tres :=
  if too_long f then TPanic else let (r, x) := read_to_end ev fuel sz (f_rdr f) in with_trailer (f_own f) (r, to_string x).
