(** Model of src/chunked/decoder.rs: the chunked body decoder, and of the trailer channel
    (src/trailers.rs:62-81, src/body.rs:85-121). *)
From Verif Require Export Httparse.

(** [State], src/chunked/decoder.rs:381-395. The future stored in [TrailerSending] is
    represented by the trailers it is going to send. *)
Inductive dst :=
| DInit
| DChunk (cur len : N)
| DChunkEnd
| DTrailer
| DTrailerDone (h : hmap)
| DTrailerSending (h : hmap)
| DDone.

(** A block of the pool together with the range of valid data in it
    (src/chunked/decoder.rs:32-34): [k_start] is [current.start], [k_data] the bytes
    [buffer[current]], [k_len] is [buffer.len()], [k_cap] is [buffer.capacity()]. *)
Record blk := mkBlk { k_start : nat; k_data : bytes; k_len : nat; k_cap : nat }.

(** [current.end]. src/chunked/decoder.rs:34. *)
Definition k_end (b : blk) : nat := (k_start b + length (k_data b))%nat.

(** [POOL.alloc(INITIAL_CAPACITY)] with the empty range, src/chunked/decoder.rs:48-49. *)
Definition blk_fresh (ev : env) : blk := mkBlk 0 [] (e_deccap ev) (e_deccap ev).

(** A fresh block under a range kept over from another block: what an error return leaves in
    the decoder (src/chunked/decoder.rs:216-217 and the [?] of lines 227, 285, 306). The
    bytes in that range are whatever the recycled block holds. *)
Definition blk_stale (ev : env) (r : nat * nat) : blk :=
  mkBlk (fst r) (map (e_stale ev) (seq (fst r) (snd r))) (e_deccap ev) (e_deccap ev).

(** [ChunkedDecoder], src/chunked/decoder.rs:28-42. [d_in] is the connection's [BufReader]
    (src/server/decode.rs:39,141); [d_sender] tells whether [trailer_sender] is still there;
    [d_chan] are the trailers sent on the channel so far. *)
Record dec := mkDec { d_in : brd; d_blk : blk; d_init : bool; d_st : dst;
                      d_sender : bool; d_chan : list hmap }.

(** [ChunkedDecoder::new], src/chunked/decoder.rs:45-54. *)
Definition dec_new (ev : env) (r : brd) : dec := mkDec r (blk_fresh ev) false DInit true [].

(** [DecodeResult], src/chunked/decoder.rs:362-378, plus the error and panic outcomes of the
    functions returning it. [read] is the list of bytes stored in the caller's buffer;
    [pending] carries the timer flag of the poll. *)
Inductive dres :=
| DSome (read : bytes) (st : option dst) (b : blk) (pending : option bool)
| DNone
| DErr
| DPanic.

(** Slicing the block up to the end of its valid range panics when the range does not lie
    within the block (src/chunked/decoder.rs:435, 489). *)
Definition sliced (b : blk) (r : dres) : dres := if (k_len b <? k_end b)%nat then DPanic else r.

(** Advance the valid range by [k] bytes. As [new_pos] in src/chunked/decoder.rs:81-85 and in the
    [decode_*] functions. *)
Definition blk_skip (k : nat) (b : blk) : blk :=
  mkBlk (k_start b + k) (skipn k (k_data b)) (k_len b) (k_cap b).

(** [poll_read_chunk], src/chunked/decoder.rs:58-136; [n] is [buf.len()]. The subtraction of
    line 68 is a panic when negative (in a release build it would wrap; never reached). *)
Definition poll_read_chunk (i : brd) (b : blk) (n : nat) (cur len : N) : brd * dres :=
  if (len <? cur)%N then (i, DPanic) else
  let to_read := N.to_nat (N.min (len - cur) (N.of_nat n)) in            (* 68-69 *)
  match k_data b with
  | _ :: _ =>                                                              (* 77-102 *)
      let k := Nat.min to_read (length (k_data b)) in
      let b' := if Nat.eqb k (length (k_data b))
                then mkBlk 0 [] (k_len b) (k_cap b)                        (* 81-82 *)
                else blk_skip k b in
      let cur' := (cur + N.of_nat k)%N in
      if (k_len b <? k_start b + k)%nat then (i, DPanic) else              (* slice, 79 *)
      (i, DSome (firstn k (k_data b))
            (Some (if (cur' =? len)%N then DChunkEnd else DChunk cur' len)) b' None)
  | [] =>                                                                  (* 105-135 *)
      match br_read to_read i with
      | (i', POk d) =>
          let cur' := (cur + N.of_nat (length d))%N in
          (i', DSome d (Some (if (cur' =? len)%N then DChunkEnd
                              else match d with [] => DDone | _ => DChunk cur' len end)) b None)
      | (i', PPend f) => (i', DSome [] (Some (DChunk cur len)) b (Some f))
      | (i', PErr) => (i', DErr)
      | (i', _) => (i', DPanic)
      end
  end.

(** [decode_init], src/chunked/decoder.rs:433-459. *)
Definition decode_init (b : blk) : dres :=
  sliced b
  match parse_chunk_size (k_data b) with
  | HDone (sz, rest) =>
      DSome [] (Some (if (sz =? 0)%N then DTrailer else DChunk 0 sz))
            (blk_skip (length (k_data b) - length rest) b) None
  | HPart => DNone
  | HErr => DErr
  end.

(** [decode_chunk_end], src/chunked/decoder.rs:461-481. *)
Definition decode_chunk_end (b : blk) : dres :=
  if (length (k_data b) <? 2)%nat then DNone
  else if (k_len b <? k_start b + 2)%nat then DPanic
  else if beq (firstn 2 (k_data b)) CRLF then DSome [] (Some DInit) (blk_skip 2 b) None
  else DErr.

(** The loop of [decode_trailer] over the parsed headers, src/chunked/decoder.rs:491-500. *)
Fixpoint append_trailers (hs : list (bytes * bytes)) (m : hmap) : option hmap :=
  match hs with
  | [] => Some m
  | (n, v) :: r =>
      match header_name n, header_value v with
      | Some n', Some v' => append_trailers r (hm_append n' v' m)
      | _, _ => None
      end
  end.

(** [decode_trailer], src/chunked/decoder.rs:483-516; 16 header slots (line 487). *)
Definition decode_trailer (ev : env) (b : blk) : dres :=
  sliced b
  match hp_headers (e_trim ev) 16 (k_data b) with
  | HDone (hs, rest) =>
      match append_trailers hs [] with
      | Some m => DSome [] (Some (DTrailerDone m)) (blk_skip (length (k_data b) - length rest) b) None
      | None => DErr
      end
  | HPart => DNone
  | HErr => DErr
  end.

(** [poll_read_inner], src/chunked/decoder.rs:138-204. Works on the decoder without its block
    ([this.buffer] and [this.current] are placeholders during the call). The channel is
    [bounded(1)] (src/body.rs:26): sending is pending while it holds a message. A dropped
    receiver is not modelled (the send result is ignored, src/trailers.rs:79). *)
Definition poll_read_inner (ev : env) (d : dec) (b : blk) (n : nat) : dec * dres :=
  match d_st d with
  | DInit => (d, decode_init b)
  | DChunk cur len =>
      let (i', r) := poll_read_chunk (d_in d) b n cur len in
      (mkDec i' (d_blk d) (d_init d) (d_st d) (d_sender d) (d_chan d), r)
  | DChunkEnd => (d, decode_chunk_end b)
  | DTrailer => (d, decode_trailer ev b)
  | DTrailerDone h =>                                                      (* 159-173 *)
      if d_sender d
      then (mkDec (d_in d) (d_blk d) (d_init d) (DTrailerDone []) false (d_chan d),
            DSome [] (Some (DTrailerSending h)) b None)
      else (d, DPanic)
  | DTrailerSending h =>                                                   (* 174-195 *)
      match d_chan d with
      | [] => (mkDec (d_in d) (d_blk d) (d_init d) (d_st d) (d_sender d) [h],
               DSome [] (Some DDone) b None)
      | _ => (d, DSome [] None b (Some false))
      end
  | DDone => (d, DSome [] (Some DDone) b None)
  end.

(** src/chunked/decoder.rs:219. *)
Definition is_chunk (s : dst) : bool := match s with DChunk _ _ => true | _ => false end.
(** src/chunked/decoder.rs:246, 323. *)
Definition is_done (s : dst) : bool := match s with DDone => true | _ => false end.

(** Setters for [this.buffer]/[this.current], [this.initial_decode], [this.state].
    src/chunked/decoder.rs:216-217, 235, 242, 273-274, 290-291, 320, 324. *)
Definition set_blk (b : blk) (d : dec) := mkDec (d_in d) b (d_init d) (d_st d) (d_sender d) (d_chan d).
(** src/chunked/decoder.rs:289, 316. *)
Definition set_init (i : bool) (d : dec) := mkDec (d_in d) (d_blk d) i (d_st d) (d_sender d) (d_chan d).
(** src/chunked/decoder.rs:300. *)
Definition set_st (s : dst) (d : dec) := mkDec (d_in d) (d_blk d) (d_init d) s (d_sender d) (d_chan d).
(** src/chunked/decoder.rs:236-238, 317-319. *)
Definition set_st_opt (s : option dst) (d : dec) := match s with Some s => set_st s d | None => d end.
(** The decoder's [inner] has been polled, src/chunked/decoder.rs:105, 283. *)
Definition set_in (i : brd) (d : dec) := mkDec i (d_blk d) (d_init d) (d_st d) (d_sender d) (d_chan d).

(** [MAX_CAPACITY], src/chunked/decoder.rs:19. *)
Definition max_capacity : N := 536870912%N.

(** Lines 269-280: the block after the capacity check; [None] is "incoming data too large".
    [realloc] makes the block [capacity + 1024] bytes long. In src/chunked/decoder.rs. *)
Definition grow (ev : env) (b : blk) : option blk :=
  if (k_cap b <=? length (k_data b))%nat then
    if (N.of_nat (k_cap b) + 1024 <=? max_capacity)%N
    then Some (mkBlk (k_start b) (k_data b) (k_cap b + N.to_nat 1024) (e_grow ev (k_cap b)))
    else None
  else Some b.

(** The range kept in [this.current] when [b] has been stored there. src/chunked/decoder.rs:235,
    320. *)
Definition blk_range (b : blk) : nat * nat := (k_start b, length (k_data b)).

(** One turn of the loop of [poll_read] returns or starts the next turn. [b] is the local block
    and its range [n]; [kept] is what [this.current] holds meanwhile. The loop is
    src/chunked/decoder.rs:268-360. *)
Inductive dturn :=
| Ret (d : dec) (r : pres bytes)
| Again (needs_read : bool) (kept : nat * nat) (d : dec) (b : blk).

(** The second half of a turn, src/chunked/decoder.rs:306-356. *)
Definition dec_decode (ev : env) (n : nat) (kept : nat * nat) (d : dec) (b : blk) : dturn :=
  match poll_read_inner ev d b n with
  | (d, DSome read st b' pending) =>
      let d := set_st_opt st (set_init true d) in
      if is_done (d_st d) then Ret (set_blk b' d) (POk read)
      else if (0 <? length read)%nat then Ret (set_blk b' d) (POk read)
      else match pending with
           | Some fired => Ret (set_blk b' d) (PPend fired)
           | None => Again false (blk_range b') d b'
           end
  | (d, DNone) =>
      if Nat.eqb (k_start b) 0 && Nat.eqb (k_end b) 0
      then Ret (set_blk b (set_init false d)) (POk [])                     (* 345-351 *)
      else Again true kept d b
  | (d, DErr) => Ret (set_blk (blk_stale ev kept) d) PErr
  | (d, DPanic) => Ret d PPanic
  end.

(** One turn, src/chunked/decoder.rs:269-356. *)
Definition dec_turn (ev : env) (n : nat) (needs_read : bool) (kept : nat * nat)
           (d : dec) (b : blk) : dturn :=
  match grow ev b with
  | None => Ret (set_blk b d) PErr                                         (* 273-278 *)
  | Some b =>
      if needs_read then                                                   (* 282-305 *)
        if (k_len b <? k_end b)%nat then Ret d PPanic                      (* slice index *)
        else
          match br_read (k_len b - k_end b) (d_in d) with
          | (i', POk x) =>
              let d := set_in i' d in
              let d := match x with [] => set_st DDone d | _ => d end in
              dec_decode ev n kept d (mkBlk (k_start b) (k_data b ++ x) (k_len b) (k_cap b))
          | (i', PPend fired) => Ret (set_blk b (set_init false (set_in i' d))) (PPend fired)
          | (i', PErr) => Ret (set_blk (blk_stale ev kept) (set_in i' d)) PErr
          | (i', _) => Ret (set_in i' d) PPanic
          end
      else dec_decode ev n kept d b
  end.

(** The loop of [poll_read], src/chunked/decoder.rs:268-357. *)
Fixpoint dec_loop (fuel : nat) (ev : env) (n : nat) (needs_read : bool) (kept : nat * nat)
         (d : dec) (b : blk) : dec * pres bytes :=
  match fuel with
  | O => (d, PFuel)
  | S f =>
      match dec_turn ev n needs_read kept d b with
      | Ret d r => (d, r)
      | Again nr kept d b => dec_loop f ev n nr kept d b
      end
  end.

(** [AsyncRead::poll_read], src/chunked/decoder.rs:209-358, with a buffer of [n] bytes. *)
Definition dec_poll (fuel : nat) (ev : env) (n : nat) (d : dec) : dec * pres bytes :=
  let b := d_blk d in
  let needs_read := negb (is_chunk (d_st d)) in
  let d := set_blk (blk_fresh ev) d in
  if (0 <? length (k_data b))%nat && d_init d then                         (* 225-263 *)
    match poll_read_inner ev d b n with
    | (d, DSome read st b' pending) =>
        let d := set_st_opt st d in
        match pending with
        | Some fired => (set_blk b' d, PPend fired)
        | None =>
            if is_done (d_st d) then (set_blk b' d, POk read)
            else if (0 <? length read)%nat then (set_blk b' d, POk read)
            else dec_loop fuel ev n false (blk_range b') d b'
        end
    | (d, DNone) => dec_loop fuel ev n needs_read (0, 0)%nat d b
    | (d, DErr) => (set_blk (blk_fresh ev) d, PErr)
    | (d, DPanic) => (d, PPanic)
    end
  else dec_loop fuel ev n needs_read (0, 0)%nat d b.

(** Fuel enough for one poll (see theorem C18). No counterpart in src/. *)
Definition dec_fuel (d : dec) : nat :=
  (16 + 16 * br_size (d_in d) + 8 * length (k_data (d_blk d)))%nat.
(** [poll_read], src/chunked/decoder.rs:207-361. *)
Definition dec_read (ev : env) (n : nat) (d : dec) : dec * pres bytes := dec_poll (dec_fuel d) ev n d.
