(** Readers, writers and the futures-lite adaptors the source is built on.

    A reader or transport is a script: see DESIGN.md, "Asynchrony". *)
From Verif Require Export Bytes.

(** One observable behaviour of one poll of a reader.
    [Data d]: the next bytes available.  [Pend fired]: the reader is not ready; [fired]
    tells whether a pending connection timer has elapsed at that poll.
    [Fail]: an i/o error. The reader half of [RW] in src/server/mod.rs:35-41 and of a body,
    src/body.rs:159-178. *)
Inductive ev := Data (d : bytes) | Pend (fired : bool) | Fail.

(** What the reader does once its events are exhausted, for ever. As [ev]:
    src/server/mod.rs:35-41, src/body.rs:159-178. *)
Inductive rtail := Eof | FailForever.

(** A reader: the connection of src/server/mod.rs:35-41 or the [reader] of a body,
    src/body.rs:25-64. *)
Record src := mkSrc { s_evs : list ev; s_tail : rtail }.

(** Result of one poll. [PFuel] is the model's out-of-fuel outcome (a loop or recursion in
    the source that did not end within the fuel). [Poll<io::Result<..>>], as in
    src/server/encode.rs:215-219. *)
Inductive pres (A : Type) := POk (a : A) | PPend (fired : bool) | PErr | PPanic | PFuel.
Arguments POk {A} a. Arguments PPend {A} fired. Arguments PErr {A}.
Arguments PPanic {A}. Arguments PFuel {A}.

(** Result of awaiting something. The results of [.await], e.g. src/server/decode.rs:46-49. *)
Inductive rres (A : Type) := ROk (a : A) | RErr | RTimeout | RPanic | RFuel.
Arguments ROk {A} a. Arguments RErr {A}. Arguments RTimeout {A}.
Arguments RPanic {A}. Arguments RFuel {A}.

(** [AsyncRead::poll_read] with a buffer of [n] bytes. The returned bytes are what was
    stored at the start of the buffer; their number is the [Ok(n)] of the source. Called at
    src/server/encode.rs:163 and src/chunked/decoder.rs:283 through the readers on top of it. *)
Definition src_read (n : nat) (s : src) : src * pres bytes :=
  match s_evs s with
  | [] => (s, match s_tail s with Eof => POk [] | FailForever => PErr end)
  | Data d :: r =>
      (mkSrc (match skipn n d with [] => r | d' => Data d' :: r end) (s_tail s),
       POk (firstn n d))
  | Pend f :: r => (mkSrc r (s_tail s), PPend f)
  | Fail :: r => (mkSrc r (s_tail s), PErr)
  end.

(** [AsyncBufRead::poll_fill_buf] of a body reader (e.g. [util::Cursor], src/util.rs:44-55,
    [util::Empty], src/util.rs:81-87): shows the next bytes without consuming them. *)
Definition src_fill (s : src) : src * pres bytes :=
  match s_evs s with
  | [] => (s, match s_tail s with Eof => POk [] | FailForever => PErr end)
  | Data d :: _ => (s, POk d)
  | Pend f :: r => (mkSrc r (s_tail s), PPend f)
  | Fail :: r => (mkSrc r (s_tail s), PErr)
  end.

(** [AsyncBufRead::consume]. Called in src/chunked/encoder.rs:122-190 and, for a body, at
    src/body.rs:175-177. *)
Definition src_consume (k : nat) (s : src) : src :=
  match s_evs s with
  | Data d :: r => mkSrc (match skipn k d with [] => r | d' => Data d' :: r end) (s_tail s)
  | _ => s
  end.

(** All bytes a script will ever yield before its first failure. For specifications; what a
    body's reader produces, src/body.rs:159-167. *)
Fixpoint evs_data (l : list ev) : bytes :=
  match l with
  | [] => []
  | Data d :: r => d ++ evs_data r
  | Pend _ :: r => evs_data r
  | Fail :: _ => []
  end.
(** As [evs_data], for the reader of src/body.rs:159-167. *)
Definition src_data (s : src) : bytes := evs_data (s_evs s).

(** Number of polls a script can still answer, counting bytes. A measure, for fuel; no
    counterpart in src/. *)
Fixpoint evs_size (l : list ev) : nat :=
  match l with
  | [] => 0
  | Data d :: r => S (length d + evs_size r)
  | _ :: r => S (evs_size r)
  end.
(** A measure, for fuel; no counterpart in src/. *)
Definition src_size (s : src) : nat := evs_size (s_evs s).

(** ** futures-lite [BufReader]. [BufReader] as made at src/server/decode.rs:39 and
    src/client/decode.rs:26. *)
Record brd := mkBrd { br_cap : nat; br_buf : bytes; br_src : src }.

(** [BufReader::new], src/server/decode.rs:39, src/client/decode.rs:26. *)
Definition br_new (cap : nat) (s : src) : brd := mkBrd cap [] s.

(** [BufReader::poll_fill_buf]: refill only when empty. Called by [read_until],
    src/server/decode.rs:46-49. *)
Definition br_fill (b : brd) : brd * pres bytes :=
  match br_buf b with
  | [] =>
      match src_read (br_cap b) (br_src b) with
      | (s', POk d) => (mkBrd (br_cap b) d s', POk d)
      | (s', r) => (mkBrd (br_cap b) [] s', r)
      end
  | d => (b, POk d)
  end.

(** [BufReader::consume], called by [read_until], src/server/decode.rs:46-49. *)
Definition br_consume (k : nat) (b : brd) : brd :=
  mkBrd (br_cap b) (skipn k (br_buf b)) (br_src b).

(** [BufReader::poll_read]: a read at least as large as the internal buffer bypasses it
    when it is empty. Called under src/server/decode.rs:141 and 145. *)
Definition br_read (n : nat) (b : brd) : brd * pres bytes :=
  match br_buf b, (br_cap b <=? n) with
  | [], true =>
      let (s', r) := src_read n (br_src b) in (mkBrd (br_cap b) [] s', r)
  | _, _ =>
      match br_fill b with
      | (b', POk d) => (br_consume (length (firstn n d)) b', POk (firstn n d))
      | (b', r) => (b', r)
      end
  end.

(** For specifications: what a [BufReader] (src/server/decode.rs:39) has still to give. *)
Definition br_data (b : brd) : bytes := br_buf b ++ src_data (br_src b).
(** A measure, for fuel; no counterpart in src/. *)
Definition br_size (b : brd) : nat := length (br_buf b) + src_size (br_src b).

(** [AsyncBufReadExt::read_until(LF, buf).await]: appends to [acc] up to and including the
    first LF; stops at end of file.  Under a connection timeout ([tmo]) the surrounding
    [TimeoutFuture] (src/timeout.rs:48-57) polls the read first and looks at the timer only
    when the read is pending. *)
Fixpoint read_until_go (fuel : nat) (tmo : bool) (b : brd) (acc : bytes) : brd * rres bytes :=
  match fuel with
  | O => (b, RFuel)
  | S f =>
      match br_fill b with
      | (b', POk d) =>
          match split_after LF d with
          | Some (p, _) => (br_consume (length p) b', ROk (acc ++ p))
          | None =>
              match d with
              | [] => (b', ROk acc)
              | _ => read_until_go f tmo (br_consume (length d) b') (acc ++ d)
              end
          end
      | (b', PPend fired) => if tmo && fired then (b', RTimeout) else read_until_go f tmo b' acc
      | (b', PErr) => (b', RErr)
      | (b', PPanic) => (b', RPanic)
      | (b', PFuel) => (b', RFuel)
      end
  end.

(** [read_until(LF, &mut buf).await], src/server/decode.rs:46-49, src/client/decode.rs:33-36. *)
Definition read_until (tmo : bool) (b : brd) : brd * rres bytes :=
  read_until_go (S (br_size b)) tmo b [].

(** ** Writers *)
(** [WAcc k]: the next poll accepts at most [k] bytes. After the script the writer accepts
    everything. The writer half of [RW] in src/server/mod.rs:35-41. *)
Inductive wev := WAcc (k : nat) | WPend (fired : bool) | WFail.
(** The writer half of [RW] in src/server/mod.rs:35-41, with what it has taken so far and how
    many bytes of that the last successful flush covered (a buffering transport may keep the
    rest to itself). *)
Record wtr := Wtr { w_evs : list wev; w_out : bytes; w_flushed : nat }.
(** A writer nothing of which has been flushed yet, src/server/mod.rs:35-41. *)
Definition mkWtr (evs : list wev) (out : bytes) : wtr := Wtr evs out 0.

(** The result of a [poll_write] by [io::copy], src/server/response_writer.rs:65. *)
Inductive wres := WrOk (k : nat) | WrPend (fired : bool) | WrErr.

(** [poll_write] of [RW], called by [io::copy], src/server/response_writer.rs:65,
    src/client/mod.rs:21. *)
Definition w_write (d : bytes) (w : wtr) : wtr * wres :=
  match w_evs w with
  | [] => (Wtr [] (w_out w ++ d) (w_flushed w), WrOk (length d))
  | WAcc k :: r =>
      let k' := Nat.min k (length d) in
      (Wtr r (w_out w ++ firstn k' d) (w_flushed w), WrOk k')
  | WPend f :: r => (Wtr r (w_out w) (w_flushed w), WrPend f)
  | WFail :: r => (Wtr r (w_out w) (w_flushed w), WrErr)
  end.

(** [poll_flush] of [RW], called by [io::copy], src/server/response_writer.rs:65,
    src/client/mod.rs:21. *)
Definition w_flush (w : wtr) : wtr * wres :=
  match w_evs w with
  | WPend f :: r => (Wtr r (w_out w) (w_flushed w), WrPend f)
  | WFail :: r => (Wtr r (w_out w) (w_flushed w), WrErr)
  | _ => (Wtr (w_evs w) (w_out w) (length (w_out w)), WrOk 0)
  end.

(** [AsyncWriteExt::write_all(d).await]. Used at src/server/decode.rs:175. *)
Fixpoint write_all_go (fuel : nat) (tmo : bool) (d : bytes) (w : wtr) : wtr * rres unit :=
  match d with
  | [] => (w, ROk tt)
  | _ =>
      match fuel with
      | O => (w, RFuel)
      | S f =>
          match w_write d w with
          | (w', WrOk O) => (w', RErr)                      (* WriteZero *)
          | (w', WrOk k) => write_all_go f tmo (skipn k d) w'
          | (w', WrPend fired) => if tmo && fired then (w', RTimeout) else write_all_go f tmo d w'
          | (w', WrErr) => (w', RErr)
          end
      end
  end.
(** [write_all], src/server/decode.rs:175-177. *)
Definition write_all (tmo : bool) (d : bytes) (w : wtr) : wtr * rres unit :=
  write_all_go (S (length d + length (w_evs w))) tmo d w.

(** futures-lite [io::copy(&mut encoder, &mut writer).await]: wraps the encoder in a
    [BufReader] and alternates filling it and writing it out; at end of file it flushes.
    [poll] is the encoder's [poll_read] with the [BufReader]'s buffer; [bb] is the part of
    the buffer not yet written; [amt] the number of bytes written. *)
Section Copy.
  Variable E : Type.
  Variable poll : E -> E * pres bytes.

  Fixpoint copy_go (fuel : nat) (e : E) (bb : bytes) (w : wtr) (amt : N) : wtr * rres N :=
    match fuel with
    | O => (w, RFuel)
    | S f =>
        match bb with
        | [] =>
            match poll e with
            | (e', POk []) =>
                match w_flush w with
                | (w', WrOk _) => (w', ROk amt)
                | (w', WrPend _) => copy_go f e' [] w' amt
                | (w', WrErr) => (w', RErr)
                end
            | (e', POk d) => copy_go f e' d w amt
            | (e', PPend _) => copy_go f e' [] w amt
            | (_, PErr) => (w, RErr)
            | (_, PPanic) => (w, RPanic)
            | (_, PFuel) => (w, RFuel)
            end
        | _ =>
            match w_write bb w with
            | (w', WrOk O) => (w', RErr)                    (* WriteZero *)
            | (w', WrOk k) => copy_go f e (skipn k bb) w' (amt + N.of_nat k)
            | (w', WrPend _) => copy_go f e bb w' amt
            | (w', WrErr) => (w', RErr)
            end
        end
    end.
End Copy.
Arguments copy_go {E} poll fuel e bb w amt.
