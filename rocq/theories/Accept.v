(** Model of src/server/mod.rs: the connection loop. *)
From Verif Require Export ServerDec Glitch Relay.

(** ** Handlers
    A handler is a function from the request to an interaction with the connection. It polls
    the request body any number of times, choosing each poll and everything it does from the
    results of the earlier ones, and then either fails or sends. [ResponseWriter::send]
    consumes the writer and [ResponseWritten] can only be obtained from a successful send
    (src/server/response_writer.rs:122-133, 250), so after sending successfully the handler may
    read more of the body and return either way; after a failed send it can only fail.
    Coinductive, so that a handler may loop for ever.
    Simplifications: a handler does not panic by itself; it does not hand the body or the
    writer to another task; it reads the body through [AsyncRead::poll_read]; the only response
    body that reads from the request body is the request body itself ([PRelay]).
    The connection loop takes one handler per turn, [h 0], [h 1], ..., so that the endpoint may
    behave differently from call to call (shared state, clocks, other tasks). *)
CoInductive reading (A : Type) := Rd (n : nat) (k : pres bytes -> reading A) | Rt (a : A).
Arguments Rd {A} n k. Arguments Rt {A} a.

(** The part of an endpoint up to its [send] (src/server/response_writer.rs:122-148) or its
    glitch. [PRelay]: the response's body is the request's (what is left of it), given to
    [set_body] (src/server/response_writer.rs:168-171) as it is or under another declared
    length; the endpoint has no body to read from afterwards. *)
Inductive pre :=
| PFail (g : glitch)
| PSend (r : response) (kok : N -> reading (option glitch)) (kerr : reading glitch)
| PRelay (status : N) (v : version) (hs : hmap) (len : option N) (kok : N -> option glitch) (kerr : glitch).

(** [endpoint] of src/server/mod.rs:47-56, called at 96. *)
Definition handler := rhead -> reading pre.

(** How the connection may end: [accept] returns [Ok] or the unsupported-transfer-encoding
    error, panics, or is still running when the fuel is used up. src/server/mod.rs:51, 104, 136. *)
Inductive aout := AOk | AErr | APanic | AFuel.

(** Body polls of a handler; a panic in a poll or a poll that does not end stops everything.
    The fuel bounds the number of polls. Under the call at src/server/mod.rs:96. *)
Fixpoint run_reading {A} (fuel : nat) (ev : env) (p : reading A) (b : rbody) : rbody * (A + aout) :=
  match p with
  | Rt a => (b, inl a)
  | Rd n k =>
      match fuel with
      | O => (b, inr AFuel)
      | S f =>
          match body_read ev n b with
          | (b', PPanic) => (b', inr APanic)
          | (b', PFuel) => (b', inr AFuel)
          | (b', r) => run_reading f ev (k r) b'
          end
      end
  end.

(** One call of the endpoint: final body, final writer, and the handler's result. The call at
    src/server/mod.rs:96. *)
Definition run_handler (fuel : nat) (ev : env) (p : reading pre) (b : rbody) (w : wtr)
  : rbody * wtr * (option glitch + aout) :=
  match run_reading fuel ev p b with
  | (b', inr x) => (b', w, inr x)
  | (b', inl (PFail g)) => (b', w, inl (Some g))
  | (b', inl (PSend r kok kerr)) =>
      match send fuel ev r w with
      | (w', ROk k) => let (b'', x) := run_reading fuel ev (kok k) b' in (b'', w', x)
      | (w', RErr) =>
          match run_reading fuel ev kerr b' with
          | (b'', inl g) => (b'', w', inl (Some g))
          | (b'', inr x) => (b'', w', inr x)
          end
      | (w', RPanic) => (b', w', inr APanic)
      | (w', RTimeout) | (w', RFuel) => (b', w', inr AFuel)
      end
  | (b', inl (PRelay st v hs len kok kerr)) =>
      match relay_body fuel ev st v hs len b' w with
      | (b'', w', ROk k) => (b'', w', inl (kok k))
      | (b'', w', RErr) => (b'', w', inl (Some kerr))
      | (b'', w', RPanic) => (b'', w', inr APanic)
      | (b'', w', RTimeout) | (b'', w', RFuel) => (b'', w', inr AFuel)
      end
  end.

(** [ServerOpts], src/server/mod.rs:109-123, as far as it matters: whether a timeout is set. *)
Record opts := mkOpts { o_timeout : bool; o_verbose : bool }.
(** [ServerOpts::default], src/server/mod.rs:116-123. *)
Definition default_opts : opts := mkOpts true false.

(** A send whose result is ignored ([let _ = ...]). src/server/mod.rs:97-100, 132. *)
Definition send_ignored (fuel : nat) (ev : env) (r : response) (w : wtr) : wtr * option aout :=
  match send fuel ev r w with
  | (w', ROk _) | (w', RErr) => (w', None)
  | (w', RPanic) => (w', Some APanic)
  | (w', RTimeout) | (w', RFuel) => (w', Some AFuel)
  end.

(** [handle_decode_fail], src/server/mod.rs:126-140. *)
Definition handle_fail (fuel : nat) (ev : env) (f : fail) (w : wtr) : wtr * option aout :=
  match (match fail_response f with
         | Some r => send_ignored fuel ev r w
         | None => (w, None)
         end) with
  | (w', Some x) => (w', Some x)
  | (w', None) => (w', if fail_is_fatal f then Some AErr else None)
  end.

(** One turn of the loop, src/server/mod.rs:59-102. [None]: the loop goes on. When the handler
    returns, its request is gone, and with it whatever the request's [BufReader] had read from
    the transport. *)
Definition turn (fuel : nat) (ev : env) (o : opts) (h : handler) (s : src) (w : wtr)
  : src * wtr * option aout :=
  match decode ev (o_timeout o) s w with
  | (s, w, ONone) | (s, w, OTimeout) => (s, w, Some AOk)
  | (s, w, OFuel) => (s, w, Some AFuel)
  | (s, w, OFail f) => let (w', x) := handle_fail fuel ev f w in (s, w', x)
  | (_, w, OReq q b) =>
      match run_handler fuel ev (h q) b w with
      | (b', w', inr x) => (body_src b', w', Some x)
      | (b', w', inl None) => (body_src b', w', None)
      | (b', w', inl (Some g)) =>
          let (w'', x) := send_ignored fuel ev (glitch_response (o_verbose o) g) w' in
          (body_src b', w'', x)
      end
  end.

(** [accept_with_opts], src/server/mod.rs:47-105. The fuel bounds the turns of the loop and,
    separately, each handler's polls and each send. *)
Definition later (h : nat -> handler) : nat -> handler := fun i => h (S i).
(** The loop at src/server/mod.rs:59-102. *)
Fixpoint accept_go (n fuel : nat) (ev : env) (o : opts) (h : nat -> handler) (s : src) (w : wtr)
  : src * wtr * aout :=
  match n with
  | O => (s, w, AFuel)
  | S n' =>
      match turn fuel ev o (h O) s w with
      | (s', w', Some x) => (s', w', x)
      | (s', w', None) => accept_go n' fuel ev o (later h) s' w'
      end
  end.
(** src/server/mod.rs:47-105. *)
Definition accept_with_opts (fuel : nat) := accept_go fuel fuel.

(** [accept], src/server/mod.rs:35-42. *)
Definition accept (fuel : nat) (ev : env) := accept_with_opts fuel ev default_opts.
