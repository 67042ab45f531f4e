(** Reading a body: any sequence of [AsyncRead::poll_read] calls on any reader. Used to state
    what a handler (or [read_to_end]) sees; [read n e] is one poll with a buffer of [n] bytes. *)
From Verif Require Export Io.

(** How a sequence of reads stops: all polls used up, end of body ([Ok(0)] on a non-empty
    buffer), an error, a panic, or no end of one poll. Reads as a user does them through
    [AsyncRead for Body], src/body.rs:159-167. *)
Inductive rend := Going | Ended | Failed | Panicked | Hung.

Section Reads.
  Variable E : Type.
  Variable read : nat -> E -> E * pres bytes.

  (** Polls with buffers of the given sizes until the body ends or fails; result: final state,
      bytes delivered, how it stopped. *)
  Fixpoint reads (ns : list nat) (e : E) : E * bytes * rend :=
    match ns with
    | [] => (e, [], Going)
    | n :: ns' =>
        match read n e with
        | (e', POk []) => (e', [], Ended)
        | (e', POk x) => let '(e'', out, k) := reads ns' e' in (e'', x ++ out, k)
        | (e', PPend _) => reads ns' e'
        | (e', PErr) => (e', [], Failed)
        | (e', PPanic) => (e', [], Panicked)
        | (e', PFuel) => (e', [], Hung)
        end
    end.

  (** The same, going on after [Ok(0)]. *)
  Fixpoint reads_on (ns : list nat) (e : E) : E * bytes * rend :=
    match ns with
    | [] => (e, [], Going)
    | n :: ns' =>
        match read n e with
        | (e', POk x) => let '(e'', out, k) := reads_on ns' e' in (e'', x ++ out, k)
        | (e', PPend _) => reads_on ns' e'
        | (e', PErr) => (e', [], Failed)
        | (e', PPanic) => (e', [], Panicked)
        | (e', PFuel) => (e', [], Hung)
        end
    end.

  (** The same, going on after errors too. *)
  Fixpoint reads_through (ns : list nat) (e : E) : E * bytes * rend :=
    match ns with
    | [] => (e, [], Going)
    | n :: ns' =>
        match read n e with
        | (e', POk x) => let '(e'', out, k) := reads_through ns' e' in (e'', x ++ out, k)
        | (e', PPend _) | (e', PErr) => reads_through ns' e'
        | (e', PPanic) => (e', [], Panicked)
        | (e', PFuel) => (e', [], Hung)
        end
    end.
End Reads.
Arguments reads {E} read ns e.
Arguments reads_on {E} read ns e.
Arguments reads_through {E} read ns e.
