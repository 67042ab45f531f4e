(** Reading a body through [AsyncBufRead], src/body.rs:169-178, alone or mixed with plain reads,
    as [AsyncBufReadExt] and [AsyncReadExt] of futures-lite do it for a user. *)
From Verif Require Export Relay.

(** One step of a user: [poll_read] with a buffer of [n] bytes (src/body.rs:159-167), or
    [poll_fill_buf] followed by [consume] of at most [k] of the bytes shown (src/body.rs:169-178);
    [Peek 0] looks without consuming. *)
Inductive step := Plain (n : nat) | Peek (k : nat).

(** A sequence of steps until the body ends or fails, as [reads] of Reads.v; bytes that were only
    looked at are not counted as obtained. Steps of src/body.rs:159-178. *)
Fixpoint steps (ev : env) (os : list step) (r : reader) : reader * bytes * rend :=
  match os with
  | [] => (r, [], Going)
  | Plain n :: os' =>
      match rdr_poll ev n r with
      | (r', POk []) => (r', [], Ended)
      | (r', POk x) => let '(r'', out, k) := steps ev os' r' in (r'', x ++ out, k)
      | (r', PPend _) => steps ev os' r'
      | (r', PErr) => (r', [], Failed)
      | (r', PPanic) => (r', [], Panicked)
      | (r', PFuel) => (r', [], Hung)
      end
  | Peek k :: os' =>
      match rdr_fill ev r with
      | (r', POk []) => (r', [], Ended)
      | (r', POk x) =>
          let '(r'', out, e) := steps ev os' (rdr_consume (length (firstn k x)) r') in (r'', firstn k x ++ out, e)
      | (r', PPend _) => steps ev os' r'
      | (r', PErr) => (r', [], Failed)
      | (r', PPanic) => (r', [], Panicked)
      | (r', PFuel) => (r', [], Hung)
      end
  end.

(** [AsyncBufReadExt::read_until(LF)] of futures-lite on a body: what [lines] and [read_line] do
    over src/body.rs:169-178. *)
Fixpoint line_go (fuel : nat) (ev : env) (r : reader) (acc : bytes) : reader * rres bytes :=
  match fuel with
  | O => (r, RFuel)
  | S f =>
      match rdr_fill ev r with
      | (r', POk d) =>
          match split_after LF d with
          | Some (p, _) => (rdr_consume (length p) r', ROk (acc ++ p))
          | None =>
              match d with
              | [] => (r', ROk acc)
              | _ => line_go f ev (rdr_consume (length d) r') (acc ++ d)
              end
          end
      | (r', PPend _) => line_go f ev r' acc
      | (r', PErr) => (r', RErr)
      | (r', PPanic) => (r', RPanic)
      | (r', PFuel) => (r', RFuel)
      end
  end.

(** The lines of a body, each with its end, read until a read gives nothing: [while
    read_until(LF, &mut line).await? > 0] over src/body.rs:169-178. *)
Fixpoint lines_go (m fuel : nat) (ev : env) (r : reader) : reader * rres (list bytes) :=
  match m with
  | O => (r, RFuel)
  | S m =>
      match line_go fuel ev r [] with
      | (r', ROk []) => (r', ROk [])
      | (r', ROk l) => match lines_go m fuel ev r' with (r2, ROk ls) => (r2, ROk (l :: ls)) | x => x end
      | (r', RErr) => (r', RErr)
      | (r', RTimeout) => (r', RTimeout)
      | (r', RPanic) => (r', RPanic)
      | (r', RFuel) => (r', RFuel)
      end
  end.
(** As [lines_go], over src/body.rs:169-178. *)
Definition body_lines (fuel : nat) (ev : env) (r : reader) : reader * rres (list bytes) := lines_go fuel fuel ev r.
