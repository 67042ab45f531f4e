(** Model of src/timeout.rs. *)
From Verif Require Export Bytes.

(** [TimeoutFuture::poll], src/timeout.rs:48-57. [inner]: what polling the wrapped future gives,
    [None] for pending; [fired]: whether polling the delay gives ready. Result: [None] for
    pending, [inr tt] for the timeout error. The wakers are not modelled. *)
Definition timeout_poll {A} (inner : option A) (fired : bool) : option (A + unit) :=
  match inner with
  | Some v => Some (inl v)
  | None => if fired then Some (inr tt) else None
  end.

(** [timeout(..).await], src/timeout.rs:14-23: polls until ready. At poll number [i] the wrapped
    future gives [inner i] and the delay [fired i]. [None]: not ready within the fuel. *)
Fixpoint timeout_await {A} (fuel i : nat) (inner : nat -> option A) (fired : nat -> bool) : option (A + unit) :=
  match fuel with
  | O => None
  | S f =>
      match timeout_poll (inner i) (fired i) with
      | Some r => Some r
      | None => timeout_await f (S i) inner fired
      end
  end.
