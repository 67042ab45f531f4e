(** What the theorems assume of the libraries and of the machine (the fields of [env]). *)
From Verif Require Import ServerEnc SpecResponse SpecReq.

(** The float expression [log16(m+1)] rounded up is the number of hex digits, or one more where
    the division rounds up past an integer. *)
Definition hexlen_ok (ev : env) : Prop :=
  forall m, (1 <= m <= e_bufcap ev)%nat ->
    (length (to_hex (N.of_nat m)) <= e_hexlen ev m <= S (length (to_hex (N.of_nat m))))%nat.
(** The pool's [realloc] gives at least what is asked for. *)
Definition grow_ok (ev : env) : Prop := forall c, (c + N.to_nat 1024 <= e_grow ev c)%nat.
(** Environments as the crate has them: a date that can be printed, a copy buffer of at least
    seven bytes (it has 8192), and the two above. *)
Definition env_ok (ev : env) : Prop :=
  env_wf ev /\ (7 <= e_bufcap ev)%nat /\ (N.of_nat (e_bufcap ev) < two64)%N /\ hexlen_ok ev /\ grow_ok ev.

(** The heads for which an empty chunked response panics (C08, C87): they leave 3 or 4 bytes in the
    copy buffer. *)
Definition eos_window (cap headlen : nat) : Prop :=
  (headlen mod cap = cap - 3 \/ headlen mod cap = cap - 4)%nat.

(** What is due for a request head (SpecReq.v), given how the environment parses targets. *)
Definition judged (ev : env) := judge (e_trim ev) (parse_uri (e_uri ev)).
