(** Vocabulary of C133. *)
From Verif Require Export Http.

(** The same machine running a debug build ([e1]: arithmetic overflow and debug assertions panic)
    and a release build ([e2]: arithmetic wraps, debug assertions are left out). *)
Definition debug_release (e1 e2 : env) : Prop :=
  e_ovf e1 = true /\ e_ovf e2 = false /\
  e_date e1 = e_date e2 /\ e_hexlen e1 = e_hexlen e2 /\ e_uri e1 = e_uri e2 /\ e_trim e1 = e_trim e2 /\
  e_bufcap e1 = e_bufcap e2 /\ e_deccap e1 = e_deccap e2 /\ e_grow e1 = e_grow e2 /\ e_stale e1 = e_stale e2.
