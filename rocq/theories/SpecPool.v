(** Vocabulary of C120. *)
From Verif Require Export Http.

(** Two machines that differ only in what the blocks hold which the decoder takes from its pool,
    that is in what other connections have left there. *)
Definition same_but_pool (e1 e2 : env) : Prop :=
  e_date e1 = e_date e2 /\ e_hexlen e1 = e_hexlen e2 /\ e_uri e1 = e_uri e2 /\ e_trim e1 = e_trim e2 /\ e_ovf e1 = e_ovf e2 /\
  e_bufcap e1 = e_bufcap e2 /\ e_deccap e1 = e_deccap e2 /\ e_grow e1 = e_grow e2.
