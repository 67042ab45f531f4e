(** What the theorems assume of the other side of the connection. *)
From Verif Require Import Io.

Definition prefix {A} (p l : list A) : Prop := exists q, l = p ++ q.

(** ** Readers *)
(** A script never announces data without any byte: [Ok(0)] means end of file. *)
Definition wf_ev (e : ev) : Prop := e <> Data [].
Definition wf_src (s : src) : Prop := Forall wf_ev (s_evs s).
(** The reader never fails and ends. *)
Definition clean_evs (l : list ev) : Prop := Forall (fun e => e <> Fail) l.
Definition clean (s : src) : Prop := clean_evs (s_evs s) /\ s_tail s = Eof.
(** The first read finds the end. *)
Definition at_end (s : src) : Prop := s_evs s = [] /\ s_tail s = Eof.
(** The reader does not fail, and its pauses do not let the connection timer fire. *)
Definition calm (tmo : bool) (l : list ev) : Prop := Forall (fun e => e <> Fail /\ (tmo = true -> e <> Pend true)) l.
(** Buffered readers: the buffer has room. *)
Definition wf_brd (b : brd) : Prop := wf_src (br_src b) /\ (0 < br_cap b)%nat.

(** ** Writers *)
(** The writer never fails and never accepts zero bytes; it may take as few bytes at a time, and
    pause as often, as it likes. *)
Definition acc_ev (x : wev) : Prop :=
  match x with WAcc k => (0 < k)%nat | WPend _ => True | WFail => False end.
Definition accepting (w : wtr) : Prop := Forall acc_ev (w_evs w).
(** Its pauses do not let the connection timer fire. *)
Definition prompt (tmo : bool) (w : wtr) : Prop := tmo = true -> Forall (fun e => e <> WPend true) (w_evs w).
