(** Specification: the response a failing handler's glitch stands for. *)
From Verif Require Import Accept SpecHead SpecResponse SpecServer.

Definition or_else {A} (o : option A) (d : A) : A := match o with Some x => x | None => d end.

(** The text of the response: the message; with [verbose], the error's text behind it on a line
    of its own. *)
Inductive detail (verbose : bool) (g : glitch) : bytes -> Prop :=
| dt_message : verbose = false \/ g_trace g = None -> detail verbose g (or_else (g_message g) [])
| dt_trace t : verbose = true -> g_trace g = Some t -> or_else (g_message g) [] = [] -> detail verbose g t
| dt_both m t : verbose = true -> g_trace g = Some t -> g_message g = Some m -> m <> [] -> detail verbose g (m ++ [LF] ++ t).

(** The values of a field in a glitch's headers. *)
Definition g_values (n : bytes) (g : glitch) : list bytes :=
  match g_headers g with Some hs => values n (hm_iter hs) | None => [] end.

(** [glitch_wire date verbose g m]: the bytes [m] are a response with the glitch's status,
    version and headers and its text as body. *)
Definition glitch_wire (date : bytes) (verbose : bool) (g : glitch) (m : bytes) : Prop :=
  exists text sl fs cl, detail verbose g text /\ read_head m = Some (sl, fs, text) /\
    first_line (or_else (g_version g) HTTP_11) (or_else (g_status g) 500%N) sl /\
    values (B "content-length") fs = [cl] /\ numeral cl (N.of_nat (length text)) /\ values (B "transfer-encoding") fs = [] /\
    values (B "content-type") fs = (match text with [] => g_values (B "content-type") g | _ => [B "text/plain"] end) /\
    values (B "date") fs = (match g_values (B "date") g with [] => [date] | l => l end) /\
    forall n, special n = false -> values n fs = g_values n g.

(** Glitches that agree on everything but the error's text. *)
Definition same_but_trace (g1 g2 : glitch) : Prop :=
  g_status g1 = g_status g2 /\ g_headers g1 = g_headers g2 /\ g_version g1 = g_version g2 /\ g_message g1 = g_message g2.

(** Programs that poll alike and end with related results. *)
CoInductive alike {A} (R : A -> A -> Prop) : reading A -> reading A -> Prop :=
| ak_poll n k1 k2 : (forall r, alike R (k1 r) (k2 r)) -> alike R (Rd n k1) (Rd n k2)
| ak_ret a b : R a b -> alike R (Rt a) (Rt b).
Inductive opt_rel {A} (R : A -> A -> Prop) : option A -> option A -> Prop :=
| or_none : opt_rel R None None
| or_some a b : R a b -> opt_rel R (Some a) (Some b).

(** Handlers that differ at most in the texts of the errors they fail with. *)
Inductive pre_alike : pre -> pre -> Prop :=
| pa_fail g1 g2 : same_but_trace g1 g2 -> pre_alike (PFail g1) (PFail g2)
| pa_send r kok1 kok2 kerr1 kerr2 : (forall n, alike (opt_rel same_but_trace) (kok1 n) (kok2 n)) -> alike same_but_trace kerr1 kerr2 ->
    pre_alike (PSend r kok1 kerr1) (PSend r kok2 kerr2)
| pa_relay st v hs len kok1 kok2 kerr1 kerr2 : (forall n, opt_rel same_but_trace (kok1 n) (kok2 n)) -> same_but_trace kerr1 kerr2 ->
    pre_alike (PRelay st v hs len kok1 kerr1) (PRelay st v hs len kok2 kerr2).
Definition handlers_alike (h1 h2 : nat -> handler) : Prop := forall i q, alike pre_alike (h1 i q) (h2 i q).

(** ** How handlers come by glitches
    The constructors, conversions and macros of the public interface, with the status, message
    and error text each stands for; and the two setters. *)
Inductive gstart :=
| ByNew | ByBadRequest | ByServerError | ByError (e : bytes) | ByMacro | ByMacroStatus (st : N) | ByMacroMessage (st : N) (m : bytes)
| ByMacroCode (code : N) (m : bytes)
| ByResult (e : bytes) (st : N) | ByResultCtx (e : bytes) (st : N) (ctx : bytes)
| ByOption (st : N) | ByOptionCtx (st : N) (ctx : bytes).
Inductive gset := SetStatus (st : N) | SetMessage (m : bytes).

(** What the model makes of them. *)
Definition failure {T} (x : T + glitch) : option glitch := match x with inl _ => None | inr g => Some g end.
Definition g_made (a : gstart) : option glitch :=
  match a with
  | ByNew => Some glitch_new
  | ByBadRequest => Some glitch_bad_request
  | ByServerError => Some glitch_ise
  | ByError e => Some (glitch_err e)
  | ByMacro => Some glitch_macro0
  | ByMacroStatus st => Some (glitch_macro1 st)
  | ByMacroMessage st m => Some (glitch_macro2 st m)
  | ByMacroCode code m => glitch_code2 code m
  | ByResult e st => failure (res_glitch (inr e : unit + bytes) st)
  | ByResultCtx e st ctx => failure (res_glitch_ctx (inr e : unit + bytes) st ctx)
  | ByOption st => failure (opt_glitch (None : option unit) st)
  | ByOptionCtx st ctx => failure (opt_glitch_ctx (None : option unit) st ctx)
  end.
Definition g_set (g : glitch) (x : gset) : glitch :=
  match x with SetStatus st => g_set_status st g | SetMessage m => g_set_message m g end.

(** Failures that differ at most in the text of the error behind them. *)
Inductive same_but_error : gstart -> gstart -> Prop :=
| se_same a : same_but_error a a
| se_error e1 e2 : same_but_error (ByError e1) (ByError e2)
| se_result e1 e2 st : same_but_error (ByResult e1 st) (ByResult e2 st)
| se_context e1 e2 st ctx : same_but_error (ByResultCtx e1 st ctx) (ByResultCtx e2 st ctx).

(** What is due. *)
Definition start_status (a : gstart) : N :=
  match a with
  | ByNew | ByServerError | ByError _ | ByMacro => 500
  | ByBadRequest => 400
  | ByMacroStatus st | ByMacroMessage st _ | ByMacroCode st _ | ByResult _ st | ByResultCtx _ st _ | ByOption st | ByOptionCtx st _ => st
  end%N.
Definition start_message (a : gstart) : bytes :=
  match a with ByMacroMessage _ m | ByMacroCode _ m | ByResultCtx _ _ m | ByOptionCtx _ m => m | _ => [] end.
Definition start_trace (a : gstart) : option bytes :=
  match a with ByError e | ByResultCtx e _ _ => Some e | _ => None end.
(** The last value set, or the first one. *)
Inductive status_due : N -> list gset -> N -> Prop :=
| sd_none st : status_due st [] st
| sd_set st0 st1 st l : status_due st1 l st -> status_due st0 (SetStatus st1 :: l) st
| sd_other st0 m st l : status_due st0 l st -> status_due st0 (SetMessage m :: l) st.
Inductive message_due : bytes -> list gset -> bytes -> Prop :=
| md_none m : message_due m [] m
| md_set m0 m1 m l : message_due m1 l m -> message_due m0 (SetMessage m1 :: l) m
| md_other m0 st m l : message_due m0 l m -> message_due m0 (SetStatus st :: l) m.
(** The body: message and, if asked for, error text, on a line of its own if there is a message. *)
Inductive text_due (verbose : bool) (m : bytes) (t : option bytes) : bytes -> Prop :=
| xd_message : verbose = false \/ t = None -> text_due verbose m t m
| xd_trace e : verbose = true -> t = Some e -> m = [] -> text_due verbose m t e
| xd_both e : verbose = true -> t = Some e -> m <> [] -> text_due verbose m t (m ++ [LF] ++ e).
