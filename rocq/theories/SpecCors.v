(** Specification: what a Cors configuration says, in terms of the builder calls that made it. *)
From Coq Require Export Permutation.
From Verif Require Import Cors SpecText SpecHead SpecResponse SpecWriter.

(** [occurs x l]: [x] is a contiguous part of [l]. *)
Definition occurs (x l : bytes) : Prop := exists a b, l = a ++ x ++ b.

(** The origin named by a url text: what the [headers] crate makes of the parts before and after
    the first "://". *)
Definition names_origin (origin_of : bytes -> bytes -> option bytes) (l o : bytes) : Prop :=
  exists s t, l = s ++ B "://" ++ t /\ ~ occurs (B "://") (s ++ B ":/") /\ origin_of s t = Some o.

(** What single calls mention. *)
Definition call_method (m : bytes) (c : bcall) : Prop :=
  match c with BMethod x => x = m | BMethods xs => In m xs | _ => False end.
Definition call_header (n : bytes) (c : bcall) : Prop :=
  match c with BHeader x => same_text x n = true | BHeaders xs => exists x, In x xs /\ same_text x n = true | _ => False end.
Definition call_exposes (n : bytes) (c : bcall) : Prop :=
  match c with BExpose x => same_text x n = true | BExposes xs => exists x, In x xs /\ same_text x n = true | _ => False end.
Definition call_origin (origin_of : bytes -> bytes -> option bytes) (o : bytes) (c : bcall) : Prop :=
  match c with BOrigin x => names_origin origin_of x o | BOrigins xs => exists x, In x xs /\ names_origin origin_of x o | _ => False end.
Definition says_credentials (c : bcall) : option bool := match c with BCredentials x => Some x | _ => None end.
Definition says_age (c : bcall) : option (option N) := match c with BAge s => Some (Some s) | _ => None end.

(** The configuration: methods and headers accumulate; of the calls about origins those after
    the last [allow_any_origin] count, and if there are none of them any origin is allowed. *)
Definition allows_method (cs : list bcall) (m : bytes) : Prop := Exists (call_method m) cs.
Definition allows_header (cs : list bcall) (n : bytes) : Prop := Exists (call_header n) cs.
Definition exposes_header (cs : list bcall) (n : bytes) : Prop := Exists (call_exposes n) cs.
Definition credentials (cs : list bcall) : bool := latest says_credentials false (rev cs).
Definition age (cs : list bcall) : option N := latest says_age None (rev cs).

Definition lists_origins (c : bcall) : Prop := match c with BOrigin _ | BOrigins _ => True | _ => False end.
Inductive since_any : list bcall -> list bcall -> Prop :=
| sa_all cs : ~ In BAnyOrigin cs -> since_any cs cs
| sa_after cs cs' : ~ In BAnyOrigin cs' -> since_any (cs ++ BAnyOrigin :: cs') cs'.
Definition allows_origin (origin_of : bytes -> bytes -> option bytes) (cs : list bcall) (o : bytes) : Prop :=
  exists cs', since_any cs cs' /\ (Forall (fun c => ~ lists_origins c) cs' \/ Exists (call_origin origin_of o) cs').

(** Items separated by commas and spaces. *)
Inductive listed : list bytes -> bytes -> Prop :=
| ls_none : listed [] []
| ls_one x : listed [x] x
| ls_more x xs l : xs <> [] -> listed xs l -> listed (x :: xs) (x ++ B ", " ++ l).
(** The text lists exactly the items satisfying [P], each once, in some order. *)
Definition lists_all (P : bytes -> Prop) (l : bytes) : Prop :=
  exists xs, listed xs l /\ NoDup xs /\ forall x, In x xs <-> P x.

(** Headers of a request. *)
Definition field (q : rhead) (n : bytes) : list bytes := values n (hm_iter (q_hdrs q)).

(** The items of a list separated by bare commas. *)
Inductive commas : list bytes -> bytes -> Prop :=
| cm_one x : ~ In ","%char x -> commas [x] x
| cm_more x xs l : ~ In ","%char x -> commas xs l -> commas (x :: xs) (x ++ B "," ++ l).

(** A preflight request asks for things the configuration allows. *)
Definition asks_allowed (cs : list bcall) (q : rhead) : Prop :=
  (exists m r, field q (B "access-control-request-method") = m :: r /\ allows_method cs m) /\
  (field q (B "access-control-request-headers") = [] \/
   exists v r xs, field q (B "access-control-request-headers") = v :: r /\ commas xs v /\ forall x, In x xs -> allows_header cs x).

(** A refusal: a bare 400. *)
Definition refusal (x : unit + glitch) : Prop := x = inr (mkGlitch (Some 400%N) None None None None).

(** The access-control headers common to all answers: [old] gives the values before. *)
Definition common (cs : list bcall) (o : bytes) (old new : bytes -> list bytes) : Prop :=
  new (B "access-control-allow-origin") = [o] /\
  new (B "access-control-allow-credentials") = (if credentials cs then [B "true"] else old (B "access-control-allow-credentials")) /\
  ((forall n, ~ exposes_header cs n) /\ new (B "access-control-expose-headers") = old (B "access-control-expose-headers") \/
   exists l, new (B "access-control-expose-headers") = [l] /\ lists_all (fun n => n = lowered n /\ exposes_header cs n) l).

(** The headers of an accepted preflight. *)
Definition preflight_headers (cs : list bcall) (o : bytes) (new : bytes -> list bytes) : Prop :=
  common cs o (fun _ => []) new /\
  (exists l, new (B "access-control-allow-methods") = [l] /\ lists_all (allows_method cs) l) /\
  (exists l, new (B "access-control-allow-headers") = [l] /\ lists_all (fun n => n = lowered n /\ allows_header cs n) l) /\
  match age cs with
  | Some a => exists d, new (B "access-control-max-age") = [d] /\ numeral d a
  | None => new (B "access-control-max-age") = []
  end /\
  forall n, ~ In (lowered n) [B "access-control-allow-origin"; B "access-control-allow-credentials"; B "access-control-expose-headers";
                            B "access-control-allow-methods"; B "access-control-allow-headers"; B "access-control-max-age"] -> new n = [].

(** Configurations that builder calls can make; the sets may be iterated in any order. *)
Definition configured (origin_of : bytes -> bytes -> option bytes) (cs : list bcall) (c : cors) : Prop :=
  exists b oh oe om, b_calls origin_of cs cors_build = Some b /\
    (forall l, Permutation (oh l) l) /\ (forall l, Permutation (oe l) l) /\ (forall l, Permutation (om l) l) /\
    c = cors_finish oh oe om b.

(** Items separated by commas with optional spaces and tabs around them, as HTTP's list syntax
    allows. *)
Definition pads (x y : bytes) : Prop :=
  exists a b, y = a ++ x ++ b /\ Forall (fun c => c = " "%char \/ c = "009"%char) (a ++ b).
Definition padded_list (xs : list bytes) (v : bytes) : Prop := exists ys, Forall2 pads xs ys /\ commas ys v.
