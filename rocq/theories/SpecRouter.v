(** Specification: path patterns, routes and router data. *)
From Verif Require Import Router SpecText SpecHead.

(** ** Path patterns, as the documentation of [RouterBuilder::at] and of path-tree has them
    A pattern is text with named parameters [:name] that end before the next slash or star, and
    possibly a catch-all [*name] at the end. *)
Inductive piece := Lit (c : byte) | Name (n : bytes) | Rest (n : bytes).
Definition begins (cs : list byte) (l : bytes) : Prop := exists c r, l = c :: r /\ In c cs.
Inductive pattern : bytes -> list piece -> Prop :=
| pt_end : pattern [] []
| pt_lit c l k : c <> ":"%char -> c <> "*"%char -> pattern l k -> pattern (c :: l) (Lit c :: k)
| pt_name n l k : ~ In "/"%char n -> ~ In "*"%char n -> (l = [] \/ begins ["/"; "*"]%char l) -> pattern l k -> pattern (":"%char :: n ++ l) (Name n :: k)
| pt_rest n : pattern ("*"%char :: n) [Rest n].

(** [fits k t ps]: the text [t] matches the pattern [k], the parameters capturing [ps]. A named
    parameter captures everything before the next slash. *)
Inductive fits : list piece -> bytes -> list (bytes * bytes) -> Prop :=
| ft_end : fits [] [] []
| ft_lit c k t ps : fits k t ps -> fits (Lit c :: k) (c :: t) ps
| ft_name n v k t ps : ~ In "/"%char v -> (t = [] \/ begins ["/"]%char t) -> fits k t ps -> fits (Name n :: k) (v ++ t) ((n, v) :: ps)
| ft_rest n t : fits [Rest n] t [(n, t)].

(** Leading slashes do not count. *)
Definition trimmed (l l' : bytes) : Prop := exists n, l = repeat "/"%char n ++ l' /\ ~ begins ["/"%char] l'.

(** The contract of path-tree's [find]: it finds only what was inserted under a matching
    pattern, with the parameters that the match captures. (That it always finds something when a
    pattern matches is not assumed.) *)
Definition path_tree {E} (find : list (bytes * E) -> bytes -> option (E * list (bytes * bytes))) : Prop :=
  forall rs t e ps, find rs t = Some (e, ps) ->
    exists p p' t' k, In (p, e) rs /\ trimmed p p' /\ trimmed t t' /\ pattern p' k /\ fits k t' ps.

(** ** Routes
    [answers cs m path e ps]: a call registered [e] for the method [m] with a pattern that matches
    [path], capturing [ps]. *)
Definition answers {V} (cs : list (rcall V)) (m path : bytes) (e : endpoint V) (ps : list (bytes * bytes)) : Prop :=
  exists p k, In (RAt m p e) cs /\ pattern p k /\ fits k path ps.

(** Methods as [http::Method] has them: tokens. *)
Definition is_method (m : bytes) : Prop := m <> [] /\ forallb tchar m = true.
(** Registrations whose pattern does not reach into the method: the path begins with a slash and
    the method has no star. *)
Definition regular {V} (c : rcall V) : Prop :=
  match c with RAt m p _ => is_method m /\ ~ In "*"%char m /\ begins ["/"%char] p | _ => True end.
(** Paths as [Uri::path] gives them. *)
Definition is_path (p : bytes) : Prop := p = [] \/ p = B "*" \/ begins ["/"%char] p.

(** ** Data: the newest of the values registered for a type. *)
Definition registers {V} (t : ty) (c : rcall V) : option V :=
  match c with
  | RData u v => if ty_eqb u t then Some v else None
  | RWrapped u v => if ty_eqb u (TData t) then Some v else None
  | RAt _ _ _ => None
  end.
(** [newest f l o]: [o] is what the last element of [l] about which [f] says something says. *)
Inductive newest {A X} (f : A -> option X) : list A -> option X -> Prop :=
| nw_none l : Forall (fun a => f a = None) l -> newest f l None
| nw_some l1 a l2 x : f a = Some x -> Forall (fun b => f b = None) l2 -> newest f (l1 ++ a :: l2) (Some x).
(** Some call registers data (of any type, also one [data] cannot ask for). *)
Definition data_call {V} (c : rcall V) : Prop := match c with RAt _ _ _ => False | _ => True end.
(** The first value under a name. *)
Inductive first_under (k : bytes) : list (bytes * bytes) -> option bytes -> Prop :=
| fu_none l : (forall v, ~ In (k, v) l) -> first_under k l None
| fu_some l1 v l2 : (forall w, ~ In (k, w) l1) -> first_under k (l1 ++ (k, v) :: l2) (Some v).
(** What an endpoint reached through a router finds in its request, which had the extensions [x]
    before: the router's data if any was registered, and the captured parameters. *)
Definition sees {V} (cs : list (rcall V)) (x x' : exts V) (ps : list (bytes * bytes)) : Prop :=
  (forall t, (Exists data_call cs -> newest (registers t) cs (req_data t x')) /\
             (~ Exists data_call cs -> req_data t x' = req_data t x)) /\
  req_params x' = Some ps /\ forall k, first_under k ps (req_get_param k x').
