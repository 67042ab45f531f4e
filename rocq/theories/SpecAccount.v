(** What a server may have written on a connection, given what has arrived there. *)
From Verif Require Export Accept SpecReq SpecServer.

(** All the bytes that arrive, those behind an i/o error included. *)
Fixpoint arrived (l : list ev) : bytes :=
  match l with
  | [] => []
  | Data d :: l => d ++ arrived l
  | _ :: l => arrived l
  end.

(** [comes_to x p]: the program [p] can decide on [x] (for some results of its polls). *)
Inductive comes_to {A} (x : A) : reading A -> Prop :=
| ct_ret : comes_to x (Rt x)
| ct_poll n k r : comes_to x (k r) -> comes_to x (Rd n k).

(** The response a decision stands for. *)
Inductive stands_for (verbose : bool) : pre -> response -> Prop :=
| sf_send r kok kerr : stands_for verbose (PSend r kok kerr) r
| sf_fail g : stands_for verbose (PFail g) (glitch_response verbose g).

(** [account trim uri_of verbose h d xs]: in [d] there are request heads, one behind the other
    and apart; to each belongs an element of [xs]: whether it asked to be told to continue, and
    the response: the refusal due by its text, or one that a handler of the connection decided on
    when given this head. Whatever lies between the heads (bodies; bytes nobody reads) is left
    open, and so is how many handlers' turns have passed without a head. *)
Inductive account (trim : bool) (uri_of : bytes -> option uri) (verbose : bool)
  : (nat -> handler) -> bytes -> list (bool * response) -> Prop :=
| ac_end h d : account trim uri_of verbose h d []
| ac_pass h d xs : account trim uri_of verbose (later h) d xs -> account trim uri_of verbose h d xs
| ac_refused h y w z c code xs : head_block w -> judge trim uri_of w c (Refuse code) ->
    account trim uri_of verbose (later h) z xs -> account trim uri_of verbose h (y ++ w ++ z) ((c, bare code) :: xs)
| ac_handled h y w z c m u hs len q x r xs : head_block w -> judge trim uri_of w c (Accept m u hs len) ->
    presents q m u hs len -> comes_to x (h O q) -> stands_for verbose x r ->
    account trim uri_of verbose (later h) z xs -> account trim uri_of verbose h (y ++ w ++ z) ((c, r) :: xs).
