(** Specification: the classes of characters of HTTP/1.1 and the comparison of names, written
    down for the specifications alone. Nothing here refers to the model's own tables and
    functions ([is_tchar], [lower], [eq_ic], ..), so a change there is a change against the
    specifications. [Properties_Text] spells these definitions out. *)
From Verif Require Import Bytes.

Definition within (lo hi : N) (c : byte) : bool := (lo <=? N_of_ascii c)%N && (N_of_ascii c <=? hi)%N.
Definition digit (c : byte) : bool := within 48 57 c.
Definition capital (c : byte) : bool := within 65 90 c.
Definition small (c : byte) : bool := within 97 122 c.

(** RFC 7230: tchar = "!" / "#" / "$" / "%" / "&" / "'" / "*" / "+" / "-" / "." / "^" / "_" / "`" /
    "|" / "~" / DIGIT / ALPHA. *)
Definition tchar (c : byte) : bool :=
  digit c || (capital c || small c) || existsb (Ascii.eqb c) (list_ascii_of_string "!#$%&'*+-.^_`|~").

(** Text with its capital letters made small, and equality up to that. *)
Definition uncapital (c : byte) : byte := if capital c then ascii_of_N (N_of_ascii c + 32) else c.
Definition lowered (l : bytes) : bytes := map uncapital l.
Definition same_text (a b : bytes) : bool := beq (lowered a) (lowered b).

(** The bytes of a field value, and those of a value that is text. *)
Definition value_byte (c : byte) : bool :=
  ((32 <=? N_of_ascii c)%N && negb (N_of_ascii c =? 127)%N) || (N_of_ascii c =? 9)%N.
Definition text_byte (c : byte) : bool := within 32 126 c || (N_of_ascii c =? 9)%N.

(** The bytes of a path and of a query that [http::Uri] admits: those of RFC 3986, and a few
    more that are seen in practice. *)
Definition path_char (c : byte) : bool :=
  let v := N_of_ascii c in
  ((v =? 33) || ((36 <=? v) && (v <=? 59)) || (v =? 61) || ((64 <=? v) && (v <=? 95)) ||
   ((97 <=? v) && (v <=? 122)) || (v =? 124) || (v =? 126) ||
   (v =? 34) || (v =? 123) || (v =? 125))%N.
Definition query_char (c : byte) : bool :=
  let v := N_of_ascii c in
  ((v =? 33) || ((36 <=? v) && (v <=? 59)) || (v =? 61) || ((63 <=? v) && (v <=? 126)))%N.

(** ** The same, spelt out *)
Definition capitals : bytes := list_ascii_of_string "ABCDEFGHIJKLMNOPQRSTUVWXYZ".
Definition smalls : bytes := list_ascii_of_string "abcdefghijklmnopqrstuvwxyz".
Definition tchars : bytes := list_ascii_of_string "!#$%&'*+-.^_`|~0123456789" ++ capitals ++ smalls.
(** [small_of c d]: [d] is [c] with capitals made small. *)
Definition small_of (c d : byte) : Prop :=
  (exists i, nth_error capitals i = Some c /\ nth_error smalls i = Some d) \/ (~ In c capitals /\ d = c).
(** Two texts that differ in nothing but the case of ASCII letters. *)
Definition equal_text (a b : bytes) : Prop := exists n, Forall2 small_of a n /\ Forall2 small_of b n.
