(** Specification: text (UTF-8, RFC 3629). *)
From Verif Require Import Bytes.

(** Unicode scalar values and their encodings. *)
Definition scalar (n : N) : Prop := (n < 55296 \/ 57344 <= n < 1114112)%N.
Definition low6 (n : N) : byte := ascii_of_N (128 + n mod 64).
Inductive utf8_char : N -> bytes -> Prop :=
| u1 n : (n < 128)%N -> utf8_char n [ascii_of_N n]
| u2 n : (128 <= n < 2048)%N -> utf8_char n [ascii_of_N (192 + n / 64); low6 n]
| u3 n : (2048 <= n < 65536)%N -> utf8_char n [ascii_of_N (224 + n / 4096); low6 (n / 64); low6 n]
| u4 n : (65536 <= n)%N -> utf8_char n [ascii_of_N (240 + n / 262144); low6 (n / 4096); low6 (n / 64); low6 n].

(** [is_text l]: [l] is the encoding of some scalar values. *)
Inductive is_text : bytes -> Prop :=
| text_nil : is_text []
| text_cons n a l : scalar n -> utf8_char n a -> is_text l -> is_text (a ++ l).

(** [settles f v]: the call [f], given enough steps, returns [v]. *)
Definition settles {A} (f : nat -> A) (v : A) : Prop := exists enough, forall fuel, (enough <= fuel)%nat -> f fuel = v.

(** [lines_of p ls]: the lines of [p], each with the LF that ends it; the last may have none. *)
Inductive lines_of : bytes -> list bytes -> Prop :=
| lines_none : lines_of [] []
| lines_open l : l <> [] -> ~ In LF l -> lines_of l [l]
| lines_more l p ls : ~ In LF l -> lines_of p ls -> lines_of (l ++ LF :: p) ((l ++ [LF]) :: ls).
