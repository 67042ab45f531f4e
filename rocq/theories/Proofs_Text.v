(** The specifications' own classes of characters are those of the model. *)
From Verif Require Import Http SpecText.

(** Replace the specification's words by the model's, which compute to the same. *)
Ltac plain :=
  change same_text with eq_ic in *; change lowered with lower in *; change uncapital with lowerc in *;
  change tchar with is_tchar in *; change value_byte with is_value_byte in *; change text_byte with is_str_byte in *;
  change path_char with is_path_char in *; change query_char with is_query_char in *; change within with in_range in *.
