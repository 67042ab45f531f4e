(** Model of src/body.rs: constructors of a [Body] (the record [body] of ServerEnc.v keeps the
    declared length and the reader). *)
From Verif Require Export ServerEnc.

(** [util::Cursor] over a byte string (src/util.rs:6-55) as a reader: it is always ready. *)
Definition bytes_src (l : bytes) : src := mkSrc (match l with [] => [] | _ => [Data l] end) Eof.

(** [Body::empty], src/body.rs:25-34 ([util::Empty], src/util.rs:57-87). *)
Definition body_empty : body := mkBody (Some 0%N) (mkSrc [] Eof).

(** [Body::from_reader], src/body.rs:40-52. *)
Definition body_from_reader (s : src) (len : option N) : body := mkBody len s.

(** [Body::from_bytes], src/body.rs:55-64. *)
Definition body_from_bytes (l : bytes) : body := mkBody (Some (N.of_nat (length l))) (bytes_src l).

(** [From<String>] and [From<&str>], src/body.rs:133-157; a string is its UTF-8 bytes. *)
Definition body_from_string (s : bytes) : body := mkBody (Some (N.of_nat (length s))) (bytes_src s).
(** [From<&str>], src/body.rs:146-157. *)
Definition body_from_str (s : bytes) : body := mkBody (Some (N.of_nat (length s))) (bytes_src s).
