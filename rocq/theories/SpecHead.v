(** Specification: reading a message head off the wire, line by line, independently of the
    model's encoders and of httparse. *)
From Verif Require Import Bytes SpecText.

(** The bytes up to the first CRLF, and what follows it. *)
Fixpoint cut_line (l : bytes) : option (bytes * bytes) :=
  match l with
  | c :: ((d :: r') as r) =>
      if Ascii.eqb c CR && Ascii.eqb d LF then Some ([], r')
      else match cut_line r with Some (x, y) => Some (c :: x, y) | None => None end
  | _ => None
  end.

(** "name: value", the name being everything before the first colon. *)
Fixpoint read_field (l : bytes) : option (bytes * bytes) :=
  match l with
  | [] => None
  | c :: r =>
      if Ascii.eqb c COLON
      then match r with d :: v => if Ascii.eqb d SP then Some ([], v) else None | [] => None end
      else match read_field r with Some (n, v) => Some (c :: n, v) | None => None end
  end.

(** Field lines up to the first empty line. *)
Fixpoint read_fields (fuel : nat) (l : bytes) : option (list (bytes * bytes) * bytes) :=
  match fuel with
  | O => None
  | S f =>
      match cut_line l with
      | None => None
      | Some ([], rest) => Some ([], rest)
      | Some (ln, rest) =>
          match read_field ln, read_fields f rest with
          | Some nv, Some (fs, r) => Some (nv :: fs, r)
          | _, _ => None
          end
      end
  end.

(** First line, fields, and the bytes following the head. *)
Definition read_head (l : bytes) : option (bytes * list (bytes * bytes) * bytes) :=
  match cut_line l with
  | None => None
  | Some (sl, r) =>
      match read_fields (S (length l)) r with
      | Some (fs, rest) => Some (sl, fs, rest)
      | None => None
      end
  end.

(** The values of the fields with a given name (names compare case-insensitively). *)
Definition values (n : bytes) (fs : list (bytes * bytes)) : list bytes :=
  map snd (filter (fun nv => same_text (fst nv) n) fs).

(** A decimal numeral and its value. *)
Definition decdig (c : byte) (v : nat) : Prop := nth_error (B "0123456789") v = Some c.
Inductive decimal : bytes -> N -> Prop :=
| dec_one c v : decdig c v -> decimal [c] (N.of_nat v)
| dec_snoc l n c v : decimal l n -> decdig c v -> decimal (l ++ [c]) (n * 10 + N.of_nat v).
(** ... without superfluous leading zeros: each number has exactly one. *)
Definition numeral (d : bytes) (n : N) : Prop := decimal d n /\ forall r, d = "0"%char :: r -> r = [].
