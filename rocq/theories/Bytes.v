(** Bytes, ASCII classes, decimal / hexadecimal formatting and parsing.

    Models the pieces of Rust's [std] (not of tophat) that the source uses:
    [format!("{}", n)], [format!("{:X}", n)], [str::parse::<usize>],
    [to_ascii_lowercase], [eq_ignore_ascii_case].  A Rust [u8] is an [ascii],
    a [&[u8]] / [Vec<u8>] / [String] is a [list ascii]. *)
From Coq Require Export String Ascii.
From Coq Require Export NArith ZArith Arith Bool Lia List.
Export ListNotations.

(** [u8] and [Vec<u8>] / [&[u8]]: all data of src/ is in bytes, e.g. the head buffer of
    src/server/decode.rs:40. *)
Definition byte := ascii.
(** [u8] and [Vec<u8>] / [&[u8]]: all data of src/ is in bytes, e.g. the head buffer of
    src/server/decode.rs:40. *)
Definition bytes := list ascii.

(** Byte-string literals, e.g. [B "GET"]. Literals as b"chunked", src/server/decode.rs:25. *)
Definition B (s : string) : bytes := list_ascii_of_string s.
Arguments B s%string.

(** The value of a [u8], e.g. compared in src/server/decode.rs:23, 58. *)
Definition bv (c : byte) : N := N_of_ascii c.

(** src/client/decode.rs:15. *)
Definition CR : byte := ascii_of_N 13.
(** src/server/decode.rs:23, src/client/decode.rs:16. *)
Definition LF : byte := ascii_of_N 10.
(** The space of format strings, e.g. src/server/encode.rs:77. *)
Definition SP : byte := ascii_of_N 32.
(** The tab as white space in a head, parsed for src/server/decode.rs:64. *)
Definition HT : byte := ascii_of_N 9.
(** The colon of format strings, e.g. src/server/encode.rs:95. *)
Definition COLON : byte := ascii_of_N 58.
(** src/server/encode.rs:77, 97, 99 and src/chunked/encoder.rs:122-250. *)
Definition CRLF : bytes := [CR; LF].
(** The end of a head, src/server/decode.rs:58, src/client/decode.rs:51. *)
Definition CRLF2 : bytes := [CR; LF; CR; LF].

(** Equality of byte strings. [==] on byte strings, as in src/server/decode.rs:58, 102, 174. *)
Fixpoint beq (a b : bytes) : bool :=
  match a, b with
  | [], [] => true
  | x :: a', y :: b' => Ascii.eqb x y && beq a' b'
  | _, _ => false
  end.

Lemma beq_eq a b : beq a b = true <-> a = b.
Proof.
  revert b; induction a as [|x a IH]; destruct b as [|y b]; cbn; try easy.
  rewrite andb_true_iff, Ascii.eqb_eq, IH. split; [intros [-> ->]; easy | now intros [= -> ->]].
Qed.

Lemma beq_refl a : beq a a = true.
Proof. now apply beq_eq. Qed.

Lemma beq_neq a b : beq a b = false <-> a <> b.
Proof.
  rewrite <- (beq_eq a b). destruct (beq a b); split; intros; congruence.
Qed.

Lemma beq_spec a b : reflect (a = b) (beq a b).
Proof.
  destruct (beq a b) eqn:E; constructor; [now apply beq_eq | now apply beq_neq].
Qed.

Lemma beq_sym a b : beq a b = beq b a.
Proof. destruct (beq_spec a b), (beq_spec b a); congruence. Qed.

(** ** ASCII classes. Ranges of characters; used below for the tables of the http and httparse
    crates that src/server/decode.rs:64, 70, 115-118 rely on. *)
Definition in_range (lo hi : N) (c : byte) : bool := (lo <=? bv c)%N && (bv c <=? hi)%N.

(** As above, for the crates behind src/server/decode.rs:64, 70, 115-118. *)
Definition is_digit (c : byte) : bool := in_range 48 57 c.
(** As above, for the crates behind src/server/decode.rs:64, 70, 115-118. *)
Definition is_upper (c : byte) : bool := in_range 65 90 c.
(** As above, for the crates behind src/server/decode.rs:64, 70, 115-118. *)
Definition is_lower (c : byte) : bool := in_range 97 122 c.
(** As above, for the crates behind src/server/decode.rs:64, 70, 115-118. *)
Definition is_alpha (c : byte) : bool := is_upper c || is_lower c.

(** RFC 7230 [tchar]; the token table of httparse ([TOKEN_MAP], [HEADER_NAME_MAP]) and the
    method / header-name tables of the http crate. Used at src/server/decode.rs:64, 70, 116. *)
Definition is_tchar (c : byte) : bool :=
  is_digit c || is_alpha c || existsb (Ascii.eqb c) (B "!#$%&'*+-.^_`|~").

(** [u8::to_ascii_lowercase]. Used at src/server/decode.rs:102, 110 and by [HeaderName] at 116. *)
Definition lowerc (c : byte) : byte :=
  if is_upper c then ascii_of_N (bv c + 32) else c.
(** [to_ascii_lowercase] of src/server/decode.rs:102. *)
Definition lower (l : bytes) : bytes := map lowerc l.

(** [str::eq_ignore_ascii_case]. Used at src/server/decode.rs:92-111. *)
Definition eq_ic (a b : bytes) : bool := beq (lower a) (lower b).

(** White space around header values, in httparse as called at src/server/decode.rs:64. *)
Definition is_ws (c : byte) : bool := Ascii.eqb c SP || Ascii.eqb c HT.

(** ** Numbers. [usize] and [u64] have 64 bits: src/server/encode.rs:159,
    src/server/decode.rs:96. *)
Definition two64 : N := 18446744073709551616%N.

(** A digit as written by the [format_args!] of src/server/encode.rs:82 and
    src/chunked/encoder.rs:157. *)
Definition digitc (d : N) : byte :=
  ascii_of_N (if (d <? 10)%N then 48 + d else 55 + d).

(** Numbers as written by the [format_args!] of src/server/encode.rs:82 and
    src/chunked/encoder.rs:157. *)
Fixpoint to_base (fuel : nat) (b n : N) (acc : bytes) : bytes :=
  match fuel with
  | O => acc
  | S f =>
      let acc' := digitc (n mod b) :: acc in
      if (n / b =? 0)%N then acc' else to_base f b (n / b) acc'
  end.

(** [format!("{}", n)] and [format!("{:X}", n)]. src/server/encode.rs:82,
    src/client/encode.rs:87. *)
Definition to_dec (n : N) : bytes := to_base (S (N.size_nat n)) 10 n [].
(** The chunk size of src/chunked/encoder.rs:157. *)
Definition to_hex (n : N) : bytes := to_base (S (N.size_nat n)) 16 n [].

(** A digit as read by [parse::<usize>], src/server/decode.rs:96. *)
Definition dec_val (c : byte) : option N :=
  if is_digit c then Some (bv c - 48)%N else None.

(** hexadecimal digit, any case (as httparse accepts it) For [httparse::parse_chunk_size], called
    in src/chunked/decoder.rs:435. *)
Definition hex_val (c : byte) : option N :=
  if is_digit c then Some (bv c - 48)%N
  else if in_range 97 102 c then Some (bv c + 10 - 97)%N
  else if in_range 65 70 c then Some (bv c + 10 - 65)%N
  else None.

(** The digits of [parse::<usize>], src/server/decode.rs:96. *)
Fixpoint parse_digits (l : bytes) (acc : N) : option N :=
  match l with
  | [] => Some acc
  | c :: r =>
      match dec_val c with
      | None => None
      | Some d =>
          let a := (acc * 10 + d)%N in
          if (two64 <=? a)%N then None else parse_digits r a
      end
  end.

(** [str::parse::<usize>] on a 64-bit target: an optional ['+'], at least one digit,
    only digits, no overflow. Called at src/server/decode.rs:96 and src/client/decode.rs:116. *)
Definition parse_usize (l : bytes) : option N :=
  match l with
  | [] => None
  | c :: r =>
      if Ascii.eqb c (ascii_of_N 43)
      then match r with [] => None | _ => parse_digits r 0 end
      else parse_digits l 0
  end.

(** Do the bytes end with the given suffix? ([buf[idx-3..=idx] == ..]) src/server/decode.rs:58
    and src/client/decode.rs:51, 54. *)
Definition ends_with (suf l : bytes) : bool :=
  (List.length suf <=? List.length l)%nat && beq (skipn (List.length l - List.length suf) l) suf.

(** Split after the first occurrence of a byte ([memchr]). For [read_until],
    src/server/decode.rs:47 and src/client/decode.rs:34. *)
Fixpoint split_after (c : byte) (l : bytes) : option (bytes * bytes) :=
  match l with
  | [] => None
  | x :: r =>
      if Ascii.eqb x c then Some ([x], r)
      else match split_after c r with
           | Some (p, q) => Some (x :: p, q)
           | None => None
           end
  end.

(** [slice::split(',')] / [str::split(',')]: always at least one piece. src/server/cors.rs:343. *)
Fixpoint split_on (c : byte) (l : bytes) : list bytes :=
  match l with
  | [] => [[]]
  | x :: r =>
      if Ascii.eqb x c then [] :: split_on c r
      else match split_on c r with
           | p :: ps => (x :: p) :: ps
           | [] => [[x]]
           end
  end.

(** Trim ASCII whitespace on both sides ([str::trim], restricted to ASCII).
    src/server/decode.rs:109. *)
Definition is_trim_ws (c : byte) : bool := in_range 9 13 c || Ascii.eqb c SP.
(** The left half of [trim], src/server/decode.rs:109. *)
Fixpoint ltrim (l : bytes) : bytes :=
  match l with [] => [] | c :: r => if is_trim_ws c then ltrim r else l end.
(** [trim], src/server/decode.rs:109. *)
Definition trim (l : bytes) : bytes := rev (ltrim (rev (ltrim l))).
