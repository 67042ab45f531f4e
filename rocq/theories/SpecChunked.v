(** Specification: the chunked message grammar (RFC 7230, 4.1), independent of the model's
    encoder, decoder and number formatting. *)
From Verif Require Import Bytes SpecText.

(** A hexadecimal digit and its value. *)
Definition hexdig (c : byte) (v : nat) : Prop :=
  nth_error (B "0123456789ABCDEF") v = Some c \/ nth_error (B "0123456789abcdef") v = Some c.

(** A non-empty hexadecimal numeral and its value. *)
Inductive hexnum : bytes -> N -> Prop :=
| hex_one c v : hexdig c v -> hexnum [c] (N.of_nat v)
| hex_snoc l n c v : hexnum l n -> hexdig c v -> hexnum (l ++ [c]) (n * 16 + N.of_nat v).

(** Optional whitespace and chunk extension between the size and its CRLF. *)
Definition chunk_ext (x : bytes) : Prop :=
  exists ws e, x = ws ++ e /\ Forall (fun c => c = SP \/ c = HT) ws /\
               (e = [] \/ exists t, e = ascii_of_N 59 :: t /\ ~ In CR t).

(** A chunk-size line for size [n]: at most 16 digits (64 bits), optional extension. *)
Definition size_line (n : N) (l : bytes) : Prop :=
  exists digits ext, hexnum digits n /\ (length digits <= 16)%nat /\ chunk_ext ext /\
                     l = digits ++ ext ++ CRLF.

(** The same without extension. *)
Definition plain_size_line (n : N) (l : bytes) : Prop :=
  exists digits, hexnum digits n /\ (length digits <= 16)%nat /\ l = digits ++ CRLF.

(** [chunks SL payload wire]: [wire] is a sequence of non-empty chunks carrying [payload]. *)
Inductive chunks (SL : N -> bytes -> Prop) : bytes -> bytes -> Prop :=
| chunks_nil : chunks SL [] []
| chunks_cons d sl p w :
    d <> [] -> SL (N.of_nat (length d)) sl -> chunks SL p w ->
    chunks SL (d ++ p) (sl ++ d ++ CRLF ++ w).

(** The end of a chunked message without trailers: "0", CRLF, CRLF. *)
Definition last_chunk : bytes := B "0" ++ CRLF ++ CRLF.

(** A header or trailer field line: name, colon, optional whitespace, value. The value
    neither begins nor ends with whitespace. *)
Definition ows (c : byte) : Prop := c = SP \/ c = HT.
Definition field_value (v : bytes) : Prop :=
  Forall (fun c => (32 <= bv c /\ bv c <> 127)%N \/ c = HT) v /\
  (forall c r, v = c :: r -> ~ ows c) /\ (forall c r, v = r ++ [c] -> ~ ows c).
Definition field_name (n : bytes) : Prop :=
  n <> [] /\ Forall (fun c => tchar c = true) n /\ (N.of_nat (length n) <= 65535)%N.
Definition field_line (n v l : bytes) : Prop :=
  exists ws, field_name n /\ field_value v /\ Forall ows ws /\
             l = n ++ [COLON] ++ ws ++ v ++ CRLF.

Inductive fields : list (bytes * bytes) -> bytes -> Prop :=
| fields_nil : fields [] []
| fields_cons n v l hs w : field_line n v l -> fields hs w -> fields ((n, v) :: hs) (l ++ w).

(** A complete chunked message: chunks, zero-size line, at most 16 trailer fields, CRLF. *)
Definition chunked_message (payload : bytes) (trailers : list (bytes * bytes)) (wire : bytes) : Prop :=
  exists cw z tw, chunks size_line payload cw /\ size_line 0 z /\ fields trailers tw /\
                  (length trailers <= 16)%nat /\ wire = cw ++ z ++ tw ++ CRLF.

(** [carried data u]: [u] is the beginning of a chunked message, cut off anywhere before its end,
    and [data] is the chunk data in it. The cut is in a size line, in the data of a chunk, between
    that data and the end of its CRLF, or after the zero-size line. *)
Inductive carried : bytes -> bytes -> Prop :=
| carried_line n sl u x : size_line n sl -> sl = u ++ x -> x <> [] -> carried [] u
| carried_data n sl c : size_line n sl -> (N.of_nat (length c) < n)%N -> carried c (sl ++ c)
| carried_end c sl u x : c <> [] -> size_line (N.of_nat (length c)) sl -> CRLF = u ++ x -> x <> [] -> carried c (sl ++ c ++ u)
| carried_chunk c sl q u : c <> [] -> size_line (N.of_nat (length c)) sl -> carried q u -> carried (c ++ q) (sl ++ c ++ CRLF ++ u)
| carried_last z hs tw u x : size_line 0 z -> fields hs tw -> tw ++ CRLF = u ++ x -> x <> [] -> carried [] (z ++ u).

(** [chunks_load cap payload wire k]: [wire] is a sequence of chunks carrying [payload], and
    [k] is the number of its bytes not counting the data of chunks of [cap] bytes or more. *)
Inductive chunks_load (cap : nat) : bytes -> bytes -> nat -> Prop :=
| load_nil : chunks_load cap [] [] 0
| load_small d sl p w k :
    d <> [] -> size_line (N.of_nat (length d)) sl -> chunks_load cap p w k ->
    chunks_load cap (d ++ p) (sl ++ d ++ CRLF ++ w) (length sl + length d + 2 + k)
| load_big d sl p w k :
    d <> [] -> (cap <= length d)%nat -> size_line (N.of_nat (length d)) sl -> chunks_load cap p w k ->
    chunks_load cap (d ++ p) (sl ++ d ++ CRLF ++ w) (length sl + 2 + k).

(** [bad_size_line u]: [u] is the shortest part of the wire after which a chunk-size line is
    malformed: an illegal byte after the digits or after whitespace, a 17th digit, or a CR not
    followed by LF. (A line without any digit is not included.) *)
Definition is_hexdig (c : byte) : Prop := exists v, hexdig c v.
Definition line_byte (c : byte) : Prop := ows c \/ c = ascii_of_N 59 \/ c = CR.
Inductive bad_size_line : bytes -> Prop :=
| bad_char ds c : Forall is_hexdig ds -> (length ds <= 16)%nat -> ~ is_hexdig c -> ~ line_byte c ->
    bad_size_line (ds ++ [c])
| bad_long ds c : Forall is_hexdig ds -> length ds = 16%nat -> is_hexdig c -> bad_size_line (ds ++ [c])
| bad_space ds ws c : Forall is_hexdig ds -> (length ds <= 16)%nat -> ws <> [] -> Forall ows ws ->
    ~ line_byte c -> bad_size_line (ds ++ ws ++ [c])
| bad_cr ds x c : Forall is_hexdig ds -> (length ds <= 16)%nat -> chunk_ext x -> c <> LF ->
    bad_size_line (ds ++ x ++ [CR; c]).

(** [bad_trailers u]: [u] is the shortest part of the wire after which a trailer section is
    malformed: an illegal byte at the start of a line, in a field name or in a value. *)
Inductive bad_trailers : bytes -> Prop :=
| bad_name hs w n c : fields hs w -> (length hs <= 15)%nat -> Forall (fun c => tchar c = true) n ->
    tchar c = false -> c <> COLON \/ n = [] -> (n = [] -> c <> CR /\ c <> LF) ->
    bad_trailers (w ++ n ++ [c])
| bad_value hs w n ws v c : fields hs w -> (length hs <= 15)%nat -> field_name n -> Forall ows ws ->
    Forall (fun c => (32 <= bv c /\ bv c <> 127)%N \/ c = HT) v ->
    (bv c < 32 \/ bv c = 127)%N -> c <> HT -> c <> CR -> c <> LF ->
    bad_trailers (w ++ n ++ [COLON] ++ ws ++ v ++ [c]).

(** [malformed cap payload wire k]: [wire] carries [payload] and then a malformation that its
    last byte completes: a malformed chunk-size line, chunk data not followed by CRLF, or a
    malformed trailer section. [k] counts the bytes as in [chunks_load]. *)
Inductive malformed (cap : nat) : bytes -> bytes -> nat -> Prop :=
| mal_line p cw k u : chunks_load cap p cw k -> bad_size_line u -> malformed cap p (cw ++ u) (k + length u)
| mal_end p cw k c sl x : chunks_load cap p cw k -> c <> [] -> size_line (N.of_nat (length c)) sl ->
    length x = 2%nat -> x <> CRLF ->
    malformed cap (p ++ c) (cw ++ sl ++ c ++ x)
      (k + length sl + (if (cap <=? length c)%nat then 0 else length c) + 2)
| mal_trailers p cw k z u : chunks_load cap p cw k -> size_line 0 z -> bad_trailers u ->
    malformed cap p (cw ++ z ++ u) (k + length z + length u).

(** [unfinished_line u]: [u] is a chunk-size line with an extension that has not come to its end. *)
Definition unfinished_line (u : bytes) : Prop :=
  exists ds t, Forall is_hexdig ds /\ (length ds <= 16)%nat /\ ~ In CR t /\ u = ds ++ ascii_of_N 59 :: t.
