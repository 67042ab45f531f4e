(** Specification: when a request head is complete, its grammar, and what a server has to make
    of it; independent of the model of httparse and of src/server/decode.rs. *)
From Verif Require Import Http SpecText SpecChunked SpecHead.

(** ** What a connection offers before anything stops the server from reading
    The bytes before the first obstacle: an i/o error, the end of the script, or, when a
    timeout is configured, a poll at which the reader is not ready and the timer has fired. *)
Inductive obstacle := ObEnd | ObFail | ObTimer.
Fixpoint avail (tmo : bool) (l : list ev) : bytes * obstacle :=
  match l with
  | [] => ([], ObEnd)
  | Data d :: r => let (x, k) := avail tmo r in (d ++ x, k)
  | Pend f :: r => if tmo && f then ([], ObTimer) else avail tmo r
  | Fail :: _ => ([], ObFail)
  end.

(** The head block: the shortest prefix of the input that ends with an empty line. *)
Definition head_end (w : bytes) : Prop := exists p, w = p ++ CRLF ++ CRLF.
Definition head_block (w : bytes) : Prop :=
  head_end w /\ forall p q, w = p ++ q -> q <> [] -> ~ head_end p.
Definition no_head (l : bytes) : Prop := forall p q, l = p ++ q -> ~ head_end p.

(** ** Request heads as servers accept them: line ends may be CRLF or LF, empty lines may
    precede the request line, and values may be followed by whitespace ([trim] tells whether
    it belongs to the value; see [e_trim]). *)
Definition line_end (l : bytes) : Prop := l = CRLF \/ l = [LF].
Definition token (l : bytes) : Prop := l <> [] /\ Forall (fun c => tchar c = true) l.
Definition target_char (c : byte) : Prop :=
  (33 <= bv c <= 126 /\ bv c <> 60 /\ bv c <> 62)%N.
Definition value_char (c : byte) : Prop := (32 <= bv c /\ bv c <> 127)%N \/ c = HT.

Definition lfield (trim : bool) (n v l : bytes) : Prop :=
  exists ws raw ws2 nl, l = n ++ [COLON] ++ ws ++ raw ++ nl /\ token n /\ Forall ows ws /\
    Forall value_char raw /\ (forall c r, raw = c :: r -> ~ ows c) /\ line_end nl /\
    raw = v ++ ws2 /\ Forall ows ws2 /\
    (if trim then forall c r, v = r ++ [c] -> ~ ows c else ws2 = []).

Inductive lfields (trim : bool) : list (bytes * bytes) -> bytes -> Prop :=
| lf_nil : lfields trim [] []
| lf_cons n v l hs w : lfield trim n v l -> lfields trim hs w -> lfields trim ((n, v) :: hs) (l ++ w).

Inductive blank_lines : bytes -> Prop :=
| bl_nil : blank_lines []
| bl_cons nl l : line_end nl -> blank_lines l -> blank_lines (nl ++ l).

Record rline := mkRline { l_method : bytes; l_target : bytes; l_minor : N }.
Definition version_minor (n : N) (l : bytes) : Prop :=
  (n = 1%N /\ l = B "HTTP/1.1") \/ (n = 0%N /\ l = B "HTTP/1.0").

(** [lhead trim rl hs w]: [w] is a head with that request line and those fields. *)
Definition lhead (trim : bool) (rl : rline) (hs : list (bytes * bytes)) (w : bytes) : Prop :=
  exists bl ver nl fw nl2, w = bl ++ l_method rl ++ [SP] ++ l_target rl ++ [SP] ++ ver ++ nl ++ fw ++ nl2 /\
    blank_lines bl /\ token (l_method rl) /\ Forall target_char (l_target rl) /\
    version_minor (l_minor rl) ver /\ line_end nl /\ lfields trim hs fw /\ line_end nl2.

(** Strict heads: CRLF everywhere, no empty line in front, no trailing whitespace. *)
Definition request_head (m target : bytes) (minor : N) (hs : list (bytes * bytes)) (w : bytes) : Prop :=
  exists ver fw, w = m ++ [SP] ++ target ++ [SP] ++ ver ++ CRLF ++ fw ++ CRLF /\
    token m /\ Forall target_char target /\ version_minor minor ver /\ fields hs fw.

(** ** Heads broken in a field line
    A line that does not begin with a name directly followed by a colon (a blank before the colon, a
    continuation of the line before, any other byte that is not for names), or a value with a byte
    that is not for values: a control character, a CR that no LF follows. *)
Inductive broken_line : bytes -> Prop :=
| bk_name n c r : Forall (fun c => tchar c = true) n -> tchar c = false -> c <> COLON \/ n = [] -> (n = [] -> c <> CR /\ c <> LF) ->
    broken_line (n ++ c :: r)
| bk_value n v c r : token n -> Forall value_char v -> ~ value_char c -> c <> LF -> (c = CR -> exists d r', r = d :: r' /\ d <> LF) ->
    broken_line (n ++ [COLON] ++ v ++ c :: r).
(** It comes after a request line and any number of fields; anything may follow. *)
Definition broken_head (trim : bool) (w : bytes) : Prop :=
  exists bl m t minor ver nl hs fw u, w = bl ++ m ++ [SP] ++ t ++ [SP] ++ ver ++ nl ++ fw ++ u /\
    blank_lines bl /\ token m /\ Forall target_char t /\ version_minor minor ver /\ line_end nl /\ lfields trim hs fw /\ broken_line u.

(** ** Header semantics *)
(** A content-length: decimal digits, optionally signed, below 2^64. *)
Definition cl_value (v : bytes) (n : N) : Prop :=
  (exists d, (v = d \/ v = ascii_of_N 43 :: d) /\ decimal d n) /\ (n < two64)%N.
Definition te_chunked (v : bytes) : Prop := lowered v = B "chunked".
Definition te_identity (v : bytes) : Prop := lowered v = B "identity".
Definition name_is (n x : bytes) : Prop := lowered n = x.

(** Faults of a single header field. *)
Inductive fault := BadLength | BadEncoding | LongName.
Inductive faulty : bytes * bytes -> fault -> Prop :=
| faulty_cl n v : name_is n (B "content-length") -> (forall k, ~ cl_value v k) -> faulty (n, v) BadLength
| faulty_te n v : name_is n (B "transfer-encoding") -> ~ te_chunked v -> ~ te_identity v -> faulty (n, v) BadEncoding
| faulty_long n v : ~ name_is n (B "content-length") -> ~ name_is n (B "transfer-encoding") ->
    (65535 < N.of_nat (length n))%N -> faulty (n, v) LongName.

(** The first faulty field of a head. *)
Definition first_fault (hs : list (bytes * bytes)) (f : fault) : Prop :=
  exists a nv b, hs = a ++ nv :: b /\ (forall x g, In x a -> ~ faulty x g) /\ faulty nv f.
Definition faultless (hs : list (bytes * bytes)) : Prop := forall x g, In x hs -> ~ faulty x g.

(** Last element, if any. *)
Fixpoint last_opt {A} (l : list A) : option A :=
  match l with [] => None | [x] => Some x | _ :: r => last_opt r end.

(** The declared body length of a head without faults: [None] means chunked. The last
    transfer-encoding decides, then the last content-length. *)
Definition last_te_chunked (hs : list (bytes * bytes)) : Prop :=
  exists v, last_opt (values (B "transfer-encoding") hs) = Some v /\ te_chunked v.
Inductive framing (hs : list (bytes * bytes)) : option N -> Prop :=
| fr_chunked : last_te_chunked hs -> framing hs None
| fr_length v n : ~ last_te_chunked hs -> last_opt (values (B "content-length") hs) = Some v -> cl_value v n ->
    framing hs (Some n)
| fr_none : ~ last_te_chunked hs -> values (B "content-length") hs = [] -> framing hs (Some 0%N).

(** Whether the client waits for a 100 Continue. *)
Definition wants_continue (hs : list (bytes * bytes)) : Prop :=
  exists r, values (B "expect") hs = B "100-continue" :: r.

(** [grammatical trim rl hs w]: the beginning of the head block [w] is a head with that request
    line and those fields, at most 16. (With CRLF line ends throughout it is all of [w]; an LF
    alone also ends a line, so a head may end before the block does.) *)
Definition grammatical (trim : bool) (rl : rline) (hs : list (bytes * bytes)) (w : bytes) : Prop :=
  exists x y, w = x ++ y /\ lhead trim rl hs x /\ (length hs <= 16)%nat.

(** ** The verdict on a head block: a refusal with a status code, or a request.
    [judge trim uri_of w c v]: the verdict is [v], and [c] tells whether a 100 Continue comes
    first. [uri_of] reads request targets. *)
Inductive verdict := Refuse (code : N) | Accept (m : bytes) (u : uri) (hs : list (bytes * bytes)) (len : option N).
Definition continues (hs : list (bytes * bytes)) (c : bool) : Prop := if c then wants_continue hs else ~ wants_continue hs.
Inductive judge (trim : bool) (uri_of : bytes -> option uri) (w : bytes) : bool -> verdict -> Prop :=
| j_syntax : (forall rl hs, ~ grammatical trim rl hs w) -> judge trim uri_of w false (Refuse 400)
| j_version rl hs : grammatical trim rl hs w -> l_minor rl = 0%N -> judge trim uri_of w false (Refuse 505)
| j_encoding rl hs : grammatical trim rl hs w -> l_minor rl = 1%N -> first_fault hs BadEncoding ->
    judge trim uri_of w false (Refuse 501)
| j_field rl hs f : grammatical trim rl hs w -> l_minor rl = 1%N -> first_fault hs f -> f <> BadEncoding ->
    judge trim uri_of w false (Refuse 400)
| j_host rl hs c : grammatical trim rl hs w -> l_minor rl = 1%N -> faultless hs -> continues hs c ->
    values (B "host") hs = [] -> judge trim uri_of w c (Refuse 400)
| j_target rl hs c : grammatical trim rl hs w -> l_minor rl = 1%N -> faultless hs -> continues hs c ->
    values (B "host") hs <> [] -> uri_of (l_target rl) = None -> judge trim uri_of w c (Refuse 400)
| j_accept rl hs c u len : grammatical trim rl hs w -> l_minor rl = 1%N -> faultless hs -> continues hs c ->
    values (B "host") hs <> [] -> uri_of (l_target rl) = Some u -> framing hs len ->
    judge trim uri_of w c (Accept (l_method rl) u hs len).

(** ** Targets in origin form: a path, perhaps a query, perhaps a fragment, which is dropped. *)
Definition origin_form (t path : bytes) (query : option bytes) : Prop :=
  exists f, t = path ++ match query with Some x => B "?" ++ x | None => [] end ++ f /\
    (exists r, path = "/"%char :: r) /\ Forall (fun c => path_char c = true) path /\
    (forall x, query = Some x -> Forall (fun c => query_char c = true) x) /\
    (f = [] \/ exists g, f = B "#" ++ g).
Definition readable_target (t path : bytes) (query : option bytes) : Prop :=
  (N.of_nat (length t) <= 65534)%N /\ origin_form t path query.
