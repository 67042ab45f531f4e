(** The parts of the [http] crate (0.2) the source relies on. *)
From Verif Require Export Io.

(** ** Header names and values *)

(** [HeaderName::from_bytes]: non-empty token, at most 65535 bytes, stored lower-case. Called at
    src/server/decode.rs:116. *)
Definition max_name_len : N := 65535%N.
(** [HeaderName::from_bytes] / [try_into], src/server/decode.rs:116, src/client/decode.rs:78,
    src/server/response_writer.rs:174-195. *)
Definition header_name (l : bytes) : option bytes :=
  match l with
  | [] => None
  | _ =>
      if forallb is_tchar l && (N.of_nat (length l) <=? max_name_len)%N
      then Some (lower l) else None
  end.

(** [HeaderValue::from_bytes]: visible characters, space, tab and bytes above 127. Called at
    src/server/decode.rs:117, src/client/decode.rs:77. *)
Definition is_value_byte (c : byte) : bool :=
  ((32 <=? bv c)%N && negb (bv c =? 127)%N) || (bv c =? 9)%N.
(** [HeaderValue::from_bytes], src/server/decode.rs:117, src/client/decode.rs:77. *)
Definition header_value (l : bytes) : option bytes :=
  if forallb is_value_byte l then Some l else None.

(** [HeaderValue::to_str] succeeds on visible ASCII, space and tab only. Called at
    src/server/cors.rs:339, src/server/identity.rs:240, src/client/decode.rs:114. *)
Definition is_str_byte (c : byte) : bool := in_range 32 126 c || (bv c =? 9)%N.
(** [HeaderValue::to_str], src/server/cors.rs:339, src/server/identity.rs:240,
    src/client/decode.rs:114. *)
Definition value_to_str (l : bytes) : option bytes :=
  if forallb is_str_byte l then Some l else None.

(** ** [HeaderMap]
    Names are kept (lower-case) in the order of their first insertion, each with its values
    in insertion order. [hm_iter] is [HeaderMap::iter]. Used at src/server/decode.rs:115,
    src/server/encode.rs:68-73, src/client/decode.rs:75. *)
Definition hmap := list (bytes * list bytes).

(** [HeaderMap::get_all], src/server/identity.rs:239. *)
Fixpoint hm_get_all (n : bytes) (m : hmap) : list bytes :=
  match m with
  | [] => []
  | (k, vs) :: r => if beq k n then vs else hm_get_all n r
  end.

(** [HeaderMap::get]: the first value. src/server/decode.rs:171, src/server/cors.rs:308, 321,
    334, src/client/decode.rs:82-112. *)
Definition hm_get (n : bytes) (m : hmap) : option bytes :=
  match hm_get_all n m with v :: _ => Some v | [] => None end.

(** [contains_key], src/server/encode.rs:56, 64. *)
Fixpoint hm_contains (n : bytes) (m : hmap) : bool :=
  match m with
  | [] => false
  | (k, _) :: r => beq k n || hm_contains n r
  end.

(** [HeaderMap::append]. src/server/decode.rs:115, src/client/decode.rs:79,
    src/server/response_writer.rs:181. *)
Fixpoint hm_append (n v : bytes) (m : hmap) : hmap :=
  match m with
  | [] => [(n, [v])]
  | (k, vs) :: r => if beq k n then (k, vs ++ [v]) :: r else (k, vs) :: hm_append n v r
  end.

(** [HeaderMap::insert]. src/server/encode.rs:65, src/server/glitch.rs:155,
    src/server/cors.rs:362, 418, 424. *)
Fixpoint hm_insert (n v : bytes) (m : hmap) : hmap :=
  match m with
  | [] => [(n, [v])]
  | (k, vs) :: r => if beq k n then (k, [v]) :: r else (k, vs) :: hm_insert n v r
  end.

(** [HeaderMap::iter], src/server/encode.rs:68-73, src/client/encode.rs:99. *)
Definition hm_iter (m : hmap) : list (bytes * bytes) :=
  flat_map (fun kv => map (fun v => (fst kv, v)) (snd kv)) m.

(** Well-formed maps: distinct valid lower-case names, each with at least one value, all
    values valid. Every [HeaderMap] of the crate is so (this is the crate's type invariant,
    restricted to maps without removals). For specifications; the invariant of the http crate's
    types used in src/. *)
Definition name_ok (n : bytes) : bool := match header_name n with Some n' => beq n n' | None => false end.
(** As [name_ok], for the http crate's [HeaderMap] used in src/. *)
Definition hm_wf (m : hmap) : Prop :=
  NoDup (map fst m) /\
  Forall (fun kv => name_ok (fst kv) = true /\ snd kv <> [] /\
                    Forall (fun v => forallb is_value_byte v = true) (snd kv)) m.

(** Names used by the source. src/server/decode.rs:92, src/server/encode.rs:72. *)
Definition h_content_length := B "content-length".
(** src/server/decode.rs:99, src/server/encode.rs:73. *)
Definition h_transfer_encoding := B "transfer-encoding".
(** src/server/encode.rs:64. *)
Definition h_content_type := B "content-type".
(** src/server/encode.rs:56, src/client/decode.rs:82. *)
Definition h_date := B "date".
(** src/server/decode.rs:111, src/client/encode.rs:58. *)
Definition h_host := B "host".
(** src/server/decode.rs:171. *)
Definition h_expect := B "expect".
(** src/server/cors.rs:308. *)
Definition h_origin := B "origin".
(** src/server/identity.rs:239. *)
Definition h_cookie := B "cookie".
(** src/server/identity.rs:99, 118. *)
Definition h_set_cookie := B "set-cookie".
(** src/server/cors.rs:321. *)
Definition h_ac_request_method := B "access-control-request-method".
(** src/server/cors.rs:334. *)
Definition h_ac_request_headers := B "access-control-request-headers".
(** src/server/cors.rs:362. *)
Definition h_ac_allow_origin := B "access-control-allow-origin".
(** The name behind [typed_insert], src/server/cors.rs:415. *)
Definition h_ac_allow_methods := B "access-control-allow-methods".
(** The name behind [typed_insert], src/server/cors.rs:414. *)
Definition h_ac_allow_headers := B "access-control-allow-headers".
(** The name behind [typed_insert], src/server/cors.rs:430. *)
Definition h_ac_expose_headers := B "access-control-expose-headers".
(** src/server/cors.rs:425. *)
Definition h_ac_allow_credentials := B "access-control-allow-credentials".
(** src/server/cors.rs:418. *)
Definition h_ac_max_age := B "access-control-max-age".

(** ** Methods *)
(** [Method::from_bytes]: non-empty token, case preserved. Called at src/server/decode.rs:70,
    src/server/cors.rs:83, 392. *)
Definition method_of (l : bytes) : option bytes :=
  match l with [] => None | _ => if forallb is_tchar l then Some l else None end.

(** ** Versions; [{:?}]. [http::Version], src/server/encode.rs:54, 77. *)
Inductive version := HTTP_09 | HTTP_10 | HTTP_11 | HTTP_2 | HTTP_3.
(** [{:?}] of a version, src/server/encode.rs:77. *)
Definition version_text (v : version) : bytes :=
  match v with
  | HTTP_09 => B "HTTP/0.9" | HTTP_10 => B "HTTP/1.0" | HTTP_11 => B "HTTP/1.1"
  | HTTP_2 => B "HTTP/2.0" | HTTP_3 => B "HTTP/3.0"
  end.

(** ** Status codes *)
(** [StatusCode::from_u16] (0.2: 100..=999; 0.2.0: 100..=599, see DESIGN). Called at
    src/server/response_writer.rs:160-165, src/server/glitch.rs:325, 332,
    src/client/decode.rs:121. *)
Definition status_ok (n : N) : bool := ((100 <=? n) && (n <? 1000))%N.

(** [StatusCode::canonical_reason]. Written by the [{}] of src/server/encode.rs:77. *)
Definition canonical_reason (n : N) : option bytes :=
  match n with
  | 100 => Some (B "Continue") | 101 => Some (B "Switching Protocols")
  | 102 => Some (B "Processing") | 200 => Some (B "OK") | 201 => Some (B "Created")
  | 202 => Some (B "Accepted") | 203 => Some (B "Non Authoritative Information")
  | 204 => Some (B "No Content") | 205 => Some (B "Reset Content")
  | 206 => Some (B "Partial Content") | 207 => Some (B "Multi-Status")
  | 208 => Some (B "Already Reported") | 226 => Some (B "IM Used")
  | 300 => Some (B "Multiple Choices") | 301 => Some (B "Moved Permanently")
  | 302 => Some (B "Found") | 303 => Some (B "See Other") | 304 => Some (B "Not Modified")
  | 305 => Some (B "Use Proxy") | 307 => Some (B "Temporary Redirect")
  | 308 => Some (B "Permanent Redirect") | 400 => Some (B "Bad Request")
  | 401 => Some (B "Unauthorized") | 402 => Some (B "Payment Required")
  | 403 => Some (B "Forbidden") | 404 => Some (B "Not Found")
  | 405 => Some (B "Method Not Allowed") | 406 => Some (B "Not Acceptable")
  | 407 => Some (B "Proxy Authentication Required") | 408 => Some (B "Request Timeout")
  | 409 => Some (B "Conflict") | 410 => Some (B "Gone") | 411 => Some (B "Length Required")
  | 412 => Some (B "Precondition Failed") | 413 => Some (B "Payload Too Large")
  | 414 => Some (B "URI Too Long") | 415 => Some (B "Unsupported Media Type")
  | 416 => Some (B "Range Not Satisfiable") | 417 => Some (B "Expectation Failed")
  | 418 => Some (B "I'm a teapot") | 421 => Some (B "Misdirected Request")
  | 422 => Some (B "Unprocessable Entity") | 423 => Some (B "Locked")
  | 424 => Some (B "Failed Dependency") | 426 => Some (B "Upgrade Required")
  | 428 => Some (B "Precondition Required") | 429 => Some (B "Too Many Requests")
  | 431 => Some (B "Request Header Fields Too Large")
  | 451 => Some (B "Unavailable For Legal Reasons")
  | 500 => Some (B "Internal Server Error") | 501 => Some (B "Not Implemented")
  | 502 => Some (B "Bad Gateway") | 503 => Some (B "Service Unavailable")
  | 504 => Some (B "Gateway Timeout") | 505 => Some (B "HTTP Version Not Supported")
  | 506 => Some (B "Variant Also Negotiates") | 507 => Some (B "Insufficient Storage")
  | 508 => Some (B "Loop Detected") | 510 => Some (B "Not Extended")
  | 511 => Some (B "Network Authentication Required")
  | _ => None
  end%N.

(** [{}] of a status: code, space, reason. src/server/encode.rs:77. *)
Definition status_text (n : N) : bytes :=
  to_dec n ++ [SP] ++
  match canonical_reason n with Some r => r | None => B "<unknown status code>" end.

(** ** Uris
    The authority is kept as host and port text; the fragment is dropped on parsing. [http::Uri],
    src/server/decode.rs:152, src/client/encode.rs:35-66. *)
Record uri := mkUri { u_host : option bytes; u_port : option bytes;
                      u_path : bytes; u_query : option bytes }.

(** For [Uri::try_from], called at src/server/decode.rs:152. *)
Definition is_path_char (c : byte) : bool :=
  let v := bv c in
  ((v =? 33) || ((36 <=? v) && (v <=? 59)) || (v =? 61) || ((64 <=? v) && (v <=? 95)) ||
   ((97 <=? v) && (v <=? 122)) || (v =? 124) || (v =? 126) ||
   (v =? 34) || (v =? 123) || (v =? 125))%N.
(** For [Uri::try_from], called at src/server/decode.rs:152. *)
Definition is_query_char (c : byte) : bool :=
  let v := bv c in
  ((v =? 33) || ((36 <=? v) && (v <=? 59)) || (v =? 61) || ((63 <=? v) && (v <=? 126)))%N.

(** For [Uri::try_from], src/server/decode.rs:152; [QM] also src/client/encode.rs:37. *)
Definition QM : byte := ascii_of_N 63.
(** For [Uri::try_from], src/server/decode.rs:152; [QM] also src/client/encode.rs:37. *)
Definition HASH : byte := ascii_of_N 35.

(** For [Uri::try_from], called at src/server/decode.rs:152. *)
Fixpoint parse_query (l : bytes) : option bytes :=
  match l with
  | [] => Some []
  | c :: r =>
      if Ascii.eqb c HASH then Some []
      else if is_query_char c
      then match parse_query r with Some q => Some (c :: q) | None => None end
      else None
  end.

(** [PathAndQuery::from_shared]. Called under src/server/decode.rs:152. *)
Fixpoint parse_pq (l : bytes) : option (bytes * option bytes) :=
  match l with
  | [] => Some ([], None)
  | c :: r =>
      if Ascii.eqb c QM
      then match parse_query r with Some q => Some ([], Some q) | None => None end
      else if Ascii.eqb c HASH then Some ([], None)
      else if is_path_char c
      then match parse_pq r with Some (p, q) => Some (c :: p, q) | None => None end
      else None
  end.

(** For [Uri::try_from], called at src/server/decode.rs:152. *)
Definition max_uri_len : N := 65534%N.

(** [Uri::try_from(&str)]: origin-form is modelled; any other form ([*], authority form,
    absolute form) is left to the oracle [other]. Called at src/server/decode.rs:152. *)
Definition parse_uri (other : bytes -> option uri) (l : bytes) : option uri :=
  match l with
  | [] => None
  | c :: _ =>
      if (max_uri_len <? N.of_nat (length l))%N then None
      else if Ascii.eqb c (ascii_of_N 47)
      then match parse_pq l with
           | Some (p, q) => Some (mkUri None None p q)
           | None => None
           end
      else other l
  end.

(** ** The environment: everything the source takes from the outside world.
    [e_date]: [httpdate::fmt_http_date(SystemTime::now())].
    [e_hexlen m]: [((m + 1) as f64).log(16.0).ceil() as usize], src/chunked/encoder.rs:153.
    [e_uri]: parsing of uris not in origin form.
    [e_trim]: whether httparse trims trailing whitespace of header values (its newer
    versions do).
    [e_ovf]: whether integer overflow panics (debug profile) or wraps (release profile).
    [e_bufcap]: capacity of futures-lite buffers (8192 in the crate).
    [e_deccap]: [INITIAL_CAPACITY] of the chunked decoder (4096, src/chunked/decoder.rs:18).
    [e_grow c]: capacity of a block of capacity [c] after [realloc(c + 1024)] (byte-pool:
    [Vec::resize]), src/chunked/decoder.rs:271.
    [e_stale i]: byte [i] of a block taken from the pool (recycled blocks are not cleared),
    src/chunked/decoder.rs:217. *)
Record env := mkEnv {
  e_date : bytes;
  e_hexlen : nat -> nat;
  e_uri : bytes -> option uri;
  e_trim : bool;
  e_ovf : bool;
  e_bufcap : nat;
  e_deccap : nat;
  e_grow : nat -> nat;
  e_stale : nat -> byte
}.
