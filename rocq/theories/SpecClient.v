(** Specification of the client: the request it has to write, and the responses on the wire. *)
From Verif Require Import Client SpecChunked SpecText SpecHead SpecReq SpecResponse.
From Verif Require Export SpecIo.

(** ** Requests
    Requests that exist: the parts of the uri and the method are what the http crate allows (in
    particular, no spaces and no line breaks), and the header map is one of that crate. *)
Definition visible (l : bytes) : Prop := Forall (fun c => (33 <= bv c <= 126)%N) l.
Definition part_of (o : option bytes) : Prop := match o with Some l => visible l | None => True end.
Definition creq_wf (q : crequest) : Prop :=
  token (c_meth q) /\ visible (u_path (c_uri q)) /\ part_of (u_query (c_uri q)) /\
  part_of (u_host (c_uri q)) /\ part_of (u_port (c_uri q)) /\ hm_wf (c_hdrs q).

(** The target to be written. *)
Inductive target_for (q : crequest) : bytes -> Prop :=
| tg_connect h p : c_meth q = B "CONNECT" -> u_host (c_uri q) = Some h -> u_port (c_uri q) = Some p ->
    target_for q (h ++ B ":" ++ p)
| tg_path : c_meth q <> B "CONNECT" -> u_query (c_uri q) = None -> target_for q (u_path (c_uri q))
| tg_query x : c_meth q <> B "CONNECT" -> u_query (c_uri q) = Some x -> target_for q (u_path (c_uri q) ++ B "?" ++ x).

(** The host field the client adds, if the caller has set none. *)
Inductive host_for (q : crequest) : list (bytes * bytes) -> Prop :=
| hf_caller : values (B "host") (hm_iter (c_hdrs q)) <> [] -> host_for q []
| hf_uri h : values (B "host") (hm_iter (c_hdrs q)) = [] -> u_host (c_uri q) = Some h -> u_port (c_uri q) = None ->
    host_for q [(B "host", h)]
| hf_port h p : values (B "host") (hm_iter (c_hdrs q)) = [] -> u_host (c_uri q) = Some h -> u_port (c_uri q) = Some p ->
    host_for q [(B "host", h ++ B ":" ++ p)].

(** The fields of a request: host, for CONNECT the proxy's, content-length, the caller's. *)
Definition fields_for (q : crequest) (n : N) (fs : list (bytes * bytes)) : Prop :=
  exists hf px d, host_for q hf /\ numeral d n /\
    (c_meth q = B "CONNECT" /\ px = [(B "proxy-connection", B "keep-alive")] \/ c_meth q <> B "CONNECT" /\ px = []) /\
    fs = hf ++ px ++ (B "content-length", d) :: hm_iter (c_hdrs q).

(** [creq_head q head]: whatever follows, [head] reads as the request line and fields due. *)
Definition creq_head (q : crequest) (head : bytes) : Prop :=
  exists t n fs, target_for q t /\ b_len (c_body q) = Some n /\ fields_for q n fs /\
    forall rest, read_head (head ++ rest) = Some (c_meth q ++ B " " ++ t ++ B " HTTP/1.1", fs, rest).

(** Requests the client has a target and a host for. *)
Definition addressed (q : crequest) : Prop := (exists t, target_for q t) /\ (exists hf, host_for q hf).

(** ** Responses
    The head block: the shortest prefix of the input that ends with an empty line (two line
    feeds in a row count as well). *)
Definition resp_end (w : bytes) : Prop := exists p, w = p ++ CRLF ++ CRLF \/ w = p ++ [LF; LF].
Definition resp_block (w : bytes) : Prop := resp_end w /\ forall p q, w = p ++ q -> q <> [] -> ~ resp_end p.

(** The connection delivers the head block [w], and [rest] after it, before anything fails. *)
Definition delivers (s : src) (w rest : bytes) : Prop :=
  wf_src s /\ resp_block w /\ fst (avail false (s_evs s)) = w ++ rest.

(** Status codes have three digits. *)
Definition three_digits (code : N) (l : bytes) : Prop := decimal l code /\ length l = 3%nat.
Definition reason_char (c : byte) : Prop := (32 <= bv c /\ bv c <> 127)%N \/ c = HT.

(** [lresp trim minor code hs w]: [w] is a response head with that status and those fields. *)
Definition lresp (trim : bool) (minor code : N) (hs : list (bytes * bytes)) (w : bytes) : Prop :=
  exists bl ver cd rsn nl fw nl2, w = bl ++ ver ++ [SP] ++ cd ++ rsn ++ nl ++ fw ++ nl2 /\
    blank_lines bl /\ version_minor minor ver /\ three_digits code cd /\
    (rsn = [] \/ exists t, rsn = SP :: t /\ Forall reason_char t) /\ line_end nl /\ lfields trim hs fw /\ line_end nl2.

(** The beginning of the block is a response head with at most 128 fields. *)
Definition resp_grammatical (trim : bool) (minor code : N) (hs : list (bytes * bytes)) (w : bytes) : Prop :=
  exists x y, w = x ++ y /\ lresp trim minor code hs x /\ (length hs <= 128)%nat.

(** Response heads broken in a field line (SpecReq.v). *)
Definition broken_resp (trim : bool) (w : bytes) : Prop :=
  exists bl minor ver cd code rsn nl hs fw u, w = bl ++ ver ++ [SP] ++ cd ++ rsn ++ nl ++ fw ++ u /\
    blank_lines bl /\ version_minor minor ver /\ three_digits code cd /\
    (rsn = [] \/ exists t, rsn = SP :: t /\ Forall reason_char t) /\ line_end nl /\ lfields trim hs fw /\ broken_line u.

(** Header maps that hold given fields. *)
Definition holds (m : hmap) (fs : list (bytes * bytes)) : Prop :=
  hm_wf m /\ forall n, hm_get_all (lowered n) m = values n fs.

(** The fields of a response, with a date if it has none. *)
Definition dated (date : bytes) (hs : list (bytes * bytes)) : list (bytes * bytes) :=
  match values (B "date") hs with [] => hs ++ [(B "date", date)] | _ => hs end.

(** [pieces_le k l]: no stretch of [l] without a line feed is longer than [k]. *)
Definition pieces_le (k : nat) (l : bytes) : Prop :=
  forall a x b, l = a ++ x ++ b -> ~ In LF x -> (length x <= k)%nat.

(** ** The client's verdict on a head block
    Rejected; or a response whose body is chunked; or one with a body of a declared length; or
    one without body. A chunked response loses its status and its fields (C66). Of several
    content-lengths the first counts (C80); "chunked" is recognised in lower case and alone in
    the first transfer-encoding only (C81). *)
Inductive cverdict :=
| CvReject | CvChunked | CvLength (code : N) (hs : list (bytes * bytes)) (n : N) | CvNone (code : N) (hs : list (bytes * bytes)).
Definition says_chunked (hs : list (bytes * bytes)) : Prop := exists r, values (B "transfer-encoding") hs = B "chunked" :: r.
Inductive cjudge (trim : bool) (w : bytes) : cverdict -> Prop :=
| cj_long : (8192 <= N.of_nat (length w))%N -> cjudge trim w CvReject
| cj_syntax : (forall minor code hs, ~ resp_grammatical trim minor code hs w) -> cjudge trim w CvReject
| cj_version code hs : resp_grammatical trim 0 code hs w -> cjudge trim w CvReject
| cj_both code hs : resp_grammatical trim 1 code hs w ->
    values (B "content-length") hs <> [] -> values (B "transfer-encoding") hs <> [] -> cjudge trim w CvReject
| cj_length_bad code hs v r : resp_grammatical trim 1 code hs w ->
    values (B "content-length") hs = v :: r -> (forall n, ~ cl_value v n) -> cjudge trim w CvReject
| cj_status code hs : resp_grammatical trim 1 code hs w -> ~ says_chunked hs -> (code < 100)%N -> cjudge trim w CvReject
| cj_chunked code hs : (N.of_nat (length w) < 8192)%N -> resp_grammatical trim 1 code hs w ->
    values (B "content-length") hs = [] -> says_chunked hs -> cjudge trim w CvChunked
| cj_length code hs v r n : (N.of_nat (length w) < 8192)%N -> resp_grammatical trim 1 code hs w -> (100 <= code)%N ->
    values (B "content-length") hs = v :: r -> values (B "transfer-encoding") hs = [] -> cl_value v n ->
    cjudge trim w (CvLength code hs n)
| cj_none code hs : (N.of_nat (length w) < 8192)%N -> resp_grammatical trim 1 code hs w -> (100 <= code)%N ->
    values (B "content-length") hs = [] -> ~ says_chunked hs -> cjudge trim w (CvNone code hs).

(** ... and what the caller gets, [b] being the connection behind the head block. *)
Definition canswers (ev : env) (v : cverdict) (b : brd) (out : cout) : Prop :=
  match v with
  | CvReject => out = CErr
  | CvChunked => out = COk (mkCresp 200 [] (msg_body None (RChunked [] (dec_new ev b))))
  | CvLength code hs n => exists m, holds m (dated (e_date ev) hs) /\ out = COk (mkCresp code m (msg_body (Some n) (RFixed n b)))
  | CvNone code hs => exists m, holds m (dated (e_date ev) hs) /\ out = COk (mkCresp code m (full body_empty))
  end.

(** Everything a connection would ever deliver, failures or not. *)
Fixpoint evs_all (l : list ev) : bytes :=
  match l with [] => [] | Data d :: r => d ++ evs_all r | _ :: r => evs_all r end.
(** [took s b x]: the reader [b], opened on [s], has taken the bytes [x] from it. *)
Definition took (s : src) (b : brd) (x : bytes) : Prop := evs_all (s_evs s) = x ++ evs_all (s_evs (br_src b)).

(** ** Round trips
    Values that survive the trip: no blanks at either end. *)
Definition plain_value (v : bytes) : Prop := (forall c r, v = c :: r -> ~ ows c) /\ (forall c r, v = r ++ [c] -> ~ ows c).

(** Requests the server understands: not CONNECT, a path in origin form, no framing fields of
    the caller's own, at most 14 fields, values that survive, a target the server's uri type
    can hold, and a body that has the declared length. *)
Definition ordinary (q : crequest) : Prop :=
  c_meth q <> B "CONNECT" /\ (exists r, u_path (c_uri q) = "/"%char :: r) /\ Forall (fun c => path_char c = true) (u_path (c_uri q)) /\
  (forall x, u_query (c_uri q) = Some x -> Forall (fun c => query_char c = true) x) /\
  (forall t, target_for q t -> (N.of_nat (length t) <= 65534)%N) /\
  (forall n v, In (n, v) (hm_iter (c_hdrs q)) -> plain_value v /\ n <> B "content-length" /\ n <> B "transfer-encoding") /\
  (length (hm_iter (c_hdrs q)) <= 14)%nat /\
  wf_src (b_src (c_body q)) /\ clean (b_src (c_body q)) /\ b_len (c_body q) = Some (N.of_nat (length (src_data (b_src (c_body q))))) /\
  (N.of_nat (length (src_data (b_src (c_body q)))) < two64)%N.

(** [arrived q q']: the server has got the request the client was given. *)
Definition arrived (q : crequest) (q' : rhead) : Prop :=
  q_meth q' = c_meth q /\ u_path (q_uri q') = u_path (c_uri q) /\ u_query (q_uri q') = u_query (c_uri q) /\ q_len q' = b_len (c_body q) /\
  hm_wf (q_hdrs q') /\
  (forall x, lowered x <> B "host" -> lowered x <> B "content-length" -> hm_get_all (lowered x) (q_hdrs q') = hm_get_all (lowered x) (c_hdrs q)) /\
  (exists hf, host_for q hf /\ hm_get_all (B "host") (q_hdrs q') = values (B "host") (hf ++ hm_iter (c_hdrs q))) /\
  (exists n d, b_len (c_body q) = Some n /\ numeral d n /\ hm_get_all (B "content-length") (q_hdrs q') = [d]).

(** Responses the client understands: HTTP/1.1, a status of three digits, at most 125 fields,
    values that survive. *)
Definition returnable (r : response) : Prop :=
  r_version r = HTTP_11 /\ (100 <= r_status r < 1000)%N /\ (length (hm_iter (r_headers r)) <= 125)%nat /\
  (forall n v, In (n, v) (hm_iter (r_headers r)) -> plain_value v).
(** The fields of [r] as the server sends them. *)
Definition sent_fields (date : bytes) (r : response) (fs : list (bytes * bytes)) : Prop :=
  framing_fields r fs /\ date_fields date r fs /\ type_fields r fs /\ other_fields r fs.

(** Two results of [connect] that are the same to the caller: the same error, or responses with
    the same status and fields, over the same following bytes. *)
Inductive same_answer : cout -> cout -> Prop :=
| sa_err : same_answer CErr CErr
| sa_none a : same_answer (COk a) (COk a)
| sa_length code m n b1 b2 : br_buf b1 ++ fst (avail false (s_evs (br_src b1))) = br_buf b2 ++ fst (avail false (s_evs (br_src b2))) ->
    same_answer (COk (mkCresp code m (msg_body (Some n) (RFixed n b1)))) (COk (mkCresp code m (msg_body (Some n) (RFixed n b2))))
| sa_chunked code m ev b1 b2 : br_buf b1 ++ fst (avail false (s_evs (br_src b1))) = br_buf b2 ++ fst (avail false (s_evs (br_src b2))) ->
    same_answer (COk (mkCresp code m (msg_body None (RChunked [] (dec_new ev b1))))) (COk (mkCresp code m (msg_body None (RChunked [] (dec_new ev b2))))).

(** The same request with another source of its body. *)
Definition with_src (q : crequest) (s : src) : crequest := mkCreq (c_meth q) (c_uri q) (c_hdrs q) (mkBody (b_len (c_body q)) s).
