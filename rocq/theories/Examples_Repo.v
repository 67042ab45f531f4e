(** The project's own tests, run on the model: for the inputs of tests/server_basic.rs,
    tests/server_error_handling.rs, tests/client_basic.rs and of the unit tests in src, the model
    gives the outputs these tests expect. These are checks of the model, not properties; no theorem
    uses them. As in the tests, the line [date: ...] is left out of what is compared
    ([remove_date], tests/mock.rs:194-206). *)
From Verif Require Import Accept RespWriter Reads Client SpecChunked SpecHead SpecResponse SpecReq SpecServer Lemmas Proofs_Copy Proofs_ServerDec
  Proofs_Send Proofs_Dec Proofs_Accept Proofs_Request Examples_Response Examples_Dec Examples_Request.

(** The environment [ev0 true], but for the one absolute uri of the tests, whose parse is left to the
    http crate (see [e_uri] in Http.v). *)
Definition wunder : uri := mkUri (Some (B "wunder.org")) None (B "/foo/bar") None.
Definition evt : env :=
  mkEnv (e_date (ev0 true)) (e_hexlen (ev0 true)) (fun t => if beq t (B "https://wunder.org/foo/bar") then Some wunder else None)
        (e_trim (ev0 true)) (e_ovf (ev0 true)) (e_bufcap (ev0 true)) (e_deccap (ev0 true)) (e_grow (ev0 true)) (e_stale (ev0 true)).

Fixpoint remove_date (l : bytes) : bytes :=
  match l with
  | [] => []
  | c :: r =>
      if is_prefix (B "date: ") l
      then (fix eol (l : bytes) : bytes := match l with [] => [] | x :: y => if is_prefix CRLF l then skipn 2 l else eol y end) l
      else c :: remove_date r
  end.

(** [accept] on a connection on which [req] arrives at once ([Client], tests/mock.rs:13-98): what it
    returns, and what it has written. *)
Definition served (req : bytes) (h : handler) : aout * bytes :=
  let '(_, w, a) := accept 60 evt (fun _ => h) (mkSrc [Data req] Eof) (mkWtr [] []) in (a, remove_date (w_out w)).

(** The endpoint that sends a response made by setters, and the one that fails. *)
Definition sends (cs : list call) : handler :=
  fun _ => Rt (match rw_calls cs rw_new with Some r => PSend r (fun _ => Rt None) (Rt glitch_ise) | None => PFail glitch_ise end).
Definition fails (g : glitch) : handler := fun _ => Rt (PFail g).

Definition R200 := lines ["HTTP/1.1 200 OK"; "content-length: 0"]%string.
Definition R400 := lines ["HTTP/1.1 400 Bad Request"; "content-length: 0"]%string.
Definition R500 := lines ["HTTP/1.1 500 Internal Server Error"; "content-length: 0"]%string.
Definition foo (hs : list string) : bytes := lines ("GET /foo/bar HTTP/1.1"%string :: "Host: example.org"%string :: hs).

(** ** tests/server_basic.rs *)
Example test_request_empty_body : served (foo []) (sends []) = (AOk, R200).
Proof. vm_compute. reflexivity. Qed.

(** The endpoint that reads the body and answers with it. *)
CoFixpoint gather (acc : bytes) (k : bytes -> reading pre) : reading pre :=
  Rd 32 (fun r => match r with POk [] => k acc | POk x => gather (acc ++ x) k | PPend _ => gather acc k | _ => Rt (PFail glitch_ise) end).
Definition hello : handler := fun q => gather [] (fun b => sends [CBody (body_from_string (B "Hello " ++ b)); CInsert (B "content-type") (B "text/plain")] q).
Definition query_req : bytes := lines ["GET /foo/bar?one=two HTTP/1.1"; "Host: example.org"; "Content-Length: 6"]%string ++ B "tophat".
Example test_request_basic_with_body_and_query :
  served query_req hello = (AOk, lines ["HTTP/1.1 200 OK"; "content-length: 12"; "content-type: text/plain"]%string ++ B "Hello tophat") /\
  match decode evt true (mkSrc [Data query_req] Eof) (mkWtr [] []) with
  | (_, _, OReq q b) => u_path (q_uri q) = B "/foo/bar" /\ u_query (q_uri q) = Some (B "one=two") /\ q_meth q = B "GET" /\
      hm_get (B "content-length") (q_hdrs q) = Some (B "6") /\ hm_get (B "host") (q_hdrs q) = Some (B "example.org") /\
      into_string evt 9 (fun _ => 32%nat) (msg_body (q_len q) b) = ROk (B "tophat")
  | _ => False
  end.
Proof. vm_compute. repeat split. Qed.

Example test_request_missing_method :
  served (lines ["/foo/bar HTTP/1.1"; "Host: example.org"; "Content-Length: 0"]%string) (sends []) = (AOk, R400).
Proof. vm_compute. reflexivity. Qed.
Example test_request_missing_host : served (lines ["GET /foo/bar HTTP/1.1"; "Content-Length: 0"]%string) (sends []) = (AOk, R400).
Proof. vm_compute. reflexivity. Qed.
Definition get_at (t : string) : bytes := lines [("GET " ++ t ++ " HTTP/1.1"); "Host: example.org"; "Content-Length: 0"]%string.
Example test_request_path :
  served (get_at "/foo/bar") (sends []) = (AOk, R200) /\ served (get_at "https://wunder.org/foo/bar") (sends []) = (AOk, R200) /\
  served (get_at "foo/bar") (sends []) = (AOk, R400) /\
  match decode evt true (mkSrc [Data (get_at "https://wunder.org/foo/bar")] Eof) (mkWtr [] []) with
  | (_, _, OReq q _) => u_path (q_uri q) = B "/foo/bar" | _ => False end.
Proof. vm_compute. repeat split. Qed.
Example test_request_version :
  served (lines ["GET /foo/bar HTP/1.1"; "Host: example.org"; "Content-Length: 0"]%string) (sends []) = (AOk, R400) /\
  served (lines ["GET /foo/bar HTTP/1.0"; "Host: example.org"; "Content-Length: 0"]%string) (sends []) =
    (AOk, lines ["HTTP/1.1 505 HTTP Version Not Supported"; "content-length: 0"]%string).
Proof. vm_compute. repeat split. Qed.
Example test_transfer_encoding_unsupported :
  served (foo ["Content-Length: 0"; "Transfer-Encoding: gzip"]%string) (sends []) =
    (AErr, lines ["HTTP/1.1 501 Not Implemented"; "content-length: 0"]%string).
Proof. vm_compute. reflexivity. Qed.
(** tests/server_basic.rs:229-247 is marked [#[ignore]]: the project knows that the crate does not
    refuse such requests. Nor does the model. *)
Example test_transfer_encoding_content_length :
  served (foo ["Content-Length: 0"; "Transfer-Encoding: chunked"]%string) (sends []) <> (AOk, R400).
Proof. vm_compute. discriminate. Qed.
Example test_dont_allow_user_set_body_type_header :
  served (foo ["Content-Length: 0"]%string) (sends [CAppend (B "transfer-encoding") (B "chunked")]) = (AOk, R200) /\
  served (foo ["Content-Length: 0"]%string) (sends [CBody (body_from_reader (mkSrc [] Eof) None); CAppend (B "content-length") (B "20")]) =
    (AOk, lines ["HTTP/1.1 200 OK"; "transfer-encoding: chunked"; "content-type: application/octet-stream"]%string ++ B "0" ++ CRLF ++ CRLF).
Proof. vm_compute. repeat split. Qed.
Example test_response_date :
  served (foo ["Content-Length: 0"; "Transfer-Encoding: chunked"]%string) (sends [CAppend (B "date") (B "Wed, 21 Oct 2015 07:28:00 GMT")]) = (AOk, R200) /\
  let '(_, w, _) := accept 60 evt (fun _ => sends [CAppend (B "date") (B "Wed, 21 Oct 2015 07:28:00 GMT")])
    (mkSrc [Data (foo ["Content-Length: 0"; "Transfer-Encoding: chunked"]%string)] Eof) (mkWtr [] []) in
  w_out w = lines ["HTTP/1.1 200 OK"; "content-length: 0"; "date: Wed, 21 Oct 2015 07:28:00 GMT"]%string.
Proof. vm_compute. repeat split. Qed.
Example test_set_content_type_mime :
  served (foo ["Content-Length: 0"]%string) (sends [CAppend (B "content-type") (B "text/plain")]) =
    (AOk, lines ["HTTP/1.1 200 OK"; "content-length: 0"; "content-type: text/plain"]%string).
Proof. vm_compute. reflexivity. Qed.
Definition mdn : list string := ["7"; "Mozilla"; "9"; "Developer"; "7"; "Network"; "0"]%string.
Example test_decode_transfer_encoding_chunked :
  let head := foo ["Transfer-Encoding: chunked"]%string in
  match decode evt true (mkSrc [Data (head ++ lines (mdn ++ ["Expires: Wed, 21 Oct 2015 07:28:00 GMT"%string]))] Eof) (mkWtr [] []) with
  | (_, _, OReq q b) => into_string_with_trailer evt 40 (fun _ => 32%nat) (msg_body (q_len q) b) =
      TOk (B "MozillaDeveloperNetwork") (Some [hdr "expires" "Wed, 21 Oct 2015 07:28:00 GMT"])
  | _ => False end /\
  match decode evt true (mkSrc [Data (head ++ lines mdn)] Eof) (mkWtr [] []) with
  | (_, _, OReq q b) => into_string_with_trailer evt 40 (fun _ => 32%nat) (msg_body (q_len q) b) = TOk (B "MozillaDeveloperNetwork") (Some [])
  | _ => False end /\
  served (head ++ lines mdn) (fun q => gather [] (fun _ => sends [] q)) = (AOk, R200).
Proof. vm_compute. repeat split. Qed.
Example test_encode_transfer_encoding_chunked :
  served (foo ["Content-Length: 0"]%string) (sends [CBody (body_from_reader (bytes_src (B "Hello tophat!")) None)]) =
    (AOk, lines ["HTTP/1.1 200 OK"; "transfer-encoding: chunked"; "content-type: application/octet-stream"]%string ++
          lines ["D"; "Hello tophat!"; "0"]%string).
Proof. vm_compute. reflexivity. Qed.
(** The text of tests/chunked_text_big.rs has 12086 bytes; only their number matters here: the
    chunks are [1F7C] and [FBA] bytes long. *)
Definition big (n : N) : bytes := repeat (ascii_of_N 97) (N.to_nat n).
Example test_encode_transfer_encoding_chunked_big :
  let '(a, out) := served (foo ["Content-Length: 0"]%string) (sends [CBody (body_from_reader (bytes_src (big 12086)) None)]) in
  a = AOk /\ beq out (lines ["HTTP/1.1 200 OK"; "transfer-encoding: chunked"; "content-type: application/octet-stream"]%string ++
    B "1F7C" ++ CRLF ++ big 8060 ++ CRLF ++ B "FBA" ++ CRLF ++ big 4026 ++ CRLF ++ B "0" ++ CRLF ++ CRLF) = true.
Proof. vm_compute. repeat split. Qed.

(** ** tests/server_error_handling.rs *)
Definition parse_one : N + bytes := inr (B "invalid digit found in string").
Definition tries (x : N + glitch) : handler := fun q => match x with inl _ => sends [] q | inr g => fails g q end.
Definition custom (line : string) : bytes := lines [line; "content-length: 12"; "content-type: text/plain"]%string ++ B "custom error".
Example test_request_manually_create_glitch : served (foo []) (fails glitch_bad_request) = (AOk, R400).
Proof. vm_compute. reflexivity. Qed.
Example test_request_glitch_with_context :
  served (foo []) (fails (glitch_err (B "invalid digit found in string"))) = (AOk, R500) /\
  served (foo []) (tries (res_glitch parse_one 500)) = (AOk, R500) /\
  served (foo []) (tries (res_glitch_ctx parse_one 500 (B "custom error"))) = (AOk, custom "HTTP/1.1 500 Internal Server Error") /\
  served (foo []) (tries (opt_glitch_ctx None 400 (B "custom error"))) = (AOk, custom "HTTP/1.1 400 Bad Request") /\
  served (foo []) (fails glitch_bad_request) = (AOk, R400).
Proof. vm_compute. repeat split. Qed.
Example test_request_glitch_macro :
  served (foo []) (fails glitch_macro0) = (AOk, R500) /\ served (foo []) (fails (glitch_macro1 400)) = (AOk, R400) /\
  served (foo []) (fails (glitch_macro2 400 (B "custom error"))) = (AOk, custom "HTTP/1.1 400 Bad Request").
Proof. vm_compute. repeat split. Qed.
Example test_request_glitch_code_macro :
  match glitch_code2 400 (B "custom error") with
  | Some g => served (foo []) (fails g) = (AOk, custom "HTTP/1.1 400 Bad Request") | None => False end.
Proof. vm_compute. reflexivity. Qed.
Example test_request_glitch_code_macro_panic : glitch_code2 1 (B "custom error") = None.
Proof. reflexivity. Qed.

(** ** tests/client_basic.rs *)
Definition asks_for (t : bytes) (q : option bytes) (b : body) : crequest := mkCreq (B "GET") (mkUri None None t q) [hdr "host" "example.org"] b.
Definition called (q : crequest) (resp : bytes) : bytes * option N :=
  let '(w, x) := connect evt 60 q (mkSrc [Data resp] Eof) (mkWtr [] []) in (w_out w, match x with COk a => Some (a_status a) | _ => None end).
Example test_client_empties :
  called (asks_for (B "/foo/bar") None body_empty) R200 = (lines ["GET /foo/bar HTTP/1.1"; "content-length: 0"; "host: example.org"]%string, Some 200%N).
Proof. vm_compute. reflexivity. Qed.
Example test_client_bad_request :
  called (asks_for (B "/foo/bar") None body_empty) R400 = (lines ["GET /foo/bar HTTP/1.1"; "content-length: 0"; "host: example.org"]%string, Some 400%N).
Proof. vm_compute. reflexivity. Qed.
Example test_client_body_query :
  called (asks_for (B "/foo/bar") (Some (B "one=two")) (body_from_str (B "tophat"))) R200 =
    (lines ["GET /foo/bar?one=two HTTP/1.1"; "content-length: 6"; "host: example.org"]%string ++ B "tophat", Some 200%N).
Proof. vm_compute. reflexivity. Qed.

(** ** src/server/decode.rs:259-317 *)
Definition expecting (v : option string) : bytes :=
  let '(_, w, _) := decode evt true (mkSrc [Data (foo (match v with Some v => [("expect: " ++ v)%string] | None => [] end))] Eof) (mkWtr [] []) in w_out w.
Example test_handle_100_continue :
  expecting None = [] /\ expecting (Some "100-continue"%string) = lines ["HTTP/1.1 100 Continue"]%string /\ expecting (Some "111-wrong"%string) = [].
Proof. vm_compute. repeat split. Qed.

(** ** src/chunked/decoder.rs:518-618 *)
Definition decoded (wire : bytes) : bytes * rend * list hmap :=
  let '(d, out, k) := reads (dec_read evt) (repeat (N.to_nat 512) 64) (dec_new evt (br_new (e_bufcap evt) (mkSrc [Data wire] Eof))) in (out, k, d_chan d).
Example test_chunked_wiki :
  decoded (lines ["4"; "Wiki"; "5"; "pedia"; "E"; " in"; ""; "chunks."; "0"]%string) =
    (B "Wikipedia in" ++ CRLF ++ CRLF ++ B "chunks.", Ended, [[]]).
Proof. vm_compute. reflexivity. Qed.
Definition letters (c n : N) : bytes := repeat (ascii_of_N c) (N.to_nat n).
Example test_chunked_big :
  let '(out, k, _) := decoded (B "800" ++ CRLF ++ letters 88 2048 ++ CRLF ++ B "1800" ++ CRLF ++ letters 89 6144 ++ CRLF ++
                               B "800" ++ CRLF ++ letters 90 2048 ++ CRLF ++ lines ["0"]%string) in
  k = Ended /\ beq out (letters 88 2048 ++ letters 89 6144 ++ letters 90 2048) = true.
Proof. vm_compute. repeat split. Qed.
Example test_chunked_mdn :
  decoded (lines (mdn ++ ["Expires: Wed, 21 Oct 2015 07:28:00 GMT"%string])) =
    (B "MozillaDeveloperNetwork", Ended, [[hdr "expires" "Wed, 21 Oct 2015 07:28:00 GMT"]]).
Proof. vm_compute. reflexivity. Qed.
