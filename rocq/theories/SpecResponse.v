(** Specification of the head of a response. *)
From Verif Require Import ServerEnc SpecIo SpecText SpecHead.

(** The names the server itself may write. *)
Definition special (n : bytes) : bool :=
  same_text n (B "content-length") || same_text n (B "transfer-encoding") ||
  same_text n (B "date") || same_text n (B "content-type").

(** How a version is written. *)
Definition version_name (v : version) : bytes :=
  B "HTTP/" ++ match v with HTTP_09 => B "0.9" | HTTP_10 => B "1.0" | HTTP_11 => B "1.1" | HTTP_2 => B "2.0" | HTTP_3 => B "3.0" end.

(** The phrases of the registered status codes, and what stands in for that of any other. *)
Definition phrases : list (N * string) :=
  [(100, "Continue"); (101, "Switching Protocols"); (102, "Processing"); (200, "OK");
   (201, "Created"); (202, "Accepted"); (203, "Non Authoritative Information");
   (204, "No Content"); (205, "Reset Content"); (206, "Partial Content"); (207, "Multi-Status");
   (208, "Already Reported"); (226, "IM Used"); (300, "Multiple Choices");
   (301, "Moved Permanently"); (302, "Found"); (303, "See Other"); (304, "Not Modified");
   (305, "Use Proxy"); (307, "Temporary Redirect"); (308, "Permanent Redirect");
   (400, "Bad Request"); (401, "Unauthorized"); (402, "Payment Required"); (403, "Forbidden");
   (404, "Not Found"); (405, "Method Not Allowed"); (406, "Not Acceptable");
   (407, "Proxy Authentication Required"); (408, "Request Timeout"); (409, "Conflict");
   (410, "Gone"); (411, "Length Required"); (412, "Precondition Failed");
   (413, "Payload Too Large"); (414, "URI Too Long"); (415, "Unsupported Media Type");
   (416, "Range Not Satisfiable"); (417, "Expectation Failed"); (418, "I'm a teapot");
   (421, "Misdirected Request"); (422, "Unprocessable Entity"); (423, "Locked");
   (424, "Failed Dependency"); (426, "Upgrade Required"); (428, "Precondition Required");
   (429, "Too Many Requests"); (431, "Request Header Fields Too Large");
   (451, "Unavailable For Legal Reasons"); (500, "Internal Server Error");
   (501, "Not Implemented"); (502, "Bad Gateway"); (503, "Service Unavailable");
   (504, "Gateway Timeout"); (505, "HTTP Version Not Supported"); (506, "Variant Also Negotiates");
   (507, "Insufficient Storage"); (508, "Loop Detected"); (510, "Not Extended");
   (511, "Network Authentication Required")]%N%string.
Definition reason_for (code : N) (reason : bytes) : Prop :=
  (exists p, In (code, p) phrases /\ reason = B p) \/
  (forall p, ~ In (code, p) phrases) /\ reason = B "<unknown status code>".

Definition first_line (v : version) (status : N) (sl : bytes) : Prop :=
  exists code reason, numeral code status /\ reason_for status reason /\
    sl = version_name v ++ B " " ++ code ++ B " " ++ reason.
Definition status_line (r : response) (sl : bytes) : Prop := first_line (r_version r) (r_status r) sl.

(** Exactly one framing header, chosen from the body (C03). *)
Definition framing_fields (r : response) (fs : list (bytes * bytes)) : Prop :=
  match b_len (r_body r) with
  | Some n => exists v, values (B "content-length") fs = [v] /\ numeral v n /\
                        values (B "transfer-encoding") fs = []
  | None => values (B "content-length") fs = [] /\ values (B "transfer-encoding") fs = [B "chunked"]
  end.

(** The handler's dates, or else the current one (C05). *)
Definition date_fields (date : bytes) (r : response) (fs : list (bytes * bytes)) : Prop :=
  values (B "date") fs =
    match values (B "date") (hm_iter (r_headers r)) with [] => [date] | l => l end.

(** The handler's content-types, or else the default for non-empty bodies (C06). *)
Definition type_fields (r : response) (fs : list (bytes * bytes)) : Prop :=
  values (B "content-type") fs =
    match values (B "content-type") (hm_iter (r_headers r)), b_len (r_body r) with
    | [], Some 0%N => []
    | [], _ => [B "application/octet-stream"]
    | l, _ => l
    end.

(** All other fields are the handler's, in header-map order (C04). *)
Definition other_fields (r : response) (fs : list (bytes * bytes)) : Prop :=
  filter (fun nv => negb (special (fst nv))) fs =
  filter (fun nv => negb (special (fst nv))) (hm_iter (r_headers r)).

(** [response_head date r head]: whatever follows it on the wire, [head] reads as the status
    line and the fields of [r], and ends exactly at its last byte. *)
Definition response_head (date : bytes) (r : response) (head : bytes) : Prop :=
  exists sl fs, (forall rest, read_head (head ++ rest) = Some (sl, fs, rest)) /\
    status_line r sl /\ framing_fields r fs /\ date_fields date r fs /\ type_fields r fs /\ other_fields r fs.

(** Responses and environments that exist: header maps of the http crate, printable date. *)
Definition resp_wf (r : response) : Prop := hm_wf (r_headers r).
Definition env_wf (ev : env) : Prop := forallb value_byte (e_date ev) = true /\ e_date ev <> [].

(** A response as far as its head goes: the reader of its body is left out. *)
Definition announced (status : N) (v : version) (hs : hmap) (len : option N) : response :=
  mkResp status v hs (mkBody len (mkSrc [] Eof)).

(** [sent_under ev r head]: whatever has been written of [r], at any moment and on any connection,
    is a beginning of [head] or begins with all of it; the latter if the send has succeeded. *)
Definition sent_under (ev : env) (r : response) (head : bytes) : Prop :=
  forall w fuel w' x, send fuel ev r w = (w', x) ->
  exists p, w_out w' = w_out w ++ p /\ (prefix p head \/ prefix head p) /\ forall k, x = ROk k -> prefix head p.
