(** Model of src/client/error.rs, and of which error [connect] returns: the functions of Client.v
    once more, computing the error in place of the result. *)
From Verif Require Export Client.

(** [Kind], src/client/error.rs:59-65. *)
Inductive kind := KEncode (msg : option bytes) | KDecode (msg : option bytes) | KIo.
(** [ClientError], src/client/error.rs:6-10. The source is kept as its text. *)
Record cerror := mkCerror { x_kind : kind; x_source : option bytes }.

(** [{:?}] of an [Option<String>], src/client/error.rs:36-48. The messages of the crate (see below)
    need no escapes, and none are modelled. *)
Definition debug_text (m : option bytes) : bytes :=
  match m with Some t => B "Some(""" ++ t ++ B """)" | None => B "None" end.
(** [Display], src/client/error.rs:30-57. *)
Definition error_text (e : cerror) : bytes :=
  match x_kind e with KEncode m | KDecode m => debug_text m | KIo => B "Io Error" end ++
  match x_source e with Some t => B ": " ++ t | None => [] end.

(** Texts of the errors of other crates that end up as sources: those of the transport when the
    request is written or the response is read (src/client/mod.rs:21, src/client/decode.rs:36), of
    httparse (60), of the http crate's values, names and status codes (77, 78, 121), and of
    [to_str] and [parse] (115-117). Each is one text here. *)
Record texts := mkTexts {
  t_write : bytes; t_read : bytes; t_syntax : bytes; t_value : bytes; t_name : bytes; t_str : bytes; t_number : bytes; t_status : bytes
}.

(** [error::encode], [error::decode], [error::decode_err], [error::io], src/client/error.rs:73-91. *)
Definition err_encode (m : bytes) : cerror := mkCerror (KEncode (Some m)) None.
(** src/client/error.rs:81-83. *)
Definition err_decode (m : bytes) : cerror := mkCerror (KDecode (Some m)) None.
(** src/client/error.rs:85-87. *)
Definition err_decode_by (t : bytes) : cerror := mkCerror (KDecode None) (Some t).
(** src/client/error.rs:89-91. *)
Definition err_io (t : bytes) : cerror := mkCerror KIo (Some t).

(** The messages, src/client/encode.rs:46, 62. *)
Definition m_hostname : bytes := B "Missing hostname".
(** src/client/encode.rs:48. *)
Definition m_port : bytes := B "Missing port".
(** src/client/decode.rs:39. *)
Definition m_empty : bytes := B "Empty response".
(** src/client/decode.rs:45. *)
Definition m_long : bytes := B "Head byte length should be less than 8kb".
(** src/client/decode.rs:62. *)
Definition m_malformed : bytes := B "Malformed HTTP head".
(** src/client/decode.rs:72. *)
Definition m_version : bytes := B "Unsupported HTTP version".
(** src/client/decode.rs:92. *)
Definition m_both : bytes := B "Unexpected Content-Length header".

(** The errors of [Encoder::encode], src/client/encode.rs:44-50, 58-62; [None]: there is none. *)
Definition c_encode_why (q : crequest) : option cerror :=
  let host := match hm_get h_host (c_hdrs q), u_host (c_uri q) with None, None => Some (err_encode m_hostname) | _, _ => None end in
  if is_connect q then
    match u_host (c_uri q), u_port (c_uri q) with
    | None, _ => Some (err_encode m_hostname)
    | Some _, None => Some (err_encode m_port)
    | Some _, Some _ => host
    end
  else host.

(** The errors of the loop at src/client/decode.rs:32-57. *)
Fixpoint c_head_why (T : texts) (fuel : nat) (b : brd) (buf : bytes) : option cerror :=
  match fuel with
  | O => None
  | S f =>
      match read_until false b with
      | (_, ROk []) => Some (err_decode m_empty)
      | (b', ROk x) =>
          if (c_max_head <=? N.of_nat (length (buf ++ x)))%N then Some (err_decode m_long)
          else if ends_with CRLF2 (buf ++ x) || ends_with LFLF (buf ++ x) then None
          else c_head_why T f b' (buf ++ x)
      | (_, RErr) => Some (err_decode_by (t_read T))
      | (_, _) => None
      end
  end.

(** The errors of src/client/decode.rs:75-80. *)
Fixpoint c_headers_why (T : texts) (hs : list (bytes * bytes)) : option cerror :=
  match hs with
  | [] => None
  | (n, v) :: r =>
      match header_value v, header_name n with
      | None, _ => Some (err_decode_by (t_value T))
      | Some _, None => Some (err_decode_by (t_name T))
      | Some _, Some _ => c_headers_why T r
      end
  end.

(** The errors of src/client/decode.rs:88-121. *)
Definition c_response_why (T : texts) (code : N) (m : hmap) : option cerror :=
  match hm_get h_content_length m, hm_get h_transfer_encoding m with
  | Some _, Some _ => Some (err_decode m_both)
  | cl, te =>
      if match te with Some v => beq v (B "chunked") | None => false end then None
      else
        match match cl with
              | None => None
              | Some v =>
                  match value_to_str v with
                  | None => Some (err_decode_by (t_str T))
                  | Some v => match parse_usize v with None => Some (err_decode_by (t_number T)) | Some _ => None end
                  end
              end with
        | Some e => Some e
        | None => if status_ok code then None else Some (err_decode_by (t_status T))
        end
  end.

(** The errors of [decode], src/client/decode.rs:22-127. *)
Definition c_decode_why (T : texts) (ev : env) (s : src) : option cerror :=
  let b := br_new (e_bufcap ev) s in
  match c_head_why T (S (br_size b)) b [] with
  | Some e => Some e
  | None =>
      match c_head b with
      | (_, ChDone buf) =>
          match parse_response (e_trim ev) c_max_headers buf with
          | HErr => Some (err_decode_by (t_syntax T))
          | HPart => Some (err_decode m_malformed)
          | HDone p =>
              if (p_version p =? 1)%N then
                match c_headers_why T (p_headers p), c_headers (p_headers p) [] with
                | Some e, _ => Some e
                | None, Some m => c_response_why T (p_code p) (c_dated ev m)
                | None, None => None
                end
              else Some (err_decode m_version)
          end
      | _ => None
      end
  end.

(** The errors of [connect], src/client/mod.rs:15-26. *)
Definition connect_why (T : texts) (ev : env) (fuel : nat) (q : crequest) (s : src) (w : wtr) : option cerror :=
  match c_encode_why q with
  | Some e => Some e
  | None =>
      match c_encode q with
      | CHead h =>
          match copy_go (cenc_poll (e_bufcap ev)) fuel (mkCenc h (b_src (c_body q)) false) [] w 0 with
          | (_, ROk _) => c_decode_why T ev s
          | (_, RErr) | (_, RTimeout) => Some (err_io (t_write T))
          | _ => None
          end
      | _ => None
      end
  end.
