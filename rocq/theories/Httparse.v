(** The httparse crate (1.3.4), as used by src/server/decode.rs:64, src/client/decode.rs:60,
    src/chunked/decoder.rs:435 and 489.  All parsers work on the whole buffer and report how
    much of it they used by returning the rest. *)
From Verif Require Export Http.

(** [Status::Complete], [Status::Partial], [Err]. As used at src/server/decode.rs:64-67 and
    src/client/decode.rs:60-63. *)
Inductive hres (A : Type) := HDone (a : A) | HPart | HErr.
Arguments HDone {A} a. Arguments HPart {A}. Arguments HErr {A}.

(** Sequencing of parsers (the [?] of httparse), under src/server/decode.rs:64. *)
Definition hbind {A C} (x : hres A) (f : A -> hres C) : hres C :=
  match x with HDone a => f a | HPart => HPart | HErr => HErr end.

(** [httparse::parse_chunk_size]. Modes: reading digits, whitespace after the size,
    extension. Result: size and rest of the buffer. Called in src/chunked/decoder.rs:435. *)
Inductive csmode := CsSize | CsWs | CsExt.

(** [httparse::parse_chunk_size], called in src/chunked/decoder.rs:435. *)
Fixpoint chunk_size_go (m : csmode) (count : nat) (size : N) (l : bytes) : hres (N * bytes) :=
  match l with
  | [] => HPart
  | c :: r =>
      match m, hex_val c with
      | CsSize, Some d =>
          if (15 <? count)%nat then HErr
          else chunk_size_go CsSize (S count) (size * 16 + d) r
      | _, _ =>
          if Ascii.eqb c CR then
            match r with
            | [] => HPart
            | c' :: r' => if Ascii.eqb c' LF then HDone (size, r') else HErr
            end
          else match m with
               | CsExt => chunk_size_go CsExt count size r
               | _ =>
                   if Ascii.eqb c (ascii_of_N 59) then chunk_size_go CsExt count size r
                   else if is_ws c then chunk_size_go CsWs count size r
                   else HErr
               end
      end
  end.
(** [httparse::parse_chunk_size], called in src/chunked/decoder.rs:435. *)
Definition parse_chunk_size (l : bytes) : hres (N * bytes) := chunk_size_go CsSize 0 0 l.

(** Header values: tab, visible ASCII, space, bytes above 127 ([HEADER_VALUE_MAP]). Under [parse]
    at src/server/decode.rs:64 and src/client/decode.rs:60. *)
Definition is_hp_value (c : byte) : bool := is_value_byte c.

(** [newline!]-style line end: CRLF or LF. Under [parse] at src/server/decode.rs:64 and
    src/client/decode.rs:60. *)
Definition parse_newline (l : bytes) : hres bytes :=
  match l with
  | [] => HPart
  | c :: r =>
      if Ascii.eqb c CR then
        match r with
        | [] => HPart
        | c' :: r' => if Ascii.eqb c' LF then HDone r' else HErr
        end
      else if Ascii.eqb c LF then HDone r
      else HErr
  end.

(** Header name up to the colon. Under [parse] at src/server/decode.rs:64 and
    src/client/decode.rs:60. *)
Fixpoint hp_name (l : bytes) : hres (bytes * bytes) :=
  match l with
  | [] => HPart
  | c :: r =>
      if Ascii.eqb c COLON then HDone ([], r)
      else if is_tchar c then hbind (hp_name r) (fun x => HDone (c :: fst x, snd x))
      else HErr
  end.

(** Header value up to its line end (leading whitespace already skipped). Under [parse] at
    src/server/decode.rs:64 and src/client/decode.rs:60. *)
Fixpoint hp_value (l : bytes) : hres (bytes * bytes) :=
  match l with
  | [] => HPart
  | c :: r =>
      if is_hp_value c then hbind (hp_value r) (fun x => HDone (c :: fst x, snd x))
      else hbind (parse_newline l) (fun r' => HDone ([], r'))
  end.

(** Under [parse] at src/server/decode.rs:64 and src/client/decode.rs:60. *)
Fixpoint skip_ws (l : bytes) : bytes :=
  match l with [] => [] | c :: r => if is_ws c then skip_ws r else l end.

(** Under [parse] at src/server/decode.rs:64 and src/client/decode.rs:60. *)
Definition rtrim_ws (l : bytes) : bytes := rev (skip_ws (rev l)).

(** [parse_headers_iter]: at most [slots] headers. [trim]: see [e_trim]. Under [parse] at
    src/server/decode.rs:64 and src/client/decode.rs:60, and for trailers in
    src/chunked/decoder.rs:489. *)
Fixpoint hp_headers (trim : bool) (slots : nat) (l : bytes)
  : hres (list (bytes * bytes) * bytes) :=
  match l with
  | [] => HPart
  | c :: r =>
      if Ascii.eqb c CR || Ascii.eqb c LF then
        hbind (parse_newline l) (fun r' => HDone ([], r'))
      else if is_tchar c then
        match slots with
        | O => HErr                                         (* TooManyHeaders *)
        | S k =>
            hbind (hp_name l) (fun nr =>
            hbind (hp_value (skip_ws (snd nr))) (fun vr =>
            hbind (hp_headers trim k (snd vr)) (fun hr =>
            HDone ((fst nr, if trim then rtrim_ws (fst vr) else fst vr) :: fst hr, snd hr))))
        end
      else HErr
  end.

(** [skip_empty_lines]. Under [parse] at src/server/decode.rs:64 and src/client/decode.rs:60. *)
Fixpoint skip_empty_lines (l : bytes) : hres bytes :=
  match l with
  | [] => HPart
  | c :: r =>
      if Ascii.eqb c CR then
        match r with
        | [] => HPart
        | c' :: r' => if Ascii.eqb c' LF then skip_empty_lines r' else HErr
        end
      else if Ascii.eqb c LF then skip_empty_lines r
      else HDone l
  end.

(** [parse_token]: the method, up to one space. Under [parse] at src/server/decode.rs:64. *)
Fixpoint hp_token (l : bytes) : hres (bytes * bytes) :=
  match l with
  | [] => HPart
  | c :: r =>
      if Ascii.eqb c SP then HDone ([], r)
      else if is_tchar c then hbind (hp_token r) (fun x => HDone (c :: fst x, snd x))
      else HErr
  end.
(** Under [parse] at src/server/decode.rs:64. *)
Definition hp_method (l : bytes) : hres (bytes * bytes) :=
  match l with
  | [] => HPart
  | c :: _ => if is_tchar c then hp_token l else HErr
  end.

(** [parse_uri]: visible ASCII except [<] and [>], up to one space. Under [parse] at
    src/server/decode.rs:64. *)
Definition is_uri_tok (c : byte) : bool :=
  in_range 33 126 c && negb (bv c =? 60)%N && negb (bv c =? 62)%N.
(** Under [parse] at src/server/decode.rs:64. *)
Fixpoint hp_uri (l : bytes) : hres (bytes * bytes) :=
  match l with
  | [] => HPart
  | c :: r =>
      if Ascii.eqb c SP then HDone ([], r)
      else if is_uri_tok c then hbind (hp_uri r) (fun x => HDone (c :: fst x, snd x))
      else HErr
  end.

(** [parse_version]: [HTTP/1.0] or [HTTP/1.1]; a proper prefix is partial. Under [parse] at
    src/server/decode.rs:64 and src/client/decode.rs:60. *)
Fixpoint is_prefix (p l : bytes) : bool :=
  match p, l with
  | [], _ => true
  | x :: p', y :: l' => Ascii.eqb x y && is_prefix p' l'
  | _ :: _, [] => false
  end.
(** Under [parse] at src/server/decode.rs:64 and src/client/decode.rs:60. *)
Definition hp_version (l : bytes) : hres (N * bytes) :=
  if (8 <=? length l)%nat then
    if is_prefix (B "HTTP/1.1") l then HDone (1%N, skipn 8 l)
    else if is_prefix (B "HTTP/1.0") l then HDone (0%N, skipn 8 l)
    else HErr
  else if is_prefix l (B "HTTP/1.") then HPart else HErr.

(** [httparse::Request], src/server/decode.rs:41-42. *)
Record hreq := mkHreq { q_method : bytes; q_path : bytes; q_version : N;
                        q_headers : list (bytes * bytes); q_rest : bytes }.

(** [Request::parse]. Called at src/server/decode.rs:64. *)
Definition parse_request (trim : bool) (slots : nat) (l : bytes) : hres hreq :=
  hbind (skip_empty_lines l) (fun l =>
  hbind (hp_method l) (fun m =>
  hbind (hp_uri (snd m)) (fun u =>
  hbind (hp_version (snd u)) (fun v =>
  hbind (parse_newline (snd v)) (fun l =>
  hbind (hp_headers trim slots l) (fun h =>
  HDone (mkHreq (fst m) (fst u) (fst v) (fst h) (snd h)))))))).

(** Status code: three digits. Under [parse] at src/client/decode.rs:60. *)
Definition hp_code (l : bytes) : hres (N * bytes) :=
  match l with
  | [] => HPart
  | a :: r =>
      match dec_val a with None => HErr | Some x =>
      match r with
      | [] => HPart
      | b :: r =>
          match dec_val b with None => HErr | Some y =>
          match r with
          | [] => HPart
          | c :: r =>
              match dec_val c with None => HErr | Some z => HDone ((x * 100 + y * 10 + z)%N, r) end
          end end
      end end
  end.

(** Reason phrase up to its line end. Bytes above 127 are accepted here, as by newer versions
    of httparse; older ones (1.3) report an error. No theorem depends on such a reason being
    accepted. Under [parse] at src/client/decode.rs:60. *)
Definition is_reason_char (c : byte) : bool := in_range 32 126 c || (bv c =? 9)%N || (128 <=? bv c)%N.
(** Under [parse] at src/client/decode.rs:60. *)
Fixpoint hp_reason (l : bytes) : hres bytes :=
  match l with
  | [] => HPart
  | c :: r => if is_reason_char c then hp_reason r else parse_newline l
  end.

(** [httparse::Response], src/client/decode.rs:28-29. *)
Record hresp := mkHresp { p_version : N; p_code : N;
                          p_headers : list (bytes * bytes); p_rest : bytes }.

(** [Response::parse]. Called at src/client/decode.rs:60. *)
Definition parse_response (trim : bool) (slots : nat) (l : bytes) : hres hresp :=
  hbind (skip_empty_lines l) (fun l =>
  hbind (hp_version l) (fun v =>
  hbind (match snd v with [] => HPart | c :: r => if Ascii.eqb c SP then HDone r else HErr end) (fun l =>
  hbind (hp_code l) (fun c =>
  hbind (match snd c with
         | [] => HPart
         | x :: r => if Ascii.eqb x SP then hp_reason r else parse_newline (snd c)
         end) (fun l =>
  hbind (hp_headers trim slots l) (fun h =>
  HDone (mkHresp (fst v) (fst c) (fst h) (snd h)))))))).
