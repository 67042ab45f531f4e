(** Specification: conversations on a connection, in terms of what the peer sends and gets. *)
From Verif Require Import Accept Reads SpecChunked SpecText SpecHead SpecResponse SpecReq.
From Verif Require Export SpecIo SpecEnv.

(** ** Handlers that read their request body to its end
    [drains must fin l p]: while [l] is what is left of the body, the program [p] goes on
    reading, with any buffer sizes and whatever pieces it is given, and finishes with [fin] at
    the end of the body. It may stop without having seen the end if [must] is false. *)
CoInductive drains {A} (must : bool) (fin : A) : bytes -> reading A -> Prop :=
| dr_poll l n k : (0 < n)%nat ->
    (forall f, drains must fin l (k (PPend f))) ->
    (forall x l', x <> [] -> (length x <= n)%nat -> l = x ++ l' -> drains must fin l' (k (POk x))) ->
    (l = [] -> k (POk []) = Rt fin) ->
    drains must fin l (Rd n k)
| dr_stop : must = false -> drains must fin [] (Rt fin).

(** ** Bodies on the wire
    A chunked message that the decoder's buffer of [cap] bytes can take (see C13): the bytes of
    the message, not counting the data of chunks of [cap] bytes or more, fit. *)
Definition fitting (cap : nat) (p : bytes) (tr : list (bytes * bytes)) (wire : bytes) : Prop :=
  exists cw n z tw, chunks_load cap p cw n /\ size_line 0 z /\ fields tr tw /\ (length tr <= 16)%nat /\
    (n + length (z ++ tw ++ CRLF) <= cap)%nat /\ wire = cw ++ z ++ tw ++ CRLF.

(** [body_wire cap len p wire]: [wire] is the body [p] framed as [len] says. *)
Definition body_wire (cap : nat) (len : option N) (p wire : bytes) : Prop :=
  match len with
  | Some n => wire = p /\ N.of_nat (length p) = n
  | None => exists tr, fitting cap p tr wire
  end.
Definition chunked_len (len : option N) : bool := match len with None => true | Some _ => false end.

(** What the handler is given: the method, target, fields and length of the request. *)
Definition presents (q : rhead) (m : bytes) (u : uri) (hs : list (bytes * bytes)) (len : option N) : Prop :=
  q_meth q = m /\ q_uri q = u /\ q_len q = len /\ hm_wf (q_hdrs q) /\
  forall n, hm_get_all (lowered n) (q_hdrs q) = values n hs.

(** ** Responses on the wire *)
Inductive body_text (b : body) : bytes -> Prop :=
| bt_fixed n : b_len b = Some n -> body_text b (firstn (N.to_nat n) (src_data (b_src b)))
| bt_chunked cw : b_len b = None -> chunks plain_size_line (src_data (b_src b)) cw -> body_text b (cw ++ last_chunk).
Definition message (date : bytes) (r : response) (m : bytes) : Prop :=
  exists head bt, response_head date r head /\ body_text (r_body r) bt /\ m = head ++ bt.

(** The defect of C08: an empty chunked body of which the head leaves too little of the block. *)
Definition pinched (ev : env) (r : response) : Prop :=
  exists head, response_head (e_date ev) r head /\ src_data (b_src (r_body r)) = [] /\ eos_window (e_bufcap ev) (length head).

(** Responses that can be sent completely: the declared length is there (and no i/o error in
    its place); a chunked body ends without i/o error and does not meet the defect of C08. *)
Definition sendable (ev : env) (r : response) : Prop :=
  resp_wf r /\ wf_src (b_src (r_body r)) /\
  match b_len (r_body r) with
  | Some n => (n + N.of_nat (e_bufcap ev) < two64)%N /\ (n <= N.of_nat (length (src_data (b_src (r_body r)))))%N /\
              (n = 0%N -> clean (b_src (r_body r)))
  | None => clean (b_src (r_body r)) /\ ~ pinched ev r
  end.

(** The reply a handler decided on: a response, after sending which it reads no more of the
    body and returns successfully, or a failure, answered by the response of the glitch. *)
Inductive replies (verbose : bool) : pre -> response -> Prop :=
| rp_send r kok kerr : (forall n, kok n = Rt None) -> replies verbose (PSend r kok kerr) r
| rp_fail g : replies verbose (PFail g) (glitch_response verbose g).

(** [serves verbose must p r x]: the program [x] reads the body [p] to its end (see [drains]) and
    then replies with [r]. *)
Definition serves (verbose must : bool) (p : bytes) (r : response) (x : reading pre) : Prop :=
  exists fin, drains must fin p x /\ replies verbose fin r.

(** An empty response with a status code. *)
Definition bare (code : N) : response := mkResp code HTTP_11 [] (mkBody (Some 0%N) (mkSrc [] Eof)).

(** ** Conversations
    [conversation trim uri_of cap o tl h l xs a]: the peer sends [l] (and then closes, or not:
    [tl]); the responses due are [xs], each with whether a 100 Continue comes first; [a] is how
    [accept] ends. Every request arrives in transport segments of its own ([l1]), and every
    handler call reads its request's body. *)
Inductive conversation (trim : bool) (uri_of : bytes -> option uri) (cap : nat) (o : opts) (tl : rtail) (h : nat -> handler)
  : list ev -> list (bool * response) -> aout -> Prop :=
| cv_end l : no_head (fst (avail (o_timeout o) l)) ->
    (snd (avail (o_timeout o) l) = ObTimer \/ (snd (avail (o_timeout o) l) = ObEnd /\ tl = Eof)) ->
    conversation trim uri_of cap o tl h l [] AOk
| cv_request l1 l2 w wb p c m u hs len r xs a :
    avail (o_timeout o) l1 = (w ++ wb, ObEnd) -> head_block w ->
    judge trim uri_of w c (Accept m u hs len) -> body_wire cap len p wb ->
    (forall q, presents q m u hs len -> serves (o_verbose o) (chunked_len len) p r (h O q)) ->
    conversation trim uri_of cap o tl (later h) l2 xs a ->
    conversation trim uri_of cap o tl h (l1 ++ l2) ((c, r) :: xs) a
| cv_refused l1 l2 w c code xs a :
    avail (o_timeout o) l1 = (w, ObEnd) -> head_block w -> judge trim uri_of w c (Refuse code) -> code <> 501%N ->
    conversation trim uri_of cap o tl (later h) l2 xs a ->
    conversation trim uri_of cap o tl h (l1 ++ l2) ((c, bare code) :: xs) a
| cv_encoding l1 l2 w rest c :
    fst (avail (o_timeout o) l1) = w ++ rest -> head_block w -> judge trim uri_of w c (Refuse 501) ->
    conversation trim uri_of cap o tl h (l1 ++ l2) [(c, bare 501)] AErr.

(** The bytes due for such a list of responses. *)
Definition go_ahead : bytes := B "HTTP/1.1 100 Continue" ++ CRLF ++ CRLF.
Inductive transcript (date : bytes) : list (bool * response) -> bytes -> Prop :=
| tr_nil : transcript date [] []
| tr_cons c r xs m t : message date r m -> transcript date xs t ->
    transcript date ((c, r) :: xs) ((if c : bool then go_ahead else []) ++ m ++ t).

(** ** Conversations in which request bodies are handed on
    A handler that answers with the request's own body: [set_body(req.into_body())] and [send],
    then success. The response due, [r], has the request's length and its bytes as a body. *)
Definition hands_on (p : bytes) (len : option N) (r : response) (x : reading pre) : Prop :=
  b_len (r_body r) = len /\ src_data (b_src (r_body r)) = p /\
  exists kok kerr, (forall n, kok n = None) /\ x = Rt (PRelay (r_status r) (r_version r) (r_headers r) len kok kerr).

(** As [conversation]; a request may be answered either way. *)
Inductive dialogue (trim : bool) (uri_of : bytes -> option uri) (cap : nat) (o : opts) (tl : rtail) (h : nat -> handler)
  : list ev -> list (bool * response) -> aout -> Prop :=
| dg_end l : no_head (fst (avail (o_timeout o) l)) ->
    (snd (avail (o_timeout o) l) = ObTimer \/ (snd (avail (o_timeout o) l) = ObEnd /\ tl = Eof)) ->
    dialogue trim uri_of cap o tl h l [] AOk
| dg_request l1 l2 w wb p c m u hs len r xs a :
    avail (o_timeout o) l1 = (w ++ wb, ObEnd) -> head_block w ->
    judge trim uri_of w c (Accept m u hs len) -> body_wire cap len p wb ->
    (forall q, presents q m u hs len -> serves (o_verbose o) (chunked_len len) p r (h O q) \/ hands_on p len r (h O q)) ->
    dialogue trim uri_of cap o tl (later h) l2 xs a ->
    dialogue trim uri_of cap o tl h (l1 ++ l2) ((c, r) :: xs) a
| dg_refused l1 l2 w c code xs a :
    avail (o_timeout o) l1 = (w, ObEnd) -> head_block w -> judge trim uri_of w c (Refuse code) -> code <> 501%N ->
    dialogue trim uri_of cap o tl (later h) l2 xs a ->
    dialogue trim uri_of cap o tl h (l1 ++ l2) ((c, bare code) :: xs) a
| dg_encoding l1 l2 w rest c :
    fst (avail (o_timeout o) l1) = w ++ rest -> head_block w -> judge trim uri_of w c (Refuse 501) ->
    dialogue trim uri_of cap o tl h (l1 ++ l2) [(c, bare 501)] AErr.

(** ** Single requests
    The connection delivers the head block [w] before anything stops the server from reading. *)
Definition offers (tmo : bool) (s : src) (w : bytes) : Prop :=
  wf_src s /\ head_block w /\ exists rest, fst (avail tmo (s_evs s)) = w ++ rest.

(** The server answers what [s] offers with an empty response of status [code] (after a 100
    Continue if [c]) without calling any handler; then it goes on with what is left of the
    connection, or, for 501, returns the error. The first conjunct holds for every writer: the
    result of the turn is the same for all handlers. *)
Definition refused (ev : env) (o : opts) (s : src) (c : bool) (code : N) : Prop :=
  (forall wt fuel h h', turn fuel ev o h s wt = turn fuel ev o h' s wt) /\
  exists m, message (e_date ev) (bare code) m /\
  forall wt, accepting wt -> prompt (o_timeout o) wt ->
  exists F s' wt', w_out wt' = w_out wt ++ (if c then go_ahead else []) ++ m /\
    forall h n fuel, (F <= fuel)%nat ->
      accept_go (S n) fuel ev o h s wt = if (code =? 501)%N then (s', wt', AErr) else accept_go n fuel ev o (later h) s' wt'.

(** Two results of [decode] that hand the same request, and bodies over the same bytes, to the
    handler, or are the same failure. *)
Inductive same_request (tmo : bool) : outcome -> outcome -> Prop :=
| same_fixed q n b1 b2 : br_buf b1 ++ fst (avail tmo (s_evs (br_src b1))) = br_buf b2 ++ fst (avail tmo (s_evs (br_src b2))) ->
    same_request tmo (OReq q (RFixed n b1)) (OReq q (RFixed n b2))
| same_chunked q ev b1 b2 : br_buf b1 ++ fst (avail tmo (s_evs (br_src b1))) = br_buf b2 ++ fst (avail tmo (s_evs (br_src b2))) ->
    same_request tmo (OReq q (RChunked [] (dec_new ev b1))) (OReq q (RChunked [] (dec_new ev b2)))
| same_none : same_request tmo ONone ONone
| same_fail f : same_request tmo (OFail f) (OFail f)
| same_timeout : same_request tmo OTimeout OTimeout.

(** The bytes of the connection that a request body's readers have not delivered yet: those
    already taken from the transport but kept in some buffer, and those still to come. *)
Definition unread (b : rbody) : bytes :=
  match b with RFixed _ b => br_data b | RChunked buf d => buf ++ k_data (d_blk d) ++ br_data (d_in d) end.

(** [rest_of l l']: [l'] is what is left of a connection's events [l] after some have been
    taken, the last of them perhaps only in part. *)
Inductive rest_of : list ev -> list ev -> Prop :=
| ro_here l : rest_of l l
| ro_drop e l l' : rest_of l l' -> rest_of (e :: l) l'
| ro_cut x y l l' : rest_of (Data y :: l) l' -> rest_of (Data (x ++ y) :: l) l'.

(** All results of a program satisfy [P], whatever its polls return. *)
CoInductive always {A} (P : A -> Prop) : reading A -> Prop :=
| al_poll n k : (forall r, always P (k r)) -> always P (Rd n k)
| al_ret a : P a -> always P (Rt a).

(** A handler's decision that leads to one response: it fails before sending, or it sends a
    response that can be sent completely, and then does not fail. (A response that passes on
    the request's body breaks off where the request does.) *)
Definition one_reply (ev : env) (verbose : bool) (x : pre) : Prop :=
  match x with
  | PFail g => sendable ev (glitch_response verbose g)
  | PSend r kok _ => sendable ev r /\ forall n, always (fun g => g = None) (kok n)
  | PRelay _ _ _ _ _ _ => False
  end.

(** Everything the writer has taken has been flushed. *)
Definition all_flushed (w : wtr) : Prop := w_flushed w = length (w_out w).

(** A handler all of whose glitches can be sent (whatever becomes of its responses). *)
Definition fails_legally (ev : env) (verbose : bool) (x : pre) : Prop :=
  match x with
  | PFail g => sendable ev (glitch_response verbose g)
  | PSend r kok kerr =>
      (forall n, always (fun z => match z with Some g => sendable ev (glitch_response verbose g) | None => True end) (kok n)) /\
      always (fun g => sendable ev (glitch_response verbose g)) kerr
  | PRelay _ _ _ _ kok kerr =>
      (forall n g, kok n = Some g -> sendable ev (glitch_response verbose g)) /\ sendable ev (glitch_response verbose kerr)
  end.

(** An event that brings data; and: the connection has not got to [rest] yet, and something (at
    least the wait in front of it) is still to be taken before it. *)
Definition is_data (x : ev) : Prop := match x with Data _ => True | _ => False end.
Definition untouched (rest : list ev) (s : src) : Prop := exists l, l <> [] /\ s_evs s = l ++ rest.

(** ** Bodies handed over in time
    The reader [b] of a message body; [held] has been taken from the connection already, then [evs]
    come up to the next wait, and [rest] after that. [arrived] is the part of the body that has
    arrived: the wait is passed only when all of it has been handed over, whatever the sizes of the
    reads, and that takes a bounded number of them. *)
Definition passes_on (ev : env) (b : rbody) (rest : list Io.ev) (most : nat) (arrived : bytes) : Prop :=
  forall ns b' out k, Forall (fun n => 0 < n)%nat ns -> reads (body_read ev) ns b = (b', out, k) ->
  prefix arrived out \/ (prefix out arrived /\ k = Going /\ (length ns <= most)%nat /\ untouched rest (body_src b')).
(** All of the body [p] has arrived: the reader reports its end without passing the wait. *)
Definition tells_end (ev : env) (b : rbody) (rest : list Io.ev) (most : nat) (p : bytes) : Prop :=
  forall ns b' out k, Forall (fun n => 0 < n)%nat ns -> reads (body_read ev) ns b = (b', out, k) ->
  untouched rest (body_src b') /\ ((k = Ended /\ out = p) \/ (k = Going /\ prefix out p /\ (length ns <= most)%nat)).
(** ... for a body framed as [len] says (chunked: a message that fits, see [fitting]). *)
Definition in_time (ev : env) (len : option N) (held : bytes) (b : rbody) : Prop :=
  forall evs f rest tl, body_src b = mkSrc (evs ++ Pend f :: rest) tl -> clean_evs evs ->
  let got := held ++ evs_data evs in
  let most := (length held + evs_size (evs ++ [Pend f]))%nat in
  match len with
  | Some n => passes_on ev b rest most (firstn (N.to_nat n) got) /\
      ((n <= N.of_nat (length got))%N -> tells_end ev b rest most (firstn (N.to_nat n) got))
  | None => forall p tr wire, fitting (e_deccap ev) p tr wire ->
      (forall cut, wire = got ++ cut -> cut <> [] -> exists arrived, prefix arrived p /\ carried arrived got /\ passes_on ev b rest most arrived) /\
      (forall extra, got = wire ++ extra -> tells_end ev b rest most p)
  end.

(** A read of the reader [b] that is told to wait, after any reads before it, has itself polled the
    connection, which gave nothing but data before it said "not yet" (and so wakes the task). *)
Definition waits_rightly (ev : env) (b : rbody) : Prop :=
  forall ns b1 out n b2 f, Forall (fun n => 0 < n)%nat ns -> reads (body_read ev) ns b = (b1, out, Going) -> body_read ev n b1 = (b2, PPend f) ->
  exists ds, Forall is_data ds /\ s_evs (body_src b1) = ds ++ Pend f :: s_evs (body_src b2).

(** [exchange trim uri_of cap o h l xs]: [l] carries complete requests, each in transport segments of
    its own, and [xs] are the responses due for them; what follows [l] is left open. *)
Inductive exchange (trim : bool) (uri_of : bytes -> option uri) (cap : nat) (o : opts)
  : (nat -> handler) -> list ev -> list (bool * response) -> Prop :=
| xc_nil h : exchange trim uri_of cap o h [] []
| xc_request h l1 l2 w wb p c m u hs len r xs :
    avail (o_timeout o) l1 = (w ++ wb, ObEnd) -> head_block w ->
    judge trim uri_of w c (Accept m u hs len) -> body_wire cap len p wb ->
    (forall q, presents q m u hs len -> serves (o_verbose o) (chunked_len len) p r (h O q)) ->
    exchange trim uri_of cap o (later h) l2 xs ->
    exchange trim uri_of cap o h (l1 ++ l2) ((c, r) :: xs)
| xc_refused h l1 l2 w c code xs :
    avail (o_timeout o) l1 = (w, ObEnd) -> head_block w -> judge trim uri_of w c (Refuse code) -> code <> 501%N ->
    exchange trim uri_of cap o (later h) l2 xs ->
    exchange trim uri_of cap o h (l1 ++ l2) ((c, bare code) :: xs).

(** ** Handlers that behave, whatever arrives
    [heeds go P Q p]: the program [p] may read the body on and on, but not after a read has
    failed; its result satisfies [P], or [Q] when a read has failed. If [go] is false it also
    reads with non-empty buffers only and stops at the end of the body. *)
CoInductive heeds {A} (go : bool) (P Q : A -> Prop) : reading A -> Prop :=
| hd_ret a : P a -> heeds go P Q (Rt a)
| hd_read n k : (go = false -> 0 < n)%nat ->
    (forall f, heeds go P Q (k (PPend f))) ->
    (forall x, go = true \/ x <> [] -> heeds go P Q (k (POk x))) ->
    (go = false -> exists a, k (POk []) = Rt a /\ P a) ->
    (exists a, k PErr = Rt a /\ Q a) ->
    heeds go P Q (Rd n k).
(** A program of which nothing is read any more. *)
Definition settled {A} (P : A -> Prop) (p : reading A) : Prop := exists a, p = Rt a /\ P a.

(** Responses whose sending cannot panic (see C08), and those whose sending moreover ends (C07). *)
Definition harmless (ev : env) (r : response) : Prop :=
  resp_wf r /\ wf_src (b_src (r_body r)) /\
  match b_len (r_body r) with
  | Some n => (n + N.of_nat (e_bufcap ev) < two64)%N
  | None => ~ pinched ev r
  end.
Definition ending (ev : env) (r : response) : Prop :=
  harmless ev r /\
  match b_len (r_body r) with
  | Some n => (n <= N.of_nat (length (src_data (b_src (r_body r)))))%N \/ ~ clean (b_src (r_body r))
  | None => True
  end.

(** A handler's decision is safe: what it sends is in [ok], and afterwards it keeps to [heeds].
    [seen]: a read has failed already. A handler that answers with its request's body does so
    before a read has failed, and with a response that is in [ok] whatever the body turns out to
    be; if [go] is false, without declaring a length, since the body may turn out shorter (C87). *)
Definition safe_choice (go : bool) (ok : response -> Prop) (verbose : bool) (seen : bool) (x : pre) : Prop :=
  let fails g := ok (glitch_response verbose g) in
  let after g := match g with Some g => fails g | None => True end in
  match x with
  | PFail g => fails g
  | PSend r kok kerr => ok r /\
      if seen then (forall n, settled after (kok n)) /\ settled fails kerr
      else (forall n, heeds go after after (kok n)) /\ heeds go fails fails kerr
  | PRelay st v hs len kok kerr => seen = false /\ (go = false -> len = None) /\
      (forall s, wf_src s -> ok (mkResp st v hs (mkBody len s))) /\ (forall n, after (kok n)) /\ fails kerr
  end.
Definition safe_handler (go : bool) (ok : response -> Prop) (verbose : bool) (p : reading pre) : Prop :=
  heeds go (safe_choice go ok verbose false) (safe_choice go ok verbose true) p.

(** ** The timer and the rest of a connection *)
(** Two ways for the same segments to arrive with the same waiting in between; they may differ
    in when the connection's timer has run out. *)
Definition same_ev (e1 e2 : ev) : Prop := match e1, e2 with Pend _, Pend _ => True | _, _ => e1 = e2 end.
Definition same_but_timer (s1 s2 : src) : Prop := Forall2 same_ev (s_evs s1) (s_evs s2) /\ s_tail s1 = s_tail s2.
(** Handlers know nothing of the timer. *)
CoInductive deaf {A} (P : A -> Prop) : reading A -> Prop :=
| df_read n k : k (PPend true) = k (PPend false) -> (forall r, deaf P (k r)) -> deaf P (Rd n k)
| df_done a : P a -> deaf P (Rt a).
Definition deaf_handler : reading pre -> Prop :=
  deaf (fun x => match x with PSend _ kok kerr => (forall n, deaf (fun _ => True) (kok n)) /\ deaf (fun _ => True) kerr | _ => True end).
