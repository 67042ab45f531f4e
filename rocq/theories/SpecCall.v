(** Specification: calls of the client that a server of this crate answers. *)
From Verif Require Import Client Accept SpecBody SpecChunked SpecHead SpecReq SpecResponse SpecServer SpecClient.

(** A call: the request given to the client, and the response the server's handler gives. *)
Definition call := (crequest * response)%type.

(** Requests that can be called with: the server understands them (see C64), and they do not ask
    for a 100 Continue, which the client takes for the response (see C78). *)
Definition callable (q : crequest) : Prop :=
  creq_wf q /\ addressed q /\ ordinary q /\ ~ wants_continue (hm_iter (c_hdrs q)).

(** Responses that can be answered with: they can be sent, and the client understands them
    (see C65). *)
Definition answerable (ev : env) (r : response) : Prop := sendable ev r /\ returnable r.

(** The server's handler, given the request of the client, reads its body and replies with [r]. *)
Definition handles (verbose : bool) (c : call) (h : handler) : Prop :=
  forall q', arrived (fst c) q' -> serves verbose false (src_data (b_src (c_body (fst c)))) (snd c) (h q').

(** Reading the body of the response yields [p]. *)
Definition yields_body (cev : env) (a : cresponse) (p : bytes) : Prop :=
  forall sz, (forall i, 0 < sz i)%nat -> settles (fun fuel => into_bytes cev fuel sz (a_body a)) (ROk p).
(** What the client's caller gets of the response [r]: its status, its fields and its body; of a
    response without declared length the body only (see C66). *)
Inductive got (sev cev : env) (r : response) (a : cresponse) : Prop :=
| got_all n fs : b_len (r_body r) = Some n -> a_status a = r_status r -> sent_fields (e_date sev) r fs -> holds (a_hdrs a) fs ->
    f_len (a_body a) = Some n -> yields_body cev a (firstn (N.to_nat n) (src_data (b_src (r_body r)))) -> got sev cev r a
| got_body : b_len (r_body r) = None -> a_status a = 200%N -> a_hdrs a = [] ->
    f_len (a_body a) = None -> yields_body cev a (src_data (b_src (r_body r))) -> got sev cev r a.

(** [over sev cev c m t]: the client puts the call [c] on the wire as [m], and returns the response
    of [c] if [t] comes back, whatever the pieces and whatever comes after [t]. The head of [t] has
    to be below the client's limit of 8 KiB, and chunks have to fit the client's buffer (see C13). *)
Definition over (sev cev : env) (c : call) (m t : bytes) : Prop :=
  exists head bt, response_head (e_date sev) (snd c) head /\ body_text (r_body (snd c)) bt /\ t = head ++ bt /\
  forall w, accepting w -> exists F w', w_out w' = w_out w ++ m /\
    ((N.of_nat (length head) < 8192)%N ->
     (b_len (r_body (snd c)) = None -> fitting (e_deccap cev) (src_data (b_src (r_body (snd c)))) [] bt) ->
     forall fuel s extra, (F <= fuel)%nat -> wf_src s -> fst (avail false (s_evs s)) = t ++ extra ->
      exists a, connect cev fuel (fst c) s w = (w', COk a) /\ got sev cev (snd c) a).

(** ** Calls one after the other on one transport
    A caller that reads every body to its end before the next call. The transport is as the reading
    has left it; the reader of a response without body is not the transport, which then is as the
    decoding of the head has left it. What a [BufReader] still holds goes with its response. *)
Fixpoint calls (ev : env) (fuel : nat) (sz : nat -> nat) (qs : list crequest) (s : src) (w : wtr) : src * wtr * list (cout * rres bytes) :=
  match qs with
  | [] => (s, w, [])
  | q :: qs =>
      match connect ev fuel q s w with
      | (w1, COk a) =>
          let (r, p) := read_to_end ev fuel sz (f_rdr (a_body a)) in
          let s1 := match r with RMsg b => body_src b | RSrc _ => br_src (fst (c_decode ev s)) end in
          let '(s2, w2, l) := calls ev fuel sz qs s1 w1 in (s2, w2, (COk a, p) :: l)
      | (w1, o) => (s, w1, [(o, RErr)])
      end
  end.

(** [reply ev t v p]: the bytes [t] are one response with its body [p]. *)
Inductive reply (ev : env) : bytes -> cverdict -> bytes -> Prop :=
| ry_length w code hs p : resp_block w -> cjudge (e_trim ev) w (CvLength code hs (N.of_nat (length p))) ->
    reply ev (w ++ p) (CvLength code hs (N.of_nat (length p))) p
| ry_chunked w p tr wire : resp_block w -> cjudge (e_trim ev) w CvChunked -> fitting (e_deccap ev) p tr wire -> reply ev (w ++ wire) CvChunked p
| ry_none w code hs : resp_block w -> cjudge (e_trim ev) w (CvNone code hs) -> reply ev w (CvNone code hs) [].

(** What the caller gets of it (see C66 for chunked responses). *)
Inductive returned (ev : env) : cverdict -> bytes -> cout * rres bytes -> Prop :=
| rt_length code hs n p m f : holds m (dated (e_date ev) hs) -> f_len f = Some n -> returned ev (CvLength code hs n) p (COk (mkCresp code m f), ROk p)
| rt_chunked p f : f_len f = None -> returned ev CvChunked p (COk (mkCresp 200 [] f), ROk p)
| rt_none code hs m f : holds m (dated (e_date ev) hs) -> f_len f = Some 0%N -> returned ev (CvNone code hs) [] (COk (mkCresp code m f), ROk []).

(** Requests that can be written. *)
Definition askable (q : crequest) : Prop :=
  creq_wf q /\ addressed q /\ (exists n, b_len (c_body q) = Some n) /\ wf_src (b_src (c_body q)) /\ clean (b_src (c_body q)).
(** ... and as what. *)
Definition asks (q : crequest) (m : bytes) : Prop := exists h, creq_head q h /\ m = h ++ src_data (b_src (c_body q)).

(** [told sev r v p]: a reply that says what the response [r] is. *)
Inductive told (sev : env) (r : response) : cverdict -> bytes -> Prop :=
| td_all n fs : b_len (r_body r) = Some n -> sent_fields (e_date sev) r fs -> told sev r (CvLength (r_status r) fs n) (firstn (N.to_nat n) (src_data (b_src (r_body r))))
| td_body : b_len (r_body r) = None -> told sev r CvChunked (src_data (b_src (r_body r))).
