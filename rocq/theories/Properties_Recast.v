(** Property C128: a received body sent on under a length of the handler's choice,
    [Body::from_reader(req.into_body(), len)]. *)
From Verif Require Import Relay Accept Reads SpecChunked SpecHead SpecResponse SpecReq SpecServer SpecBody Lemmas Proofs_Copy Proofs_ServerEnc
  Proofs_Head Proofs_Send Proofs_Buf Proofs_ServerDec Proofs_Accept Proofs_Request Proofs_Relay Proofs_RelayReq Proofs_Recast Proofs_Over
  Examples_Response Examples_Dec Examples_Request Properties_Body.

(** With [Some k], no more than the request carries: the response declares [k] bytes and carries
    the first [k] of the request's payload, however that was framed. *)
Theorem C128_shorter_partial : forall ev tmo s wt s' wt' q b k st v hs, env_ok ev -> wf_src s ->
  decode ev tmo s wt = (s', wt', OReq q b) -> hm_wf hs -> (k + N.of_nat (e_bufcap ev) < two64)%N ->
  let y := relay_of st v hs (msg_body (Some k) b) in
  exists w rest head, offers tmo s w /\ src_data s = w ++ rest /\ response_head (e_date ev) (announced st v hs (Some k)) head /\
  forall p wb extra, body_wire (e_deccap ev) (q_len q) p wb -> rest = wb ++ extra -> (k <= N.of_nat (length p))%N ->
  forall wr, accepting wr ->
  exists wr', settles (fun fuel => relay fuel ev y wr) (wr', ROk (N.of_nat (length head) + k)%N) /\
    w_out wr' = w_out wr ++ head ++ firstn (N.to_nat k) p.
Proof.
  intros ev tmo s wt s' wt' q b k st v hs He Ws H Hh Hk y. subst y. destruct (request_reader ev tmo s wt s' wt' q b He Ws H) as (w & br & HO & HD & HW & _ & ->).
  exists w, (br_data br). eexists. split; [exact HO|]. split; [exact HD|]. split; [apply head_response; [exact Hh|apply He]|].
  intros p wb extra BW HE L wr A. destruct (complete_yields ev _ br p wb extra HW BW HE) as (m & HY).
  exact (recast_shorter ev _ br p m st v hs He HY k wr Hk L A).
Qed.
Print Assumptions C128_shorter_partial.
Example C128_shorter_case : exists s' wt' q b, decode (ev0 true) true (arrives chunk_head (wiki_wire ++ B "GET /")) slow = (s', wt', OReq q b) /\
  body_wire (e_deccap (ev0 true)) (q_len q) (B "Wikipedia") wiki_wire /\
  exists wr', relay 60 (ev0 true) (relay_of 200 HTTP_11 [] (msg_body (Some 4%N) b)) slow = (wr', ROk 119%N) /\ skipn 115 (w_out wr') = B "Wiki".
Proof.
  eexists _, _, _, _. split; [vm_compute; reflexivity|]. split; [exists [(B "Expires", B "never")]; exact wiki_fits|]. eexists.
  split; [vm_compute; reflexivity|]. vm_compute. reflexivity.
Qed.

(** With [None]: the payload in chunks, and ended, unless it is empty and the head has one of
    the lengths of C08. *)
Theorem C128_chunked_partial : forall ev tmo s wt s' wt' q b st v hs, env_ok ev -> wf_src s ->
  decode ev tmo s wt = (s', wt', OReq q b) -> hm_wf hs ->
  let y := relay_of st v hs (msg_body None b) in
  exists w rest head, offers tmo s w /\ src_data s = w ++ rest /\ response_head (e_date ev) (announced st v hs None) head /\
  forall p wb extra, body_wire (e_deccap ev) (q_len q) p wb -> rest = wb ++ extra -> ~ (p = [] /\ eos_window (e_bufcap ev) (length head)) ->
  forall wr, accepting wr -> exists wr' cw, chunks plain_size_line p cw /\
    settles (fun fuel => relay fuel ev y wr) (wr', ROk (N.of_nat (length (head ++ cw ++ last_chunk)))) /\
    w_out wr' = w_out wr ++ head ++ cw ++ last_chunk.
Proof.
  intros ev tmo s wt s' wt' q b st v hs He Ws H Hh y. subst y. destruct (request_reader ev tmo s wt s' wt' q b He Ws H) as (w & br & HO & HD & HW & _ & ->).
  exists w, (br_data br). eexists. split; [exact HO|]. split; [exact HD|]. split; [apply head_response; [exact Hh|apply He]|].
  intros p wb extra BW HE NW wr A. destruct (complete_yields ev _ br p wb extra HW BW HE) as (m & HY).
  exact (recast_chunked ev _ br p m st v hs He HY wr A NW).
Qed.
Print Assumptions C128_chunked_partial.
Example C128_chunked_case : exists s' wt' q b, decode (ev0 true) true (arrives post_head (B "hello")) slow = (s', wt', OReq q b) /\
  body_wire (e_deccap (ev0 true)) (q_len q) (B "hello") (B "hello") /\
  exists wr' n, relay 60 (ev0 true) (relay_of 200 HTTP_11 [] (msg_body None b)) slow = (wr', ROk n) /\
    skipn 124 (w_out wr') = B "5" ++ CRLF ++ B "hello" ++ CRLF ++ B "0" ++ CRLF ++ CRLF.
Proof.
  eexists _, _, _, _. split; [vm_compute; reflexivity|]. split; [split; reflexivity|]. eexists _, _.
  split; [vm_compute; reflexivity|]. vm_compute. reflexivity.
Qed.

(** With more than a request of declared length carries, the answer is never finished: sending
    it spins for ever, though the request is complete. *)
Theorem C128_longer_hangs : forall ev tmo s wt s' wt' q b n k st v hs, env_ok ev -> wf_src s ->
  decode ev tmo s wt = (s', wt', OReq q b) -> q_len q = Some n -> (n < k)%N -> (k + N.of_nat (e_bufcap ev) < two64)%N ->
  exists w rest, offers tmo s w /\ src_data s = w ++ rest /\
  ((n <= N.of_nat (length rest))%N -> forall wr, accepting wr ->
   forall fuel, snd (relay fuel ev (relay_of st v hs (msg_body (Some k) b)) wr) = RFuel).
Proof.
  intros ev tmo s wt s' wt' q b n k st v hs He Ws H Hn L Hk. destruct (request_reader ev tmo s wt s' wt' q b He Ws H) as (w & br & HO & HD & HW & _ & ->).
  rewrite Hn. cbn [body_reader]. exists w, (br_data br). split; [exact HO|]. split; [exact HD|]. intros HC wr A. now apply recast_longer.
Qed.
Print Assumptions C128_longer_hangs.
(** However the request was framed, and whatever the connection of the answer does: an answer
    with more announced than the payload has is never reported as sent, and no more than its
    head and the payload is written. *)
Theorem C128_longer_unsent : forall ev tmo s wt s' wt' q b k st v hs, env_ok ev -> wf_src s ->
  decode ev tmo s wt = (s', wt', OReq q b) -> hm_wf hs -> (k + N.of_nat (e_bufcap ev) < two64)%N ->
  exists w rest head, offers tmo s w /\ src_data s = w ++ rest /\ response_head (e_date ev) (announced st v hs (Some k)) head /\
  forall p wb extra, body_wire (e_deccap ev) (q_len q) p wb -> rest = wb ++ extra -> (N.of_nat (length p) < k)%N ->
  forall fuel wr wr' x, relay fuel ev (relay_of st v hs (msg_body (Some k) b)) wr = (wr', x) ->
  (forall j, x <> ROk j) /\ exists o, prefix o (head ++ p) /\ w_out wr' = w_out wr ++ o.
Proof.
  intros ev tmo s wt s' wt' q b k st v hs He Ws H Hh Hk. destruct (request_reader ev tmo s wt s' wt' q b He Ws H) as (w & br & HO & HD & HW & _ & ->).
  exists w, (br_data br). eexists. split; [exact HO|]. split; [exact HD|]. split; [apply head_response; [exact Hh|apply He]|].
  intros p wb extra BW HE L fuel wr wr' x R. destruct (complete_yields ev _ br p wb extra HW BW HE) as (m & HY).
  refine (over_relay ev k (ok_big ev He) Hk (relay_of st v hs (msg_body (Some k) (body_reader ev (q_len q) br))) p fuel wr wr' x eq_refl _ L R). left. eauto.
Qed.
Print Assumptions C128_longer_unsent.
Example C128_longer_case : exists s' wt' q b, decode (ev0 true) true (arrives chunk_head (wiki_wire ++ B "GET /")) slow = (s', wt', OReq q b) /\
  body_wire (e_deccap (ev0 true)) (q_len q) (B "Wikipedia") wiki_wire /\
  exists wr', relay 60 (ev0 true) (relay_of 200 HTTP_11 [] (msg_body (Some 12%N) b)) slow = (wr', RFuel) /\ w_out wr' = [].
Proof.
  eexists _, _, _, _. split; [vm_compute; reflexivity|]. split; [exists [(B "Expires", B "never")]; exact wiki_fits|]. eexists.
  split; [vm_compute; reflexivity|]. vm_compute. reflexivity.
Qed.
Theorem C128_returns_refuted : exists ev tmo s wt s' wt' q b k, env_ok ev /\ wf_src s /\ decode ev tmo s wt = (s', wt', OReq q b) /\
  (exists w wb, src_data s = w ++ wb /\ offers tmo s w /\ body_wire (e_deccap ev) (q_len q) (B "hello") wb) /\
  forall wr, accepting wr -> forall fuel, snd (relay fuel ev (relay_of 200 HTTP_11 [] (msg_body (Some k) b)) wr) = RFuel.
Proof.
  assert (W : wf_src (arrives post_head (B "hello"))) by (apply arrives_wf; cbn; lia).
  assert (D : exists s' wt' q b, decode (ev0 true) true (arrives post_head (B "hello")) slow = (s', wt', OReq q b) /\ q_len q = Some 5%N)
    by (eexists _, _, _, _; split; [vm_compute; reflexivity|reflexivity]).
  destruct D as (s' & wt' & q & b & D & Hq). exists (ev0 true), true, (arrives post_head (B "hello")), slow, s', wt', q, b, 6%N.
  assert (OF : offers true (arrives post_head (B "hello")) post_head) by (apply arrives_offers; [cbn; lia|vm_compute; reflexivity]).
  split; [apply ev0_ok|]. split; [exact W|]. split; [exact D|].
  destruct (C128_longer_hangs _ _ _ _ _ _ _ _ _ 6 200 HTTP_11 [] (ev0_ok true) W D Hq eq_refl (ev0_fits true 6 eq_refl)) as (w & rest & HO & HD & Q).
  assert (w = post_head) by exact (offers_unique true _ _ _ HO OF). subst w.
  assert (ER : rest = B "hello") by (apply (app_inv_head post_head); rewrite <- HD; vm_compute; reflexivity). subst rest. split.
  - exists post_head, (B "hello"). split; [exact HD|]. split; [exact OF|]. rewrite Hq. split; reflexivity.
  - apply Q. cbn. lia.
Qed.
Print Assumptions C128_returns_refuted.
