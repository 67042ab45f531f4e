(** Properties C91-C93: what has been produced or has arrived is passed on before anybody waits for
    more. *)
From Verif Require Import Accept Reads SpecChunked SpecHead SpecResponse SpecReq SpecServer SpecBody Lemmas Proofs_Copy Proofs_ServerEnc
  Proofs_Head Proofs_Send Proofs_Buf Proofs_Dec Proofs_DecMsg Proofs_DecReads Proofs_Map Proofs_ServerDec Proofs_Body Proofs_Accept Proofs_Request
  Proofs_RelayReq Proofs_Stream Proofs_Prompt Proofs_InTime Examples_Response Examples_Dec Examples_Request Properties_Body.

(** C91: when a response body's reader has produced [evs] and then makes the sender wait, the head
    and a chunked framing of all data produced so far are on the wire, whatever the reader does
    after that ([rest], [tl]: also if it fails at once). *)
Theorem C91_chunked : forall ev r evs f, env_ok ev -> resp_wf r -> Forall wf_ev evs -> clean_evs evs -> b_len (r_body r) = None ->
  exists head cw, response_head (e_date ev) r head /\ chunks plain_size_line (evs_data evs) cw /\
  forall w, accepting w -> exists enough, forall rest tl fuel, (enough <= fuel)%nat ->
    prefix (w_out w ++ head ++ cw) (w_out (fst (send fuel ev (set_src r (mkSrc (evs ++ Pend f :: rest) tl)) w))).
Proof.
  intros ev r evs f (He & H7 & H64 & Hx & _) Hr Hw Hc Hb. destruct (stream_chunked ev r evs f Hw Hc H7 H64 Hx Hb) as (cw & Q1 & Q2).
  exists (head_text ev r), cw. split; [now apply head_response|]. auto.
Qed.
Print Assumptions C91_chunked.
Theorem C91_fixed : forall ev r evs f n, env_ok ev -> resp_wf r -> Forall wf_ev evs -> clean_evs evs -> b_len (r_body r) = Some n ->
  (n + N.of_nat (e_bufcap ev) < two64)%N ->
  exists head, response_head (e_date ev) r head /\
  forall w, accepting w -> exists enough, forall rest tl fuel, (enough <= fuel)%nat ->
    prefix (w_out w ++ head ++ firstn (N.to_nat n) (evs_data evs)) (w_out (fst (send fuel ev (set_src r (mkSrc (evs ++ Pend f :: rest) tl)) w))).
Proof.
  intros ev r evs f n (He & H7 & H64 & Hx & _) Hr Hw Hc Hb Hn.
  exists (head_text ev r). split; [now apply head_response|]. apply (stream_fixed ev r evs f n); auto. clear -H7. lia.
Qed.
Print Assumptions C91_fixed.
(** A reader that produces "he" and "llo", makes the sender wait and then fails. *)
Example C91_case : env_ok (ev0 true) /\ resp_wf (resp1 None) /\ Forall wf_ev [Data (B "he"); Pend false; Data (B "llo")] /\
  clean_evs [Data (B "he"); Pend false; Data (B "llo")] /\ accepting slow /\
  skipn 151 (w_out (fst (send 40 (ev0 true) (set_src (resp1 None) (mkSrc [Data (B "he"); Pend false; Data (B "llo"); Pend false] FailForever)) slow))) =
    B "2" ++ CRLF ++ B "he" ++ CRLF ++ B "3" ++ CRLF ++ B "llo" ++ CRLF.
Proof.
  split; [apply ev0_ok|]. split; [apply resp1_wf|]. split; [repeat constructor; discriminate|]. split; [repeat constructor; discriminate|]. split; [apply slow_accepting|].
  vm_compute. reflexivity.
Qed.
Example C91_fixed_case :
  skipn 142 (w_out (fst (send 40 (ev0 true) (set_src (resp1 (Some 7%N)) (mkSrc [Data (B "he"); Pend false; Data (B "llo"); Pend false] FailForever)) slow))) = B "hello".
Proof. vm_compute. reflexivity. Qed.

(** C92: data of a request body that has arrived is handed to the handler before the connection is
    waited on. Of what comes after the head [w], [held] has been taken from the connection already. *)
Theorem C92_in_time : forall ev tmo s wt s' wt' q b, env_ok ev -> wf_src s ->
  decode ev tmo s wt = (s', wt', OReq q b) ->
  exists w held, offers tmo s w /\ src_data s = w ++ held ++ src_data (body_src b) /\ in_time ev (q_len q) held b.
Proof.
  intros ev tmo s wt s' wt' q b He Ws H. destruct (request_reader ev tmo s wt s' wt' q b He Ws H) as (w & br & HO & HD & HW & HC & ->).
  exists w, (br_buf br). split; [exact HO|]. split; [now rewrite reader_src|now apply reader_in_time].
Qed.
Print Assumptions C92_in_time.
(** The second segment brings the size line and half a chunk; the third the rest. *)
Definition halves (f : bool) (rest : list ev) (tl : rtail) : src :=
  mkSrc ([Data (chunk_head ++ B "4"); Data (CRLF ++ B "Wi")] ++ Pend f :: rest) tl.
Example C92_case : exists s' wt' q b, decode (ev0 true) true (halves false [Data (skipn 5 wiki_wire)] Eof) slow = (s', wt', OReq q b) /\ q_len q = None /\
  body_src b = mkSrc ([Data (CRLF ++ B "Wi")] ++ Pend false :: [Data (skipn 5 wiki_wire)]) Eof /\
  wiki_wire = (B "4" ++ evs_data [Data (CRLF ++ B "Wi")]) ++ skipn 5 wiki_wire /\
  (exists b', reads (body_read (ev0 true)) [10%nat] b = (b', B "Wi", Going) /\ s_evs (body_src b') = [Pend false; Data (skipn 5 wiki_wire)]) /\
  (exists b', reads (body_read (ev0 true)) [10%nat; 10%nat] b = (b', B "Wi", Going) /\ s_evs (body_src b') = [Data (skipn 5 wiki_wire)]).
Proof.
  eexists _, _, _, _. split; [vm_compute; reflexivity|]. split; [reflexivity|]. split; [vm_compute; reflexivity|]. split; [vm_compute; reflexivity|].
  split; eexists; (split; [vm_compute; reflexivity|]; vm_compute; reflexivity).
Qed.
Example C92_end_case : exists s' wt' q b b', decode (ev0 true) true (mkSrc [Data (chunk_head ++ wiki_wire); Pend false] FailForever) slow = (s', wt', OReq q b) /\
  body_src b = mkSrc ([] ++ Pend false :: []) FailForever /\
  reads (body_read (ev0 true)) [10%nat; 10%nat; 10%nat] b = (b', B "Wikipedia", Ended) /\ s_evs (body_src b') = [Pend false].
Proof.
  eexists _, _, _, _, _. split; [vm_compute; reflexivity|]. split; [vm_compute; reflexivity|]. split; [vm_compute; reflexivity|]. vm_compute. reflexivity.
Qed.

(** C93: a read of a request body is told to wait only if the connection itself was polled in that
    very read, gave nothing but data before, and said "not yet" last (so that it wakes the task). *)
Theorem C93_waits : forall ev tmo s wt s' wt' q b, env_ok ev -> wf_src s ->
  decode ev tmo s wt = (s', wt', OReq q b) -> waits_rightly ev b.
Proof.
  intros ev tmo s wt s' wt' q b He Ws H. destruct (request_reader ev tmo s wt s' wt' q b He Ws H) as (w & br & _ & _ & HW & HC & ->). now apply reader_waits.
Qed.
Print Assumptions C93_waits.
Example C93_case : exists s' wt' q b b1 b2, decode (ev0 true) true (halves false [Data (skipn 5 wiki_wire)] Eof) slow = (s', wt', OReq q b) /\
  reads (body_read (ev0 true)) [10%nat] b = (b1, B "Wi", Going) /\ body_read (ev0 true) 10 b1 = (b2, PPend false).
Proof. eexists _, _, _, _, _, _. split; [vm_compute; reflexivity|]. split; [vm_compute; reflexivity|]. vm_compute. reflexivity. Qed.
(** C93 for sending, in every state of the encoder: it waits only on the body's reader. *)
Theorem C93_send_waits : forall fuel ev n e e' f, enc_poll fuel ev n e = (e', PPend f) ->
  exists ds, Forall is_data ds /\ s_evs (b_src (r_body (en_resp e))) = ds ++ Pend f :: s_evs (b_src (r_body (en_resp e'))).
Proof. exact enc_wait. Qed.
Print Assumptions C93_send_waits.
Example C93_send_case : exists e1 e2 x, enc_poll 9 (ev0 true) 500 (enc_new (set_src (resp1 None) (mkSrc [Pend false; Pend false; Data (B "he")] Eof))) = (e1, POk x) /\
  enc_poll 9 (ev0 true) 500 e1 = (e2, PPend false).
Proof. eexists _, _, _. split; [vm_compute; reflexivity|]. vm_compute. reflexivity. Qed.
