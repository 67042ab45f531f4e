(** Property C105: event streams ([set_sse]). *)
From Verif Require Import Accept RespWriter SpecChunked SpecHead SpecResponse SpecReq SpecServer SpecWriter Lemmas Proofs_Copy Proofs_ServerEnc Proofs_Head
  Proofs_Send Proofs_Accept Proofs_Stream Proofs_Writer Proofs_Sse Examples_Response Examples_Request Properties_Response Proofs_Length.

(** C105: a stream that ends is sent completely: all its events, in order, and the end. *)
Theorem C105_complete : forall ev r l, env_ok ev -> resp_wf r -> ~ In SErr l -> events l <> [] ->
  exists head cw, event_stream head /\ chunks plain_size_line (events l) cw /\
  forall w, accepting w -> exists F w' n, forall fuel, (F <= fuel)%nat ->
    send fuel ev (rw_set_sse l r) w = (w', ROk n) /\ w_out w' = w_out w ++ head ++ cw ++ last_chunk.
Proof.
  intros ev r l (He & H7 & H64 & Hx & _) W C N. assert (D : src_data (stream_src l) = events l) by apply stream_data.
  destruct (C02_chunked_exact ev (rw_set_sse l r) He (sse_wf l r W) (stream_wf l) H7 H64 Hx eq_refl) as (head & RH & H).
  { split; [now apply stream_clean|reflexivity]. }
  destruct H as (cw & HC & H). { intros [H0 _]. apply at_end_data in H0. change (src_data (stream_src l) = []) in H0. rewrite D in H0. contradiction. }
  exists head, cw. split; [now apply (sse_head (e_date ev) l r)|]. split; [rewrite <- D; exact HC|]. intros w Ha. destruct (H w Ha) as (F & w' & Q). exists F, w'. eauto.
Qed.
Print Assumptions C105_complete.
(** ... every event is on the wire before the stream is waited on for the next one, whatever the
    stream does after that ... *)
Theorem C105_prompt : forall ev r l f, env_ok ev -> resp_wf r -> ~ In SErr l ->
  exists head cw, event_stream head /\ chunks plain_size_line (events l) cw /\
  forall w, accepting w -> exists enough, forall later fuel, (enough <= fuel)%nat ->
    prefix (w_out w ++ head ++ cw) (w_out (fst (send fuel ev (rw_set_sse (l ++ SPend f :: later) r) w))).
Proof.
  intros ev r l f (He & H7 & H64 & Hx & _) W C.
  destruct (stream_chunked ev (rw_set_sse l r) (stream_evs l) f (stream_wf l)) as (cw & Q1 & Q2); auto; [now apply stream_clean|].
  exists (head_text ev (rw_set_sse l r)), cw. split; [apply (sse_head (e_date ev) l r _ W); apply head_response; [now apply sse_wf|exact He]|].
  split; [now rewrite <- stream_data|]. intros w Ha. destruct (Q2 w Ha) as (F & Q). exists F. intros later fuel HF.
  specialize (Q (stream_evs later) Eof fuel HF). unfold rw_set_sse, stream_src. rewrite stream_app by exact C. exact Q.
Qed.
Print Assumptions C105_prompt.
(** ... and a stream that fails is cut off: the client gets events from the start, never the end. *)
Theorem C105_failed : forall ev r l, env_ok ev -> resp_wf r -> In SErr l ->
  exists head p cw, event_stream head /\ prefix p (events l) /\ chunks plain_size_line p cw /\
  forall w, exists F w' out, (forall fuel, (F <= fuel)%nat -> send fuel ev (rw_set_sse l r) w = (w', RErr)) /\
    w_out w' = w_out w ++ out /\ prefix out (head ++ cw).
Proof.
  intros ev r l (He & H7 & H64 & Hx & _) W C. assert (D : src_data (stream_src l) = events l) by apply stream_data.
  destruct (C09_read_failure_chunked ev (rw_set_sse l r) He (sse_wf l r W) (stream_wf l) H7 H64 Hx eq_refl) as (head & RH & p & cw & HP & HC & H).
  { intros [K _]. apply (proj1 (stream_clean l)) in K. contradiction. }
  exists head, p, cw. split; [now apply (sse_head (e_date ev) l r)|]. split; [rewrite <- D; exact HP|]. split; [exact HC|exact H].
Qed.
Print Assumptions C105_failed.
Definition ticks : list sev := [SItem (B "data: 1"); SItem []; SPend false; SItem (B "data: 2")].
Example C105_case : env_ok (ev0 true) /\ resp_wf rw_new /\ ~ In SErr ticks /\ events ticks = B "data: 1data: 2" /\ accepting slow /\ In SErr (ticks ++ [SErr]) /\
  skipn 117 (w_out (fst (send 99 (ev0 true) (rw_set_sse ticks rw_new) slow))) =
    B "7" ++ CRLF ++ B "data: 1" ++ CRLF ++ B "7" ++ CRLF ++ B "data: 2" ++ CRLF ++ B "0" ++ CRLF ++ CRLF /\
  skipn 117 (w_out (fst (send 99 (ev0 true) (rw_set_sse (ticks ++ [SErr]) rw_new) slow))) =
    B "7" ++ CRLF ++ B "data: 1" ++ CRLF ++ B "7" ++ CRLF ++ B "data: 2" ++ CRLF.
Proof.
  split; [apply ev0_ok|]. split; [split; constructor|]. split; [intros [H|[H|[H|[H|[]]]]]; discriminate|]. split; [reflexivity|]. split; [apply slow_accepting|].
  split; [apply in_or_app; right; now left|]. split; vm_compute; reflexivity.
Qed.
