(** Properties C109-C112: flushing the connection. *)
From Verif Require Import Accept RespWriter Client Reads SpecChunked SpecHead SpecResponse SpecReq SpecServer SpecWriter Lemmas Proofs_Copy Proofs_ServerDec Proofs_ServerEnc
  Proofs_Head Proofs_Send Proofs_Request Proofs_Accept Proofs_Turns Proofs_Flush Proofs_Client Examples_Response Examples_Request Examples_Accept Examples_Client Properties_Sse.

(** C109: a response that was sent has been flushed ... *)
Theorem C109_sent : forall ev r w fuel w' n, send fuel ev r w = (w', ROk n) -> all_flushed w'.
Proof. intros ev r w fuel w' n H. exact (send_flushed _ _ _ _ _ _ H). Qed.
Print Assumptions C109_sent.
(** ... and the server does not go on to the next request, nor end the connection, with anything
    left in the transport's buffers: interim responses, error responses, and what is left of
    responses whose body failed included. The handlers are arbitrary up to their glitches having
    legal headers; the connection does not fail and does not time out on a write. *)
Theorem C109_next : forall ev o h s w fuel s' w', env_ok ev -> wf_src s -> (forall q, always (fails_legally ev (o_verbose o)) (h q)) ->
  accepting w -> prompt (o_timeout o) w -> all_flushed w -> turn fuel ev o h s w = (s', w', None) -> all_flushed w'.
Proof. intros ev o h s w fuel s' w' He Ws Hh Ha Hp Hf H. exact (proj1 (turn_flushed ev o h s w fuel s' w' None He Ws Hh Ha Hp Hf H I)). Qed.
Print Assumptions C109_next.
Theorem C109_end : forall ev o n fuel h s w s' w' x, env_ok ev -> wf_src s -> (forall i q, always (fails_legally ev (o_verbose o)) (h i q)) ->
  accepting w -> prompt (o_timeout o) w -> all_flushed w -> accept_go n fuel ev o h s w = (s', w', x) -> x = AOk \/ x = AErr -> all_flushed w'.
Proof. intros ev o n fuel h s w s' w' x He Ws Hh Ha Hp Hf H X. eapply (accept_flushed ev o He); eauto. now destruct X as [-> | ->]. Qed.
Print Assumptions C109_end.
(** A handler whose response fails in the middle: what was written is flushed with the response of
    its glitch. *)
Definition cut_short : handler := fun _ => Rt (PSend (set_src (resp1 None) (mkSrc [Data (B "he")] FailForever)) (fun _ => Rt None) (Rt glitch_ise)).
Example C109_case : env_ok (ev0 true) /\ wf_src (arrives get_head []) /\ (forall q, always (fails_legally (ev0 true) false) (cut_short q)) /\
  accepting slow /\ prompt true slow /\ all_flushed slow /\
  exists s' w', turn 99 (ev0 true) default_opts cut_short (arrives get_head []) slow = (s', w', None) /\ (0 < w_flushed w')%nat.
Proof.
  split; [apply ev0_ok|]. split; [repeat constructor; discriminate|].
  split; [intros q; apply al_ret; split; [intros n; now apply al_ret|apply al_ret, glitch_sendable; [discriminate|vm_compute; reflexivity]]|].
  split; [apply slow_accepting|]. split; [intros _; repeat constructor; discriminate|]. split; [reflexivity|].
  eexists _, _. split; [vm_compute; reflexivity|]. cbn [w_flushed]. lia.
Qed.

(** C110 is false: when the handler gets a request that expects 100-continue, the interim response
    has been written, but not flushed: a client behind a buffering transport goes on waiting for
    it while the handler waits for the body. *)
Theorem C110_interim_refuted : exists s w s' w' q b, env_ok (ev0 true) /\ accepting w /\ all_flushed w /\ src_data s = expect_head /\
  decode (ev0 true) true s w = (s', w', OReq q b) /\ w_out w' = w_out w ++ go_ahead /\ ~ all_flushed w'.
Proof.
  exists (arrives expect_head []), (mkWtr [] []). eexists _, _, _, _. split; [apply ev0_ok|]. split; [constructor|]. split; [reflexivity|]. split; [vm_compute; reflexivity|].
  split; [vm_compute; reflexivity|]. split; [reflexivity|]. unfold all_flushed. discriminate.
Qed.
Print Assumptions C110_interim_refuted.
(** In general: it is never flushed by then. *)
Theorem C110_never : forall ev tmo s w rl hs, env_ok ev -> offers tmo s w -> grammatical (e_trim ev) rl hs w -> l_minor rl = 1%N -> faultless hs -> continues hs true ->
  forall wt s' wt' q b, decode ev tmo s wt = (s', wt', OReq q b) -> w_out wt' = w_out wt ++ go_ahead /\ w_flushed wt' = w_flushed wt.
Proof.
  intros ev tmo s w rl hs He HO HG H1 HF HC wt s' wt' q b HD. split; [|exact (decode_flushed _ _ _ _ _ _ _ HD)].
  destruct (interim_exact ev tmo s w rl hs true He HO HG H1 HF HC wt s' wt' _ HD) as (p & O & _ & K & _). rewrite O. now rewrite K by eauto.
Qed.
Print Assumptions C110_never.
(** What holds: it is flushed with the response (see C109). Missing from C110: before that. *)
Theorem C110_response_partial : forall ev o h s w fuel s1 w1 q b s' w', env_ok ev -> wf_src s -> (forall q, always (fails_legally ev (o_verbose o)) (h q)) ->
  accepting w -> prompt (o_timeout o) w -> all_flushed w -> decode ev (o_timeout o) s w = (s1, w1, OReq q b) ->
  turn fuel ev o h s w = (s', w', None) -> prefix (w_out w1) (w_out w') /\ all_flushed w'.
Proof.
  intros ev o h s w fuel s1 w1 q b s' w' He Ws Hh Ha Hp Hf HD H. split; [eapply turn_grows; eauto|].
  exact (proj1 (turn_flushed ev o h s w fuel s' w' None He Ws Hh Ha Hp Hf H I)).
Qed.
Print Assumptions C110_response_partial.
Example C110_case : let s := arrives expect_head (B "hello") in let h : handler := fun _ => Rt (PSend (resp1 (Some 5%N)) (fun _ => Rt None) (Rt glitch_ise)) in
  wf_src s /\ all_flushed slow /\ exists s1 w1 q b s' w', decode (ev0 true) true s slow = (s1, w1, OReq q b) /\ w_out w1 = go_ahead /\ ~ all_flushed w1 /\
    turn 99 (ev0 true) default_opts h s slow = (s', w', None) /\ all_flushed w'.
Proof.
  cbv zeta. split; [apply arrives_wf; cbn; lia|]. split; [reflexivity|]. eexists _, _, _, _, _, _. split; [vm_compute; reflexivity|]. split; [reflexivity|].
  split; [discriminate|]. split; [vm_compute; reflexivity|reflexivity].
Qed.

(** C111 is false: until the whole response has been sent, nothing of it is flushed, however much
    has been written and however long the body makes the sender wait. *)
Theorem C111_kept_back : forall ev r w fuel w' x, send fuel ev r w = (w', x) -> (forall n, x <> ROk n) -> w_flushed w' = w_flushed w.
Proof. intros ev r w fuel w' x H N. apply send_flushed in H. destruct x as [n| | | |]; try exact H. now elim (N n). Qed.
Print Assumptions C111_kept_back.
(** Two events have been written and the stream makes the sender wait: none of it is flushed. *)
Theorem C111_streamed_refuted : exists w', send 8 (ev0 true) (rw_set_sse (ticks ++ [SPend false; SPend false; SPend false; SPend false; SPend false]) rw_new) (mkWtr [] []) = (w', RFuel) /\
  skipn 117 (w_out w') = B "7" ++ CRLF ++ B "data: 1" ++ CRLF ++ B "7" ++ CRLF ++ B "data: 2" ++ CRLF /\ w_flushed w' = 0%nat.
Proof. eexists. split; [vm_compute; reflexivity|]. split; vm_compute; reflexivity. Qed.
Print Assumptions C111_streamed_refuted.
(** What holds: a stream that ends is flushed at its end. Missing from C111: before the end. *)
Theorem C111_end_partial : forall ev r l w fuel w' n, send fuel ev (rw_set_sse l r) w = (w', ROk n) -> all_flushed w'.
Proof. intros ev r l w fuel w' n H. exact (send_flushed _ _ _ _ _ _ H). Qed.
Print Assumptions C111_end_partial.
Example C111_case : exists w' n, send 99 (ev0 true) (rw_set_sse ticks rw_new) slow = (w', ROk n) /\ (140 < w_flushed w')%nat.
Proof. eexists _, _. split; [vm_compute; reflexivity|]. cbn [w_flushed]. lia. Qed.

(** C112: the client's request has been flushed when the response is read. *)
Theorem C112_flushed : forall ev fuel q s w w' a, connect ev fuel q s w = (w', COk a) -> all_flushed w'.
Proof. exact connect_flushed. Qed.
Print Assumptions C112_flushed.
Example C112_case : exists w' a, connect (ev0 true) 99 (post_req two_hdrs hello_body) (mkSrc [Data (B "HTTP/1.1 200 OK" ++ CRLF ++ CRLF)] Eof) slow = (w', COk a) /\ (100 < w_flushed w')%nat.
Proof. eexists _, _. split; [vm_compute; reflexivity|]. cbn [w_flushed]. lia. Qed.
