(** Property C102: calls of the client to a server of this crate. *)
From Verif Require Import Accept Client BodyRead SpecBody SpecChunked SpecHead SpecReq SpecResponse SpecServer SpecClient SpecCall Lemmas Proofs_Copy Proofs_Body Proofs_DecReads
  Proofs_ServerDec Proofs_Send Proofs_Accept Proofs_Client Proofs_ClientDec Proofs_RoundTrip Proofs_Call
  Examples_Response Examples_Dec Examples_Request Examples_Accept Examples_Client.

(** C102 is false: to a request with Expect: 100-continue the server sends a 100 Continue before
    the response, and the client returns that one. (Also C64-C66: values with outer blanks, and
    chunked responses, do not survive.) *)
Theorem C102_expect_refuted : exists q r h m s' wt' a, creq_wf q /\ addressed q /\ ordinary q /\ answerable (ev0 true) r /\ handles false (q, r) h /\
  (forall s, w_out (fst (connect (ev0 true) 200 q s slow)) = m) /\
  accept_go 2 200 (ev0 true) default_opts (fun _ => h) (mkSrc [Data m] Eof) (mkWtr [] []) = (s', wt', AOk) /\
  connect (ev0 true) 200 q (mkSrc [Data (w_out wt')] Eof) slow = (Wtr [] m (length m), COk a) /\ a_status a = 100%N /\ r_status r = 200%N.
Proof.
  exists (post_req [hdr "expect" "100-continue"] hello_body), (text_resp (B "/up")), echo. eexists _, _, _, _.
  split; [apply post_wf; split; [repeat constructor; intros []|repeat constructor; discriminate]|].
  split; [split; eexists; [eapply tg_query; [discriminate|reflexivity]|eapply hf_port; reflexivity]|].
  split; [apply post_ordinary; split; [|cbn; lia]; intros n v [[= <- <-]|[]]; split; [now apply visible_ok|split; discriminate]|].
  split; [split; [apply text_sendable; cbn; lia|split; [reflexivity|split; [cbn; lia|split; [cbn; lia|intros n v []]]]]|].
  split; [intros q' (_ & EP & _); unfold echo, echo_resp; rewrite EP; eexists; split; [apply slurp_drains|apply rp_send; reflexivity]|].
  split; [intros s; vm_compute; reflexivity|].
  split; [vm_compute; reflexivity|]. split; [vm_compute; reflexivity|]. split; vm_compute; reflexivity.
Qed.
Print Assumptions C102_expect_refuted.

(** What holds: any number of calls on one connection. [xs] are the bytes of the requests and of
    the responses. The handlers are given the calls' requests and bodies, the server writes the
    responses in order, taking nothing from the connection behind the last request, and every call
    returns its response, of a chunked one the body. Missing from C102: requests with Expect,
    values with outer blanks, heads of 8 KiB or more, chunked bodies that meet the defect of C13,
    and status and fields of chunked responses (C66). *)
Theorem C102_session_partial : forall sev cev o cs, env_ok sev -> plain_value (e_date sev) -> env_ok cev ->
  Forall (fun c => callable (fst c) /\ answerable sev (snd c)) cs ->
  exists xs, Forall2 (fun c x => over sev cev c (fst x) (snd x)) cs xs /\
  forall h tl ls rest wt, (forall i c, nth_error cs i = Some c -> handles (o_verbose o) c (h i)) ->
    Forall2 (fun l x => avail (o_timeout o) l = (fst x, ObEnd)) ls xs -> Forall (Forall wf_ev) ls -> Forall wf_ev rest ->
    accepting wt -> prompt (o_timeout o) wt ->
  exists F pads wt', w_out wt' = w_out wt ++ concat (map snd xs) /\ calm (o_timeout o) pads /\ evs_data pads = [] /\
    forall n fuel, (F <= fuel)%nat ->
      accept_go (length cs + n) fuel sev o h (mkSrc (concat ls ++ rest) tl) wt =
      accept_go n fuel sev o (fun i => h (length cs + i)%nat) (mkSrc (pads ++ rest) tl) wt'.
Proof.
  intros sev cev o cs He HD Hc HF. destruct (session sev cev o He HD Hc cs HF) as (xs & H2 & H). exists xs. split; [exact H2|].
  intros h tl ls rest wt HH HA Wl Wr Ha Hp. apply (H h tl ls [] rest wt); auto; constructor.
Qed.
Print Assumptions C102_session_partial.
(** Short chunked bodies fit, whatever the chunks. *)
Theorem C102_short_fits : forall b bt cap, body_text b bt -> b_len b = None -> (21 * length (src_data (b_src b)) + 5 <= cap)%nat ->
  fitting cap (src_data (b_src b)) [] bt.
Proof.
  intros b bt cap BT HL LE. destruct BT as [n E|cw _ HC]; [congruence|]. set (p := src_data (b_src b)) in *. clearbody p. clear HL b.
  assert (K : (length cw <= 21 * length p)%nat).
  { clear LE. induction HC as [|d sl p w Hd (ds & Hn & Hl & ->) _ IL]; [cbn; lia|].
    destruct d; [now elim Hd|]. rewrite !app_length. change (length CRLF) with 2%nat. cbn [length]. lia. }
  apply plain_message in HC as (cw' & z & tw & H1 & H2 & H3 & H4 & E). exists cw', (length cw'), z, tw. split; [now apply chunks_small_load|].
  do 3 (split; [assumption|]). split; [|exact E]. rewrite <- app_length, <- E, app_length. cbn [length last_chunk app B]. cbn. lia.
Qed.
Print Assumptions C102_short_fits.
Definition streamed : response := mkResp 404 HTTP_11 [] (mkBody None (mkSrc [Pend false; Data (B "no "); Data (B "such")] Eof)).
(** A handler that streams its answer, ... *)
Definition stream_it : handler := fun _ => slurp (PSend streamed (fun _ => Rt None) (Rt glitch_ise)).
Definition three_calls : list call :=
  [(post_req two_hdrs hello_body, text_resp (B "/up")); (post_req [] hello_body, streamed); (post_req [] hello_body, text_resp (B "/up"))].
Example C102_case : env_ok (ev0 true) /\ plain_value (e_date (ev0 true)) /\
  Forall (fun c => callable (fst c) /\ answerable (ev0 true) (snd c)) three_calls /\
  (forall i c, nth_error three_calls i = Some c -> handles false c (if (i =? 1)%nat then stream_it else echo)) /\ accepting slow /\ prompt true slow.
Proof.
  assert (TR : answerable (ev0 true) (text_resp (B "/up"))).
  { split; [apply text_sendable; cbn; lia|split; [reflexivity|split; [cbn; lia|split; [cbn; lia|intros n v []]]]]. }
  assert (TS : answerable (ev0 true) streamed).
  { split; [|split; [reflexivity|split; [cbn; lia|split; [cbn; lia|intros n v []]]]]. split; [split; constructor|]. split; [repeat constructor; discriminate|].
    cbn [streamed r_body b_len b_src]. split; [split; [repeat constructor; discriminate|reflexivity]|]. intros (h & _ & E & _). discriminate E. }
  split; [apply ev0_ok|]. split; [apply ev0_plain|]. split; [|split; [|split; [apply slow_accepting|apply slow_prompt]]].
  - assert (CQ : callable (post_req [] hello_body)).
    { split; [apply post_wf; split; constructor|]. split; [split; eexists; [eapply tg_query; [discriminate|reflexivity]|eapply hf_port; reflexivity]|].
      split; [apply post_ordinary; split; [intros n v []|cbn; lia]|intros (x & X); discriminate X]. }
    constructor; [|constructor; [|constructor; [|constructor]]]; (split; [|exact TR || exact TS]); cbn [fst]; try exact CQ.
    split; [apply post_wf, two_wf|]. split; [apply post_addressed|]. split; [apply post_ordinary, two_plain|intros (x & X); discriminate X].
  - intros [|[|[|i]]] c E; try (destruct i; discriminate E); injection E as <-; intros q' (_ & EP & _); unfold stream_it, echo, echo_resp; cbn [fst snd Nat.eqb]; rewrite ?EP;
      eexists; (split; [apply slurp_drains|apply rp_send; reflexivity]).
Qed.
