(** Properties C32-C41: conversations on a server connection. *)
From Verif Require Import Accept Timeout Reads SpecChunked SpecHead SpecResponse SpecReq SpecServer Lemmas Proofs_Copy Proofs_Buf
  Proofs_ReqHead Proofs_ServerDec Proofs_Send Proofs_Body Proofs_Accept Proofs_Request Proofs_Turns Proofs_Lost Proofs_Glitch
  Examples_Response Examples_Dec Examples_Request Examples_Accept.

(** C32: see [conversation] in SpecServer.v. The connection carries exactly the responses due,
    in order, and [accept] ends as it should. *)
Theorem C32_conversation : forall ev o tl h l xs a, env_ok ev ->
  conversation (e_trim ev) (parse_uri (e_uri ev)) (e_deccap ev) o tl h l xs a ->
  (forall x, In x xs -> sendable ev (snd x)) -> Forall wf_ev l ->
  exists t, transcript (e_date ev) xs t /\
  forall wt, accepting wt -> prompt (o_timeout o) wt ->
  exists F s' wt', w_out wt' = w_out wt ++ t /\
    forall n fuel, (F <= n)%nat -> (F <= fuel)%nat -> accept_go n fuel ev o h (mkSrc l tl) wt = (s', wt', a).
Proof.
  intros ev o tl h l xs a He HC HS HW. destruct (conversation_runs ev o tl He h l xs a HC HS) as (t & HT & H).
  exists t. split; [exact HT|]. intros wt Ha Hp. apply (H [] wt); auto; constructor.
Qed.
Print Assumptions C32_conversation.
Example C32_case : env_ok (ev0 true) /\
  conversation (e_trim (ev0 true)) (parse_uri (e_uri (ev0 true))) (e_deccap (ev0 true)) default_opts Eof (fun _ => echo) talk due AOk /\
  (forall x, In x due -> sendable (ev0 true) (snd x)) /\ Forall wf_ev talk /\ accepting slow /\ prompt (o_timeout default_opts) slow.
Proof.
  split; [apply ev0_ok|]. split; [apply talk_conversation|]. split; [apply talk_sendable|]. split; [apply talk_wf|].
  split; [apply slow_accepting|apply slow_prompt].
Qed.
(** The same conversation, run. *)
Example C32_run : exists s' wt', accept_go 9 200 (ev0 true) default_opts (fun _ => echo) (mkSrc talk Eof) (mkWtr [] []) = (s', wt', AOk) /\
  w_out wt' =
  lines ["HTTP/1.1 100 Continue"]%string ++
  lines ["HTTP/1.1 200 OK"; "content-length: 3"; "date: Thu, 01 Jan 1970 00:00:00 GMT"; "content-type: application/octet-stream"]%string ++ B "/up" ++
  lines ["HTTP/1.1 505 HTTP Version Not Supported"; "content-length: 0"; "date: Thu, 01 Jan 1970 00:00:00 GMT"]%string ++
  lines ["HTTP/1.1 200 OK"; "content-length: 2"; "date: Thu, 01 Jan 1970 00:00:00 GMT"; "content-type: application/octet-stream"]%string ++ B "/a".
Proof. eexists _, _. split; [vm_compute; reflexivity|vm_compute; reflexivity]. Qed.

(** C33 is false: of two requests in one segment only the first is answered. *)
Theorem C33_pipelined_refuted : exists ev o h w1 w2 c1 v1 c2 v2 n fuel s' wt' r m,
  env_ok ev /\ head_block w1 /\ judged ev w1 c1 v1 /\ head_block w2 /\ judged ev w2 c2 v2 /\
  (forall i q, exists r, h i q = slurp (PSend r (fun _ => Rt None) (Rt glitch_ise)) /\ sendable ev r) /\
  accept_go n fuel ev o h (mkSrc [Data (w1 ++ w2)] Eof) (mkWtr [] []) = (s', wt', AOk) /\
  message (e_date ev) r m /\ w_out wt' = m.
Proof.
  pose (h := fun _ : nat => fun _ : rhead => slurp (PSend (text_resp (B "ok")) (fun _ => Rt None) (Rt glitch_ise))).
  destruct (send 200 (ev0 true) (text_resp (B "ok")) (mkWtr [] [])) as [w' x] eqn:E.
  assert (EX : exists k, x = ROk k) by (vm_compute in E; injection E as _ <-; eauto). destruct EX as (k & ->).
  destruct (sent_whole (ev0 true) (text_resp (B "ok")) (mkWtr [] []) 200 w' k (ev0_ok true)) as (m & Hm & Ho); [apply text_sendable; cbn; lia|constructor|exact E|].
  exists (ev0 true), default_opts, h, get_head, get_head. eexists _, _, _, _. exists 9%nat, 200%nat. eexists _, _. exists (text_resp (B "ok")), m.
  split; [apply ev0_ok|]. split; [apply head_blockb_ok; vm_compute; reflexivity|]. split; [apply verdict_judge; vm_compute; reflexivity|].
  split; [apply head_blockb_ok; vm_compute; reflexivity|]. split; [apply verdict_judge; vm_compute; reflexivity|].
  split; [intros i q; eexists; split; [reflexivity|apply text_sendable; cbn; lia]|]. split; [vm_compute; reflexivity|].
  split; [exact Hm|]. cbn [w_out mkWtr app] in Ho. rewrite <- Ho. vm_compute in E. injection E as <-. reflexivity.
Qed.
Print Assumptions C33_pipelined_refuted.
(** And it is so always: whatever shares a segment with a request, behind the request and its
    fixed-length body, changes nothing at all, for any handler and anything that follows. *)
Theorem C33_lost : forall ev o h w p more l2 tl wt c v n fuel,
  (length (w ++ p ++ more) <= e_bufcap ev)%nat -> head_block w -> judged ev w c v ->
  (forall m u hs len, v = Accept m u hs len -> len = Some (N.of_nat (length p))) ->
  accept_go (S n) fuel ev o h (mkSrc (Data (w ++ p ++ more) :: l2) tl) wt =
  accept_go (S n) fuel ev o h (mkSrc (Data (w ++ p) :: l2) tl) wt.
Proof. exact lost. Qed.
Print Assumptions C33_lost.
Example C33_lost_case : exists c v,
  (length (post_head ++ B "hello" ++ get_head) <= e_bufcap (ev0 true))%nat /\ head_block post_head /\ judged (ev0 true) post_head c v /\
  (forall m u hs len, v = Accept m u hs len -> len = Some (N.of_nat (length (B "hello")))) /\ exists m u hs len, v = Accept m u hs len.
Proof.
  eexists _, _. split; [vm_compute; lia|]. split; [apply head_blockb_ok; vm_compute; reflexivity|].
  split; [apply verdict_judge; vm_compute; reflexivity|]. split; [intros m u hs len [= _ _ _ <-]; reflexivity|repeat eexists].
Qed.
(** What holds: if every request comes in segments of its own, each is answered, however it is
    itself split. Missing from C33: requests that share a segment. *)
Theorem C33_own_segments_partial : forall ev o tl h l xs a, env_ok ev ->
  conversation (e_trim ev) (parse_uri (e_uri ev)) (e_deccap ev) o tl h l xs a ->
  (forall x, In x xs -> sendable ev (snd x)) -> Forall wf_ev l ->
  exists t, transcript (e_date ev) xs t /\
  exists F s' wt', w_out wt' = t /\
    forall n fuel, (F <= n)%nat -> (F <= fuel)%nat -> accept_go n fuel ev o h (mkSrc l tl) (mkWtr [] []) = (s', wt', a).
Proof.
  intros ev o tl h l xs a He HC HS HW. destruct (C32_conversation ev o tl h l xs a He HC HS HW) as (t & HT & H).
  exists t. split; [exact HT|]. apply (H (mkWtr [] [])); [constructor|intros _; constructor].
Qed.
Print Assumptions C33_own_segments_partial.

(** C34 is false: the handler does not read its request's body, and the body is handed to the
    next call as a request of its own. *)
Theorem C34_body_as_request_refuted : exists ev o h s w rest wt s1 wt1 fuel q b s2 wt2,
  env_ok ev /\ offers (o_timeout o) s w /\ src_data s = w ++ rest /\
  judged ev w false (Accept (B "POST") (mkUri None None (B "/up") None) [(B "host", B "h"); (B "content-length", B "33")] (Some (N.of_nat (length rest)))) /\
  turn fuel ev o h s wt = (s1, wt1, None) /\ decode ev (o_timeout o) s1 wt1 = (s2, wt2, OReq q b) /\ u_path (q_uri q) = B "/secret".
Proof.
  pose (w := lines ["POST /up HTTP/1.1"; "host: h"; "content-length: 33"]%string). pose (rest := lines ["GET /secret HTTP/1.1"; "host: h"]%string).
  exists (ev0 true), default_opts, quick, (mkSrc [Data w; Data rest] Eof), w, rest, (mkWtr [] []). eexists _, _, 200%nat, _, _, _, _.
  split; [apply ev0_ok|]. split; [|].
  { apply (offers_ok true _ w rest); [repeat constructor; discriminate|vm_compute; reflexivity|]. cbn [s_evs avail fst]. now rewrite app_nil_r. }
  split; [cbn; reflexivity|]. split; [apply verdict_judge; vm_compute; reflexivity|]. split; [vm_compute; reflexivity|].
  split; [vm_compute; reflexivity|reflexivity].
Qed.
Print Assumptions C34_body_as_request_refuted.
(** What holds, in two parts. First: whatever the handler does, if the request's head and its
    fixed-length body arrive together in one segment of at most the buffer's size, the next turn
    starts behind that segment. *)
Theorem C34_one_segment_partial : forall ev o h w rest l2 tl wt c v fuel s' wt' x,
  (length (w ++ rest) <= e_bufcap ev)%nat -> head_block w -> judged ev w c v ->
  (forall m u hs len, v = Accept m u hs len -> exists n, len = Some n /\ (n <= N.of_nat (length rest))%N) ->
  turn fuel ev o h (mkSrc (Data (w ++ rest) :: l2) tl) wt = (s', wt', x) -> s' = mkSrc l2 tl.
Proof. exact one_segment. Qed.
Print Assumptions C34_one_segment_partial.
Example C34_one_segment_case : exists c v, (length (post_head ++ B "hello") <= e_bufcap (ev0 true))%nat /\ head_block post_head /\ judged (ev0 true) post_head c v /\
  forall m u hs len, v = Accept m u hs len -> exists n, len = Some n /\ (n <= N.of_nat (length (B "hello")))%N.
Proof.
  eexists _, _. split; [vm_compute; lia|]. split; [apply head_blockb_ok; vm_compute; reflexivity|]. split; [apply verdict_judge; vm_compute; reflexivity|].
  intros m u hs len [= _ _ _ <-]. exists 5%N. split; [reflexivity|]. cbn. lia.
Qed.
(** Second: however the body arrives, if the handler reads it to its end, the next turn starts
    behind it (but for pending polls). Missing from C34: handlers that stop reading early. *)
Theorem C34_body_read_partial : forall ev o h r s wt l1 l2 w wb p c m u hs len,
  env_ok ev -> sendable ev r -> wf_src s -> s_evs s = l1 ++ l2 ->
  avail (o_timeout o) l1 = (w ++ wb, ObEnd) -> head_block w -> judged ev w c (Accept m u hs len) ->
  body_wire (e_deccap ev) len p wb -> (forall q, presents q m u hs len -> serves (o_verbose o) (chunked_len len) p r (h q)) -> accepting wt -> prompt (o_timeout o) wt ->
  exists pads F wt', evs_data pads = [] /\ (forall e, In e pads -> exists f, e = Pend f) /\
    forall fuel, (F <= fuel)%nat -> turn fuel ev o h s wt = (mkSrc (pads ++ l2) (s_tail s), wt', None).
Proof.
  intros ev o h r s wt l1 l2 w wb p c m u hs len He Hr Ws E A Hb J BW HD Ha Hp.
  destruct (accepted_turn ev r He Hr) as (msg & _ & HT).
  destruct (HT o h s wt l1 l2 w wb p c m u hs len Ws E A Hb J BW HD Ha Hp) as (pads & F & wt' & CM & ED & WF & TU & _).
  exists pads, F, wt'. split; [exact ED|]. split; [|exact TU]. clear - CM ED WF. induction pads as [|e pads IH]; intros x []; subst.
  - inversion CM as [|? ? [C1 _] _]; inversion WF; subst. destruct x as [d|f|]; [|eauto|congruence].
    destruct d; [exfalso; auto|discriminate].
  - inversion CM as [|? ? [C1 C2] C3]; inversion WF; subst. destruct e as [d|f|]; [destruct d; [exfalso; auto|discriminate]| |congruence]. now apply IH.
Qed.
Print Assumptions C34_body_read_partial.
Example C34_body_read_case : exists u hs, avail true talk1 = (up_head ++ B "hello", ObEnd) /\ head_block up_head /\
  judged (ev0 true) up_head true (Accept (B "POST") u hs (Some 5%N)) /\ body_wire (e_deccap (ev0 true)) (Some 5%N) (B "hello") (B "hello") /\
  (forall q, presents q (B "POST") u hs (Some 5%N) -> serves (o_verbose default_opts) (chunked_len (Some 5%N)) (B "hello") (text_resp (B "/up")) (echo q)).
Proof.
  eexists _, _. split; [vm_compute; reflexivity|]. split; [apply head_blockb_ok; vm_compute; reflexivity|]. split; [apply verdict_judge; vm_compute; reflexivity|].
  split; [split; reflexivity|]. intros q (_ & EU & _). unfold echo, echo_resp. rewrite EU. cbn [u_path]. eexists. split; [apply slurp_drains|apply rp_send; reflexivity].
Qed.

(** C35: the peer closes before a head is complete. *)
Theorem C35_close : forall ev o s, env_ok ev -> wf_src s ->
  no_head (fst (avail (o_timeout o) (s_evs s))) -> snd (avail (o_timeout o) (s_evs s)) = ObEnd -> s_tail s = Eof ->
  exists s', forall n fuel h wt, accept_go (S n) fuel ev o h s wt = (s', wt, AOk).
Proof.
  intros ev o s He Ws NH OB TL. destruct (end_turn ev o s He Ws NH) as (s' & T). exists s'. intros n fuel h wt.
  apply accept_stop. rewrite T, OB, TL. reflexivity.
Qed.
Print Assumptions C35_close.
Example C35_case : forall n, (n < length get_head)%nat -> (0 < n)%nat -> let s := mkSrc (cut_at n [Pend false]) Eof in
  wf_src s /\ no_head (fst (avail true (s_evs s))) /\ snd (avail true (s_evs s)) = ObEnd /\ s_tail s = Eof.
Proof.
  intros n L L0 s. split; [|split; [now apply cut_no_head|split; reflexivity]].
  unfold s, wf_src, cut_at, wf_ev. cbn [s_evs app]. repeat constructor; try discriminate. intros E. injection E as E. apply (f_equal (@length _)) in E.
  rewrite firstn_length in E. cbn [length] in E. lia.
Qed.

(** C36: whatever follows a refused request on the connection is served as if it had been there
    alone. *)
Theorem C36_goes_on : forall ev o tl h l1 l2 w c code xs a, env_ok ev ->
  avail (o_timeout o) l1 = (w, ObEnd) -> head_block w -> judged ev w c (Refuse code) -> code <> 501%N ->
  conversation (e_trim ev) (parse_uri (e_uri ev)) (e_deccap ev) o tl (later h) l2 xs a ->
  (forall x, In x xs -> sendable ev (snd x)) -> Forall wf_ev (l1 ++ l2) ->
  exists m t, message (e_date ev) (bare code) m /\ transcript (e_date ev) xs t /\
  forall wt, accepting wt -> prompt (o_timeout o) wt ->
  exists F s' wt', w_out wt' = w_out wt ++ (if c then go_ahead else []) ++ m ++ t /\
    forall n fuel, (F <= n)%nat -> (F <= fuel)%nat -> accept_go n fuel ev o h (mkSrc (l1 ++ l2) tl) wt = (s', wt', a).
Proof.
  intros ev o tl h l1 l2 w c code xs a He A Hb J NC HC HS HW.
  destruct (C32_conversation ev o tl h (l1 ++ l2) ((c, bare code) :: xs) a He) as (t0 & HT & H); [eapply cv_refused; eauto| |exact HW|].
  { intros x [<-|I]; [apply bare_sendable, He|now apply HS]. }
  inversion HT as [|c' r' xs' m t HM HT']; subst. exists m, t. split; [exact HM|]. split; [exact HT'|]. intros wt Ha Hp. exact (H wt Ha Hp).
Qed.
Print Assumptions C36_goes_on.
(** ... where the refusals with 400 and 505 are those of [judge]; see C24, C25, C26. *)
Example C36_case : avail true talk2 = (bad_head, ObEnd) /\ head_block bad_head /\ judged (ev0 true) bad_head false (Refuse 505).
Proof. split; [vm_compute; reflexivity|]. split; [apply head_blockb_ok; vm_compute; reflexivity|]. apply verdict_judge. vm_compute. reflexivity. Qed.

(** C37 is false: on a connection that is broken for good, [accept] never returns, whatever the
    handlers, options and fuel. *)
Theorem C37_broken_refuted : forall ev o h n fuel wt, accept_go n fuel ev o h (mkSrc [] FailForever) wt = (mkSrc [] FailForever, wt, AFuel).
Proof. intros. apply broken_forever. Qed.
Print Assumptions C37_broken_refuted.
(** What holds: finitely many errors followed by the end of the input do end the connection. The
    loop takes at most as many turns as the peer sends bytes and events, unless a handler call or
    a send does not end. Missing from C37: connections that keep failing. *)
Theorem C37_ends_partial : forall ev o fuel n h s wt, (0 < e_bufcap ev)%nat -> s_tail s = Eof -> (src_size s < n)%nat ->
  accept_go n fuel ev o h s wt = accept_go (S (src_size s)) fuel ev o h s wt.
Proof. intros ev o fuel n h s wt Hc. now apply accept_bound. Qed.
Print Assumptions C37_ends_partial.
(** ... and an error in the middle of a head is met without writing or calling a handler. *)
Theorem C37_error_partial : forall ev o s, env_ok ev -> wf_src s ->
  no_head (fst (avail (o_timeout o) (s_evs s))) -> snd (avail (o_timeout o) (s_evs s)) = ObFail ->
  exists s', forall n fuel h wt, accept_go (S n) fuel ev o h s wt = accept_go n fuel ev o (later h) s' wt.
Proof.
  intros ev o s He Ws NH OB. destruct (end_turn ev o s He Ws NH) as (s' & T). exists s'. intros n fuel h wt.
  apply accept_step. rewrite T, OB. reflexivity.
Qed.
Print Assumptions C37_error_partial.
Example C37_case : exists s' wt', src_size (mkSrc (cut_at 20 [Fail; Data get_head]) Eof) < 100 /\
  accept_go 100 200 (ev0 true) default_opts (fun _ => echo) (mkSrc (cut_at 20 [Fail; Data get_head]) Eof) (mkWtr [] []) = (s', wt', AOk) /\
  skipn (length (w_out wt') - 2) (w_out wt') = B "/a".
Proof. eexists _, _. split; [vm_compute; lia|]. split; [vm_compute; reflexivity|vm_compute; reflexivity]. Qed.
Example C37_error_case : let s := mkSrc (cut_at 20 [Fail; Data get_head]) Eof in env_ok (ev0 true) /\ wf_src s /\
  no_head (fst (avail true (s_evs s))) /\ snd (avail true (s_evs s)) = ObFail.
Proof.
  cbv zeta. split; [apply ev0_ok|]. split; [repeat constructor; discriminate|]. split; [|reflexivity].
  apply cut_no_head; [vm_compute; lia|reflexivity].
Qed.

(** C38 *)
Theorem C38_error : forall ev o n fuel h s wt s' wt', env_ok ev -> wf_src s -> accept_go n fuel ev o h s wt = (s', wt', AErr) ->
  exists l w rest rl hs, rest_of (s_evs s) l /\ fst (avail (o_timeout o) l) = w ++ rest /\ head_block w /\
    grammatical (e_trim ev) rl hs w /\ l_minor rl = 1%N /\
    exists nm v, In (nm, v) hs /\ name_is nm (B "transfer-encoding") /\ ~ te_chunked v /\ ~ te_identity v.
Proof. intros ev o n fuel h s wt s' wt' He. now apply accept_err. Qed.
Print Assumptions C38_error.
Example C38_case : let s := mkSrc (talk ++ [Data (B " / HTTP/1.1" ++ CRLF ++ B "host: h" ++ CRLF); Data (B "transfer-encoding: gzip" ++ CRLF ++ CRLF)]) Eof in
  wf_src s /\ exists s' wt', accept_go 20 200 (ev0 true) default_opts (fun _ => echo) s (mkWtr [] []) = (s', wt', AErr).
Proof.
  cbv zeta. split; [unfold wf_src; cbn [s_evs]; apply Forall_app; split; [apply talk_wf|repeat constructor; discriminate]|].
  eexists _, _. vm_compute. reflexivity.
Qed.

(** C39 *)
Theorem C39_glitch : forall ev o (h : handler) s wt s1 wt1 q b fuel0 b' g, env_ok ev ->
  decode ev (o_timeout o) s wt = (s1, wt1, OReq q b) -> run_reading fuel0 ev (h q) b = (b', inl (PFail g)) ->
  (forall hs, g_headers g = Some hs -> hm_wf hs) ->
  (N.of_nat (length (glitch_text (o_verbose o) g)) + N.of_nat (e_bufcap ev) < two64)%N -> accepting wt1 ->
  exists m F wt', message (e_date ev) (glitch_response (o_verbose o) g) m /\ w_out wt' = w_out wt1 ++ m /\
    forall fuel, (F <= fuel)%nat -> turn fuel ev o h s wt = (body_src b', wt', None).
Proof. exact handler_fails. Qed.
Print Assumptions C39_glitch.
Example C39_case : exists s1 wt1 q b b', let g := glitch_status_err_context 418 (B "boom") (B "short and stout") in let h := fun _ : rhead => slurp (PFail g) in
  decode (ev0 true) true (arrives post_head (B "hello")) slow = (s1, wt1, OReq q b) /\ run_reading 9 (ev0 true) (h q) b = (b', inl (PFail g)) /\
  (forall hs, g_headers g = Some hs -> hm_wf hs) /\ (N.of_nat (length (glitch_text true g)) + N.of_nat (e_bufcap (ev0 true)) < two64)%N /\ accepting wt1.
Proof.
  eexists _, _, _, _, _. split; [vm_compute; reflexivity|]. split; [vm_compute; reflexivity|]. split; [discriminate|]. split; [vm_compute; reflexivity|].
  repeat constructor.
Qed.

(** C40 is false: a handler that sends its response and then fails makes the server send the
    glitch's response as well. *)
Theorem C40_second_response_refuted : exists ev o (h : handler) s wt s1 wt1 q b r g m1 m2 F wt', env_ok ev /\
  decode ev (o_timeout o) s wt = (s1, wt1, OReq q b) /\ wt1 = wt /\
  message (e_date ev) r m1 /\ message (e_date ev) (glitch_response (o_verbose o) g) m2 /\
  w_out wt' = w_out wt ++ m1 ++ m2 /\ forall fuel, (F <= fuel)%nat -> turn fuel ev o h s wt = (body_src b, wt', None).
Proof.
  pose (h := fun _ : rhead => Rt (PSend (text_resp (B "ok")) (fun _ => Rt (Some glitch_ise)) (Rt glitch_ise))).
  destruct (decode (ev0 true) true (arrives get_head []) slow) as [[s1 wt1] out] eqn:E.
  assert (EX : exists q b, out = OReq q b /\ wt1 = slow) by (vm_compute in E; injection E as _ <- <-; eauto). destruct EX as (q & b & -> & ->).
  destruct (sends_then_fails (ev0 true) default_opts h _ _ _ _ _ _ (text_resp (B "ok")) (fun _ => Rt (Some glitch_ise)) (Rt glitch_ise) glitch_ise
     (ev0_ok true) E eq_refl (fun _ => eq_refl)) as (m1 & m2 & F & wt' & M1 & M2 & O & T).
  { apply text_sendable. cbn. lia. }
  { apply glitch_sendable; [discriminate|vm_compute; reflexivity]. }
  { apply slow_accepting. }
  exists (ev0 true), default_opts, h, (arrives get_head []), slow, s1, slow, q, b, (text_resp (B "ok")), glitch_ise, m1, m2, F, wt'.
  split; [apply ev0_ok|]. auto 8.
Qed.
Print Assumptions C40_second_response_refuted.
(** What holds: a handler that does not fail once it has sent, and whose responses can be sent
    completely, gets exactly one response per request on a connection that accepts what is
    written (at every moment, a prefix of one). Missing from C40: handlers that fail after
    sending, and sends that fail. *)
Theorem C40_one_response_partial : forall ev o h s wt fuel s' wt' x, env_ok ev -> wf_src s ->
  (forall q, always (one_reply ev (o_verbose o)) (h q)) -> accepting wt -> prompt (o_timeout o) wt ->
  turn fuel ev o h s wt = (s', wt', x) ->
  ((exists w c p, offers (o_timeout o) s w /\ w_out wt' = w_out wt ++ (if c : bool then go_ahead else []) ++ p /\
      exists r m, message (e_date ev) r m /\ prefix p m /\ (x = None \/ x = Some AErr -> p = m)) \/
   (no_head (fst (avail (o_timeout o) (s_evs s))) /\ wt' = wt)).
Proof.
  intros ev o h s wt fuel s' wt' x He Ws Hh Ha Hp T.
  destruct (turn_once ev o h s wt fuel s' wt' x He Ws Hh Ha Hp T) as [(w & c & p & HO & O & r & m & M & P & K)|N]; [left|now right].
  exists w, c, p. split; [exact HO|]. split; [exact O|]. exists r, m. split; [exact M|]. split; [exact P|]. intros [->| ->]; now apply K.
Qed.
Print Assumptions C40_one_response_partial.
Example C40_case : forall q, (length (u_path (q_uri q)) < 1000)%nat -> always (one_reply (ev0 true) false) (echo q).
Proof.
  intros q L. apply slurp_always; cbn [one_reply].
  - split; [now apply text_sendable|]. intros _. now constructor.
  - apply glitch_sendable; [discriminate|vm_compute; reflexivity].
Qed.

(** C41: the timer fires before a head is complete. *)
Theorem C41_timeout : forall ev o s, env_ok ev -> wf_src s ->
  no_head (fst (avail (o_timeout o) (s_evs s))) -> snd (avail (o_timeout o) (s_evs s)) = ObTimer ->
  exists s', forall n fuel h wt, accept_go (S n) fuel ev o h s wt = (s', wt, AOk).
Proof.
  intros ev o s He Ws NH OB. destruct (end_turn ev o s He Ws NH) as (s' & T). exists s'. intros n fuel h wt.
  apply accept_stop. rewrite T, OB. reflexivity.
Qed.
Print Assumptions C41_timeout.
Example C41_case : let s := mkSrc (cut_at 20 [Pend false; Pend true; Data (skipn 20 get_head)]) Eof in
  wf_src s /\ no_head (fst (avail true (s_evs s))) /\ snd (avail true (s_evs s)) = ObTimer.
Proof.
  cbv zeta. split; [repeat constructor; discriminate|]. split; [|reflexivity]. apply cut_no_head; [vm_compute; lia|reflexivity].
Qed.
(** This is so without asking for it: [accept], given no options, has the timer on. *)
Theorem C41_default : forall ev s, env_ok ev -> wf_src s ->
  no_head (fst (avail true (s_evs s))) -> snd (avail true (s_evs s)) = ObTimer ->
  exists s', forall fuel h wt, accept (S fuel) ev h s wt = (s', wt, AOk).
Proof.
  intros ev s He Ws NH OB. destruct (C41_timeout ev default_opts s He Ws NH OB) as (s' & K). exists s'. intros fuel h wt. exact (K fuel (S fuel) h wt).
Qed.
Print Assumptions C41_default.
(** ... but a head that is there before the timer fires is taken, whatever the timer does
    afterwards. *)
Theorem C41_in_time : forall ev tmo s w c m u hs len, env_ok ev -> offers tmo s w -> judged ev w c (Accept m u hs len) ->
  forall wt, accepting wt -> prompt tmo wt ->
  exists s' wt' q b, decode ev tmo s wt = (s', wt', OReq q b) /\ presents q m u hs len /\ w_out wt' = w_out wt ++ (if c then go_ahead else []).
Proof.
  intros ev tmo s w c m u hs len He HO J wt Ha Hp. destruct (decode_offer ev tmo s w (ok_cap ev He) HO) as (b & _ & _ & _ & _ & _ & _ & _ & _ & _ & HD).
  destruct (HD c _ J) as (out & (h' & -> & HW & HG) & HDec). destruct (interim_ok c tmo wt Ha Hp) as (w1 & EI & _ & _ & O1).
  rewrite HDec, EI. cbn [fst snd after_interim]. eexists _, _, _, _. split; [reflexivity|]. split; [|exact O1].
  split; [reflexivity|]. auto.
Qed.
Print Assumptions C41_in_time.
Example C41_in_time_case : exists m u hs len, offers true (mkSrc [Pend false; Data get_head; Pend true] Eof) get_head /\ judged (ev0 true) get_head false (Accept m u hs len).
Proof.
  eexists _, _, _, _. split; [|apply verdict_judge; vm_compute; reflexivity].
  apply (offers_ok true _ get_head []); [repeat constructor; discriminate|vm_compute; reflexivity|vm_compute; reflexivity].
Qed.
(** The race itself (src/timeout.rs): the wrapped future's result is returned iff it is ready at
    a poll before which, at no poll, the timer had fired; in particular if both are ready at the
    same poll. *)
Theorem C41_race : forall (A : Type) (inner : nat -> option A) (fired : nat -> bool) fuel i r,
  timeout_await fuel i inner fired = Some r <->
  exists k, (i <= k < i + fuel)%nat /\ (forall j, (i <= j < k)%nat -> inner j = None /\ fired j = false) /\
    ((exists v, inner k = Some v /\ r = inl v) \/ (inner k = None /\ fired k = true /\ r = inr tt)).
Proof. intros A inner fired. apply timeout_race. Qed.
Print Assumptions C41_race.
Example C41_race_case : timeout_await 9 0 (fun i => if (i =? 3)%nat then Some 7%nat else None) (fun i => (3 <=? i)%nat) = Some (inl 7%nat).
Proof. reflexivity. Qed.
