(** Properties C114 and C119: what follows a response that could not be completed. *)
From Verif Require Import Relay Accept Client BodyRead Reads SpecChunked SpecHead SpecResponse SpecReq SpecServer SpecText Lemmas Proofs_Copy Proofs_ServerEnc Proofs_Head Proofs_Send Proofs_ServerDec
  Proofs_Accept Proofs_Request Proofs_Turns Proofs_Report Examples_Response Examples_Dec Examples_Request Examples_Accept Examples_Client Properties_Body.

(** C114 is false: the body of a response of declared length fails after two bytes, the handler
    passes the error on, and the response to that error follows. tophat's own client takes its
    first bytes for the missing ones. *)
Theorem C114_aborted_refuted : exists ev o (h : handler) s r g head m2 s' wt' b a,
  env_ok ev /\ b_len (r_body r) = Some 5%N /\ src_data (b_src (r_body r)) = B "he" /\
  (forall q, h q = Rt (PSend r (fun _ => Rt None) (Rt g))) /\
  response_head (e_date ev) r head /\ message (e_date ev) (glitch_response (o_verbose o) g) m2 /\
  turn 200 ev o h s (mkWtr [] []) = (s', wt', None) /\ w_out wt' = head ++ B "he" ++ m2 /\
  c_decode ev (mkSrc [Data (w_out wt')] Eof) = (b, COk a) /\ into_bytes ev 10 growing (a_body a) = ROk (B "heHTT").
Proof.
  exists (ev0 true), default_opts, (fun _ => Rt (PSend (resp2 (Some 5%N)) (fun _ => Rt None) (Rt glitch_ise))), (arrives get_head []), (resp2 (Some 5%N)), glitch_ise.
  eexists (head_text (ev0 true) (resp2 (Some 5%N))), _, _, _, _, _. split; [apply ev0_ok|]. split; [reflexivity|]. split; [reflexivity|]. split; [reflexivity|].
  split; [apply head_response; [apply resp2_wf|apply ev0_ok]|]. split.
  { eexists (head_text (ev0 true) (glitch_response false glitch_ise)), _. split; [apply head_response; [|apply ev0_ok]|split; [apply bt_fixed; reflexivity|reflexivity]].
    assert (S : sendable (ev0 true) (glitch_response false glitch_ise)) by (apply glitch_sendable; [discriminate|vm_compute; reflexivity]). apply S. }
  split; [vm_compute; reflexivity|]. split; [vm_compute; reflexivity|]. split; [vm_compute; reflexivity|]. vm_compute. reflexivity.
Qed.
Print Assumptions C114_aborted_refuted.

(** Every message begins like a status line. *)
Lemma cut_line_head l c x r : cut_line l = Some (c :: x, r) -> exists t, l = c :: t.
Proof.
  destruct l as [|a [|b l]]; [discriminate..|]. change (cut_line (a :: b :: l)) with
    (if Ascii.eqb a CR && Ascii.eqb b LF then Some ([], l) else match cut_line (b :: l) with Some (x, y) => Some (a :: x, y) | None => None end).
  destruct (_ && _); [discriminate|]. destruct (cut_line (b :: l)) as [[y z]|]; [|discriminate]. intros [= -> _ _]. eauto.
Qed.
Lemma message_starts date r m : message date r m -> exists t, m = "H"%char :: t.
Proof.
  intros (head & bt & (sl & fs & R & (code & reason & _ & _ & E) & _) & _ & ->). specialize (R bt). unfold read_head in R.
  destruct (cut_line (head ++ bt)) as [[s z]|] eqn:C; [|discriminate]. destruct (read_fields _ z) as [[? ?]|]; [|discriminate]. injection R as -> _ _.
  rewrite E in C. cbn in C. eapply cut_line_head. exact C.
Qed.

(** What holds: a chunked response whose head fits the copy buffer breaks off before its first
    byte or between two chunks, and whatever the server writes next, interim or final response,
    reads as a malformed chunk-size line there, so that a client reports an error. Missing from
    C114: declared lengths (see above) and longer heads. *)
Theorem C114_chunked_partial : forall ev r, env_ok ev -> resp_wf r -> wf_src (b_src (r_body r)) -> b_len (r_body r) = None -> ~ clean (b_src (r_body r)) ->
  exists head p cw, response_head (e_date ev) r head /\ prefix p (src_data (b_src (r_body r))) /\ chunks plain_size_line p cw /\
  ((length head <= e_bufcap ev)%nat -> forall wt, accepting wt -> exists F wt', (forall fuel, (F <= fuel)%nat -> send fuel ev r wt = (wt', RErr)) /\
     (w_out wt' = w_out wt \/ w_out wt' = w_out wt ++ head ++ cw)) /\
  forall (c : bool) r2 m2, message (e_date ev) r2 m2 -> exists u rest, (if c then go_ahead else []) ++ m2 = u ++ rest /\ bad_size_line u.
Proof.
  intros ev r He Hr Hs Hl Hc. pose proof He as (Hw & H7 & H64 & Hx & _).
  destruct (read_failure_between ev r Hw Hr Hs H7 H64 Hx Hl Hc) as (head & p & cw & A1 & A2 & A3 & A4). exists head, p, cw.
  split; [exact A1|]. split; [exact A2|]. split; [exact A3|]. split.
  - intros L wt Ha. destruct (A4 wt Ha) as (F & wt' & S & [O|(q & O & Q)]); exists F, wt'; (split; [exact S|]); [auto|].
    left. destruct q; [|nia]. cbn in O. now rewrite app_nil_r in O.
  - intros c r2 m2 M. destruct (message_starts _ _ _ M) as [t ->].
    assert (X : exists z, (if c then go_ahead else []) ++ "H"%char :: t = ["H"%char] ++ z) by (destruct c; eexists; reflexivity). destruct X as [z ->].
    exists ["H"%char], z. split; [reflexivity|]. apply (bad_char []); [constructor|cbn; lia| |].
    + intros [v [H|H]]; apply nth_error_In in H; vm_compute in H; intuition congruence.
    + intros [H|[H|H]]; try discriminate H. destruct H; discriminate.
Qed.
Print Assumptions C114_chunked_partial.
Example C114_case : env_ok (ev0 true) /\ resp_wf (resp2 None) /\ wf_src (b_src (r_body (resp2 None))) /\ ~ clean (b_src (r_body (resp2 None))) /\
  (length (head_text (ev0 true) (resp2 None)) <= e_bufcap (ev0 true))%nat /\
  exists wt', send 200 (ev0 true) (resp2 None) (mkWtr [] []) = (wt', RErr) /\ w_out wt' = head_text (ev0 true) (resp2 None) ++ B "2" ++ CRLF ++ B "he" ++ CRLF.
Proof.
  split; [apply ev0_ok|]. split; [apply resp2_wf|]. split; [apply fail_wf|]. split; [apply fail_unclean|]. split; [apply Nat.leb_le; vm_compute; reflexivity|]. eexists.
  split; [vm_compute; reflexivity|]. vm_compute. reflexivity.
Qed.

(** C119: the error a handler ends with is answered, whatever it has written before. Its response
    could not be sent, ... *)
Theorem C119_not_sent : forall ev o (h : handler) s wt s1 wt1 q b f0 b' r kok kerr f1 wt2 f2 b2 g, env_ok ev ->
  decode ev (o_timeout o) s wt = (s1, wt1, OReq q b) -> accepting wt1 ->
  run_reading f0 ev (h q) b = (b', inl (PSend r kok kerr)) -> send f1 ev r wt1 = (wt2, RErr) ->
  run_reading f2 ev kerr b' = (b2, inl g) -> sendable ev (glitch_response (o_verbose o) g) ->
  exists m F wt', message (e_date ev) (glitch_response (o_verbose o) g) m /\ w_out wt' = w_out wt2 ++ m /\
    forall fuel, (F <= fuel)%nat -> turn fuel ev o h s wt = (body_src b2, wt', None).
Proof. intros. eapply sent_error; eassumption. Qed.
Print Assumptions C119_not_sent.
(** ... or it was sent and something failed after that, ... *)
Theorem C119_after : forall ev o (h : handler) s wt s1 wt1 q b f0 b' r kok kerr f1 wt2 n f2 b2 g, env_ok ev ->
  decode ev (o_timeout o) s wt = (s1, wt1, OReq q b) -> accepting wt1 ->
  run_reading f0 ev (h q) b = (b', inl (PSend r kok kerr)) -> send f1 ev r wt1 = (wt2, ROk n) ->
  run_reading f2 ev (kok n) b' = (b2, inl (Some g)) -> sendable ev (glitch_response (o_verbose o) g) ->
  exists m F wt', message (e_date ev) (glitch_response (o_verbose o) g) m /\ w_out wt' = w_out wt2 ++ m /\
    forall fuel, (F <= fuel)%nat -> turn fuel ev o h s wt = (body_src b2, wt', None).
Proof. intros. eapply later_error; eassumption. Qed.
Print Assumptions C119_after.
(** ... or it answered with the body of its request, and that could not be sent or it failed
    afterwards. *)
Theorem C119_handed_on : forall ev o (h : handler) s wt s1 wt1 q b f0 b' st v hs len kok kerr f1 wt2 x g, env_ok ev ->
  decode ev (o_timeout o) s wt = (s1, wt1, OReq q b) -> accepting wt1 ->
  run_reading f0 ev (h q) b = (b', inl (PRelay st v hs len kok kerr)) -> relay f1 ev (relay_of st v hs (msg_body len b')) wt1 = (wt2, x) ->
  match x with ROk n => kok n = Some g | RErr => kerr = g | _ => False end -> sendable ev (glitch_response (o_verbose o) g) ->
  exists m F wt' s', message (e_date ev) (glitch_response (o_verbose o) g) m /\ w_out wt' = w_out wt2 ++ m /\
    forall fuel, (F <= fuel)%nat -> turn fuel ev o h s wt = (s', wt', None).
Proof. intros. eapply handed_error; eassumption. Qed.
Print Assumptions C119_handed_on.
Example C119_case : let h : handler := fun _ => Rt (PSend (resp2 None) (fun _ => Rt None) (Rt glitch_ise)) in
  sendable (ev0 true) (glitch_response false glitch_ise) /\
  exists s1 wt1 q b b' wt2, decode (ev0 true) true (arrives get_head []) slow = (s1, wt1, OReq q b) /\ accepting wt1 /\
    run_reading 0 (ev0 true) (h q) b = (b', inl (PSend (resp2 None) (fun _ => Rt None) (Rt glitch_ise))) /\ send 200 (ev0 true) (resp2 None) wt1 = (wt2, RErr).
Proof.
  split; [apply glitch_sendable; [discriminate|vm_compute; reflexivity]|]. eexists _, _, _, _, _, _. split; [vm_compute; reflexivity|].
  split; [repeat constructor|]. split; [reflexivity|]. vm_compute. reflexivity.
Qed.
Example C119_after_case : let h : handler := fun _ => Rt (PSend (resp1 (Some 5%N)) (fun _ => Rt (Some glitch_ise)) (Rt glitch_ise)) in
  exists s1 wt1 q b b' wt2 n b2, decode (ev0 true) true (arrives get_head []) slow = (s1, wt1, OReq q b) /\ accepting wt1 /\
    run_reading 0 (ev0 true) (h q) b = (b', inl (PSend (resp1 (Some 5%N)) (fun _ => Rt (Some glitch_ise)) (Rt glitch_ise))) /\
    send 200 (ev0 true) (resp1 (Some 5%N)) wt1 = (wt2, ROk n) /\ run_reading 0 (ev0 true) (Rt (Some glitch_ise)) b' = (b2, inl (Some glitch_ise)).
Proof.
  eexists _, _, _, _, _, _, _, _. split; [vm_compute; reflexivity|].
  split; [repeat constructor|]. split; [reflexivity|]. split; [vm_compute; reflexivity|reflexivity].
Qed.
Example C119_handed_case : exists s1 wt1 q b wt2, decode (ev0 true) true (arrives chunk_head (B "zz" ++ CRLF)) slow = (s1, wt1, OReq q b) /\ accepting wt1 /\
  relay 20 (ev0 true) (relay_of 200 HTTP_11 [] (msg_body None b)) wt1 = (wt2, RErr).
Proof. eexists _, _, _, _, _. split; [vm_compute; reflexivity|]. split; [repeat constructor|]. vm_compute. reflexivity. Qed.
