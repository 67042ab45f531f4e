(** Property C113: handlers that answer with the body of their request, in the connection loop. *)
From Verif Require Import Accept Relay Reads SpecChunked SpecHead SpecResponse SpecReq SpecServer Lemmas Proofs_Copy Proofs_Send Proofs_ServerDec Proofs_Accept Proofs_Request
  Proofs_Echo Examples_Response Examples_Dec Examples_Request Examples_Accept Properties_Body.

(** C113: see [dialogue] in SpecServer.v. As C32, where each handler either reads its request's
    body and answers, or answers with that body: the responses arrive in order, the bodies
    handed on are those of the requests, and the next request is taken from behind them. (Where
    the chunks of a body that is handed on begin depends on the segments it arrives in.) *)
Theorem C113_handed_on : forall ev o tl h l xs a, env_ok ev ->
  dialogue (e_trim ev) (parse_uri (e_uri ev)) (e_deccap ev) o tl h l xs a ->
  (forall x, In x xs -> sendable ev (snd x)) -> Forall wf_ev l ->
  forall wt, accepting wt -> prompt (o_timeout o) wt ->
  exists t F s' wt', transcript (e_date ev) xs t /\ w_out wt' = w_out wt ++ t /\
    forall n fuel, (F <= n)%nat -> (F <= fuel)%nat -> accept_go n fuel ev o h (mkSrc l tl) wt = (s', wt', a).
Proof.
  intros ev o tl h l xs a He HC HS HW wt Ha Hp. apply (dialogue_runs ev o tl He h l xs a HC HS []); auto; constructor.
Qed.
Print Assumptions C113_handed_on.

(** Answers GET requests with their path, others with their bodies. *)
Definition mirror : handler := fun q =>
  if beq (q_meth q) (B "GET") then echo q else Rt (PRelay 200 HTTP_11 [] (q_len q) (fun _ => None) glitch_ise).
Definition post1 : list ev := [Data (firstn 7 up_head); Pend false; Data (skipn 7 up_head); Pend false; Data (B "hel"); Data (B "lo")].
Definition post2 : list ev := [Pend false; Data chunk_head; Data (firstn 9 wiki_wire); Pend false; Data (skipn 9 wiki_wire)].
Definition posts : list ev := post1 ++ post2 ++ talk3 ++ [].
Definition streamed : response := mkResp 200 HTTP_11 [] (mkBody None (mkSrc [Data (B "Wikipedia")] Eof)).
Definition answers : list (bool * response) := [(true, text_resp (B "hello")); (false, streamed); (false, text_resp (B "/a"))].

Lemma calm_avail tmo l : forallb (fun e => match e with Data _ | Pend false => true | _ => false end) l = true -> avail tmo l = (evs_data l, ObEnd).
Proof.
  induction l as [|[d|[|]|] l IH]; cbn [forallb avail evs_data]; intros H; try discriminate; auto.
  - now rewrite (IH H).
  - rewrite andb_false_r. auto.
Qed.
Lemma posts_dialogue o : dialogue (e_trim (ev0 true)) (parse_uri (e_uri (ev0 true))) (e_deccap (ev0 true)) o Eof (fun _ => mirror) posts answers AOk.
Proof.
  unfold posts, answers.
  eapply dg_request with (w := up_head) (wb := B "hello") (p := B "hello") (len := Some 5%N).
  - rewrite calm_avail by reflexivity. f_equal.
  - apply head_blockb_ok. vm_compute. reflexivity.
  - apply verdict_judge. vm_compute. reflexivity.
  - split; reflexivity.
  - intros q (EM & _ & EL & _). right. unfold mirror. rewrite EM, EL. split; [reflexivity|]. split; [reflexivity|]. eexists _, _. split; [|reflexivity]. reflexivity.
  - eapply dg_request with (w := chunk_head) (wb := wiki_wire) (p := B "Wikipedia") (len := None).
    + rewrite calm_avail by reflexivity. f_equal.
    + apply head_blockb_ok. vm_compute. reflexivity.
    + apply verdict_judge. vm_compute. reflexivity.
    + eexists. exact wiki_fits.
    + intros q (EM & _ & EL & _). right. unfold mirror, later. rewrite EM, EL. split; [reflexivity|]. split; [reflexivity|]. eexists _, _. split; [|reflexivity]. reflexivity.
    + eapply dg_request with (w := get_head) (wb := []) (p := []) (len := Some 0%N).
      * rewrite calm_avail by reflexivity. f_equal.
      * apply head_blockb_ok. vm_compute. reflexivity.
      * apply verdict_judge. vm_compute. reflexivity.
      * split; reflexivity.
      * intros q (EM & EU & _). left. unfold later, mirror. rewrite EM. cbn [beq]. unfold echo, echo_resp. rewrite EU. cbn [u_path]. eexists. split; [apply slurp_drains|apply rp_send; reflexivity].
      * apply dg_end; [|right; auto]. cbn. intros p q E (p' & ->). apply (f_equal (@length _)) in E. rewrite !app_length in E. cbn in E. lia.
Qed.
Example C113_case : env_ok (ev0 true) /\
  dialogue (e_trim (ev0 true)) (parse_uri (e_uri (ev0 true))) (e_deccap (ev0 true)) default_opts Eof (fun _ => mirror) posts answers AOk /\
  (forall x, In x answers -> sendable (ev0 true) (snd x)) /\ Forall wf_ev posts /\ accepting slow /\ prompt (o_timeout default_opts) slow.
Proof.
  split; [apply ev0_ok|]. split; [apply posts_dialogue|]. split; [|].
  { intros x [<-|[<-|[<-|[]]]]; cbn [snd]; try (apply text_sendable; cbn; lia). split; [split; constructor|]. split; [repeat constructor; discriminate|]. split; [split; [repeat constructor; discriminate|reflexivity]|].
    intros (h & _ & X & _). discriminate X. }
  split; [vm_compute; repeat constructor; discriminate|]. split; [apply slow_accepting|apply slow_prompt].
Qed.
(** The same, run. *)
Example C113_run : exists s' wt', accept_go 9 200 (ev0 true) default_opts (fun _ => mirror) (mkSrc posts Eof) (mkWtr [] []) = (s', wt', AOk) /\
  w_out wt' =
  lines ["HTTP/1.1 100 Continue"]%string ++
  lines ["HTTP/1.1 200 OK"; "content-length: 5"; "date: Thu, 01 Jan 1970 00:00:00 GMT"; "content-type: application/octet-stream"]%string ++ B "hello" ++
  lines ["HTTP/1.1 200 OK"; "transfer-encoding: chunked"; "date: Thu, 01 Jan 1970 00:00:00 GMT"; "content-type: application/octet-stream"]%string ++
    lines ["4"; "Wiki"; "5"; "pedia"; "0"]%string ++
  lines ["HTTP/1.1 200 OK"; "content-length: 2"; "date: Thu, 01 Jan 1970 00:00:00 GMT"; "content-type: application/octet-stream"]%string ++ B "/a".
Proof. eexists _, _. split; [vm_compute; reflexivity|vm_compute; reflexivity]. Qed.
