(** Property C131: the server's answers and the segments the requests come in. *)
From Verif Require Import Accept Reads SpecChunked SpecHead SpecResponse SpecReq SpecServer Lemmas Proofs_Copy Proofs_ServerDec Proofs_Send
  Proofs_Accept Proofs_Request Proofs_Regroup Examples_Response Examples_Dec Examples_Request Examples_Accept.

(** C131 is false: two requests are answered, or one, depending on whether they come in one
    segment. *)
Theorem C131_segments_refuted : exists ev o h l1 l2 n fuel s1 s2 wt1 wt2, env_ok ev /\
  (forall i q, exists r, h i q = slurp (PSend r (fun _ => Rt None) (Rt glitch_ise)) /\ sendable ev r) /\
  calm (o_timeout o) l1 /\ calm (o_timeout o) l2 /\ Forall wf_ev l1 /\ Forall wf_ev l2 /\ evs_data l1 = evs_data l2 /\
  accept_go n fuel ev o h (mkSrc l1 Eof) (mkWtr [] []) = (s1, wt1, AOk) /\
  accept_go n fuel ev o h (mkSrc l2 Eof) (mkWtr [] []) = (s2, wt2, AOk) /\ w_out wt1 = w_out wt2 ++ w_out wt2 /\ w_out wt2 <> [].
Proof.
  exists (ev0 true), default_opts, (fun _ _ => slurp (PSend (text_resp (B "ok")) (fun _ => Rt None) (Rt glitch_ise))), [Data get_head; Data get_head], [Data (get_head ++ get_head)], 9%nat, 200%nat.
  eexists _, _, _, _. split; [apply ev0_ok|].
  split; [intros i q; eexists; split; [reflexivity|apply text_sendable; cbn; lia]|]. split; [repeat constructor; discriminate|]. split; [repeat constructor; discriminate|].
  split; [repeat constructor; discriminate|]. split; [repeat constructor; discriminate|]. split; [vm_compute; reflexivity|].
  split; [vm_compute; reflexivity|]. split; [vm_compute; reflexivity|]. split; [vm_compute; reflexivity|]. vm_compute. discriminate.
Qed.
Print Assumptions C131_segments_refuted.

(** What holds: if each request comes in segments of its own (see [conversation]), nothing else
    about the segments matters, nor does it matter when they come (as long as no timer fires) or
    what pieces the answers are written in: the same bytes get the same bytes in return. *)
Theorem C131_answers_partial : forall ev o tl h l1 l2 xs1 xs2 a1 a2, env_ok ev ->
  conversation (e_trim ev) (parse_uri (e_uri ev)) (e_deccap ev) o tl h l1 xs1 a1 ->
  conversation (e_trim ev) (parse_uri (e_uri ev)) (e_deccap ev) o tl h l2 xs2 a2 ->
  (forall x, In x xs1 -> sendable ev (snd x)) -> Forall wf_ev l1 -> Forall wf_ev l2 ->
  calm (o_timeout o) l1 -> calm (o_timeout o) l2 -> evs_data l1 = evs_data l2 ->
  exists t, forall wt1 wt2, accepting wt1 -> prompt (o_timeout o) wt1 -> accepting wt2 -> prompt (o_timeout o) wt2 ->
  exists F s1 wt1' s2 wt2' a, w_out wt1' = w_out wt1 ++ t /\ w_out wt2' = w_out wt2 ++ t /\
    forall n fuel, (F <= n)%nat -> (F <= fuel)%nat ->
      accept_go n fuel ev o h (mkSrc l1 tl) wt1 = (s1, wt1', a) /\ accept_go n fuel ev o h (mkSrc l2 tl) wt2 = (s2, wt2', a).
Proof.
  intros ev o tl h l1 l2 xs1 xs2 a1 a2 He H1 H2 HS W1 W2 C1 C2 E. destruct (same_due ev o tl He h l1 xs1 a1 H1 l2 xs2 a2 H2 C1 C2 E) as [<- <-].
  destruct (written_ex ev xs1 He HS) as (t & _ & HW). exists t. intros wt1 wt2 A1 P1 A2 P2.
  destruct (conversation_writes ev o tl He h l1 xs1 a1 H1 t HW [] wt1) as (F1 & s1 & wt1' & O1 & R1); auto; try constructor.
  destruct (conversation_writes ev o tl He h l2 xs1 a1 H2 t HW [] wt2) as (F2 & s2 & wt2' & O2 & R2); auto; try constructor.
  exists (F1 + F2)%nat, s1, wt1', s2, wt2', a1. split; [exact O1|]. split; [exact O2|]. intros n fuel Hn Hf. split; [apply R1; lia|apply R2; lia].
Qed.
Print Assumptions C131_answers_partial.

(** The bytes written depend on the responses due, and on nothing else of the connection: not
    on the requests, the handlers, the options, or the writer. *)
Theorem C131_prescribed : forall ev xs, env_ok ev -> (forall x, In x xs -> sendable ev (snd x)) ->
  exists t, transcript (e_date ev) xs t /\
  forall o tl h l a, conversation (e_trim ev) (parse_uri (e_uri ev)) (e_deccap ev) o tl h l xs a -> Forall wf_ev l ->
  forall wt, accepting wt -> prompt (o_timeout o) wt ->
  exists F s' wt', w_out wt' = w_out wt ++ t /\
    forall n fuel, (F <= n)%nat -> (F <= fuel)%nat -> accept_go n fuel ev o h (mkSrc l tl) wt = (s', wt', a).
Proof.
  intros ev xs He HS. destruct (written_ex ev xs He HS) as (t & HT & HW). exists t. split; [exact HT|]. intros o tl h l a H W wt A P.
  apply (conversation_writes ev o tl He h l xs a H t HW [] wt); auto; constructor.
Qed.
Print Assumptions C131_prescribed.

(** The conversation of C32, with every request in one segment. *)
Definition brisk : list ev := [Data (up_head ++ B "hello")] ++ [Data bad_head] ++ [Data get_head] ++ [Data (B "GET")].
Lemma brisk_conversation o : conversation (e_trim (ev0 true)) (parse_uri (e_uri (ev0 true))) (e_deccap (ev0 true)) o Eof (fun _ => echo) brisk due AOk.
Proof.
  unfold brisk, due.
  eapply cv_request with (w := up_head) (wb := B "hello") (p := B "hello") (len := Some 5%N).
  - reflexivity.
  - apply head_blockb_ok. vm_compute. reflexivity.
  - apply verdict_judge. vm_compute. reflexivity.
  - split; reflexivity.
  - intros q (_ & EU & _). unfold echo, echo_resp. rewrite EU. cbn [u_path]. eexists. split; [apply slurp_drains|apply rp_send; reflexivity].
  - eapply cv_refused with (w := bad_head).
    + reflexivity.
    + apply head_blockb_ok. vm_compute. reflexivity.
    + apply verdict_judge. vm_compute. reflexivity.
    + discriminate.
    + eapply cv_request with (w := get_head) (wb := []) (p := []) (len := Some 0%N).
      * reflexivity.
      * apply head_blockb_ok. vm_compute. reflexivity.
      * apply verdict_judge. vm_compute. reflexivity.
      * split; reflexivity.
      * intros q (_ & EU & _). unfold later, echo, echo_resp. rewrite EU. cbn [u_path]. eexists. split; [apply slurp_drains|apply rp_send; reflexivity].
      * apply cv_end; [|auto]. cbn [fst avail]. intros p q E (p' & ->).
        apply (f_equal (@length _)) in E. rewrite !app_length in E. cbn in E. lia.
Qed.
Example C131_case : env_ok (ev0 true) /\
  conversation (e_trim (ev0 true)) (parse_uri (e_uri (ev0 true))) (e_deccap (ev0 true)) default_opts Eof (fun _ => echo) talk due AOk /\
  conversation (e_trim (ev0 true)) (parse_uri (e_uri (ev0 true))) (e_deccap (ev0 true)) default_opts Eof (fun _ => echo) brisk due AOk /\
  (forall x, In x due -> sendable (ev0 true) (snd x)) /\ Forall wf_ev talk /\ Forall wf_ev brisk /\
  calm (o_timeout default_opts) talk /\ calm (o_timeout default_opts) brisk /\ evs_data talk = evs_data brisk /\ talk <> brisk /\
  accepting slow /\ prompt (o_timeout default_opts) slow.
Proof.
  split; [apply ev0_ok|]. split; [apply talk_conversation|]. split; [apply brisk_conversation|]. split; [apply talk_sendable|]. split; [apply talk_wf|].
  split; [repeat constructor; discriminate|]. split; [repeat constructor; discriminate|]. split; [repeat constructor; discriminate|].
  split; [vm_compute; reflexivity|]. split; [discriminate|]. split; [apply slow_accepting|apply slow_prompt].
Qed.
