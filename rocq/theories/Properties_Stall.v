(** Property C115: the connection timeout and request bodies. *)
From Verif Require Import Accept Reads SpecChunked SpecHead SpecResponse SpecReq SpecServer Lemmas Proofs_Copy Proofs_ServerEnc
  Proofs_ServerDec Proofs_Body Proofs_Send Proofs_Accept Proofs_Request Proofs_Untimed
  Examples_Response Examples_Dec Examples_Request Examples_Accept.

(** Once the head of a request has arrived in time, the timer has no influence on what is done
    with the request: two connections that differ only in when the timer runs out are served
    alike. *)
Theorem C115_ignored : forall ev o h fuel s1 s2 w1 w2 wt s1' s2' wt1 wt2 x1 x2, env_ok ev ->
  offers (o_timeout o) s1 w1 -> offers (o_timeout o) s2 w2 -> same_but_timer s1 s2 -> (forall q, deaf_handler (h q)) ->
  turn fuel ev o h s1 wt = (s1', wt1, x1) -> turn fuel ev o h s2 wt = (s2', wt2, x2) ->
  same_but_timer s1' s2' /\ wt1 = wt2 /\ x1 = x2.
Proof.
  intros ev o h fuel s1 s2 w1 w2 wt s1' s2' wt1 wt2 x1 x2 He O1 O2 SB HD. apply u_turns; auto; eapply offers_in_time; eauto.
Qed.
Print Assumptions C115_ignored.

(** So a request is served however slowly its body arrives. *)
Theorem C115_served : forall ev o h s l1 l2 w wb p c m u hs len r, env_ok ev -> sendable ev r ->
  offers (o_timeout o) s w -> s_evs s = l1 ++ l2 -> avail false l1 = (w ++ wb, ObEnd) ->
  judged ev w c (Accept m u hs len) -> body_wire (e_deccap ev) len p wb ->
  (forall q, presents q m u hs len -> serves (o_verbose o) (chunked_len len) p r (h q)) -> (forall q, deaf_handler (h q)) ->
  forall wt, accepting wt -> prompt (o_timeout o) wt ->
  exists msg F wt' pads, message (e_date ev) r msg /\ w_out wt' = w_out wt ++ (if c then go_ahead else []) ++ msg /\
    evs_data pads = [] /\
    forall fuel, (F <= fuel)%nat -> exists s', turn fuel ev o h s wt = (s', wt', None) /\
      same_but_timer s' (mkSrc (pads ++ l2) (s_tail s)).
Proof. exact stalled_served. Qed.
Print Assumptions C115_served.

(** One would expect the timeout, when it is on, to cut off a client that stops in the middle of
    a request.  It does not: whatever the number of polls the server has made since the timer ran
    out, a client that stopped in the middle of its body is still waited for. *)
Definition stall (k : nat) : src := mkSrc ([Data up_head; Data (B "hel")] ++ repeat (Pend true) k ++ [Data (B "lo")]) Eof.
Lemma echo_deaf q : deaf_handler (echo q).
Proof.
  unfold echo, deaf_handler. set (P := fun _ : pre => _).
  assert (K : forall fin, P fin -> P (PFail glitch_ise) -> deaf P (slurp fin)).
  { intros fin H1 H2. cofix CIH. rewrite slurp_eq. constructor; [reflexivity|]. intros [[|]|f| | |]; try apply CIH; constructor; assumption. }
  apply K; cbn; auto. split; [intros n|]; constructor; exact I.
Qed.
Lemma stall_avail k : avail false (s_evs (stall k)) = (up_head ++ B "hello", ObEnd).
Proof.
  unfold stall. cbn [s_evs app avail]. replace (avail false (repeat (Pend true) k ++ [Data (B "lo")])) with (B "lo", ObEnd).
  - reflexivity.
  - induction k; [reflexivity|]. exact IHk.
Qed.
Lemma stall_offers k tmo : offers tmo (stall k) up_head.
Proof.
  split; [|split; [apply head_blockb_ok; vm_compute; reflexivity|]].
  - unfold stall, wf_src. cbn [s_evs app]. repeat (constructor; [discriminate|]). apply Forall_app. split; [|repeat constructor; discriminate].
    clear. induction k; constructor; [discriminate|assumption].
  - unfold stall. cbn [s_evs app avail]. destruct (avail tmo _) as [x y]. now exists (B "hel" ++ x).
Qed.
Lemma up_judged : exists m u hs, judged (ev0 true) up_head true (Accept m u hs (Some 5%N)) /\ u_path u = B "/up".
Proof. do 3 eexists. split; [apply verdict_judge; vm_compute; reflexivity|reflexivity]. Qed.
Theorem C115_cut_off_refuted : exists ev o h, env_ok ev /\ o_timeout o = true /\
  forall k, exists msg F, message (e_date ev) (text_resp (B "/up")) msg /\
    forall fuel, (F <= fuel)%nat -> exists s' wt', turn fuel ev o h (stall k) (mkWtr [] []) = (s', wt', None) /\ w_out wt' = go_ahead ++ msg.
Proof.
  exists (ev0 true), (mkOpts true false), echo. split; [apply ev0_ok|]. split; [reflexivity|]. intros k.
  destruct up_judged as (m & u & hs & J & EP).
  destruct (C115_served (ev0 true) (mkOpts true false) echo (stall k) (s_evs (stall k)) [] up_head (B "hello") (B "hello") true m u hs (Some 5%N)
    (text_resp (B "/up"))) with (wt := mkWtr [] []) as (msg & F & wt' & pads & Hm & O & _ & T).
  - apply ev0_ok.
  - apply text_sendable. cbn. lia.
  - apply stall_offers.
  - now rewrite app_nil_r.
  - apply stall_avail.
  - exact J.
  - split; reflexivity.
  - intros q (_ & EU & _). unfold echo, echo_resp. rewrite EU, EP. eexists. split; [apply slurp_drains|apply rp_send; reflexivity].
  - apply echo_deaf.
  - constructor.
  - intros _. constructor.
  - exists msg, F. split; [exact Hm|]. intros fuel L. destruct (T fuel L) as (s' & T' & _). exists s', wt'. split; [exact T'|exact O].
Qed.
Print Assumptions C115_cut_off_refuted.
Example C115_ignored_case : forall k, let s2 := mkSrc ([Data up_head; Data (B "hel")] ++ repeat (Pend false) k ++ [Data (B "lo"); Pend true]) Eof in
  let s1 := mkSrc ([Data up_head; Data (B "hel")] ++ repeat (Pend true) k ++ [Data (B "lo"); Pend false]) Eof in
  offers true s1 up_head /\ offers true s2 up_head /\ same_but_timer s1 s2 /\ (forall q, deaf_handler (echo q)).
Proof.
  intros k. cbv zeta. assert (O : forall f g, offers true (mkSrc ([Data up_head; Data (B "hel")] ++ repeat (Pend f) k ++ [Data (B "lo"); Pend g]) Eof) up_head).
  { intros f g. split; [|split; [apply head_blockb_ok; vm_compute; reflexivity|]].
    - unfold wf_src. cbn [s_evs app]. repeat (constructor; [discriminate|]). apply Forall_app. split; [|repeat constructor; discriminate].
      clear. induction k; constructor; [discriminate|assumption].
    - cbn [s_evs app avail]. destruct (avail true _) as [x y]. now exists (B "hel" ++ x). }
  split; [apply O|]. split; [apply O|]. split; [|exact echo_deaf]. split; [|reflexivity]. cbn [s_evs]. repeat (constructor; [reflexivity|]). cbn [app].
  clear O. induction k; cbn [repeat app]; [repeat constructor|]. constructor; [exact I|exact IHk].
Qed.
