(** The error a handler ends with is answered, whatever the handler has written before. *)
From Verif Require Import BodyRead Relay Accept Reads SpecChunked SpecHead SpecResponse SpecReq SpecServer Lemmas Proofs_Copy Proofs_ServerEnc Proofs_Head Proofs_Send
  Proofs_ServerDec Proofs_Hand Proofs_Accept Proofs_Turns Proofs_Echo.

Lemma run_reading_mono {A} ev fu : forall fu' (p : reading A) b b' a, (fu <= fu')%nat -> run_reading fu ev p b = (b', inl a) -> run_reading fu' ev p b = (b', inl a).
Proof.
  induction fu as [|fu IH]; intros fu' p b b' a L E; destruct p as [n k|y]; cbn [run_reading] in E; try discriminate.
  - destruct fu'; exact E.
  - destruct fu' as [|fu']; [lia|]. cbn [run_reading]. destruct (body_read ev n b) as [b1 [z|fi| | |]]; try discriminate; eapply IH; eauto; lia.
  - destruct fu'; exact E.
Qed.

Section Report.
  Variables (ev : env) (o : opts) (h : handler) (s : src) (wt : wtr) (s1 : src) (wt1 : wtr) (q : rhead) (b : rbody).
  Hypothesis He : env_ok ev.
  Hypothesis HD : decode ev (o_timeout o) s wt = (s1, wt1, OReq q b).
  Hypothesis Ha : accepting wt1.

  Lemma glitch_answered g wt2 b2 F0 : sendable ev (glitch_response (o_verbose o) g) -> wsuf wt1 wt2 ->
    (forall fuel, (F0 <= fuel)%nat -> run_handler fuel ev (h q) b wt1 = (b2, wt2, inl (Some g))) ->
    exists m F wt', message (e_date ev) (glitch_response (o_verbose o) g) m /\ w_out wt' = w_out wt2 ++ m /\
      forall fuel, (F <= fuel)%nat -> turn fuel ev o h s wt = (body_src b2, wt', None).
  Proof.
    intros Sg SU HR. destruct (send_message ev _ He Sg) as (m & Hm & HS).
    destruct (HS wt2) as (F & w2 & x & p & S1 & O & _ & [[-> ->]|[_ X]]); [|exfalso; apply X; now apply (suf_accepting wt1)].
    exists m, (F + F0)%nat, w2. ands; auto. intros fuel Hf. unfold turn. rewrite HD, HR by lia. unfold send_ignored. rewrite S1 by lia. reflexivity.
  Qed.

  Lemma sent_error f0 b' r kok kerr f1 wt2 f2 b2 g : run_reading f0 ev (h q) b = (b', inl (PSend r kok kerr)) -> send f1 ev r wt1 = (wt2, RErr) ->
    run_reading f2 ev kerr b' = (b2, inl g) -> sendable ev (glitch_response (o_verbose o) g) ->
    exists m F wt', message (e_date ev) (glitch_response (o_verbose o) g) m /\ w_out wt' = w_out wt2 ++ m /\
      forall fuel, (F <= fuel)%nat -> turn fuel ev o h s wt = (body_src b2, wt', None).
  Proof.
    intros R S K Sg. apply (glitch_answered g wt2 b2 (f0 + f1 + f2)); [exact Sg|now apply send_suf in S|]. intros fuel L. unfold run_handler.
    rewrite (run_reading_mono ev f0 fuel _ _ _ _ ltac:(lia) R), (send_mono ev r wt1 f1 fuel wt2 RErr ltac:(lia) S ltac:(discriminate)),
      (run_reading_mono ev f2 fuel _ _ _ _ ltac:(lia) K). reflexivity.
  Qed.
  Lemma later_error f0 b' r kok kerr f1 wt2 n f2 b2 g : run_reading f0 ev (h q) b = (b', inl (PSend r kok kerr)) -> send f1 ev r wt1 = (wt2, ROk n) ->
    run_reading f2 ev (kok n) b' = (b2, inl (Some g)) -> sendable ev (glitch_response (o_verbose o) g) ->
    exists m F wt', message (e_date ev) (glitch_response (o_verbose o) g) m /\ w_out wt' = w_out wt2 ++ m /\
      forall fuel, (F <= fuel)%nat -> turn fuel ev o h s wt = (body_src b2, wt', None).
  Proof.
    intros R S K Sg. apply (glitch_answered g wt2 b2 (f0 + f1 + f2)); [exact Sg|now apply send_suf in S|]. intros fuel L. unfold run_handler.
    rewrite (run_reading_mono ev f0 fuel _ _ _ _ ltac:(lia) R), (send_mono ev r wt1 f1 fuel wt2 _ ltac:(lia) S ltac:(discriminate)),
      (run_reading_mono ev f2 fuel _ _ _ _ ltac:(lia) K). reflexivity.
  Qed.

  Lemma handed_error f0 b' st v hs len kok kerr f1 wt2 x g : run_reading f0 ev (h q) b = (b', inl (PRelay st v hs len kok kerr)) ->
    relay f1 ev (relay_of st v hs (msg_body len b')) wt1 = (wt2, x) ->
    match x with ROk n => kok n = Some g | RErr => kerr = g | _ => False end -> sendable ev (glitch_response (o_verbose o) g) ->
    exists m F wt' s', message (e_date ev) (glitch_response (o_verbose o) g) m /\ w_out wt' = w_out wt2 ++ m /\
      forall fuel, (F <= fuel)%nat -> turn fuel ev o h s wt = (s', wt', None).
  Proof.
    intros R S K Sg. destruct (relay_body f1 ev st v hs len b' wt1) as [[b2 w2] y] eqn:E.
    pose proof (relay_body_relay _ _ _ _ _ _ _ _ _ _ _ E) as E2. change (relay_of st v hs (msg_body len b')) with (mkRel st v hs len (RMsg b')) in S. rewrite S in E2. injection E2 as <- <-.
    assert (NF : x <> RFuel) by (intros ->; exact K).
    destruct (glitch_answered g wt2 b2 (f0 + f1)) as (m & F & wt' & M); [exact Sg| | |exists m, F, wt', (body_src b2); exact M].
    - unfold relay in S. apply copy_suf in S. exact S.
    - intros fuel L. unfold run_handler. rewrite (run_reading_mono ev f0 fuel _ _ _ _ ltac:(lia) R), (relay_body_mono _ _ _ _ _ _ _ f1 fuel _ _ _ ltac:(lia) E NF).
      destruct x; try contradiction; now rewrite K.
  Qed.
End Report.
