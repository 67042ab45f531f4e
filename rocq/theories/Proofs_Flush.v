(** Flushing. *)
From Verif Require Import Accept Client Reads SpecChunked SpecHead SpecResponse SpecReq SpecServer Lemmas Proofs_Copy Proofs_Parse Proofs_Buf
  Proofs_ReqHead Proofs_ServerEnc Proofs_Head Proofs_Send Proofs_ServerDec Proofs_Body Proofs_Accept Proofs_Request Proofs_Turns Proofs_Hand Proofs_Causal.

Lemma write_flushed d w w' r : w_write d w = (w', r) -> w_flushed w' = w_flushed w.
Proof. unfold w_write. destruct (w_evs w) as [|[k|f|] l]; now intros [= <- <-]. Qed.
Lemma flush_flushed w w' r : w_flush w = (w', r) ->
  match r with WrOk _ => all_flushed w' | _ => w_flushed w' = w_flushed w end.
Proof. unfold w_flush. destruct (w_evs w) as [|[k|f|] l]; now intros [= <- <-]. Qed.
Lemma copy_flushed {E} (poll : E -> E * pres bytes) : forall fuel e bb w amt w' r, copy_go poll fuel e bb w amt = (w', r) ->
  match r with ROk _ => all_flushed w' | _ => w_flushed w' = w_flushed w end.
Proof.
  induction fuel as [|f IH]; intros e bb w amt w' r; cbn [copy_go]; [now intros [= <- <-]|].
  destruct bb as [|c bb].
  - destruct (poll e) as [e' [[|c d]|fi| | |]]; try (now intros [= <- <-]); try apply IH.
    destruct (w_flush w) as [w1 [k|fi|]] eqn:EW; apply flush_flushed in EW; try (now intros [= <- <-]).
    intros H. apply IH in H. now rewrite EW in H.
  - destruct (w_write (c :: bb) w) as [w1 [[|k]|fi|]] eqn:EW; apply write_flushed in EW; try (now intros [= <- <-]);
    intros H; apply IH in H; now rewrite EW in H.
Qed.
Lemma send_flushed fuel ev r w w' x : send fuel ev r w = (w', x) ->
  match x with ROk _ => all_flushed w' | _ => w_flushed w' = w_flushed w end.
Proof. apply copy_flushed. Qed.
Lemma write_all_flushed tmo d w w' r : write_all tmo d w = (w', r) -> w_flushed w' = w_flushed w.
Proof.
  unfold write_all. generalize (S (length d + length (w_evs w))) as fuel. intros fuel. revert d w.
  induction fuel as [|f IH]; intros d w; destruct d as [|c d]; cbn [write_all_go]; try (now intros [= <- <-]).
  destruct (w_write (c :: d) w) as [w1 [[|k]|fi|]] eqn:EW; apply write_flushed in EW; try (now intros [= <- <-]).
  - intros H. apply IH in H. congruence.
  - destruct (tmo && fi)%bool; [now intros [= <- <-]|]. intros H. apply IH in H. congruence.
Qed.
Lemma decode_flushed ev tmo s w s' w' o : decode ev tmo s w = (s', w', o) -> w_flushed w' = w_flushed w.
Proof.
  unfold decode. destruct (req_head _ _) as [b [buf| | | |]]; try (now intros [= <- <- <-]).
  destruct (parse_head ev buf) as [f|[[m p] a]]; [now intros [= <- <- <-]|].
  destruct (expects_continue a); [|now intros [= <- <- <-]].
  destruct (write_all tmo continue_text w) as [w1 [u| | | |]] eqn:E; apply write_all_flushed in E; now intros [= <- <- <-].
Qed.

Lemma ignored_flushed fuel ev r w w' : env_ok ev -> sendable ev r -> accepting w ->
  send_ignored fuel ev r w = (w', None) -> all_flushed w' /\ accepting w'.
Proof.
  intros He Hr Ha. destruct (send_any ev r He Hr) as (m & _ & HS). unfold send_ignored.
  destruct (send fuel ev r w) as [w1 y] eqn:S. destruct (HS w Ha _ _ _ S) as (p & _ & _ & A & K). apply send_flushed in S.
  destruct y as [k| | | |]; intros [= <-]; auto. destruct K as [[[? K] _]|K]; discriminate.
Qed.

Lemma handler_flushed ev verbose fuel p b w b' w' x : accepting w -> always (fails_legally ev verbose) p ->
  run_handler fuel ev p b w = (b', w', inl x) ->
  wsuf w w' /\ match x with None => all_flushed w' | Some g => sendable ev (glitch_response verbose g) end.
Proof.
  intros Ha HA. unfold run_handler. destruct (run_reading fuel ev p b) as [b1 [y|y]] eqn:R; [|discriminate].
  pose proof (reading_always _ _ _ _ _ _ _ R HA) as Y. destruct y as [g|r kok kerr|st v hs len kok kerr]; cbn [fails_legally] in Y.
  { intros [= <- <- <-]. split; [apply wsuf_refl|exact Y]. }
  2: { destruct Y as [Y1 Y2]. destruct (relay_body fuel ev st v hs len b1 w) as [[b2 w1] y] eqn:S. apply relay_body_relay in S.
       pose proof (copy_suf _ _ _ _ _ _ _ _ S) as SU. apply copy_flushed in S.
       destruct y as [k| | | |]; try discriminate; intros [= <- <- <-]; (split; [exact SU|]); [|exact Y2]. destruct (kok k) as [g|] eqn:EK; [eauto|exact S]. }
  destruct Y as [Y1 Y2]. destruct (send fuel ev r w) as [w1 y] eqn:S. pose proof (send_suf _ _ _ _ _ _ S) as SU. apply send_flushed in S.
  destruct y as [k| | | |]; try discriminate.
  - destruct (run_reading fuel ev (kok k) b1) as [b2 z] eqn:R2. intros [= <- <- ->]. split; [exact SU|].
    pose proof (reading_always _ _ _ _ _ _ _ R2 (Y1 k)) as Z. cbn in Z. destruct x; [exact Z|exact S].
  - destruct (run_reading fuel ev kerr b1) as [b2 [g|z]] eqn:R2; [|discriminate]. intros [= <- <- <-]. split; [exact SU|].
    exact (reading_always _ _ _ _ _ _ _ R2 Y2).
Qed.

Definition over (x : option aout) : Prop := match x with None | Some AOk | Some AErr => True | _ => False end.
Lemma reading_no_return {A} ev : forall fuel (p : reading A) b b' x, run_reading fuel ev p b = (b', inr x) -> ~ over (Some x).
Proof.
  induction fuel as [|f IH]; intros p b b' x; destruct p as [n k|a]; cbn [run_reading]; intros H; try discriminate.
  - injection H as _ <-. auto.
  - destruct (body_read ev n b) as [b1 [y|fi| | |]]; try (injection H as _ <-; auto; fail); eauto.
Qed.
Lemma handler_no_return fuel ev p b w b' w' x : run_handler fuel ev p b w = (b', w', inr x) -> ~ over (Some x).
Proof.
  unfold run_handler. destruct (run_reading fuel ev p b) as [b1 [y|y]] eqn:E.
  2: { intros [= <- <- <-]. now apply reading_no_return in E. }
  destruct y as [g|r kok kerr|st v hs len kok kerr]; [discriminate| |].
  2: { destruct (relay_body fuel ev st v hs len b1 w) as [[b2 w1] [k| | | |]]; intros [= <- <- <-]; auto. }
  destruct (send fuel ev r w) as [w1 [k| | | |]]; try (intros [= <- <- <-]; auto; fail).
  - destruct (run_reading fuel ev (kok k) b1) as [b2 y] eqn:E2. intros [= <- <- ->]. now apply reading_no_return in E2.
  - destruct (run_reading fuel ev kerr b1) as [b2 [y|y]] eqn:E2; intros [= <- <- <-]. now apply reading_no_return in E2.
Qed.
Lemma turn_flushed ev o h s w fuel s' w' x : env_ok ev -> wf_src s -> (forall q, always (fails_legally ev (o_verbose o)) (h q)) ->
  accepting w -> prompt (o_timeout o) w -> all_flushed w -> turn fuel ev o h s w = (s', w', x) -> over x ->
  all_flushed w' /\ accepting w' /\ prompt (o_timeout o) w'.
Proof.
  intros He Ws Hh Ha Hp Hf. pose proof (ok_cap ev He) as Hc. unfold turn.
  destruct (head_cases (fst (avail (o_timeout o) (s_evs s)))) as [(hd & rest & A & Hb)|NH].
  - assert (HO : offers (o_timeout o) s hd) by (split; [exact Ws|]; split; [exact Hb|]; eauto).
    destruct (decode_offer ev (o_timeout o) s hd Hc HO) as (b & _ & _ & _ & _ & _ & _ & _ & _ & _ & HD).
    destruct (judge_total (e_trim ev) (parse_uri (e_uri ev)) hd) as (c & v & J). destruct (HD c v J) as (out & AN & HDec).
    rewrite HDec. destruct (interim_ok c (o_timeout o) w Ha Hp) as (w1 & EI & A1 & P1 & O1). rewrite EI. cbn [fst snd after_interim].
    destruct v as [code|m u' hs len].
    + destruct AN as (f & -> & FR & FF). unfold handle_fail. rewrite FR.
      destruct (send_ignored fuel ev (plain_response code) w1) as [w2 z] eqn:SI.
      assert (SU : wsuf w1 w2).
      { unfold send_ignored in SI. destruct (send fuel ev (plain_response code) w1) as [w3 y] eqn:S. apply send_suf in S. destruct y; injection SI as <- _; exact S. }
      destruct z as [z|]; intros H X.
      { injection H as <- <- <-. unfold send_ignored in SI. destruct (send _ _ _ _) as [? []]; injection SI as _ E; try discriminate; rewrite <- E in X; elim X. }
      apply ignored_flushed in SI as [SI1 SI2]; auto; [|now apply bare_sendable].
      injection H as <- <- <-. split; [exact SI1|]. split; [exact SI2|]. eapply suf_prompt; eauto.
    + destruct AN as (h' & -> & _ & _). destruct (run_handler _ _ _ _ _) as [[b' w2] [y|y]] eqn:RH.
      * apply (handler_flushed ev (o_verbose o)) in RH as [SU RH]; auto. destruct y as [g|].
        -- destruct (send_ignored _ _ _ w2) as [w3 z] eqn:SI. intros [= <- <- <-] X. 
           assert (SU2 : wsuf w2 w3).
           { unfold send_ignored in SI. destruct (send fuel ev _ w2) as [w4 y] eqn:S. apply send_suf in S. destruct y; injection SI as <- _; exact S. }
           destruct z as [z|]; [unfold send_ignored in SI; destruct (send _ _ _ _) as [? []]; injection SI as _ E; try discriminate; rewrite <- E in X; elim X|].
           apply ignored_flushed in SI as [SI1 SI2]; auto; [|eapply suf_accepting; eauto].
           split; [exact SI1|]. split; [exact SI2|]. apply (suf_prompt _ w1); [exact (wsuf_trans _ _ _ SU SU2)|exact P1].
        -- intros [= <- <- <-] _. split; [exact RH|]. split; [eapply suf_accepting; eauto|eapply suf_prompt; eauto].
      * intros [= <- <- <-] X. elim (handler_no_return _ _ _ _ _ _ _ _ RH X).
  - destruct (decode_none ev (o_timeout o) s Hc Ws NH) as (s1 & HD). rewrite HD. intros H _.
    destruct (snd (avail _ _)), (s_tail s); cbn in H; injection H as <- <- <-; auto.
Qed.

Lemma accept_flushed ev o : env_ok ev -> forall n fuel h s w s' w' x, wf_src s -> (forall i q, always (fails_legally ev (o_verbose o)) (h i q)) ->
  accepting w -> prompt (o_timeout o) w -> all_flushed w -> accept_go n fuel ev o h s w = (s', w', x) -> over (Some x) -> all_flushed w'.
Proof.
  intros He. pose proof (ok_cap ev He) as Hc. induction n as [|n IH]; intros fuel h s w s' w' x Ws Hh Ha Hp Hf; cbn [accept_go].
  { intros [= <- <- <-] []. }
  destruct (turn fuel ev o (h O) s w) as [[s1 w1] [y|]] eqn:T; intros H X.
  - injection H as <- <- <-. apply (turn_flushed ev o) in T as (T & _); auto.
  - pose proof (turn_left _ _ _ _ _ _ _ _ _ Hc T) as (_ & _ & W1 & _). apply (turn_flushed ev o) in T as (T1 & T2 & T3); auto; [|exact I].
    eapply IH; [..|exact H|exact X]; auto. intros i. apply (Hh (S i)).
Qed.

Lemma connect_flushed ev fuel q s w w' a : connect ev fuel q s w = (w', COk a) -> all_flushed w'.
Proof.
  unfold connect. destruct (c_encode q); try discriminate.
  destruct (copy_go _ _ _ _ _ _) as [w1 [k| | | |]] eqn:E; try discriminate. intros [= <- _]. now apply copy_flushed in E.
Qed.

Lemma ignored_grows fuel ev r w w' x : send_ignored fuel ev r w = (w', x) -> prefix (w_out w) (w_out w').
Proof. unfold send_ignored. destruct (send fuel ev r w) as [w1 y] eqn:S. apply copy_out in S. now destruct y; intros [= <- _]. Qed.
Lemma turn_grows ev o h s w fuel s1 w1 q b s' w' x : decode ev (o_timeout o) s w = (s1, w1, OReq q b) ->
  turn fuel ev o h s w = (s', w', x) -> prefix (w_out w1) (w_out w').
Proof.
  intros HD. unfold turn. rewrite HD. destruct (run_handler fuel ev (h q) b w1) as [[b' w2] y] eqn:R.
  apply handler_out in R as G.
  destruct y as [[g|]|y]; [destruct (send_ignored fuel ev _ w2) as [w3 z] eqn:SI; apply ignored_grows in SI; intros [= _ <- _]; eapply prefix_trans; eauto| |]; intros [= _ <- _]; exact G.
Qed.
