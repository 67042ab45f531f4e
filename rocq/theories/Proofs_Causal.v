(** Responses do not wait for what follows their requests (C95). *)
From Verif Require Import Accept Reads SpecChunked SpecHead SpecResponse SpecReq SpecServer Lemmas Proofs_Copy Proofs_Parse Proofs_Buf
  Proofs_ServerDec Proofs_Send Proofs_Body Proofs_Accept Proofs_Turns Proofs_Hand.

Theorem exchange_runs ev o tl : env_ok ev -> forall h l xs,
  exchange (e_trim ev) (parse_uri (e_uri ev)) (e_deccap ev) o h l xs ->
  (forall x, In x xs -> sendable ev (snd x)) ->
  exists t, transcript (e_date ev) xs t /\
  forall pads rest wt, calm (o_timeout o) pads -> evs_data pads = [] -> Forall wf_ev pads -> Forall wf_ev l -> Forall wf_ev rest ->
    accepting wt -> prompt (o_timeout o) wt ->
  exists F pads' wt', w_out wt' = w_out wt ++ t /\ accepting wt' /\ prompt (o_timeout o) wt' /\
    calm (o_timeout o) pads' /\ evs_data pads' = [] /\
    forall n fuel, (F <= fuel)%nat ->
      accept_go (length xs + n) fuel ev o h (mkSrc (pads ++ l ++ rest) tl) wt =
      accept_go n fuel ev o (fun i => h (length xs + i)%nat) (mkSrc (pads' ++ rest) tl) wt'.
Proof.
  intros He h l xs H. induction H as [h|h l1 l2 w wb p c m u hs len r xs A Hb J BW HD HC IH
                                     |h l1 l2 w c code xs A Hb J NE HC IH]; intros HS.
  - exists []. split; [constructor|]. intros pads rest wt C D Wp Wl Wr Ha Hp.
    exists O, pads, wt. rewrite app_nil_r. ands; auto.
  - destruct (accepted_turn ev r He (HS (c, r) (or_introl eq_refl))) as (msg & Hm & HT).
    destruct IH as (t & Ht & IH); [intros x I; apply HS; now right|].
    eexists. split; [apply tr_cons; [exact Hm|exact Ht]|]. intros pads rest wt C D Wp Wl Wr Ha Hp. apply Forall_app in Wl as [Wl1 Wl2].
    assert (AP : avail (o_timeout o) (pads ++ l1) = (w ++ wb, ObEnd)).
    { rewrite avail_app, D by exact C. rewrite A. reflexivity. }
    destruct (HT o (h O) (mkSrc (pads ++ (l1 ++ l2) ++ rest) tl) wt (pads ++ l1) (l2 ++ rest) w wb p c m u hs len) as
      (pads1 & F & wt1 & P1 & P2 & P3 & T & O1 & A1 & Q1); auto.
    { unfold wf_src. cbn [s_evs]. repeat (apply Forall_app; split); assumption. }
    { cbn [s_evs]. now rewrite <- !app_assoc. }
    cbn [s_tail] in T.
    destruct (IH pads1 rest wt1 P1 P2 P3 Wl2 Wr A1 Q1) as (F2 & pads' & wt' & O2 & A2 & Q2 & C2 & D2 & R).
    exists (F + F2)%nat, pads', wt'. split; [rewrite O2, O1, <- !app_assoc; reflexivity|]. ands; auto.
    intros n fuel Hf. cbn [length Nat.add]. rewrite (accept_step _ _ _ _ _ _ _ _ _ (T fuel ltac:(lia))). apply R; lia.
  - destruct (refused_turn ev code He) as (msg & Hm & HT).
    destruct IH as (t & Ht & IH); [intros x I; apply HS; now right|].
    eexists. split; [apply tr_cons; [exact Hm|exact Ht]|]. intros pads rest wt C D Wp Wl Wr Ha Hp. apply Forall_app in Wl as [Wl1 Wl2].
    assert (AP : avail (o_timeout o) (pads ++ l1) = (w, ObEnd)).
    { rewrite avail_app, D by exact C. rewrite A. reflexivity. }
    destruct (HT o (mkSrc (pads ++ (l1 ++ l2) ++ rest) tl) wt (pads ++ l1) (l2 ++ rest) w [] c) as
      (b & F & wt1 & B1 & B2 & B3 & T & O1 & A1 & Q1); auto.
    { unfold wf_src. cbn [s_evs]. repeat (apply Forall_app; split); assumption. }
    { cbn [s_evs]. now rewrite <- !app_assoc. }
    { rewrite AP, app_nil_r. reflexivity. }
    rewrite AP in B2. cbn [snd] in B2. destruct (win_iso _ _ _ _ B1 B2) as (b1 & EB & _ & [BW _] & BD & BC).
    cbn [s_tail] in B3. rewrite B3 in EB. unfold br_data in BD. apply app_eq_nil in BD as [_ BD].
    destruct (IH (s_evs (br_src b1)) rest wt1 BC BD BW Wl2 Wr A1 Q1) as (F2 & pads' & wt' & O2 & A2 & Q2 & C2 & D2 & R).
    exists (F + F2)%nat, pads', wt'. split; [rewrite O2, O1, <- !app_assoc; reflexivity|]. ands; auto.
    intros n fuel Hf. specialize (T fuel (h O) ltac:(lia)). destruct (N.eqb_spec code 501); [congruence|].
    cbn [length Nat.add]. rewrite (accept_step _ _ _ _ _ _ _ _ _ T). rewrite EB. apply R; lia.
Qed.

(** ** What has been written stays written *)
Lemma write_all_out tmo : forall fuel d w w' r, write_all_go fuel tmo d w = (w', r) -> prefix (w_out w) (w_out w').
Proof.
  induction fuel as [|f IH]; intros [|c d] w w' r; cbn [write_all_go]; try (intros [= <- <-]; apply prefix_refl).
  destruct (w_write (c :: d) w) as [w1 [[|k]|fi|]] eqn:EW; apply w_write_out in EW; intros H;
    try (injection H as <- <-; exact EW); try (eapply prefix_trans; [exact EW|eapply IH, H]).
  destruct (tmo && fi)%bool; [injection H as <- <-; exact EW|eapply prefix_trans; [exact EW|eapply IH, H]].
Qed.
Lemma decode_out ev tmo s w s' w' x : decode ev tmo s w = (s', w', x) -> prefix (w_out w) (w_out w').
Proof.
  unfold decode. destruct (req_head _ _) as [b [buf| | | |]]; try (intros [= <- <- <-]; apply prefix_refl).
  destruct (parse_head ev buf) as [f|[[m path] a]]; [intros [= <- <- <-]; apply prefix_refl|].
  destruct (expects_continue a); [|intros [= <- <- <-]; apply prefix_refl].
  destruct (write_all tmo continue_text w) as [w1 r] eqn:EW. apply write_all_out in EW. destruct r; intros [= <- <- <-]; exact EW.
Qed.
Lemma send_out fuel ev r w w' x : send fuel ev r w = (w', x) -> prefix (w_out w) (w_out w').
Proof. apply copy_out. Qed.
Lemma ignored_out fuel ev r w w' x : send_ignored fuel ev r w = (w', x) -> prefix (w_out w) (w_out w').
Proof. unfold send_ignored. destruct (send fuel ev r w) as [w1 y] eqn:E. apply send_out in E. destruct y; intros [= <- <-]; exact E. Qed.
Lemma handler_out fuel ev p b w b' w' x : run_handler fuel ev p b w = (b', w', x) -> prefix (w_out w) (w_out w').
Proof.
  unfold run_handler. destruct (run_reading fuel ev p b) as [b1 [[g|r kok kerr|st v hs len kok kerr]|y]]; try (intros [= <- <- <-]; apply prefix_refl).
  2: { destruct (relay_body fuel ev st v hs len b1 w) as [[b2 w1] y] eqn:E. apply relay_body_relay in E. apply copy_out in E. destruct y; intros [= <- <- <-]; exact E. }
  destruct (send fuel ev r w) as [w1 y] eqn:E. apply send_out in E. destruct y as [k| | | |]; try (intros [= <- <- <-]; exact E).
  - destruct (run_reading fuel ev (kok k) b1). intros [= <- <- <-]; exact E.
  - destruct (run_reading fuel ev kerr b1) as [b2 [y|y]]; intros [= <- <- <-]; exact E.
Qed.
Lemma turn_out fuel ev o h s w s' w' x : turn fuel ev o h s w = (s', w', x) -> prefix (w_out w) (w_out w').
Proof.
  unfold turn. destruct (decode ev (o_timeout o) s w) as [[s1 w1] y] eqn:ED. apply decode_out in ED.
  destruct y as [q b| |f| |]; try (intros [= <- <- <-]; exact ED).
  - destruct (run_handler fuel ev (h q) b w1) as [[b2 w2] z] eqn:EH. apply handler_out in EH.
    pose proof (prefix_trans _ _ _ ED EH) as P. destruct z as [[g|]|z]; try (intros [= <- <- <-]; exact P).
    destruct (send_ignored fuel ev (glitch_response (o_verbose o) g) w2) as [w3 z] eqn:EI. apply ignored_out in EI.
    intros [= <- <- <-]. exact (prefix_trans _ _ _ P EI).
  - destruct (handle_fail fuel ev f w1) as [w2 z] eqn:EF. intros [= <- <- <-].
    unfold handle_fail in EF. destruct (fail_response f) as [r|].
    + destruct (send_ignored fuel ev r w1) as [w3 v] eqn:EI. apply ignored_out in EI.
      assert (w3 = w2) as -> by (destruct v; now injection EF). exact (prefix_trans _ _ _ ED EI).
    + injection EF as <- _. exact ED.
Qed.
Lemma accept_out ev o fuel : forall n h s w s' w' x, accept_go n fuel ev o h s w = (s', w', x) -> prefix (w_out w) (w_out w').
Proof.
  induction n as [|n IH]; intros h s w s' w' x; cbn [accept_go]; [intros [= <- <- <-]; apply prefix_refl|].
  destruct (turn fuel ev o (h O) s w) as [[s1 w1] [y|]] eqn:E; apply turn_out in E; intros H; [injection H as <- <- <-; exact E|].
  exact (prefix_trans _ _ _ E (IH _ _ _ _ _ _ H)).
Qed.
