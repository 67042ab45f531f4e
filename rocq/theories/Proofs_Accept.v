(** The connection loop. *)
From Verif Require Import Accept Reads SpecChunked SpecHead SpecResponse SpecReq SpecServer Lemmas Proofs_Copy Proofs_Parse Proofs_Buf
  Proofs_Dec Proofs_DecReads Proofs_ReqHead Proofs_ServerEnc Proofs_Head Proofs_Send Proofs_ServerDec Proofs_Body Proofs_Length.
From Verif Require Export SpecEnv.

(** ** Sending leaves a later part of the writer's script *)
Lemma copy_suf {E} (poll : E -> E * pres bytes) : forall fuel e bb w amt w' r,
  copy_go poll fuel e bb w amt = (w', r) -> wsuf w w'.
Proof.
  induction fuel as [|f IH]; intros e bb w amt w' r; cbn [copy_go]; [intros [= <- <-]; apply wsuf_refl|].
  destruct bb as [|c bb].
  - destruct (poll e) as [e' [[|c d]|fi| | |]]; try (intros [= <- <-]; apply wsuf_refl); try apply IH.
    destruct (w_flush w) as [w1 [k|fi|]] eqn:EW; apply w_flush_suf in EW.
    + intros [= <- <-]. exact EW.
    + intros H. eapply wsuf_trans; [exact EW|eapply IH, H].
    + intros [= <- <-]. exact EW.
  - destruct (w_write (c :: bb) w) as [w1 [[|k]|fi|]] eqn:EW; apply w_write_suf in EW; try (intros [= <- <-]; exact EW);
    intros H; (eapply wsuf_trans; [exact EW|eapply IH, H]).
Qed.
Lemma send_suf fuel ev r w w' x : send fuel ev r w = (w', x) -> wsuf w w'.
Proof. apply copy_suf. Qed.
Lemma suf_accepting w w' : wsuf w w' -> accepting w -> accepting w'.
Proof. apply wsuf_forall. Qed.
Lemma suf_prompt tmo w w' : wsuf w w' -> prompt tmo w -> prompt tmo w'.
Proof. intros S P T. eapply wsuf_forall; [exact S|now apply P]. Qed.

(** ** Sendable responses *)
Definition writes (ev : env) (r : response) (m : bytes) : Prop :=
  forall w, exists F w' x p,
    (forall fuel, (F <= fuel)%nat -> send fuel ev r w = (w', x)) /\ w_out w' = w_out w ++ p /\ prefix p m /\
    ((x = ROk (N.of_nat (length m)) /\ p = m) \/ (x = RErr /\ ~ accepting w)).
Lemma send_message ev r : env_ok ev -> sendable ev r -> exists m, message (e_date ev) r m /\ writes ev r m.
Proof.
  intros (He & Hc & H64 & Hx & _) (Hr & Hs & Hb). destruct (b_len (r_body r)) as [n|] eqn:L.
  - destruct Hb as (B1 & B2 & B3). destruct (fixed_all ev r He Hr Hs n ltac:(lia) L B1 B2 B3) as (head & Hh & H).
    exists (head ++ firstn (N.to_nat n) (src_data (b_src (r_body r)))). split; [exists head, (firstn (N.to_nat n) (src_data (b_src (r_body r)))); ands; [exact Hh|now apply bt_fixed|reflexivity]|].
    intros w. destruct (H w) as (F & w' & x & p & S1 & S2 & S3 & S4). exists F, w', x, p. ands; auto.
    destruct S4 as [[-> ->]|S4]; [left|auto]. split; [|reflexivity]. f_equal. rewrite app_length, firstn_length. lia.
  - destruct Hb as (B1 & B2). apply (unpinched ev r He Hr) in B2. destruct (chunked_text ev r Hs Hc H64 Hx L B1 B2) as (cw & Hcw & H).
    exists (head_text ev r ++ cw ++ last_chunk). split; [|exact H].
    exists (head_text ev r), (cw ++ last_chunk). ands; [now apply head_response|now apply bt_chunked|reflexivity].
Qed.

Lemma bare_sendable ev code : env_ok ev -> sendable ev (bare code).
Proof.
  intros (_ & _ & H64 & _). split; [split; constructor|]. split; [constructor|]. cbn. ands; [lia|lia|]. intros _. split; [constructor|reflexivity].
Qed.

(** ** 100 Continue *)
Lemma interim_ok c tmo w : accepting w -> prompt tmo w ->
  exists w', interim c tmo w = (w', ROk tt) /\ accepting w' /\ prompt tmo w' /\ w_out w' = w_out w ++ (if c then go_ahead else []).
Proof.
  intros A P. unfold interim. destruct c; [|exists w; rewrite app_nil_r; auto].
  destruct (write_all tmo continue_text w) as [w' r] eqn:E. apply write_all_spec in E as (S & p & _ & O & K).
  destruct K as [[-> ->]|[[_ K]|[_ K]]]; try contradiction. exists w'. ands; auto; [eapply suf_accepting; eauto|eapply suf_prompt; eauto].
Qed.

(** ** Draining any body *)
Lemma drain_body ev tmo l2 b p wb len {A} (fin : A) prog : env_ok ev -> wf_brd b -> win tmo l2 b wb ObEnd ->
  body_wire (e_deccap ev) len p wb -> drains (chunked_len len) fin p prog ->
  exists F b', drained l2 (s_tail (br_src b)) tmo b' /\
    forall fuel, (F <= fuel)%nat -> run_reading fuel ev prog (body_reader ev len b) = (b', inl fin).
Proof.
  intros (_ & Hc & _ & _ & G) HW W BW HD. destruct (win_iso _ _ _ _ HW W) as (b1 & EB & B1 & B2 & B3 & B4).
  set (t := s_tail (br_src b)) in *. clearbody t. subst b. clear W HW.
  destruct len as [n|]; cbn [body_wire body_reader chunked_len] in *.
  - destruct BW as [-> <-]. eapply drain_fixed; eauto.
  - destruct BW as (tr & HF).
    change (dec_new ev (ext l2 t b1)) with (dext l2 t (dec_new ev b1)).
    eapply (drain_chunked l2 t ev tmo fin p wb [] tr b1 G HF ltac:(lia) B2 ltac:(rewrite app_nil_r; exact B3) eq_refl _ [] (dec_new ev b1) [] [] []); auto; cbn; auto.
    + split; [reflexivity|constructor].
    + split; assumption.
Qed.

(** Remaining events after a drained body. *)
Lemma drained_src tmo l2 t b : drained l2 t tmo b -> exists pads, body_src b = mkSrc (pads ++ l2) t /\ calm tmo pads /\ evs_data pads = [] /\ Forall wf_ev pads.
Proof.
  intros (b1 & E & [W _] & D & C). exists (s_evs (br_src b1)). unfold br_data in D. apply app_eq_nil in D as [_ D]. ands; auto.
  destruct b; cbn in *; rewrite E; reflexivity.
Qed.

(** ** One turn of the loop *)
Lemma refused_turn ev code : env_ok ev -> exists m, message (e_date ev) (bare code) m /\
  forall o s wt l1 l2 w rest c, wf_src s -> s_evs s = l1 ++ l2 ->
  fst (avail (o_timeout o) l1) = w ++ rest -> head_block w -> judged ev w c (Refuse code) ->
  accepting wt -> prompt (o_timeout o) wt ->
  exists b F wt', wf_brd b /\ win (o_timeout o) l2 b rest (snd (avail (o_timeout o) l1)) /\ s_tail (br_src b) = s_tail s /\
    (forall fuel h, (F <= fuel)%nat -> turn fuel ev o h s wt = (br_src b, wt', if (code =? 501)%N then Some AErr else None)) /\
    w_out wt' = w_out wt ++ (if c then go_ahead else []) ++ m /\ accepting wt' /\ prompt (o_timeout o) wt'.
Proof.
  intros He. destruct (send_message ev (bare code) He (bare_sendable ev code He)) as (m & Hm & HS). exists m. split; [exact Hm|].
  intros o s wt l1 l2 w rest c Ws E A Hb J Ha Hp.
  destruct (decode_block ev (o_timeout o) l1 l2 s w rest) as (b & W1 & W2 & _ & _ & W5 & _ & HD); auto; [destruct He as (_ & ? & _); lia|].
  destruct (HD c _ J) as (out & (f & -> & FR & FF) & HDec). clear HD.
  destruct (interim_ok c (o_timeout o) wt Ha Hp) as (w1 & EI & A1 & P1 & O1).
  destruct (HS w1) as (F & w2 & x & p & S1 & S2 & _ & [[-> ->]|[_ X]]); [|contradiction].
  pose proof (send_suf _ _ _ _ _ _ (S1 F (le_n F))) as SU.
  exists b, F, w2. ands; auto.
  - intros fuel h Hf. unfold turn. rewrite HDec, EI. cbn [fst snd after_interim]. unfold handle_fail. rewrite FR. unfold send_ignored.
    change (plain_response code) with (bare code). rewrite (S1 fuel Hf). rewrite FF. reflexivity.
  - rewrite S2, O1, <- app_assoc. reflexivity.
  - eapply suf_accepting; eauto.
  - eapply suf_prompt; eauto.
Qed.

Lemma accepted_writes ev r msg : env_ok ev -> writes ev r msg ->
  forall o h s wt l1 l2 w wb p c m u hs len, wf_src s -> s_evs s = l1 ++ l2 ->
  avail (o_timeout o) l1 = (w ++ wb, ObEnd) -> head_block w -> judged ev w c (Accept m u hs len) ->
  body_wire (e_deccap ev) len p wb -> (forall q, presents q m u hs len -> serves (o_verbose o) (chunked_len len) p r (h q)) -> accepting wt -> prompt (o_timeout o) wt ->
  exists pads F wt', calm (o_timeout o) pads /\ evs_data pads = [] /\ Forall wf_ev pads /\
    (forall fuel, (F <= fuel)%nat -> turn fuel ev o h s wt = (mkSrc (pads ++ l2) (s_tail s), wt', None)) /\
    w_out wt' = w_out wt ++ (if c then go_ahead else []) ++ msg /\ accepting wt' /\ prompt (o_timeout o) wt'.
Proof.
  intros He HS o h s wt l1 l2 w wb p c m u hs len Ws E A Hb J BW HD Ha Hp.
  destruct (decode_block ev (o_timeout o) l1 l2 s w wb) as (b & W1 & W2 & _ & _ & W5 & _ & HDc); auto; [destruct He as (_ & ? & _); lia|now rewrite A|].
  rewrite A in W2. cbn [snd] in W2.
  destruct (HDc c _ J) as (out & (hm & -> & HW & HG) & HDec). clear HDc.
  destruct (interim_ok c (o_timeout o) wt Ha Hp) as (w1 & EI & A1 & P1 & O1).
  destruct (HS w1) as (F & w2 & x & p' & S1 & S2 & _ & [[-> ->]|[_ X]]); [|contradiction].
  pose proof (send_suf _ _ _ _ _ _ (S1 F (le_n F))) as SU.
  set (q := mkRhead m u hm len) in *. assert (PQ : presents q m u hs len) by (split; [reflexivity|]; auto).
  destruct (HD q PQ) as (fin & HQ & HR). destruct (drain_body ev (o_timeout o) l2 b p wb len fin (h q) He W1 W2 BW HQ) as (F1 & b' & DR & RR).
  destruct (drained_src _ _ _ _ DR) as (pads & E1 & E2 & E3 & E4). rewrite W5 in E1.
  exists pads, (F + F1)%nat, w2. ands; auto.
  - intros fuel Hf. unfold turn. rewrite HDec, EI. cbn [fst snd after_interim]. unfold run_handler. rewrite RR by lia.
    inversion HR as [r0 kok kerr HK|g]; subst.
    + rewrite S1 by lia. rewrite HK. assert (RT : forall T (a : T), run_reading fuel ev (Rt a) b' = (b', inl a)) by (intros; destruct fuel; reflexivity).
      rewrite RT, E1. reflexivity.
    + unfold send_ignored. rewrite S1 by lia. rewrite E1. reflexivity.
  - rewrite S2, O1, <- app_assoc. reflexivity.
  - eapply suf_accepting; eauto.
  - eapply suf_prompt; eauto.
Qed.

Lemma accepted_turn ev r : env_ok ev -> sendable ev r -> exists msg, message (e_date ev) r msg /\
  forall o h s wt l1 l2 w wb p c m u hs len, wf_src s -> s_evs s = l1 ++ l2 ->
  avail (o_timeout o) l1 = (w ++ wb, ObEnd) -> head_block w -> judged ev w c (Accept m u hs len) ->
  body_wire (e_deccap ev) len p wb -> (forall q, presents q m u hs len -> serves (o_verbose o) (chunked_len len) p r (h q)) ->
  accepting wt -> prompt (o_timeout o) wt ->
  exists pads F wt', calm (o_timeout o) pads /\ evs_data pads = [] /\ Forall wf_ev pads /\
    (forall fuel, (F <= fuel)%nat -> turn fuel ev o h s wt = (mkSrc (pads ++ l2) (s_tail s), wt', None)) /\
    w_out wt' = w_out wt ++ (if c then go_ahead else []) ++ msg /\ accepting wt' /\ prompt (o_timeout o) wt'.
Proof.
  intros He Hr. destruct (send_message ev r He Hr) as (msg & Hm & HS). exists msg. split; [exact Hm|]. now apply accepted_writes.
Qed.

(** The end of the connection. *)
Lemma end_turn ev o s : env_ok ev -> wf_src s -> no_head (fst (avail (o_timeout o) (s_evs s))) ->
  exists s', forall fuel h wt, turn fuel ev o h s wt =
    (s', wt, match snd (avail (o_timeout o) (s_evs s)), s_tail s with
             | ObTimer, _ | ObEnd, Eof => Some AOk | _, _ => None end).
Proof.
  intros He Ws NH. destruct (req_head (o_timeout o) (br_new (e_bufcap ev) s)) as [b r] eqn:RH.
  destruct (req_head_end (o_timeout o) (e_bufcap ev) s b r) as (W1 & W2 & W3); auto; [destruct He as (_ & ? & _); lia|].
  exists (br_src b). intros fuel h wt. unfold turn, decode. rewrite RH. destruct (snd (avail (o_timeout o) (s_evs s))).
  - destruct W3 as [_ W3]. destruct (s_tail s); subst r; reflexivity.
  - subst r. destruct (s_tail s); reflexivity.
  - subst r. destruct (s_tail s); reflexivity.
Qed.

(** ** Conversations *)
Lemma no_head_prefix a b : no_head (a ++ b) -> no_head a.
Proof. intros H p q E. apply (H p (q ++ b)). now rewrite app_assoc, <- E. Qed.

Lemma conversation_pad ev o h tl pads l xs a : calm (o_timeout o) pads -> evs_data pads = [] ->
  conversation (e_trim ev) (parse_uri (e_uri ev)) (e_deccap ev) o tl h l xs a ->
  conversation (e_trim ev) (parse_uri (e_uri ev)) (e_deccap ev) o tl h (pads ++ l) xs a.
Proof.
  intros C D H. assert (AP : forall l, avail (o_timeout o) (pads ++ l) = avail (o_timeout o) l).
  { intros l0. rewrite avail_app, D by exact C. cbn. now destruct (avail (o_timeout o) l0). }
  destruct H as [l NH HK|l1 l2 w wb p c m u hs len r xs a A Hb J BW HD HC
                |l1 l2 w c code xs a A Hb J NE HC|l1 l2 w rest c A Hb J].
  - apply cv_end; rewrite AP; assumption.
  - rewrite app_assoc. eapply cv_request; eauto. rewrite AP. exact A.
  - rewrite app_assoc. eapply cv_refused; eauto. rewrite AP. exact A.
  - rewrite app_assoc. eapply cv_encoding; [|exact Hb|exact J]. rewrite AP. exact A.
Qed.

Lemma accept_step n fuel ev o h s wt s' wt' : turn fuel ev o (h O) s wt = (s', wt', None) ->
  accept_go (S n) fuel ev o h s wt = accept_go n fuel ev o (later h) s' wt'.
Proof. intros E. cbn [accept_go]. now rewrite E. Qed.
Lemma accept_stop n fuel ev o h s wt s' wt' x : turn fuel ev o (h O) s wt = (s', wt', Some x) ->
  accept_go (S n) fuel ev o h s wt = (s', wt', x).
Proof. intros E. cbn [accept_go]. now rewrite E. Qed.

Theorem conversation_runs ev o tl : env_ok ev -> forall h l xs a,
  conversation (e_trim ev) (parse_uri (e_uri ev)) (e_deccap ev) o tl h l xs a ->
  (forall x, In x xs -> sendable ev (snd x)) ->
  exists t, transcript (e_date ev) xs t /\
  forall pads wt, calm (o_timeout o) pads -> evs_data pads = [] -> Forall wf_ev pads -> Forall wf_ev l ->
    accepting wt -> prompt (o_timeout o) wt ->
  exists F s' wt', w_out wt' = w_out wt ++ t /\
    forall n fuel, (F <= n)%nat -> (F <= fuel)%nat -> accept_go n fuel ev o h (mkSrc (pads ++ l) tl) wt = (s', wt', a).
Proof.
  intros He h l xs a H. induction H as [h l NH HK|h l1 l2 w wb p c m u hs len r xs a A Hb J BW HD HC IH
                                     |h l1 l2 w c code xs a A Hb J NE HC IH|h l1 l2 w rest c A Hb J]; intros HS.
  - exists []. split; [constructor|]. intros pads wt C D Wp Wl Ha Hp.
    assert (AP : avail (o_timeout o) (pads ++ l) = avail (o_timeout o) l).
    { rewrite avail_app, D by exact C. cbn. now destruct (avail (o_timeout o) l). }
    assert (Ws : wf_src (mkSrc (pads ++ l) tl)) by (apply Forall_app; auto).
    assert (NH' : no_head (fst (avail (o_timeout o) (s_evs (mkSrc (pads ++ l) tl))))) by (cbn [s_evs]; now rewrite AP).
    destruct (end_turn ev o _ He Ws NH') as (s' & E). cbn [s_evs s_tail] in E. rewrite AP in E.
    exists 1%nat, s', wt. split; [now rewrite app_nil_r|]. intros [|n] fuel Hn Hf; [lia|]. apply accept_stop. rewrite E.
    destruct HK as [->|[-> ->]]; reflexivity.
  - destruct (accepted_turn ev r He (HS (c, r) (or_introl eq_refl))) as (msg & Hm & HT).
    destruct IH as (t & Ht & IH); [intros x I; apply HS; now right|].
    eexists. split; [apply tr_cons; [exact Hm|exact Ht]|]. intros pads wt C D Wp Wl Ha Hp. apply Forall_app in Wl as [Wl1 Wl2].
    assert (AP : avail (o_timeout o) (pads ++ l1) = (w ++ wb, ObEnd)).
    { rewrite avail_app, D by exact C. rewrite A. reflexivity. }
    destruct (HT o (h O) (mkSrc (pads ++ l1 ++ l2) tl) wt (pads ++ l1) l2 w wb p c m u hs len) as
      (pads' & F & wt1 & P1 & P2 & P3 & T & O1 & A1 & Q1); auto.
    { unfold wf_src. cbn [s_evs]. repeat (apply Forall_app; split); assumption. }
    { apply app_assoc. }
    cbn [s_tail] in T.
    destruct (IH pads' wt1 P1 P2 P3 Wl2 A1 Q1) as (F2 & s' & wt' & O2 & R).
    exists (S (F + F2))%nat, s', wt'. split; [rewrite O2, O1, <- !app_assoc; reflexivity|].
    intros [|n] fuel Hn Hf; [lia|]. rewrite (accept_step _ _ _ _ _ _ _ _ _ (T fuel ltac:(lia))). apply R; lia.
  - destruct (refused_turn ev code He) as (msg & Hm & HT).
    destruct IH as (t & Ht & IH); [intros x I; apply HS; now right|].
    eexists. split; [apply tr_cons; [exact Hm|exact Ht]|]. intros pads wt C D Wp Wl Ha Hp. apply Forall_app in Wl as [Wl1 Wl2].
    assert (AP : avail (o_timeout o) (pads ++ l1) = (w, ObEnd)).
    { rewrite avail_app, D by exact C. rewrite A. reflexivity. }
    destruct (HT o (mkSrc (pads ++ l1 ++ l2) tl) wt (pads ++ l1) l2 w [] c) as
      (b & F & wt1 & B1 & B2 & B3 & T & O1 & A1 & Q1); auto.
    { unfold wf_src. cbn [s_evs]. repeat (apply Forall_app; split); assumption. }
    { apply app_assoc. }
    { rewrite AP, app_nil_r. reflexivity. }
    rewrite AP in B2. cbn [snd] in B2. destruct (win_iso _ _ _ _ B1 B2) as (b1 & EB & _ & [BW _] & BD & BC).
    cbn [s_tail] in B3. rewrite B3 in EB. unfold br_data in BD. apply app_eq_nil in BD as [_ BD].
    destruct (IH (s_evs (br_src b1)) wt1 BC BD BW Wl2 A1 Q1) as (F2 & s' & wt' & O2 & R).
    exists (S (F + F2))%nat, s', wt'. split; [rewrite O2, O1, <- !app_assoc; reflexivity|].
    intros [|n] fuel Hn Hf; [lia|]. specialize (T fuel (h O) ltac:(lia)). destruct (N.eqb_spec code 501); [congruence|].
    rewrite (accept_step _ _ _ _ _ _ _ _ _ T). rewrite EB. apply R; lia.
  - destruct (refused_turn ev 501 He) as (msg & Hm & HT).
    eexists. split; [apply tr_cons; [exact Hm|constructor]|]. intros pads wt C D Wp Wl Ha Hp. apply Forall_app in Wl as [Wl1 Wl2].
    assert (AP : fst (avail (o_timeout o) (pads ++ l1)) = w ++ rest).
    { rewrite avail_app, D by exact C. exact A. }
    destruct (HT o (mkSrc (pads ++ l1 ++ l2) tl) wt (pads ++ l1) l2 w rest c) as
      (b & F & wt1 & B1 & B2 & B3 & T & O1 & A1 & Q1); auto.
    { unfold wf_src. cbn [s_evs]. repeat (apply Forall_app; split); assumption. }
    { apply app_assoc. }
    exists (S F), (br_src b), wt1. split; [rewrite O1, app_nil_r; reflexivity|].
    intros [|n] fuel Hn Hf; [lia|]. apply accept_stop. apply T. lia.
Qed.
