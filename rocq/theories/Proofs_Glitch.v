(** Glitches. *)
From Verif Require Import Accept Timeout SpecChunked SpecHead SpecResponse SpecServer SpecGlitch Lemmas Proofs_Copy Proofs_Head Proofs_Map Proofs_Send
  Proofs_ServerDec Proofs_Accept Proofs_Turns Proofs_Text.

Lemma detail_text verbose g t : detail verbose g t <-> t = glitch_text verbose g.
Proof.
  unfold glitch_text. split.
  - intros [[->|E]|t' -> E1 E2|m t' -> E1 E2 NE].
    + reflexivity.
    + rewrite E. now destruct verbose.
    + rewrite E1. unfold or_else in E2. now rewrite E2.
    + rewrite E1, E2. now destruct m.
  - intros ->. destruct verbose; [|apply dt_message; auto]. destruct (g_trace g) as [t|] eqn:E; [|apply dt_message; auto].
    destruct (g_message g) as [[|c m]|] eqn:M.
    + apply dt_trace; auto. now rewrite M.
    + apply (dt_both _ _ (c :: m) t); auto. discriminate.
    + apply dt_trace; auto. now rewrite M.
Qed.

Lemma special_ic a n : eq_ic a n = true -> special a = special n.
Proof. unfold special; plain. unfold eq_ic. intros H. apply beq_eq in H. now rewrite H. Qed.
Lemma values_others n fs hs : special n = false ->
  filter (fun nv => negb (special (fst nv))) fs = filter (fun nv => negb (special (fst nv))) hs -> values n fs = values n hs.
Proof.
  intros Hn H. assert (K : forall l, values n l = values n (filter (fun nv => negb (special (fst nv))) l)).
  { clear H. unfold values; plain. induction l as [|nv l IH]; [reflexivity|]. cbn [filter]. destruct (eq_ic (fst nv) n) eqn:E.
    - rewrite (special_ic _ _ E), Hn. cbn [negb filter]. rewrite E. cbn [map]. now rewrite IH.
    - destruct (negb (special (fst nv))); cbn [filter]; [rewrite E|]; exact IH. }
  rewrite (K fs), (K hs). now rewrite H.
Qed.

Lemma g_values_map g n : (forall hs, g_headers g = Some hs -> hm_wf hs) ->
  g_values n g = hm_get_all (lower n) (match g_headers g with Some h => h | None => [] end).
Proof.
  intros Hh. unfold g_values. destruct (g_headers g) as [hs|]; [|reflexivity]. apply values_get_all. now apply Hh.
Qed.

Lemma glitch_message date verbose g m : (forall hs, g_headers g = Some hs -> hm_wf hs) ->
  message date (glitch_response verbose g) m -> glitch_wire date verbose g m.
Proof.
  intros Hh (head & bt & (sl & fs & RH & HSL & HF & HDt & HT & HO) & HB & ->).
  pose proof (proj2 (detail_text verbose g _) eq_refl) as DT.
  unfold framing_fields, date_fields, type_fields, other_fields, glitch_response, body_from_string in *.
  cbn [r_body r_status r_version r_headers b_len b_src] in *.
  set (t := glitch_text verbose g) in *. clearbody t. destruct HF as (cl & F1 & F2 & F3).
  set (hs := match g_headers g with Some h => h | None => [] end) in *.
  assert (W : hm_wf hs) by (unfold hs; destruct (g_headers g); [now apply Hh|apply hm_empty_wf]).
  assert (BT : bt = t).
  { inversion HB as [n E|cw E]; subst; cbn [b_len] in E; [|discriminate]. injection E as <-. cbn [b_src]. rewrite Nat2N.id.
    unfold bytes_src, src_data. destruct t; cbn [s_evs evs_data]; rewrite ?app_nil_r; [reflexivity|apply firstn_all]. }
  subst bt. exists t, sl, fs, cl. ands; auto.
  - destruct t as [|c t]; cbn [length N.of_nat] in HT.
    + rewrite HT, values_get_all, g_values_map by assumption. fold hs. now destruct (hm_get_all (lower (B "content-type")) hs).
    + rewrite HT, values_get_all, get_all_insert by (apply hm_insert_wf; auto). reflexivity.
  - rewrite HDt. rewrite values_get_all by (destruct t; [exact W|apply hm_insert_wf; auto]). rewrite g_values_map by assumption. fold hs.
    destruct t; [reflexivity|]. rewrite get_all_insert. reflexivity.
  - intros n Hn. rewrite (values_others n _ _ Hn HO). rewrite values_get_all by (destruct t; [exact W|apply hm_insert_wf; auto]).
    rewrite g_values_map by assumption. fold hs. destruct t; [reflexivity|]. rewrite get_all_insert.
    destruct (beq_spec h_content_type (lower n)) as [E|_]; [|reflexivity]. exfalso.
    unfold special in Hn; plain; unfold eq_ic in Hn. rewrite <- E in Hn. discriminate.
Qed.

(** ** Non-interference *)
Lemma alike_run {A} (R : A -> A -> Prop) ev : forall fuel p1 p2 b, alike R p1 p2 ->
  exists b', match run_reading fuel ev p1 b, run_reading fuel ev p2 b with
  | (b1, inl x1), (b2, inl x2) => b1 = b' /\ b2 = b' /\ R x1 x2
  | (b1, inr x1), (b2, inr x2) => b1 = b' /\ b2 = b' /\ x1 = x2
  | _, _ => False
  end.
Proof.
  induction fuel as [|f IH]; intros p1 p2 b H; inversion H as [n k1 k2 HK|x y HR]; subst; cbn [run_reading]; eauto.
  destruct (body_read ev n b) as [b1 [d|fi| | |]]; eauto.
Qed.
Lemma alike_handler ev verbose fuel p1 p2 b w : alike pre_alike p1 p2 -> verbose = false ->
  exists b' w', match run_handler fuel ev p1 b w, run_handler fuel ev p2 b w with
  | (b1, w1, inl x1), (b2, w2, inl x2) => b1 = b' /\ b2 = b' /\ w1 = w' /\ w2 = w' /\ opt_rel same_but_trace x1 x2
  | (b1, w1, inr x1), (b2, w2, inr x2) => b1 = b' /\ b2 = b' /\ w1 = w' /\ w2 = w' /\ x1 = x2
  | _, _ => False
  end.
Proof.
  intros H V. destruct (alike_run pre_alike ev fuel p1 p2 b H) as (b1 & K). unfold run_handler.
  destruct (run_reading fuel ev p1 b) as [b1' [x1|x1]], (run_reading fuel ev p2 b) as [b2' [x2|x2]]; try contradiction.
  2: { destruct K as (-> & -> & ->). eauto 8. }
  destruct K as (-> & -> & K). inversion K as [g1 g2 HG|r kok1 kok2 kerr1 kerr2 H1 H2|st v hs len kok1 kok2 kerr1 kerr2 H1 H2]; subst; [exists b1, w; auto 6 using or_some, or_none| |].
  2: { destruct (relay_body fuel ev st v hs len b1 w) as [[b2 w2] [k| | | |]]; exists b2, w2; auto 6 using or_some. }
  destruct (send fuel ev r w) as [w' [k| | | |]]; eauto 8.
  - destruct (alike_run _ ev fuel _ _ b1 (H1 k)) as (b3 & K3). exists b3, w'.
    destruct (run_reading fuel ev (kok1 k) b1) as [c1 [y1|y1]], (run_reading fuel ev (kok2 k) b1) as [c2 [y2|y2]]; try contradiction;
    destruct K3 as (-> & -> & K3); auto 6.
  - destruct (alike_run _ ev fuel _ _ b1 H2) as (b3 & K3). exists b3, w'.
    destruct (run_reading fuel ev kerr1 b1) as [c1 [y1|y1]], (run_reading fuel ev kerr2 b1) as [c2 [y2|y2]]; try contradiction;
    destruct K3 as (-> & -> & K3); auto 6 using or_some, or_none.
Qed.
Lemma quiet_response g1 g2 : same_but_trace g1 g2 -> glitch_response false g1 = glitch_response false g2.
Proof. intros (E1 & E2 & E3 & E4). unfold glitch_response, glitch_text. now rewrite E1, E2, E3, E4. Qed.
Lemma alike_turn ev o fuel h1 h2 s w : o_verbose o = false -> (forall q, alike pre_alike (h1 q) (h2 q)) ->
  turn fuel ev o h1 s w = turn fuel ev o h2 s w.
Proof.
  intros V H. unfold turn. destruct (decode ev (o_timeout o) s w) as [[s1 w1] [q b| |f| |]]; try reflexivity.
  destruct (alike_handler ev (o_verbose o) fuel _ _ b w1 (H q) V) as (b' & w' & K).
  destruct (run_handler fuel ev (h1 q) b w1) as [[b1 w2] [x1|x1]], (run_handler fuel ev (h2 q) b w1) as [[b2 w3] [x2|x2]]; try contradiction;
  destruct K as (-> & -> & -> & -> & K).
  - inversion K as [|g1 g2 HG]; subst; [reflexivity|]. rewrite V, (quiet_response g1 g2 HG). reflexivity.
  - now subst.
Qed.
Lemma alike_accept ev o fuel : o_verbose o = false -> forall n h1 h2 s w, handlers_alike h1 h2 ->
  accept_go n fuel ev o h1 s w = accept_go n fuel ev o h2 s w.
Proof.
  intros V. induction n as [|n IH]; intros h1 h2 s w H; [reflexivity|]. cbn [accept_go].
  rewrite (alike_turn ev o fuel (h1 O) (h2 O) s w V (H O)). destruct (turn fuel ev o (h2 O) s w) as [[s1 w1] [x|]]; [reflexivity|].
  apply IH. intros i q. apply (H (S i)).
Qed.

(** ** The race between a future and its timer *)
Lemma timeout_race {A} (inner : nat -> option A) fired : forall fuel i r,
  timeout_await fuel i inner fired = Some r <->
  exists k, (i <= k < i + fuel)%nat /\ (forall j, (i <= j < k)%nat -> inner j = None /\ fired j = false) /\
    ((exists v, inner k = Some v /\ r = inl v) \/ (inner k = None /\ fired k = true /\ r = inr tt)).
Proof.
  induction fuel as [|f IH]; intros i r; cbn [timeout_await]; [split; [discriminate|intros (k & L & _); lia]|].
  unfold timeout_poll. destruct (inner i) as [v|] eqn:EI; [|destruct (fired i) eqn:EF].
  - split.
    + intros [= <-]. exists i. split; [lia|]. split; [intros j L; lia|left; eauto].
    + intros (k & L & HJ & K). destruct (Nat.eq_dec i k) as [<-|N].
      * destruct K as [(v' & E & ->)|(E & _)]; congruence.
      * destruct (HJ i ltac:(lia)); congruence.
  - split.
    + intros [= <-]. exists i. split; [lia|]. split; [intros j L; lia|right; auto].
    + intros (k & L & HJ & K). destruct (Nat.eq_dec i k) as [<-|N].
      * destruct K as [(v' & E & ->)|(E & _ & ->)]; congruence.
      * destruct (HJ i ltac:(lia)); congruence.
  - rewrite IH. split.
    + intros (k & L & HJ & K). exists k. split; [lia|]. split; [|exact K]. intros j Lj. destruct (Nat.eq_dec i j) as [<-|N]; [auto|]. apply HJ. lia.
    + intros (k & L & HJ & K). destruct (Nat.eq_dec i k) as [<-|N].
      * destruct K as [(v' & E & ->)|(E & E2 & ->)]; congruence.
      * exists k. split; [lia|]. split; [|exact K]. intros j Lj. apply HJ. lia.
Qed.

(** ** A handler that fails after having sent *)
Lemma sends_then_fails ev o (h : handler) s wt s1 wt1 q b r kok kerr g : env_ok ev ->
  decode ev (o_timeout o) s wt = (s1, wt1, OReq q b) -> h q = Rt (PSend r kok kerr) -> (forall n, kok n = Rt (Some g)) ->
  sendable ev r -> sendable ev (glitch_response (o_verbose o) g) -> accepting wt1 ->
  exists m1 m2 F wt', message (e_date ev) r m1 /\ message (e_date ev) (glitch_response (o_verbose o) g) m2 /\
    w_out wt' = w_out wt1 ++ m1 ++ m2 /\ forall fuel, (F <= fuel)%nat -> turn fuel ev o h s wt = (body_src b, wt', None).
Proof.
  intros He HD HH HK S1 S2 Ha.
  destruct (send_message ev r He S1) as (m1 & M1 & H1). destruct (send_message ev _ He S2) as (m2 & M2 & H2).
  destruct (H1 wt1) as (F1 & w1 & x1 & p1 & E1 & O1 & _ & [[-> ->]|[_ X]]); [|contradiction].
  assert (A1 : accepting w1) by (eapply suf_accepting; [eapply send_suf, (E1 F1 (le_n _))|exact Ha]).
  destruct (H2 w1) as (F2 & w2 & x2 & p2 & E2 & O2 & _ & [[-> ->]|[_ X]]); [|contradiction].
  exists m1, m2, (F1 + F2)%nat, w2. ands; auto.
  - now rewrite O2, O1, <- app_assoc.
  - intros fuel Hf. unfold turn. rewrite HD. unfold run_handler. rewrite HH.
    assert (RT : forall T (a : T), run_reading fuel ev (Rt a) b = (b, inl a)) by (intros; destruct fuel; reflexivity).
    rewrite RT, E1 by lia. rewrite HK, RT. unfold send_ignored. rewrite E2 by lia. reflexivity.
Qed.

Lemma sent_whole ev r w fuel w' k : env_ok ev -> sendable ev r -> accepting w -> send fuel ev r w = (w', ROk k) ->
  exists m, message (e_date ev) r m /\ w_out w' = w_out w ++ m.
Proof.
  intros He Hr Ha S. destruct (send_any ev r He Hr) as (m & Hm & HS). destruct (HS w Ha _ _ _ S) as (p & O & _ & _ & [[_ ->]|K]); [eauto|discriminate].
Qed.

(** ** Glitches as handlers come by them *)
Lemma made_fields a g : g_made a = Some g ->
  or_else (g_status g) 500%N = start_status a /\ or_else (g_message g) [] = start_message a /\ g_trace g = start_trace a /\
  g_headers g = None /\ g_version g = None.
Proof.
  destruct a; cbn [g_made]; try (intros [= <-]; now repeat split). unfold glitch_code2. destruct (status_ok code); intros [= <-]; now repeat split.
Qed.
Lemma set_fields l : forall g st0 st m0 m, status_due st0 l st -> message_due m0 l m -> or_else (g_status g) 500%N = st0 -> or_else (g_message g) [] = m0 ->
  let g' := fold_left g_set l g in
  or_else (g_status g') 500%N = st /\ or_else (g_message g') [] = m /\ g_trace g' = g_trace g /\ g_headers g' = g_headers g /\ g_version g' = g_version g.
Proof.
  induction l as [|x l IH]; intros g st0 st m0 m HS HM ES EM; cbn [fold_left].
  - inversion HS; inversion HM; subst. now repeat split.
  - destruct x as [s|x]; inversion HS; subst; inversion HM; subst.
    + exact (IH (g_set_status s g) _ _ _ _ H3 H4 eq_refl eq_refl).
    + exact (IH (g_set_message x g) _ _ _ _ H3 H4 eq_refl eq_refl).
Qed.
Lemma glitch_built date verbose a g l m st msg : g_made a = Some g -> message date (glitch_response verbose (fold_left g_set l g)) m ->
  status_due (start_status a) l st -> message_due (start_message a) l msg ->
  exists text sl fs cl, text_due verbose msg (start_trace a) text /\ read_head m = Some (sl, fs, text) /\
    first_line HTTP_11 st sl /\
    values (B "content-length") fs = [cl] /\ numeral cl (N.of_nat (length text)) /\ values (B "transfer-encoding") fs = [] /\
    values (B "content-type") fs = (match text with [] => [] | _ => [B "text/plain"] end) /\ values (B "date") fs = [date] /\
    forall n, special n = false -> values n fs = [].
Proof.
  intros HG HM HS HMM. destruct (made_fields a g HG) as (E1 & E2 & E3 & E4 & E5).
  pose proof (set_fields l g _ _ _ _ HS HMM E1 E2) as (F1 & F2 & F3 & F4 & F5). set (g' := fold_left g_set l g) in *. rewrite E4 in F4. rewrite E5 in F5. rewrite E3 in F3.
  destruct (glitch_message date verbose g' m ltac:(rewrite F4; discriminate) HM) as (text & sl & fs & cl & DT & RH & K1 & K3 & K4 & K5 & K6 & K7 & K8).
  unfold g_values in *. rewrite F4 in *. rewrite F5, F1 in K1.
  exists text, sl, fs, cl. split; [|now auto 10]. inversion DT as [V|t V ET M|m' t V ET M NE]; subst text.
  - rewrite F2. constructor. now rewrite <- F3.
  - apply xd_trace; [exact V|now rewrite <- F3|now rewrite <- F2].
  - rewrite M in F2. cbn in F2. subst m'. apply xd_both; [exact V|now rewrite <- F3|exact NE].
Qed.
Lemma glitch_made a : (exists g, g_made a = Some g) <-> forall code m, a = ByMacroCode code m -> (100 <= code <= 999)%N.
Proof.
  destruct a; cbn [g_made]; try (split; [intros _ c m' X; discriminate X|intros _; eexists; reflexivity]; fail). split.
  - intros [g H] c m' [= <- <-]. unfold glitch_code2, status_ok in H. destruct ((100 <=? code) && (code <? 1000))%N eqn:E; [lia|discriminate].
  - intros H. specialize (H _ _ eq_refl). unfold glitch_code2, status_ok. destruct ((100 <=? code) && (code <? 1000))%N eqn:E; [eauto|lia].
Qed.
