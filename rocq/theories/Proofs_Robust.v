(** No input makes the server panic or run for ever (C100, C101). *)
From Verif Require Import Accept Reads SpecChunked SpecHead SpecResponse SpecReq SpecServer Lemmas Proofs_Copy Proofs_Parse Proofs_Buf
  Proofs_ReqHead Proofs_ServerEnc Proofs_Dec Proofs_DecReads Proofs_ServerDec Proofs_Send Proofs_Body Proofs_Request Proofs_Accept Proofs_Turns Proofs_Healthy Proofs_Length.

(** ** No panic *)
Section NoPanic.
  Variable ev : env.
  Hypothesis He : env_wf ev.
  Hypothesis G : grow_ok ev.
  Hypothesis Hn : (7 <= e_bufcap ev)%nat.
  Hypothesis H64 : (N.of_nat (e_bufcap ev) < two64)%N.
  Hypothesis Hh : hexlen_ok ev.

  Lemma reading_any {A} go (P Q : A -> Prop) : forall fuel p b b' x, heeds go P Q p -> healthy b -> run_reading fuel ev p b = (b', x) ->
    match x with inl a => (healthy b' /\ P a) \/ Q a | inr y => y <> APanic end.
  Proof.
    induction fuel as [|f IH]; intros p b b' x HD HB R; inversion HD as [a Pa|n k _ K1 K2 K4 K3]; subst p; cbn [run_reading] in R;
      try (injection R as <- <-; solve [auto|discriminate]).
    destruct (body_read ev n b) as [b1 r] eqn:E. pose proof (body_any _ _ _ _ _ G HB E) as [N HH].
    destruct r as [y|fi| | |]; [| | |congruence|injection R as <- <-; discriminate].
    - assert (H1 : healthy b1) by (apply HH; discriminate). destruct go; [eapply IH; [apply K2; now left|exact H1|exact R]|].
      destruct y as [|c y]; [|refine (IH _ _ _ _ (K2 (c :: y) (or_intror _)) H1 R); discriminate].
      destruct (K4 eq_refl) as (a & E4 & Pa). assert (R1 : run_reading f ev (Rt a) b1 = (b', x)) by (rewrite <- E4; exact R). destruct f; injection R1 as <- <-; auto.
    - eapply IH; [apply K1|apply HH; discriminate|exact R].
    - destruct K3 as (a & E3 & Qa). assert (R1 : run_reading f ev (Rt a) b1 = (b', x)) by (rewrite <- E3; exact R). destruct f; injection R1 as <- <-; auto.
  Qed.

  Lemma harmless_send r : harmless ev r -> forall fuel w, snd (send fuel ev r w) <> RPanic.
  Proof.
    intros (Hr & W & K) fuel w. apply no_panic; auto. destruct (b_len (r_body r)); [exact K|]. split; [exact H64|now apply unpinched].
  Qed.
  Lemma ignored_panic r : harmless ev r -> forall fuel w w', send_ignored fuel ev r w <> (w', Some APanic).
  Proof.
    intros K fuel w w'. unfold send_ignored. pose proof (harmless_send r K fuel w) as P. destruct (send fuel ev r w) as [w1 x]. cbn in P. destruct x; congruence.
  Qed.
  Lemma bare_harmless code : harmless ev (plain_response code).
  Proof. split; [split; constructor|]. split; [constructor|]. cbn. lia. Qed.

  Lemma harmless_hand st v hs len : (forall s, wf_src s -> harmless ev (mkResp st v hs (mkBody len s))) -> hand_ok ev st v hs len.
  Proof.
    intros HO. destruct (HO (mkSrc [] Eof) ltac:(constructor)) as (Hr & _ & K). unfold hand_ok. destruct len; [exact K|]. intros X. apply K, (pinched_head ev _ He Hr). split; [reflexivity|exact X].
  Qed.

  Lemma handler_panic go verbose fuel p b w b' w' x : safe_handler go (harmless ev) verbose p -> healthy b ->
    run_handler fuel ev p b w = (b', w', x) ->
    match x with inl (Some g) => harmless ev (glitch_response verbose g) | inl None => True | inr y => y <> APanic end.
  Proof.
    intros HS HB. unfold run_handler. destruct (run_reading fuel ev p b) as [b1 y] eqn:R. pose proof (reading_any _ _ _ _ _ _ _ _ HS HB R) as RA.
    destruct y as [[g|r kok kerr|st v hs len kok kerr]|y]; [intros [= <- <- <-]; destruct RA as [[_ RA]|RA]; exact RA| | |intros [= <- <- <-]; exact RA].
    2: { assert (RA' : healthy b1 /\ safe_choice go (harmless ev) verbose false (PRelay st v hs len kok kerr)) by (destruct RA as [RA|[RA _]]; [exact RA|discriminate]).
      destruct RA' as (HB1 & _ & _ & HO & K1 & K2). pose proof (hand_no_panic ev fuel st v hs len b1 w G Hn H64 Hh (harmless_hand _ _ _ _ HO) HB1) as NP.
      destruct (relay_body fuel ev st v hs len b1 w) as [[b2 w2] z]. cbn [snd] in NP. destruct z as [k| | | |]; try congruence; intros [= <- <- <-]; try discriminate; [apply K1|exact K2]. }
    assert (RA' : harmless ev r /\ exists seen, (seen = false -> healthy b1) /\ safe_choice go (harmless ev) verbose seen (PSend r kok kerr)).
    { destruct RA as [[HB1 RA]|RA]; (split; [apply RA|]); [exists false|exists true]; (split; [intros; try discriminate; assumption|exact RA]). }
    clear RA. destruct RA' as (HR & seen & HB1 & _ & RA). pose proof (harmless_send r HR fuel w) as PS.
    destruct (send fuel ev r w) as [w1 z]. cbn in PS. destruct z as [k| | | |]; try congruence; try (intros [= <- <- <-]; discriminate).
    - destruct (run_reading fuel ev (kok k) b1) as [b2 v] eqn:R2. intros [= <- <- <-]. destruct seen.
      + destruct RA as [RA _]. destruct (RA k) as (a & EA & PA). rewrite EA in R2. destruct fuel; injection R2 as <- <-; destruct a; auto.
      + destruct RA as [RA _]. pose proof (reading_any _ _ _ _ _ _ _ _ (RA k) (HB1 eq_refl) R2) as V. destruct v as [[g|]|v]; tauto.
    - destruct (run_reading fuel ev kerr b1) as [b2 v] eqn:R2. destruct seen.
      + destruct RA as [_ (a & EA & PA)]. rewrite EA in R2. destruct fuel; injection R2 as <- <-; intros [= <- <- <-]; exact PA.
      + destruct RA as [_ RA]. pose proof (reading_any _ _ _ _ _ _ _ _ RA (HB1 eq_refl) R2) as V. destruct v as [g|v]; intros [= <- <- <-]; tauto.
  Qed.

  Lemma decode_healthy tmo s w s' w' q b : decode ev tmo s w = (s', w', OReq q b) -> healthy b.
  Proof.
    assert (K : forall m path a b0, match build_req ev m path a b0 with OReq q b => healthy b | _ => True end).
    { intros. unfold build_req. destruct (negb _); [exact I|]. destruct (parse_uri _ _); [|exact I]. destruct (h_te a && h_chunked a)%bool; [apply new_ok|exact I]. }
    unfold decode. destruct (req_head _ _) as [b0 [buf| | | |]]; try discriminate. destruct (parse_head ev buf) as [f|[[m path] a]]; [discriminate|].
    specialize (K m path a b0). destruct (expects_continue a).
    - destruct (write_all tmo continue_text w) as [w1 [u| | | |]]; try discriminate. intros [= <- <- E]. now rewrite E in K.
    - intros [= <- <- E]. now rewrite E in K.
  Qed.

  Lemma decode_wf tmo s w s' w' q b : wf_src s -> decode ev tmo s w = (s', w', OReq q b) -> wf_brd (body_brd b).
  Proof.
    intros Ws H. destruct (decode_req ev tmo s w s' w' q b ltac:(lia) Ws H) as (v & br & c & m & u & hs & len & _ & _ & HW & -> & _).
    destruct len; exact HW.
  Qed.

  Lemma turn_no_panic go o h s w fuel s' w' x : (forall q, safe_handler go (harmless ev) (o_verbose o) (h q)) ->
    turn fuel ev o h s w = (s', w', x) -> x <> Some APanic.
  Proof.
    intros HS. unfold turn. destruct (decode ev (o_timeout o) s w) as [[s1 w1] y] eqn:ED.
    destruct y as [q b| |f| |]; try (intros [= <- <- <-]; discriminate).
    - apply decode_healthy in ED. destruct (run_handler fuel ev (h q) b w1) as [[b2 w2] z] eqn:EH.
      pose proof (handler_panic _ _ _ _ _ _ _ _ _ (HS q) ED EH) as P. destruct z as [[g|]|z]; [|intros [= <- <- <-]; discriminate|intros [= <- <- <-]; congruence].
      destruct (send_ignored fuel ev (glitch_response (o_verbose o) g) w2) as [w3 z] eqn:EI. intros [= <- <- <-] ->. exact (ignored_panic _ P _ _ _ EI).
    - unfold handle_fail. intros H X. subst x. assert (K : forall r, fail_response f = Some r -> harmless ev r).
      { intros r. destruct f; cbn; try discriminate; intros [= <-]; apply bare_harmless. }
      destruct (fail_response f) as [r|].
      + destruct (send_ignored fuel ev r w1) as [w3 v] eqn:EI. destruct v as [v|].
        * injection H as _ _ ->. exact (ignored_panic _ (K r eq_refl) _ _ _ EI).
        * destruct (fail_is_fatal f); discriminate.
      + destruct (fail_is_fatal f); discriminate.
  Qed.
  Theorem accept_no_panic go o fuel : forall n h s w, (forall i q, safe_handler go (harmless ev) (o_verbose o) (h i q)) ->
    snd (accept_go n fuel ev o h s w) <> APanic.
  Proof.
    induction n as [|n IH]; intros h s w HS; cbn [accept_go]; [discriminate|].
    destruct (turn fuel ev o (h O) s w) as [[s1 w1] [x|]] eqn:T; [|apply IH; intros i; apply (HS (S i))].
    pose proof (turn_no_panic _ _ _ _ _ _ _ _ _ (HS O) T). cbn. congruence.
  Qed.

  (** ** It ends *)
  Lemma reading_ends {A} (P Q : A -> Prop) : forall m p b, (bmeas b < m)%nat -> heeds false P Q p -> healthy b ->
    exists F b' a, ((healthy b' /\ P a) \/ Q a) /\ forall fuel, (F <= fuel)%nat -> run_reading fuel ev p b = (b', inl a).
  Proof.
    induction m as [|m IH]; intros p b Hm HD HB; [lia|]. inversion HD as [a Pa|n k Hp K1 K2 K4 K3]; subst p.
    { exists O, b, a. split; [auto|]. intros [|f] _; reflexivity. }
    destruct (body_read ev n b) as [b1 r] eqn:E. pose proof (body_pos _ _ _ _ _ G ltac:(lia) (Hp eq_refl) HB E) as P1.
    assert (STEP : forall p', (match r with PPanic => None | PFuel => None | _ => Some (k r) end = Some p') ->
      (exists F b' a, ((healthy b' /\ P a) \/ Q a) /\ forall fuel, (F <= fuel)%nat -> run_reading fuel ev p' b1 = (b', inl a)) ->
      exists F b' a, ((healthy b' /\ P a) \/ Q a) /\ forall fuel, (F <= fuel)%nat -> run_reading fuel ev (Rd n k) b = (b', inl a)).
    { intros p' EP (F & b' & a & D & HF). exists (S F), b', a. split; [exact D|]. intros [|f] L; [lia|]. cbn [run_reading]. rewrite E.
      destruct r; try discriminate; injection EP as ->; apply HF; lia. }
    destruct r as [x|fi| | |]; try contradiction.
    - destruct P1 as [H1 L1]. destruct x as [|c x].
      + destruct (K4 eq_refl) as (a & E4 & Pa). apply (STEP (Rt a)); [now rewrite <- E4|]. exists O, b1, a. split; [auto|]. intros [|f] _; reflexivity.
      + eapply STEP; [reflexivity|]. apply IH; [|apply K2; right; discriminate|exact H1]. specialize (L1 ltac:(discriminate)). lia.
    - destruct P1 as [H1 L1]. eapply STEP; [reflexivity|]. apply IH; [lia|apply K1|exact H1].
    - destruct K3 as (a & E3 & Qa). apply (STEP (Rt a)); [now rewrite <- E3|]. exists O, b1, a. split; [auto|]. intros [|f] _; reflexivity.
  Qed.
  Lemma ending_send r w : ending ev r -> exists F w' x, (x = RErr \/ exists k, x = ROk k) /\ forall fuel, (F <= fuel)%nat -> send fuel ev r w = (w', x).
  Proof.
    intros [(Hr & W & K) L].
    assert (R : exists F O k, run (enc_poll F ev (e_bufcap ev)) (enc_new r) O k /\ (k = KOk \/ k = KErr)).
    { destruct (b_len (r_body r)) as [cl|] eqn:EL.
      - destruct (fixed_send_run ev r cl ltac:(lia) EL K W (S (src_size (b_src (r_body r)))) ltac:(lia)) as (O & k & R & P & Q).
        eexists _, O, k. split; [exact R|]. destruct k; auto; [contradiction|]. destruct Q as [Q1 Q2]. destruct L; [lia|tauto].
      - destruct (chunked_send_run ev r Hn H64 Hh EL W 0) as (O & k & R & Q). exists 0%nat, O, k. split; [exact R|]. destruct k; auto; [|contradiction].
        exfalso. apply K, (pinched_head ev r He Hr). split; [apply at_end_data|]; tauto. }
    destruct R as (F & O & k & R & HK). assert (NK : k <> KFuel) by (destruct HK; subst; discriminate).
    destruct (send_of_run ev r F O k R NK w) as (F' & w' & x & p & S1 & S2 & _ & _ & S5).
    exists F', w', x. split; [|exact S1]. destruct S5 as [[-> _]|[-> _]]; [|now left]. destruct HK; subst k; cbn; eauto.
  Qed.
  Lemma ignored_ends r w : ending ev r -> exists F w', forall fuel, (F <= fuel)%nat -> send_ignored fuel ev r w = (w', None).
  Proof.
    intros H. destruct (ending_send r w H) as (F & w' & x & X & S). exists F, w'. intros fuel L. unfold send_ignored. rewrite S by exact L.
    destruct X as [->|[k ->]]; reflexivity.
  Qed.
  Lemma bare_ending code : ending ev (plain_response code).
  Proof. split; [apply bare_harmless|]. left. cbn. lia. Qed.

  Lemma settled_run {A} (P : A -> Prop) p b : settled P p -> exists a, P a /\ forall fuel, run_reading fuel ev p b = (b, inl a).
  Proof. intros (a & -> & Pa). exists a. split; [exact Pa|]. intros [|f]; reflexivity. Qed.
  Lemma handler_ends verbose p b w : safe_handler false (ending ev) verbose p -> healthy b -> wf_brd (body_brd b) ->
    exists F b' w' g, match g with Some g => ending ev (glitch_response verbose g) | None => True end /\
      forall fuel, (F <= fuel)%nat -> run_handler fuel ev p b w = (b', w', inl g).
  Proof.
    intros HS HB HW. destruct (reading_ends _ _ _ p b (Nat.lt_succ_diag_r _) HS HB) as (F & b1 & a & PA & R). destruct a as [g|r kok kerr|st v hs len kok kerr].
    3: { assert (PA' : healthy b1 /\ safe_choice false (ending ev) verbose false (PRelay st v hs len kok kerr)) by (destruct PA as [PA|[PA _]]; [exact PA|discriminate]).
      destruct PA' as (HB1 & _ & EL & HO & K1 & K2). rewrite (EL eq_refl) in *. pose proof (reading_wf _ _ _ _ _ _ (R F (le_n F)) HW) as HW1.
      destruct (hand_ends ev st v hs b1 w G Hn H64 Hh (harmless_hand _ _ _ _ (fun s Ws => proj1 (HO s Ws))) HB1 HW1) as (F1 & b2 & w2 & x & X & S).
      exists (F + F1)%nat, b2, w2, (match x with ROk k => kok k | _ => Some kerr end). split; [destruct X as [->|[k ->]]; [exact K2|apply K1]|].
      intros fuel L. unfold run_handler. rewrite R, S by lia. destruct X as [->|[k ->]]; reflexivity. }
    { exists F, b1, w, (Some g). split; [destruct PA as [[_ PA]|PA]; exact PA|]. intros fuel L. unfold run_handler. now rewrite R. }
    assert (PA' : ending ev r /\ exists seen, (seen = false -> healthy b1) /\ safe_choice false (ending ev) verbose seen (PSend r kok kerr)).
    { destruct PA as [[HB1 PA]|PA]; (split; [apply PA|]); [exists false|exists true]; (split; [intros; try discriminate; assumption|exact PA]). }
    clear PA. destruct PA' as (HR & seen & HB1 & _ & PA). destruct (ending_send r w HR) as (F1 & w1 & x & X & S). destruct X as [->|[k ->]].
    - assert (K : exists F2 b2 g, ending ev (glitch_response verbose g) /\ forall fuel, (F2 <= fuel)%nat -> run_reading fuel ev kerr b1 = (b2, inl g)).
      { destruct seen; destruct PA as [_ PA].
        - destruct (settled_run _ _ b1 PA) as (g & Pg & RR). exists O, b1, g. split; [exact Pg|]. auto.
        - destruct (reading_ends _ _ _ kerr b1 (Nat.lt_succ_diag_r _) PA (HB1 eq_refl)) as (F2 & b2 & g & Pg & RR). exists F2, b2, g. split; [tauto|exact RR]. }
      destruct K as (F2 & b2 & g & Pg & RR). exists (F + F1 + F2)%nat, b2, w1, (Some g). split; [exact Pg|]. intros fuel L. unfold run_handler.
      rewrite R, S, RR by lia. reflexivity.
    - assert (K : exists F2 b2 g, match g with Some g => ending ev (glitch_response verbose g) | None => True end /\
          forall fuel, (F2 <= fuel)%nat -> run_reading fuel ev (kok k) b1 = (b2, inl g)).
      { destruct seen; destruct PA as [PA _].
        - destruct (settled_run _ _ b1 (PA k)) as (g & Pg & RR). exists O, b1, g. split; [exact Pg|]. auto.
        - destruct (reading_ends _ _ _ (kok k) b1 (Nat.lt_succ_diag_r _) (PA k) (HB1 eq_refl)) as (F2 & b2 & g & Pg & RR). exists F2, b2, g. split; [|exact RR].
          destruct Pg as [[_ Pg]|Pg]; exact Pg. }
      destruct K as (F2 & b2 & g & Pg & RR). exists (F + F1 + F2)%nat, b2, w1, g. split; [exact Pg|]. intros fuel L. unfold run_handler.
      rewrite R, S, RR by lia. reflexivity.
  Qed.

  Lemma decode_fuel tmo s w s' w' x : wf_src s -> decode ev tmo s w = (s', w', x) -> x <> OFuel.
  Proof.
    intros Ws HD. assert (Hc : (0 < e_bufcap ev)%nat) by lia.
    destruct (head_cases (fst (avail tmo (s_evs s)))) as [(v & rest & A & Hb)|NH].
    - destruct (decode_offer ev tmo s v Hc (conj Ws (conj Hb (ex_intro _ rest A)))) as (b & _ & _ & _ & _ & _ & _ & _ & _ & _ & HO).
      destruct (judge_total (e_trim ev) (parse_uri (e_uri ev)) v) as (c & vd & J). destruct (HO c vd J) as (out & AN & HDec). rewrite HDec in HD.
      injection HD as _ _ <-. assert (NO : out <> OFuel) by (destruct vd; [destruct AN as (f & -> & _)|destruct AN as (h' & -> & _)]; discriminate).
      assert (NI : snd (interim c tmo w) <> RPanic /\ snd (interim c tmo w) <> RFuel).
      { unfold interim. destruct c; [|split; discriminate]. destruct (write_all tmo continue_text w) as [w1 r] eqn:EW. apply write_all_spec in EW as (_ & p & _ & _ & K).
        cbn. destruct K as [[-> _]|[[-> _]|[-> _]]]; split; discriminate. }
      destruct (snd (interim c tmo w)); cbn [after_interim]; try discriminate; [exact NO|tauto|tauto].
    - destruct (decode_none ev tmo s Hc Ws NH) as (s1 & HN). rewrite HN in HD. destruct (snd (avail _ _)), (s_tail s); injection HD as _ _ <-; discriminate.
  Qed.

  Lemma turn_ends o h s w : wf_src s -> (forall q, safe_handler false (ending ev) (o_verbose o) (h q)) ->
    exists F s' w' x, (x = None \/ x = Some AOk \/ x = Some AErr) /\ forall fuel, (F <= fuel)%nat -> turn fuel ev o h s w = (s', w', x).
  Proof.
    intros Ws HS. destruct (decode ev (o_timeout o) s w) as [[s1 w1] y] eqn:ED. pose proof (decode_fuel _ _ _ _ _ _ Ws ED) as ND.
    destruct y as [q b| |f| |]; [| | | |congruence].
    - pose proof (decode_healthy _ _ _ _ _ _ _ ED) as HB. destruct (handler_ends (o_verbose o) (h q) b w1 (HS q) HB (decode_wf _ _ _ _ _ _ _ Ws ED)) as (F & b' & w2 & g & Pg & R).
      destruct g as [g|].
      + destruct (ignored_ends _ w2 Pg) as (F2 & w3 & S). exists (F + F2)%nat, (body_src b'), w3, None. split; [now left|]. intros fuel L.
        unfold turn. rewrite ED, R, S by lia. reflexivity.
      + exists F, (body_src b'), w2, None. split; [now left|]. intros fuel L. unfold turn. rewrite ED, R by lia. reflexivity.
    - exists O, s1, w1, (Some AOk). split; [auto|]. intros fuel _. unfold turn. rewrite ED. reflexivity.
    - assert (K : exists F w2, forall fuel, (F <= fuel)%nat -> handle_fail fuel ev f w1 = (w2, if fail_is_fatal f then Some AErr else None)).
      { unfold handle_fail. destruct (fail_response f) as [r|] eqn:FR; [|exists O, w1; reflexivity].
        assert (ER : ending ev r) by (destruct f; cbn in FR; try discriminate; injection FR as <-; apply bare_ending).
        destruct (ignored_ends r w1 ER) as (F & w2 & S). exists F, w2. intros fuel L. now rewrite S. }
      destruct K as (F & w2 & K). exists F, s1, w2, (if fail_is_fatal f then Some AErr else None). split; [destruct (fail_is_fatal f); auto|].
      intros fuel L. unfold turn. rewrite ED, K by exact L. reflexivity.
    - exists O, s1, w1, (Some AOk). split; [auto|]. intros fuel _. unfold turn. rewrite ED. reflexivity.
  Qed.
  Theorem accept_ends o : forall m s w h, (src_size s < m)%nat -> wf_src s -> s_tail s = Eof ->
    (forall i q, safe_handler false (ending ev) (o_verbose o) (h i q)) ->
    exists F s' w' a, (a = AOk \/ a = AErr) /\ forall n fuel, (F <= n)%nat -> (F <= fuel)%nat -> accept_go n fuel ev o h s w = (s', w', a).
  Proof.
    induction m as [|m IH]; intros s w h Hm Ws Tl HS; [lia|].
    destruct (turn_ends o (h O) s w Ws (HS O)) as (F & s1 & w1 & x & X & T).
    assert (STOP : forall a, x = Some a -> (a = AOk \/ a = AErr) ->
      exists F s' w' a, (a = AOk \/ a = AErr) /\ forall n fuel, (F <= n)%nat -> (F <= fuel)%nat -> accept_go n fuel ev o h s w = (s', w', a)).
    { intros a -> HA. exists (S F), s1, w1, a. split; [exact HA|]. intros [|n] fuel L1 L2; [lia|]. cbn [accept_go]. now rewrite T by lia. }
    destruct X as [->|[->| ->]]; [|eapply STOP; [reflexivity|auto]|eapply STOP; [reflexivity|auto]]. clear STOP.
    assert (Hc : (0 < e_bufcap ev)%nat) by lia. destruct (turn_left _ _ _ _ _ _ _ _ _ Hc (T F (le_n _))) as (_ & T1 & W1 & Z).
    assert (NE : s_evs s <> []).
    { intros X. specialize (T F (le_n _)). unfold turn, decode, req_head in T. destruct s as [evs tl]. cbn in X, Tl. subst evs tl. cbn in T. discriminate. }
    specialize (Z NE). destruct (IH s1 w1 (later h) ltac:(lia) (W1 Ws) ltac:(congruence) (fun i => HS (S i))) as (F2 & s' & w' & a & HA & R).
    exists (S (F + F2)), s', w', a. split; [exact HA|]. intros [|n] fuel L1 L2; [lia|]. cbn [accept_go]. rewrite T by lia. apply R; lia.
  Qed.
End NoPanic.
