(** Declared lengths near the end of [usize]: exactly when sending panics. *)
From Verif Require Import ServerEnc SpecChunked SpecHead SpecResponse Lemmas Proofs_Copy Proofs_ServerEnc Proofs_Head Proofs_Send.

Section Vast.
  Variables (ev : env) (r : response) (cl : N).
  Let n := e_bufcap ev.
  Let H := head_text ev r.
  Hypothesis Hn : (0 < n)%nat.
  Hypothesis Hn64 : (N.of_nat n < two64)%N.
  Hypothesis Hc : b_len (r_body r) = Some cl.
  Hypothesis Hcl : (cl < two64)%N.

  (** Where the head and the length meet beyond [usize]. *)
  Lemma vast_run F : (two64 <= cl + N.of_nat (length H mod n))%N ->
    exists O, prefix O H /\ run (enc_poll (S F) ev n) (enc_new r) O KPanic.
  Proof.
    intros V. destruct (head_run (S F) ev n (length H) Hn (head_enc ev r)) as (q & pre & out & e' & S1 & S2 & S3 & S4 & S5).
    { cbn. fold H. lia. } { cbn. apply head_text_pos. } { reflexivity. }
    change (en_cl (head_enc ev r)) with (b_len (r_body r)) in S4. rewrite Hc in S4. cbv zeta in S4.
    set (en1 := with_state (head_enc ev r) EFixed (length (en_head (head_enc ev r)))) in *.
    cbn [head_enc en_head en_headread skipn] in S1. fold H in S1.
    assert (LO : (length out < n)%nat /\ (length H mod n)%nat = length out).
    { rewrite S1, app_length, S2, Nat.add_comm, Nat.mod_add in * by lia.
      destruct (Nat.eq_dec (length out) n) as [E|E]; [rewrite E, Nat.mod_same in V by lia; lia|]. rewrite Nat.mod_small by lia. lia. }
    destruct LO as [LO LM]. rewrite LM in V.
    assert (PP : exists e1, enc_fixed (S F) ev en1 out n = (e1, PPanic)).
    { cbn [enc_fixed]. replace (length out =? n)%nat with false by lia. change (en_cl en1) with (b_len (r_body r)). rewrite Hc.
      change (en_bodyread en1) with 0%N. unfold upper_arith. destruct (e_ovf ev); cbn [andb].
      - replace (two64 <=? N.of_nat (length out) + cl)%N with true by lia. eauto.
      - assert (EM : ((N.of_nat (length out) + cl) mod two64 = N.of_nat (length out) + cl - two64)%N).
        { symmetry. apply N.mod_unique with 1%N; lia. }
        rewrite EM. replace (0 <=? _)%N with true by lia. cbv zeta.
        match goal with |- context [(?a <? length out)%nat] => replace (a <? length out)%nat with true by lia end. eauto. }
    destruct PP as (e1 & PP). exists pre. split; [rewrite S1; apply prefix_app_r|]. rewrite <- (app_nil_r pre).
    eapply run_same; [apply (start_same (S F) ev n r)|]. apply S5. eapply run_panic. rewrite S4. exact PP.
  Qed.

  Lemma vast_panics w : (two64 <= cl + N.of_nat (length H mod n))%N -> accepting w ->
    exists F w' p, (forall fuel, (F <= fuel)%nat -> send fuel ev r w = (w', RPanic)) /\ w_out w' = w_out w ++ p /\ prefix p H.
  Proof.
    intros V A. destruct (vast_run 0 V) as (O & P & R).
    destruct (send_of_run ev r _ _ _ R ltac:(discriminate) w) as (F & w' & x & p & S1 & _ & S3 & S4 & S5).
    destruct S5 as [[-> ->]|[_ S5]]; [|contradiction]. exists F, w', O. auto.
  Qed.

  (** Without overflow checks nothing else panics. *)
  Hypothesis Hovf : e_ovf ev = false.
  Hypothesis Hfit : (cl + N.of_nat (length H mod n) < two64)%N.

  Lemma upper_wraps o br : (br <= cl)%N -> (o + (cl - br) < two64)%N -> (br <= o + cl)%N -> (o < two64)%N ->
    upper_arith false o cl br = Some (o + (cl - br))%N.
  Proof.
    intros H1 H2 H3 H4. unfold upper_arith. cbn [andb]. destruct (N.lt_ge_cases (o + cl) two64) as [L|G].
    - rewrite N.mod_small by exact L. replace (br <=? o + cl)%N with true by lia. f_equal. lia.
    - assert (EM : ((o + cl) mod two64 = o + cl - two64)%N) by (symmetry; apply N.mod_unique with 1%N; lia).
      rewrite EM. replace (br <=? o + cl - two64)%N with false by lia. f_equal. lia.
  Qed.

  Definition calm_enc (en : enc) : Prop :=
    en_cl en = Some cl /\ (en_bodyread en <= cl)%N /\
    match en_state en with
    | EStart => en_head en = [] /\ en_headread en = 0%nat /\ head_text ev (en_resp en) = H
    | EHead => en_head en = H /\ (en_headread en < length H)%nat /\ (en_headread en mod n = 0)%nat
    | EFixed | EDone => True
    | EChunked => False
    end.

  Lemma calm_fixed f : forall en out en' x, en_cl en = Some cl -> (en_bodyread en <= cl)%N -> en_state en = EFixed ->
    ((length out = n)%nat \/ (length out < n)%nat /\ (N.of_nat (length out) + (cl - en_bodyread en) < two64)%N) -> (N.of_nat (length out) < two64)%N ->
    enc_fixed f ev en out n = (en', x) -> x <> PPanic /\ ((exists o, x = POk o) \/ (exists b, x = PPend b) -> calm_enc en').
  Proof.
    induction f as [|f IH]; intros en out en' x HC HB HS HO H64 E; cbn [enc_fixed] in E.
    { injection E as <- <-. split; [discriminate|]. intros [[o X]|[b X]]; discriminate. }
    destruct (length out =? n)%nat eqn:EO.
    { injection E as <- <-. split; [discriminate|]. intros _. unfold calm_enc. rewrite HS. auto. }
    apply Nat.eqb_neq in EO. destruct HO as [HO|[HO HF]]; [contradiction|].
    rewrite HC, Hovf, upper_wraps in E by lia. cbv zeta in E.
    match type of E with context [(?a <? length out)%nat] => replace (a <? length out)%nat with false in E by lia; set (up := (a - length out)%nat) in E end.
    assert (Hup : (up <= n - length out)%nat /\ (N.of_nat up <= cl - en_bodyread en)%N) by (unfold up; lia). clearbody up.
    destruct (src_read up (b_src (r_body (en_resp en)))) as [s' y] eqn:R.
    pose proof (src_read_never _ _ _ _ R) as [NP NF]. destruct y as [d|fi| | |]; try congruence.
    - pose proof (src_read_len _ _ _ _ R) as HL. destruct (cl =? en_bodyread en + N.of_nat (length d))%N eqn:ED.
      + injection E as <- <-. split; [discriminate|]. intros _. unfold calm_enc. cbn [en_state en_bodyread en_cl]. split; [exact HC|]. split; [lia|exact I].
      + apply IH in E; cbn [en_state en_bodyread]; auto; try (rewrite ?app_length; lia).
    - injection E as <- <-. split; [destruct out; discriminate|]. intros _. unfold calm_enc. cbn [en_state en_bodyread]. rewrite HS. auto.
    - injection E as <- <-. split; [discriminate|]. intros [[o X]|[b X]]; discriminate.
  Qed.

  Lemma calm_head f en en' x : en_cl en = Some cl -> (en_bodyread en <= cl)%N -> en_state en = EHead -> en_head en = H -> (en_headread en < length H)%nat -> (en_headread en mod n = 0)%nat ->
    enc_head f ev en n = (en', x) -> x <> PPanic /\ ((exists o, x = POk o) \/ (exists b, x = PPend b) -> calm_enc en').
  Proof.
    intros HC HB HS HH HR HM E. unfold enc_head in E. cbv zeta in E. rewrite HC, HH in E.
    assert (LF : length (firstn (Nat.min (length H - en_headread en) n) (skipn (en_headread en) H)) = Nat.min (length H - en_headread en) n) by (rewrite firstn_length, skipn_length; lia).
    destruct (_ =? _)%nat eqn:EH.
    - apply Nat.eqb_eq in EH. apply calm_fixed in E; auto.
      + rewrite LF. cbn [en_bodyread]. destruct (Nat.eq_dec (length H - en_headread en) n) as [L|L]; [left; lia|]. right. split; [lia|].
        assert (HQ : (length H mod n = length H - en_headread en)%nat).
        { apply Nat.mod_divides in HM; [|lia]. destruct HM as (q & HM). symmetry. apply Nat.mod_unique with q; lia. }
        lia.
      + rewrite LF. lia.
    - apply Nat.eqb_neq in EH. injection E as <- <-. split; [discriminate|]. intros _. unfold calm_enc. cbn [en_state en_bodyread en_head en_headread]. rewrite HS.
      split; [exact HC|]. split; [exact HB|]. split; [reflexivity|]. split; [lia|].
      replace (Nat.min (length H - en_headread en) n) with (1 * n)%nat by lia. now rewrite Nat.mod_add by lia.
  Qed.

  Lemma calm_poll f en en' x : calm_enc en -> enc_poll f ev n en = (en', x) -> x <> PPanic /\ ((exists o, x = POk o) \/ (exists b, x = PPend b) -> calm_enc en').
  Proof.
    intros (HC & HB & HS) E. unfold enc_poll in E. destruct (en_state en) eqn:ES; try contradiction.
    - destruct HS as (H1 & H2 & H3). unfold enc_start in E. cbv zeta in E. apply calm_head in E; auto.
      + cbn [en_head]. rewrite H1. exact H3.
      + cbn [en_headread]. rewrite H2. apply head_text_pos.
      + cbn [en_headread]. rewrite H2. apply Nat.mod_0_l. lia.
    - destruct HS as (H1 & H2 & H3). eapply calm_head; eauto.
    - apply calm_fixed in E; auto; cbn [length]; [right; split; lia|lia].
    - injection E as <- <-. split; [discriminate|]. intros _. unfold calm_enc. rewrite ES. auto.
  Qed.

  Lemma vast_calm w fuel : snd (send fuel ev r w) <> RPanic.
  Proof.
    unfold send. fold n.
    assert (K : forall f en bb w amt, calm_enc en -> snd (copy_go (enc_poll fuel ev n) f en bb w amt) <> RPanic).
    { clear w. induction f as [|f IH]; intros en bb w amt HI; cbn [copy_go]; [discriminate|]. destruct bb as [|c bb].
      - destruct (enc_poll fuel ev n en) as [en' y] eqn:E. destruct (calm_poll _ _ _ _ HI E) as [NP K]. destruct y as [[|c d]|fi| | |]; try discriminate; try contradiction.
        + destruct (w_flush w) as [w1 [k|fi|]]; try discriminate. apply IH. apply K. eauto.
        + apply IH. apply K. eauto.
        + apply IH. apply K. eauto.
      - destruct (w_write (c :: bb) w) as [w1 [[|k]|fi|]]; try discriminate; now apply IH. }
    apply K. unfold calm_enc, enc_new. cbn [en_state en_bodyread en_head en_headread en_resp]. split; [exact Hc|]. split; [lia|]. auto.
  Qed.
End Vast.
