(** Sending a response: from encoder runs to what reaches the connection. *)
From Verif Require Import ServerEnc SpecChunked SpecHead SpecResponse Lemmas Proofs_Copy Proofs_ServerEnc Proofs_Head.
From Verif Require Export SpecEnv.

Lemma run_same {E} (poll : E -> E * pres bytes) e1 e2 O k :
  poll e1 = poll e2 -> run poll e1 O k -> run poll e2 O k.
Proof.
  intros H R. inversion R; subst; rewrite H in *.
  - eapply run_done; eauto.
  - eapply run_out; eauto.
  - eapply run_pend; eauto.
  - eapply run_err; eauto.
  - eapply run_panic; eauto.
  - eapply run_fuel; eauto.
Qed.

Definition with_state (en : enc) (st : est) (hr : nat) : enc :=
  mkEnc (en_resp en) st (en_head en) hr (en_bodyread en) (en_chunked en).

(** The head goes out in full buffers; the last piece shares its buffer with the body. *)
Lemma head_run F ev n m : (0 < n)%nat -> forall en,
  (length (en_head en) - en_headread en <= m)%nat -> (en_headread en < length (en_head en))%nat ->
  en_state en = EHead ->
  exists q pre out e',
    skipn (en_headread en) (en_head en) = pre ++ out /\ length pre = (q * n)%nat /\
    (0 < length out <= n)%nat /\
    enc_poll F ev n e' =
      (let en1 := with_state en (match en_cl en with Some _ => EFixed | None => EChunked end) (length (en_head en)) in
       match en_cl en with Some _ => enc_fixed F ev en1 out n | None => enc_chunked ev en1 out n end) /\
    (forall O k, run (enc_poll F ev n) e' O k -> run (enc_poll F ev n) en (pre ++ O) k).
Proof.
  intros Hn. induction m as [|m IH]; intros en Hm Hh Hst; [lia|].
  set (H := en_head en) in *. set (h := en_headread en) in *.
  assert (EP : enc_poll F ev n en = enc_head F ev en n) by (unfold enc_poll; now rewrite Hst).
  unfold enc_head in EP. fold H h in EP. cbv zeta in EP.
  destruct (Nat.le_gt_cases (length H - h) n) as [L|G].
  - exists 0%nat, [], (skipn h H), en. cbn [app Nat.mul length]. ands; auto; try lia.
    + rewrite skipn_length. lia.
    + rewrite skipn_length. lia.
    + rewrite EP. replace (Nat.min (length H - h) n) with (length H - h)%nat by lia.
      replace (h + (length H - h) =? length H)%nat with true by lia.
      replace (h + (length H - h))%nat with (length H) by lia.
      rewrite (firstn_all2 (skipn h H)) by (rewrite skipn_length; lia).
      cbv zeta. unfold with_state. fold H. destruct (en_cl en); reflexivity.
  - replace (Nat.min (length H - h) n) with n in EP by lia.
    replace (h + n =? length H)%nat with false in EP by lia.
    set (en1 := mkEnc (en_resp en) (en_state en) H (h + n) (en_bodyread en) (en_chunked en)) in *.
    destruct (IH en1) as (q & pre & out & e' & S1 & S2 & S3 & S4 & S5).
    { subst en1. cbn. lia. } { subst en1. cbn. lia. } { subst en1. exact Hst. }
    cbn [en1 en_head en_headread] in S1.
    assert (Hfn : length (firstn n (skipn h H)) = n) by (rewrite firstn_length, skipn_length; lia).
    exists (S q), (firstn n (skipn h H) ++ pre), out, e'. ands; auto; try lia.
    + rewrite <- app_assoc, <- S1, <- skipn_skipn', firstn_skipn. reflexivity.
    + rewrite app_length, Hfn, S2. lia.
    + intros O k R. rewrite <- app_assoc. eapply run_out; [exact EP| |apply S5; exact R].
      intros X. rewrite X in Hfn. cbn [length] in Hfn. lia.
Qed.

Definition head_enc (ev : env) (r : response) : enc :=
  mkEnc (mkResp (r_status r) (r_version r) (with_default_ct r) (r_body r)) EHead (head_text ev r) 0 0 CStart.

Lemma start_same F ev n r : enc_poll F ev n (head_enc ev r) = enc_poll F ev n (enc_new r).
Proof. reflexivity. Qed.

Lemma head_text_pos ev r : (0 < length (head_text ev r))%nat.
Proof. rewrite head_text_fields, !app_length. cbn. lia. Qed.

(** ** Fixed length *)
Section FixedSend.
  Variables (ev : env) (r : response) (cl : N).
  Let s := b_src (r_body r).
  Let n := e_bufcap ev.
  Let H := head_text ev r.
  Hypothesis Hn : (0 < n)%nat.
  Hypothesis Hcl : b_len (r_body r) = Some cl.
  Hypothesis Hsz : (cl + N.of_nat n < two64)%N.
  Hypothesis Hwf : wf_src s.

  Definition full : bytes := H ++ firstn (N.to_nat cl) (src_data s).

  Lemma fixed_send_run F : (src_size s < F)%nat ->
    exists O k, run (enc_poll F ev n) (enc_new r) O k /\ prefix O full /\
      match k with
      | KOk => O = full /\ (cl <= N.of_nat (length (src_data s)))%N
      | KErr => ~ clean s /\ ((N.of_nat (length (src_data s)) < cl)%N \/ cl = 0%N)
      | KFuel => clean s /\ (N.of_nat (length (src_data s)) < cl)%N
      | KPanic => False
      end.
  Proof.
    intros HF.
    destruct (head_run F ev n (length H) Hn (head_enc ev r)) as (q & pre & out & e' & S1 & S2 & S3 & S4 & S5).
    { cbn. fold H. lia. } { cbn. apply head_text_pos. } { reflexivity. }
    change (en_cl (head_enc ev r)) with (b_len (r_body r)) in S4. rewrite Hcl in S4. cbv zeta in S4.
    set (en1 := with_state (head_enc ev r) EFixed (length (en_head (head_enc ev r)))) in *.
    assert (I : fixed_inv cl en1).
    { unfold fixed_inv, en1. cbn. ands; auto; lia. }
    destruct (fixed_run ev n cl Hn Hsz F e' en1 out I) as (O & k & RO & PO & QO).
    { lia. } { exact HF. } { exact S4. }
    assert (L : left cl en1 = cl) by (unfold left, en1; cbn; lia).
    change (en_src en1) with s in *. rewrite L in *.
    cbn [head_enc en_head en_headread skipn] in S1. fold H in S1.
    assert (EF : full = pre ++ out ++ firstn (N.to_nat cl) (src_data s)).
    { unfold full. rewrite S1. now rewrite <- app_assoc. }
    exists (pre ++ O), k. split; [|split].
    - eapply run_same; [apply (start_same F ev n r)|]. now apply S5.
    - rewrite EF. now apply prefix_app.
    - destruct k; auto. destruct QO as [-> QO]. now rewrite EF.
  Qed.
End FixedSend.

(** ** Chunked *)
Section ChunkedSend.
  Variables (ev : env) (r : response).
  Let s := b_src (r_body r).
  Let n := e_bufcap ev.
  Let H := head_text ev r.
  Hypothesis Hn : (7 <= n)%nat.
  Hypothesis Hn64 : (N.of_nat n < two64)%N.
  Hypothesis Hhex : hexlen_ok ev.
  Hypothesis Hcl : b_len (r_body r) = None.
  Hypothesis Hwf : wf_src s.

  Lemma chunked_send_run F :
    exists O k, run (enc_poll F ev n) (enc_new r) O k /\
      match k with
      | KOk => clean s /\ exists cw, chunks plain_size_line (src_data s) cw /\ O = H ++ cw ++ last_chunk
      | KErr => ~ clean s /\ exists p cw, prefix p (src_data s) /\ chunks plain_size_line p cw /\ prefix O (H ++ cw) /\
          (O = H ++ cw \/ exists q, O = firstn (q * n) H /\ (q * n < length H)%nat)
      | KPanic => at_end s /\ clean s /\ eos_window n (length H) /\ prefix O H
      | KFuel => False
      end.
  Proof.
    destruct (head_run F ev n (length H) ltac:(lia) (head_enc ev r)) as (q & pre & out & e' & S1 & S2 & S3 & S4 & S5).
    { cbn. fold H. lia. } { cbn. apply head_text_pos. } { reflexivity. }
    change (en_cl (head_enc ev r)) with (b_len (r_body r)) in S4. rewrite Hcl in S4. cbv zeta in S4.
    set (en1 := with_state (head_enc ev r) EChunked (length (en_head (head_enc ev r)))) in *.
    assert (I : chunked_inv en1).
    { unfold chunked_inv, en1. cbn. ands; auto. }
    destruct (chunked_run ev F Hn Hn64 Hhex e' en1 out I) as (O & k & RO & QO).
    { fold n. lia. } { exact S4. }
    change (en_src en1) with s in *.
    cbn [head_enc en_head en_headread skipn] in S1. fold H in S1.
    exists (pre ++ O), k. split.
    { eapply run_same; [apply (start_same F ev n r)|]. now apply S5. }
    unfold chunked_end in QO. change (en_src en1) with s in QO.
    destruct k.
    - destruct QO as (cw & Q1 & -> & Q3). split; [assumption|]. exists cw. split; [assumption|].
      rewrite S1. now rewrite <- app_assoc.
    - destruct QO as (Q1 & p & cw & Q2 & Q3 & Q4). split; [assumption|]. exists p, cw. rewrite S1. ands; auto.
      + rewrite <- app_assoc. apply prefix_app. destruct Q4 as [->|[-> ->]]; [apply prefix_refl|apply prefix_nil].
      + destruct Q4 as [->|[-> ->]]; [left; now rewrite app_assoc|right]. exists q. rewrite <- S2, firstn_app, Nat.sub_diag, firstn_all, app_length. cbn [firstn]. split; [reflexivity|]. lia.
    - destruct QO as (-> & Q1 & Q3). ands; auto.
      + destruct Q1 as [Q1 Q2]. split; [rewrite Q1; constructor|exact Q2].
      + unfold eos_window. rewrite S1, app_length, S2, Nat.add_comm, Nat.mod_add by lia.
        fold n in Q3. rewrite Nat.mod_small by lia. lia.
      + rewrite S1, app_nil_r. apply prefix_app_r.
    - destruct QO.
  Qed.

  (** The first read of the body finds its end, and the head leaves 3 or 4 bytes. *)
  Lemma chunked_panics F : at_end s -> eos_window n (length H) -> exists O, prefix O H /\ run (enc_poll F ev n) (enc_new r) O KPanic.
  Proof.
    clear Hn64 Hhex Hwf. intros [EE ET] W.
    destruct (head_run F ev n (length H) ltac:(lia) (head_enc ev r)) as (q & pre & out & e' & S1 & S2 & S3 & S4 & S5).
    { cbn. fold H. lia. } { cbn. apply head_text_pos. } { reflexivity. }
    change (en_cl (head_enc ev r)) with (b_len (r_body r)) in S4. rewrite Hcl in S4. cbv zeta in S4.
    set (en1 := with_state (head_enc ev r) EChunked (length (en_head (head_enc ev r)))) in *.
    cbn [head_enc en_head en_headread skipn] in S1. fold H in S1.
    assert (LO : (n - length out = 3 \/ n - length out = 4)%nat).
    { unfold eos_window in W. rewrite S1, app_length, S2, Nat.add_comm, Nat.mod_add in W by lia.
      destruct (Nat.eq_dec (length out) n) as [E|E]; [rewrite E, Nat.mod_same in W by lia|rewrite Nat.mod_small in W by lia]; lia. }
    assert (PP : exists e1, enc_chunked ev en1 out n = (e1, PPanic)).
    { unfold enc_chunked. change (b_src (r_body (en_resp en1))) with s. change (en_chunked en1) with CStart. cbn [cenc_poll].
      unfold cenc_chunks, src_fill. rewrite EE, ET.
      destruct LO as [-> | ->]; destruct (e_ovf ev); eexists; reflexivity. }
    destruct PP as (e1 & PP). exists pre. split; [rewrite S1; apply prefix_app_r|]. rewrite <- (app_nil_r pre).
    eapply run_same; [apply (start_same F ev n r)|]. apply S5. eapply run_panic. rewrite S4. exact PP.
  Qed.
End ChunkedSend.

(** ** [send] *)
Lemma kres_fuel k a : kres k a = RFuel -> k = KFuel.
Proof. destruct k; cbn; congruence. Qed.

(** A run that does not hang determines [send] for every large enough fuel. *)
Lemma send_of_run ev r F O k :
  run (enc_poll F ev (e_bufcap ev)) (enc_new r) O k -> k <> KFuel -> forall w,
  exists F' w' x p,
    (forall fuel, (F' <= fuel)%nat -> send fuel ev r w = (w', x)) /\ x <> RFuel /\
    prefix p O /\ w_out w' = w_out w ++ p /\
    ((x = kres k (N.of_nat (length O)) /\ p = O) \/ (x = RErr /\ ~ accepting w)).
Proof.
  intros R Hk w. destruct (send_run ev r w F O k R) as (F' & w' & x & p & S1 & S2 & S3 & S4).
  assert (Hx : x <> RFuel).
  { destruct S4 as [[-> _]|[-> _]]; [|discriminate]. intros X. now apply kres_fuel in X. }
  exists F', w', x, p. auto.
Qed.

(** Hanging runs for every fuel: [send] never finishes. *)
Lemma send_hangs ev r F0 w :
  (forall F, (F0 <= F)%nat -> exists O, run (enc_poll F ev (e_bufcap ev)) (enc_new r) O KFuel) ->
  accepting w -> forall fuel, snd (send fuel ev r w) = RFuel.
Proof.
  intros HR HA fuel. destruct (send fuel ev r w) as [w' x] eqn:S.
  destruct (HR (Nat.max F0 fuel) ltac:(lia)) as (O & R).
  destruct (copy_run _ _ _ _ R w 0) as (G & w2 & y & p & H & P & Ho & K).
  assert (y = RFuel) as -> by (destruct K as [[-> _]|[_ K]]; [reflexivity|contradiction]).
  cbn. destruct x; try reflexivity; exfalso; unfold send in S;
  (eapply (copy_go_mono (enc_poll fuel ev (e_bufcap ev)) (enc_poll (Nat.max F0 fuel) ev (e_bufcap ev))) with (f' := Nat.max G fuel) in S;
   [rewrite H in S by lia; discriminate|intros ? ? ? Hq Hn; refine (enc_poll_mono _ _ _ _ _ _ _ _ Hq Hn); lia|lia|discriminate]).
Qed.

Section Main.
  Variables (ev : env) (r : response).
  Let s := b_src (r_body r).
  Hypothesis He : env_wf ev.
  Hypothesis Hr : resp_wf r.
  Hypothesis Hs : wf_src s.

  Theorem fixed_all cl : (1 <= e_bufcap ev)%nat -> b_len (r_body r) = Some cl -> (cl + N.of_nat (e_bufcap ev) < two64)%N ->
    (cl <= N.of_nat (length (src_data s)))%N -> (cl = 0%N -> clean s) ->
    exists head, response_head (e_date ev) r head /\
      forall w, exists F w' x p,
        (forall fuel, (F <= fuel)%nat -> send fuel ev r w = (w', x)) /\
        w_out w' = w_out w ++ p /\ prefix p (head ++ firstn (N.to_nat cl) (src_data s)) /\
        ((x = ROk (N.of_nat (length head) + cl)%N /\ p = head ++ firstn (N.to_nat cl) (src_data s)) \/
         (x = RErr /\ ~ accepting w)).
  Proof.
    intros Hn Hc Hsz Hle Hz. exists (head_text ev r). split; [now apply head_response|]. intros w.
    destruct (fixed_send_run ev r cl Hn Hc Hsz Hs (S (src_size s)) ltac:(unfold s; lia)) as (O & k & R & P & Q).
    fold s in Q.
    assert (k = KOk) as ->.
    { destruct k; auto; exfalso.
      - destruct Q as [Q1 [Q2|Q2]]; [lia|auto].
      - exact Q.
      - destruct Q; lia. }
    destruct Q as [-> Q]. destruct (send_of_run ev r _ _ _ R ltac:(discriminate) w) as (F & w' & x & p & S1 & S2 & S3 & S4 & S5).
    exists F, w', x, p. unfold full in S3, S5. ands; auto.
    destruct S5 as [[-> ->]|S5]; [left|auto]. split; [|reflexivity]. cbn [kres]. f_equal.
    change (b_src (r_body r)) with s. rewrite app_length, firstn_length. lia.
  Qed.

  Lemma chunked_text : (7 <= e_bufcap ev)%nat -> (N.of_nat (e_bufcap ev) < two64)%N -> hexlen_ok ev ->
    b_len (r_body r) = None -> clean s -> ~ (at_end s /\ eos_window (e_bufcap ev) (length (head_text ev r))) ->
    let head := head_text ev r in
    exists cw, chunks plain_size_line (src_data s) cw /\
     forall w, exists F w' x p,
      (forall fuel, (F <= fuel)%nat -> send fuel ev r w = (w', x)) /\
      w_out w' = w_out w ++ p /\ prefix p (head ++ cw ++ last_chunk) /\
      ((x = ROk (N.of_nat (length (head ++ cw ++ last_chunk))) /\ p = head ++ cw ++ last_chunk) \/
       (x = RErr /\ ~ accepting w)).
  Proof.
    intros Hn H64 Hh Hc Hcl Hwin head.
    destruct (chunked_send_run ev r Hn H64 Hh Hc Hs 0) as (O & k & R & Q). fold s in Q.
    destruct k.
    - destruct Q as (_ & cw & Q1 & ->). exists cw. split; [assumption|]. intros w.
      destruct (send_of_run ev r _ _ _ R ltac:(discriminate) w) as (F & w' & x & p & S1 & S2 & S3 & S4 & S5).
      exists F, w', x, p. ands; auto.
    - destruct Q as [Q _]. contradiction.
    - exfalso. apply Hwin. tauto.
    - destruct Q.
  Qed.
  Theorem chunked_all : (7 <= e_bufcap ev)%nat -> (N.of_nat (e_bufcap ev) < two64)%N -> hexlen_ok ev ->
    b_len (r_body r) = None -> clean s ->
    exists head, response_head (e_date ev) r head /\
      (~ (at_end s /\ eos_window (e_bufcap ev) (length head)) ->
       exists cw, chunks plain_size_line (src_data s) cw /\
       forall w, exists F w' x p,
        (forall fuel, (F <= fuel)%nat -> send fuel ev r w = (w', x)) /\
        w_out w' = w_out w ++ p /\ prefix p (head ++ cw ++ last_chunk) /\
        ((x = ROk (N.of_nat (length (head ++ cw ++ last_chunk))) /\ p = head ++ cw ++ last_chunk) \/
         (x = RErr /\ ~ accepting w))).
  Proof.
    intros Hn H64 Hh Hc Hcl. exists (head_text ev r). split; [now apply head_response|]. now apply chunked_text.
  Qed.

  (** Never a panic outside the window. *)
  Theorem no_panic : (7 <= e_bufcap ev)%nat -> hexlen_ok ev ->
    match b_len (r_body r) with
    | Some cl => (cl + N.of_nat (e_bufcap ev) < two64)%N
    | None => (N.of_nat (e_bufcap ev) < two64)%N /\
              ~ (at_end s /\ eos_window (e_bufcap ev) (length (head_text ev r)))
    end -> forall w fuel, snd (send fuel ev r w) <> RPanic.
  Proof.
    intros Hn Hh Hc w fuel X. destruct (send fuel ev r w) as [w' x] eqn:SE. cbn in X. subst x.
    assert (K : exists F O k, (fuel <= F)%nat /\ run (enc_poll F ev (e_bufcap ev)) (enc_new r) O k /\ k <> KPanic).
    { destruct (b_len (r_body r)) as [cl|] eqn:L.
      - destruct (fixed_send_run ev r cl ltac:(lia) L Hc Hs (fuel + S (src_size s)) ltac:(unfold s; lia)) as (O & k & R & P & Q).
        exists (fuel + S (src_size s))%nat, O, k. ands; auto; [lia|]. destruct k; auto; discriminate.
      - destruct Hc as [H64 Hw].
        destruct (chunked_send_run ev r Hn H64 Hh L Hs fuel) as (O & k & R & Q). fold s in Q.
        exists fuel, O, k. ands; auto. destruct k; try discriminate. intros _. apply Hw. tauto. }
    destruct K as (F & O & k & HF & R & Hk).
    destruct (copy_run _ _ _ _ R w 0) as (G & w2 & y & p & H & P & Ho & KK).
    assert (y = RPanic) as ->.
    { unfold send in SE.
      eapply (copy_go_mono (enc_poll fuel ev (e_bufcap ev)) (enc_poll F ev (e_bufcap ev))) with (f' := Nat.max G fuel) in SE;
      [rewrite H in SE by lia; now injection SE|intros ? ? ? Hq Hx; refine (enc_poll_mono _ _ _ _ _ _ _ _ Hq Hx); lia|lia|discriminate]. }
    destruct KK as [[KK _]|[KK _]]; [|discriminate]. destruct k; cbn in KK; congruence.
  Qed.

  (** The hang: fewer bytes than declared. *)
  Theorem short_hangs cl w : (1 <= e_bufcap ev)%nat -> b_len (r_body r) = Some cl -> (cl + N.of_nat (e_bufcap ev) < two64)%N ->
    clean s -> (N.of_nat (length (src_data s)) < cl)%N -> accepting w ->
    forall fuel, snd (send fuel ev r w) = RFuel.
  Proof.
    intros Hn Hc Hsz Hcl Hlt Ha. apply (send_hangs ev r (S (src_size s)) w); [|assumption].
    intros F HF. destruct (fixed_send_run ev r cl Hn Hc Hsz Hs F ltac:(unfold s in *; lia)) as (O & k & R & P & Q). fold s in Q.
    destruct k; [destruct Q; lia|tauto|tauto|eauto].
  Qed.

  (** Termination in every other case. *)
  Theorem terminates w : (7 <= e_bufcap ev)%nat -> (N.of_nat (e_bufcap ev) < two64)%N -> hexlen_ok ev ->
    match b_len (r_body r) with
    | Some cl => (cl + N.of_nat (e_bufcap ev) < two64)%N /\ ((cl <= N.of_nat (length (src_data s)))%N \/ ~ clean s)
    | None => True
    end ->
    exists F w' x, x <> RFuel /\ forall fuel, (F <= fuel)%nat -> send fuel ev r w = (w', x).
  Proof.
    intros Hn H64 Hh Hc.
    assert (K : exists F O k, run (enc_poll F ev (e_bufcap ev)) (enc_new r) O k /\ k <> KFuel).
    { destruct (b_len (r_body r)) as [cl|] eqn:L.
      - destruct Hc as [Hsz Hc].
        destruct (fixed_send_run ev r cl ltac:(lia) L Hsz Hs (S (src_size s)) ltac:(unfold s; lia)) as (O & k & R & P & Q). fold s in Q.
        exists (S (src_size s)), O, k. split; [assumption|]. destruct k; try discriminate. destruct Q. destruct Hc; [lia|tauto].
      - destruct (chunked_send_run ev r Hn H64 Hh L Hs 0) as (O & k & R & Q).
        exists 0%nat, O, k. split; [assumption|]. destruct k; try discriminate. destruct Q. }
    destruct K as (F & O & k & R & Hk).
    destruct (send_of_run ev r _ _ _ R Hk w) as (F' & w' & x & p & S1 & S2 & _). eauto.
  Qed.

  (** Read failure. *)
  Theorem read_failure_fixed cl : (1 <= e_bufcap ev)%nat -> b_len (r_body r) = Some cl ->
    (cl + N.of_nat (e_bufcap ev) < two64)%N ->
    ~ clean s -> (N.of_nat (length (src_data s)) < cl)%N ->
    exists head, response_head (e_date ev) r head /\
    forall w, exists F w' p, (forall fuel, (F <= fuel)%nat -> send fuel ev r w = (w', RErr)) /\
      w_out w' = w_out w ++ p /\ prefix p (head ++ src_data s).
  Proof.
    intros Hn Hc Hsz Hcl Hlt. exists (head_text ev r). split; [now apply head_response|]. intros w.
    destruct (fixed_send_run ev r cl Hn Hc Hsz Hs (S (src_size s)) ltac:(unfold s; lia)) as (O & k & R & P & Q). fold s in Q.
    destruct k; [destruct Q; lia| |tauto|tauto].
    destruct (send_of_run ev r _ _ _ R ltac:(discriminate) w) as (F' & w' & x & p & S1 & S2 & S3 & S4 & S5).
    assert (x = RErr) as -> by (destruct S5 as [[-> _]|[-> _]]; reflexivity).
    exists F', w', p. ands; auto. eapply prefix_trans; [exact S3|]. unfold full in P. fold s in P.
    rewrite firstn_all2 in P by lia. exact P.
  Qed.

  Theorem read_failure_chunked : (7 <= e_bufcap ev)%nat -> (N.of_nat (e_bufcap ev) < two64)%N -> hexlen_ok ev ->
    b_len (r_body r) = None -> ~ clean s ->
    exists head, response_head (e_date ev) r head /\
    exists p0 cw, prefix p0 (src_data s) /\ chunks plain_size_line p0 cw /\
    forall w, exists F w' p, (forall fuel, (F <= fuel)%nat -> send fuel ev r w = (w', RErr)) /\
      w_out w' = w_out w ++ p /\ prefix p (head ++ cw).
  Proof.
    intros Hn H64 Hh Hc Hcl. exists (head_text ev r). split; [now apply head_response|].
    destruct (chunked_send_run ev r Hn H64 Hh Hc Hs 0) as (O & k & R & Q). fold s in Q.
    destruct k; [destruct Q; contradiction| |tauto|tauto].
    destruct Q as (_ & p0 & cw & Q1 & Q2 & Q3 & _). exists p0, cw. ands; auto. intros w.
    destruct (send_of_run ev r _ _ _ R ltac:(discriminate) w) as (F' & w' & x & p & S1 & S2 & S3 & S4 & S5).
    assert (x = RErr) as -> by (destruct S5 as [[-> _]|[-> _]]; reflexivity).
    exists F', w', p. ands; auto. eapply prefix_trans; eauto.
  Qed.

  (** A chunked response whose body fails breaks off between two chunks, or inside a head that
      does not fit the buffer. *)
  Theorem read_failure_between : (7 <= e_bufcap ev)%nat -> (N.of_nat (e_bufcap ev) < two64)%N -> hexlen_ok ev ->
    b_len (r_body r) = None -> ~ clean s ->
    exists head p0 cw, response_head (e_date ev) r head /\ prefix p0 (src_data s) /\ chunks plain_size_line p0 cw /\
    forall w, accepting w -> exists F w', (forall fuel, (F <= fuel)%nat -> send fuel ev r w = (w', RErr)) /\
      (w_out w' = w_out w ++ head ++ cw \/ exists q, w_out w' = w_out w ++ firstn (q * e_bufcap ev) head /\ (q * e_bufcap ev < length head)%nat).
  Proof.
    intros Hn H64 Hh Hc Hcl. exists (head_text ev r).
    destruct (chunked_send_run ev r Hn H64 Hh Hc Hs 0) as (O & k & R & Q). fold s in Q.
    destruct k; [destruct Q; contradiction| |tauto|tauto].
    destruct Q as (_ & p0 & cw & Q1 & Q2 & _ & Q3). exists p0, cw. split; [now apply head_response|]. ands; auto. intros w A.
    destruct (send_of_run ev r _ _ _ R ltac:(discriminate) w) as (F' & w' & x & p & S1 & S2 & S3 & S4 & [[-> ->]|[_ S5]]); [|contradiction].
    exists F', w'. split; [exact S1|]. rewrite S4. destruct Q3 as [->|(q & -> & Q3)]; [auto|right; eauto].
  Qed.

  Theorem empty_panics : (7 <= e_bufcap ev)%nat -> b_len (r_body r) = None -> at_end s -> eos_window (e_bufcap ev) (length (head_text ev r)) ->
    forall w, accepting w -> exists F w' p, (forall fuel, (F <= fuel)%nat -> send fuel ev r w = (w', RPanic)) /\
      w_out w' = w_out w ++ p /\ prefix p (head_text ev r).
  Proof.
    intros Hn Hc HA HW w Ha. destruct (chunked_panics ev r Hn Hc 0 HA HW) as (O & PO & R).
    destruct (send_of_run ev r _ _ _ R ltac:(discriminate) w) as (F & w' & x & p & S1 & S2 & S3 & S4 & [[-> ->]|[_ S5]]); [|contradiction].
    exists F, w', O. auto.
  Qed.
End Main.
