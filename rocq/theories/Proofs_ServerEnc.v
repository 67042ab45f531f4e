(** Runs of the server's response encoder. *)
From Verif Require Import ServerEnc SpecChunked Lemmas Proofs_Copy.
From Verif Require Export SpecEnv.

(** ** Fuel monotonicity *)
Lemma enc_fixed_mono ev n f : forall f' en out en' r,
  (f <= f')%nat -> enc_fixed f ev en out n = (en', r) -> r <> PFuel ->
  enc_fixed f' ev en out n = (en', r).
Proof.
  induction f as [|f IH]; intros f' en out en' r Hf H Hr; cbn [enc_fixed] in H.
  - inversion H; subst; congruence.
  - destruct f' as [|f']; [lia|]. cbn [enc_fixed].
    destruct (length out =? n)%nat; [assumption|].
    destruct (en_cl en) as [cl|]; [|assumption].
    destruct (upper_arith _ _ _ _) as [u|]; [|assumption].
    cbv zeta in *. destruct (_ <? length out)%nat; [assumption|].
    destruct (src_read _ _) as [s' [d|fi| | |]]; try assumption.
    destruct (cl =? _)%N; [assumption|]. eapply IH; eauto. lia.
Qed.

Lemma enc_poll_mono ev n f f' e e' r :
  (f <= f')%nat -> enc_poll f ev n e = (e', r) -> r <> PFuel -> enc_poll f' ev n e = (e', r).
Proof.
  intros Hf H Hr. unfold enc_poll, enc_start, enc_head in *.
  repeat match goal with
  | H : context [match ?x with _ => _ end] |- _ =>
      match type of x with est => destruct x | bool => destruct x | option N => destruct x end
  end; auto; try (eapply enc_fixed_mono; eauto; fail).
  all: cbv zeta in *;
  repeat match goal with
  | H : context [if ?x then _ else _] |- _ => destruct x
  | H : context [match ?x with Some _ => _ | None => _ end] |- _ => destruct x
  end; auto; try (eapply enc_fixed_mono; eauto; fail).
Qed.

Lemma copy_go_mono {E} (p1 p2 : E -> E * pres bytes) :
  (forall e e' r, p1 e = (e', r) -> r <> PFuel -> p2 e = (e', r)) ->
  forall f f' e bb w amt w' r, (f <= f')%nat ->
    copy_go p1 f e bb w amt = (w', r) -> r <> RFuel -> copy_go p2 f' e bb w amt = (w', r).
Proof.
  intros Hp f. induction f as [|f IH]; intros f' e bb w amt w' r Hf H Hr; cbn [copy_go] in H.
  - inversion H; subst; congruence.
  - destruct f' as [|f']; [lia|]. cbn [copy_go].
    destruct bb as [|c bb].
    + destruct (p1 e) as [e1 r1] eqn:P1.
      destruct r1 as [d|fi| | |].
      * rewrite (Hp _ _ _ P1) by discriminate. destruct d; [|eapply IH; eauto; lia].
        destruct (w_flush w) as [w1 [k|fi|]]; auto. eapply IH; eauto; lia.
      * rewrite (Hp _ _ _ P1) by discriminate. eapply IH; eauto; lia.
      * rewrite (Hp _ _ _ P1) by discriminate. assumption.
      * rewrite (Hp _ _ _ P1) by discriminate. assumption.
      * inversion H; subst; congruence.
    + destruct (w_write (c :: bb) w) as [w1 [[|k]|fi|]]; auto; eapply IH; eauto; lia.
Qed.

Lemma send_mono ev r w f f' w' x :
  (f <= f')%nat -> send f ev r w = (w', x) -> x <> RFuel -> send f' ev r w = (w', x).
Proof.
  unfold send. intros Hf H Hx.
  apply (copy_go_mono (enc_poll f ev (e_bufcap ev)) (enc_poll f' ev (e_bufcap ev))) with (f := f); auto.
  intros e e' q Hq Hn. exact (enc_poll_mono _ _ _ _ _ _ _ Hf Hq Hn).
Qed.

(** From a run of the encoder to [send]. *)
Lemma send_run ev r w F O k :
  run (enc_poll F ev (e_bufcap ev)) (enc_new r) O k ->
  exists F' w' x p,
    (forall fuel, (F' <= fuel)%nat -> x <> RFuel -> send fuel ev r w = (w', x)) /\
    prefix p O /\ w_out w' = w_out w ++ p /\
    ((x = kres k (N.of_nat (length O)) /\ p = O) \/ (x = RErr /\ ~ accepting w)).
Proof.
  intros R. destruct (copy_run _ _ _ _ R w 0) as (G & w2 & x & p & H & P & Ho & K).
  exists (Nat.max F G), w2, x, p. split; [|auto].
  intros fuel Hf Hx. unfold send.
  apply (copy_go_mono (enc_poll F ev (e_bufcap ev)) (enc_poll fuel ev (e_bufcap ev))) with (f := Nat.max F G); auto.
  - intros e e' q Hq Hn. refine (enc_poll_mono _ _ _ _ _ _ _ _ Hq Hn). lia.
  - apply H. lia.
Qed.

(** ** Fixed-length bodies *)
Definition en_src (en : enc) : src := b_src (r_body (en_resp en)).
Definition en_with (en : enc) (st : est) (br : N) (s : src) : enc :=
  mkEnc (set_src (en_resp en) s) st (en_head en) (en_headread en) br (en_chunked en).

Lemma src_read_clean_iff n s s' r :
  src_read n s = (s', r) -> (exists d, r = POk d) \/ (exists f, r = PPend f) -> (clean s <-> clean s').
Proof.
  unfold src_read, clean. destruct (s_evs s) as [|[d|f|] l] eqn:E; intros H R; inversion H; subst; cbn [s_evs s_tail].
  - rewrite E. reflexivity.
  - split; intros [C T]; split; auto.
    + inversion C; subst. now apply clean_skip.
    + constructor; [discriminate|]. destruct (skipn n d); [assumption|now inversion C].
  - split; intros [C T]; split; auto.
    + now inversion C.
    + constructor; [discriminate|assumption].
  - destruct R as [[? R]|[? R]]; discriminate.
Qed.

Lemma src_read_err n s s' :
  src_read n s = (s', PErr) -> ~ clean s /\ src_data s = [].
Proof.
  unfold src_read, clean, src_data. destruct (s_evs s) as [|[d|f|] l] eqn:E; intros H; inversion H; subst.
  - split; [|reflexivity]. intros [_ T]. rewrite T in *. discriminate.
  - split; [|reflexivity]. intros [C _]. inversion C; congruence.
Qed.

Lemma upper_arith_ok ovf o cl br :
  (br <= cl)%N -> (o + cl < two64)%N -> upper_arith ovf o cl br = Some (o + cl - br)%N.
Proof.
  intros H1 H2. unfold upper_arith.
  replace (two64 <=? o + cl)%N with false by lia. rewrite andb_false_r.
  rewrite N.mod_small by lia. replace (br <=? o + cl)%N with true by lia. reflexivity.
Qed.

Section Fixed.
  Variables (ev : env) (n : nat) (cl : N).
  Hypothesis Hn : (0 < n)%nat.
  Hypothesis Hcl : (cl + N.of_nat n < two64)%N.

  Definition fixed_inv (en : enc) : Prop :=
    en_state en = EFixed /\ en_cl en = Some cl /\ (en_bodyread en <= cl)%N /\
    ((en_bodyread en < cl)%N \/ cl = 0%N) /\ wf_src (en_src en).

  Definition left (en : enc) : N := (cl - en_bodyread en)%N.

  Lemma fixed_eof_hang f en out :
    en_cl en = Some cl -> (en_bodyread en < cl)%N -> s_evs (en_src en) = [] -> s_tail (en_src en) = Eof ->
    (length out < n)%nat -> snd (enc_fixed f ev en out n) = PFuel.
  Proof.
    revert en out; induction f as [|f IH]; intros en out Hc Hb He Ht Ho; cbn [enc_fixed]; [reflexivity|].
    replace (length out =? n)%nat with false by lia. rewrite Hc.
    rewrite upper_arith_ok by lia. cbv zeta.
    match goal with |- context [(?a <? length out)%nat] => replace (a <? length out)%nat with false by lia end.
    unfold en_src in *. unfold src_read at 1. rewrite He, Ht. cbn [length N.of_nat].
    replace (cl =? en_bodyread en + 0)%N with false by lia.
    apply IH; cbn; auto; try lia. rewrite app_nil_r. lia.
  Qed.

  Lemma fixed_poll f : forall en out,
    fixed_inv en -> (length out <= n)%nat -> (src_size (en_src en) < f)%nat ->
    exists en' r, enc_fixed f ev en out n = (en', r) /\
    match r with
    | POk o => exists d s' st, o = out ++ d /\ src_data (en_src en) = d ++ src_data s' /\
        (N.of_nat (length d) <= left en)%N /\
        en' = en_with en st (en_bodyread en + N.of_nat (length d)) s' /\
        wf_src s' /\ (clean (en_src en) <-> clean s') /\
        (src_size s' <= src_size (en_src en))%nat /\
        (d <> [] -> (src_size s' < src_size (en_src en))%nat) /\
        ((st = EDone /\ (en_bodyread en + N.of_nat (length d) = cl)%N) \/
         (st = EFixed /\ ((en_bodyread en + N.of_nat (length d) < cl)%N \/ cl = 0%N) /\ out ++ d <> []))
    | PPend _ => exists s', out = [] /\ src_data s' = src_data (en_src en) /\
        (src_size s' < src_size (en_src en))%nat /\ en' = en_with en EFixed (en_bodyread en) s' /\
        wf_src s' /\ (clean (en_src en) <-> clean s')
    | PErr => ~ clean (en_src en) /\ ((N.of_nat (length (src_data (en_src en))) < left en)%N \/ cl = 0%N)
    | PFuel => clean (en_src en) /\ (N.of_nat (length (src_data (en_src en))) < left en)%N
    | PPanic => False
    end.
  Proof.
    induction f as [|f IH]; intros en out (Hst & Hc & Hle & Hlt & Hwf) Ho Hf; [lia|].
    assert (Eself : forall br, br = en_bodyread en -> en = en_with en EFixed br (en_src en)).
    { intros br ->. destruct en as [[st0 v0 h0 [l0 s0]] ste hd hr br ce]. cbn in *. now subst. }
    cbn [enc_fixed].
    destruct (length out =? n)%nat eqn:Efull.
    { exists en, (POk out). split; [reflexivity|]. exists [], (en_src en), EFixed.
      cbn [length N.of_nat]. rewrite N.add_0_r, app_nil_r. ands; auto; try lia; try tauto.
      - right. split; [reflexivity|split; [assumption|]]. destruct out; [cbn [length] in *; lia|discriminate]. }
    rewrite Hc, upper_arith_ok by lia. cbv zeta.
    match goal with |- context [(?a <? length out)%nat] => replace (a <? length out)%nat with false by lia end.
    set (upper := N.to_nat (N.min (N.of_nat (length out) + cl - en_bodyread en) (N.of_nat n))).
    fold (en_src en).
    destruct (src_read (upper - length out) (en_src en)) as [s' r] eqn:R.
    pose proof (src_read_wf _ _ _ _ R Hwf) as Hwf'.
    pose proof (src_read_never _ _ _ _ R) as [NP NF].
    destruct r as [d|fi| | |]; try congruence.
    - pose proof (src_read_data _ _ _ _ R) as HD.
      pose proof (src_read_len _ _ _ _ R) as HL.
      pose proof (src_read_clean_iff _ _ _ _ R (or_introl (ex_intro _ d eq_refl))) as HC.
      assert (Hdl : (N.of_nat (length d) <= left en)%N) by (unfold left; lia).
      destruct (cl =? en_bodyread en + N.of_nat (length d))%N eqn:Edone.
      + eexists _, (POk (out ++ d)). split; [reflexivity|]. exists d, s', EDone.
        assert (Hsz : (src_size s' <= src_size (en_src en))%nat /\ (d <> [] -> (src_size s' < src_size (en_src en))%nat)).
        { destruct d as [|d0 d1].
          - split; [|congruence]. destruct (Nat.eq_dec (upper - length out) 0) as [E0|E0].
            + unfold src_read in R. rewrite E0 in R. unfold src_size.
              destruct (s_evs (en_src en)) as [|[x|?|] l] eqn:EE; inversion R; subst; rewrite ?EE; auto.
              cbn [s_evs]. destruct x; cbn; lia.
            + destruct (src_read_nil (upper - length out) _ _ ltac:(lia) Hwf R) as (_ & _ & ->). lia.
          - pose proof (src_read_ok_size _ _ _ _ R ltac:(discriminate)). cbn [length] in *. split; lia. }
        destruct Hsz. unfold en_with. ands; auto; try tauto. left. split; [auto|lia].
      + (* not finished: another round *)
        destruct d as [|d0 d1].
        * (* end of file *)
          assert (E0 : (0 < upper - length out)%nat).
          { cbn in Edone. unfold upper. destruct Hlt; lia. }
          destruct (src_read_nil _ _ _ E0 Hwf R) as (EE & ET & ->).
          rewrite app_nil_r.
          match goal with |- context [enc_fixed f ev ?e out n] => set (en1 := e);
            pose proof (fixed_eof_hang f en1 out) as HH end.
          destruct (enc_fixed f ev en1 out n) as [en2 r2].
          assert (Hr2 : r2 = PFuel).
          { apply HH; subst en1; cbn; auto; cbn in Edone; try lia. }
          subst r2. eexists _, PFuel. split; [reflexivity|].
          split; [split; [rewrite EE; constructor|assumption]|].
          unfold src_data, left. rewrite EE. cbn. cbn in Edone. destruct Hlt; lia.
        * set (d := d0 :: d1) in *.
          assert (Hdne : d <> []) by discriminate.
          assert (Hlenpos : (0 < length d)%nat) by (cbn; lia). clearbody d.
          match goal with |- context [enc_fixed f ev ?e _ n] => set (en1 := e) end.
          assert (I1 : fixed_inv en1).
          { subst en1. unfold fixed_inv, en_src. cbn. unfold left in Hdl. ands; auto; try lia; left; lia. }
          pose proof (src_read_ok_size _ _ _ _ R Hdne) as Hsz.
          destruct (IH en1 (out ++ d) I1) as (en2 & r2 & R2 & Q).
          { rewrite app_length. lia. }
          { subst en1. unfold en_src. cbn. fold (en_src en) in Hf. lia. }
          exists en2, r2. split; [assumption|].
          assert (S1 : en_src en1 = s') by reflexivity.
          assert (B1 : en_bodyread en1 = (en_bodyread en + N.of_nat (length d))%N) by reflexivity.
          assert (L1 : left en1 = (left en - N.of_nat (length d))%N) by (unfold left; rewrite B1; lia).
          rewrite ?S1, ?B1, ?L1 in Q.
          destruct r2 as [o|f2| | |].
          -- destruct Q as (d2 & s2 & st2 & Q1 & Q2 & Q3 & Q4 & Q5 & Q6 & Q7 & Q8 & Q9).
             exists (d ++ d2), s2, st2. rewrite app_length, Nat2N.inj_add, N.add_assoc.
             ands; auto; try lia; try tauto.
             ++ now rewrite Q1, app_assoc.
             ++ now rewrite HD, Q2, app_assoc.
             ++ destruct Q9 as [Q9|(Q9a & Q9b & Q9c)]; [auto|right]. ands; auto. now rewrite app_assoc.
          -- destruct Q as (s2 & Q1 & _). apply app_eq_nil in Q1. destruct Q1; congruence.
          -- destruct Q as (Q1 & Q2). split; [tauto|]. rewrite HD, app_length. destruct Q2 as [Q2|Q2]; [left; lia|auto].
          -- destruct Q.
          -- destruct Q as (Q1 & Q2). split; [tauto|]. rewrite HD, app_length. lia.
    - pose proof (src_read_pend_data _ _ _ _ R) as HD.
      pose proof (src_read_pend_size _ _ _ _ R) as HS.
      pose proof (src_read_clean_iff _ _ _ _ R (or_intror (ex_intro _ fi eq_refl))) as HC.
      destruct out as [|o0 o1].
      + eexists _, (PPend fi). split; [reflexivity|]. exists s'. unfold en_with. rewrite Hst. ands; auto; tauto.
      + eexists _, (POk (o0 :: o1)). split; [reflexivity|]. exists [], s', EFixed.
        cbn [length N.of_nat]. rewrite N.add_0_r, app_nil_r. unfold en_with, left. rewrite Hst, HD.
        ands; auto; try lia; try tauto; try (intros; congruence).
        right. ands; auto. discriminate.
    - destruct (src_read_err _ _ _ R) as [NC ND].
      eexists _, PErr. split; [reflexivity|]. split; [assumption|]. rewrite ND. cbn. unfold left. destruct Hlt; [left; lia|auto].
  Qed.

  Definition fixed_end (en : enc) (out O : bytes) (k : endk) : Prop :=
    prefix O (out ++ firstn (N.to_nat (left en)) (src_data (en_src en))) /\
    match k with
    | KOk => O = out ++ firstn (N.to_nat (left en)) (src_data (en_src en)) /\
             (left en <= N.of_nat (length (src_data (en_src en))))%N
    | KErr => ~ clean (en_src en) /\ ((N.of_nat (length (src_data (en_src en))) < left en)%N \/ cl = 0%N)
    | KFuel => clean (en_src en) /\ (N.of_nat (length (src_data (en_src en))) < left en)%N
    | KPanic => False
    end.

  Lemma en_with_src en st br s : en_src (en_with en st br s) = s.
  Proof. reflexivity. Qed.
  Lemma en_with_cl en st br s : en_cl (en_with en st br s) = en_cl en.
  Proof. reflexivity. Qed.

  Variable F : nat.
  Let poll := enc_poll F ev n.

  Lemma done_fix en : en_state en = EDone -> poll en = (en, POk []).
  Proof. intros H. unfold poll, enc_poll. now rewrite H. Qed.

  (** One step of the run, given runs of what follows. *)
  Lemma fixed_run_step e en out :
    fixed_inv en -> (length out <= n)%nat -> (src_size (en_src en) < F)%nat ->
    poll e = enc_fixed F ev en out n ->
    (forall en', fixed_inv en' -> (src_size (en_src en') <= src_size (en_src en))%nat ->
       (out = [] -> src_size (en_src en') < src_size (en_src en))%nat ->
       exists O k, run poll en' O k /\ fixed_end en' [] O k) ->
    exists O k, run poll e O k /\ fixed_end en out O k.
  Proof.
    intros Hinv Ho Hf Hp IH.
    destruct (fixed_poll F en out Hinv Ho Hf) as (en' & r & R & Q). rewrite R in Hp.
    destruct Hinv as (Hst & Hc & Hle & Hlt & Hwf).
    destruct r as [o|fi| | |].
    - destruct Q as (d & s' & st & -> & QD & QL & -> & QW & QC & QS & QS2 & [[-> QE]|(-> & QE & QN)]).
      + assert (Hfull : d = firstn (N.to_nat (left en)) (src_data (en_src en))).
        { rewrite QD. unfold left in *. rewrite firstn_app_r by lia.
          replace (_ - length d)%nat with 0%nat by lia. cbn. now rewrite app_nil_r. }
        exists (out ++ d), KOk. split.
        * destruct (out ++ d) as [|x l] eqn:EO.
          -- eapply run_done; [exact Hp|]. now apply done_fix.
          -- rewrite <- (app_nil_r (x :: l)). eapply run_out; [exact Hp|discriminate|].
             eapply run_done; apply done_fix; reflexivity.
        * unfold fixed_end. rewrite <- Hfull. split; [apply prefix_refl|]. split; [reflexivity|].
          rewrite QD, app_length. unfold left in *. lia.
      + set (en1 := en_with en EFixed (en_bodyread en + N.of_nat (length d)) s') in *.
        destruct (IH en1) as (O & k & RO & PO & QO).
        { unfold fixed_inv, en1. rewrite en_with_src, en_with_cl. cbn [en_with en_state en_bodyread].
          unfold left in QL. ands; auto; lia. }
        { exact QS. }
        { intros ->. apply QS2. exact QN. }
        assert (L1 : left en1 = (left en - N.of_nat (length d))%N) by (unfold left, en1; cbn; lia).
        assert (HF : out ++ firstn (N.to_nat (left en)) (src_data (en_src en))
                     = (out ++ d) ++ [] ++ firstn (N.to_nat (left en1)) (src_data (en_src en1))).
        { unfold en1 at 2. rewrite en_with_src, QD, L1, firstn_app_r by lia. cbn [app].
          rewrite <- app_assoc. do 3 f_equal. lia. }
        exists ((out ++ d) ++ O), k. split; [eapply run_out; eauto|].
        unfold fixed_end. rewrite HF. split; [now apply prefix_app|].
        destruct k.
        * destruct QO as [-> QO]. split; [reflexivity|]. rewrite L1 in QO. unfold en1 in QO. rewrite en_with_src in QO.
          rewrite QD, app_length. lia.
        * destruct QO as [QO1 QO2]. unfold en1 in *. rewrite en_with_src in *. split; [tauto|].
          rewrite QD, app_length. rewrite L1 in QO2. destruct QO2; [left; lia|auto].
        * destruct QO.
        * destruct QO as [QO1 QO2]. unfold en1 in *. rewrite en_with_src in *. split; [tauto|].
          rewrite QD, app_length. rewrite L1 in QO2. lia.
    - destruct Q as (s' & -> & QD & QS & -> & QW & QC).
      set (en1 := en_with en EFixed (en_bodyread en) s') in *.
      destruct (IH en1) as (O & k & RO & PO & QO).
      { unfold fixed_inv, en1. rewrite en_with_src, en_with_cl. cbn [en_with en_state en_bodyread]. ands; auto. }
      { unfold en1. rewrite en_with_src. lia. }
      { intros _. exact QS. }
      exists O, k. split; [eapply run_pend; eauto|].
      unfold fixed_end in *. unfold en1 in *. rewrite en_with_src, QD in *.
      change (left (en_with en EFixed (en_bodyread en) s')) with (left en) in *.
      split; [assumption|]. destruct k; tauto.
    - exists [], KErr. split; [eapply run_err; eauto|]. split; [apply prefix_nil|assumption].
    - destruct Q.
    - exists [], KFuel. split; [eapply run_fuel; eauto|]. split; [apply prefix_nil|assumption].
  Qed.

  Lemma fixed_run0 m : forall en, (src_size (en_src en) <= m)%nat -> (src_size (en_src en) < F)%nat ->
    fixed_inv en -> exists O k, run poll en O k /\ fixed_end en [] O k.
  Proof.
    induction m as [|m IH]; intros en Hm Hf Hinv;
      (apply (fixed_run_step en en []); [exact Hinv|cbn; lia|exact Hf| |]).
    - unfold poll, enc_poll. destruct Hinv as (-> & _). reflexivity.
    - intros en' Hi Hs Hs2. specialize (Hs2 eq_refl). lia.
    - unfold poll, enc_poll. destruct Hinv as (-> & _). reflexivity.
    - intros en' Hi Hs Hs2. specialize (Hs2 eq_refl). apply IH; auto; lia.
  Qed.

  Lemma fixed_run e en out :
    fixed_inv en -> (length out <= n)%nat -> (src_size (en_src en) < F)%nat ->
    poll e = enc_fixed F ev en out n ->
    exists O k, run poll e O k /\ fixed_end en out O k.
  Proof.
    intros Hinv Ho Hf Hp. eapply fixed_run_step; eauto.
    intros en' Hi Hs _. eapply fixed_run0; eauto. lia.
  Qed.
End Fixed.

(** ** Chunked bodies *)
Lemma hexdig_digitc d : (d < 16)%N -> hexdig (digitc d) (N.to_nat d).
Proof.
  intros H. left.
  assert (K : forallb (fun d => match nth_error (B "0123456789ABCDEF") (N.to_nat d) with
                                | Some c => Ascii.eqb c (digitc d) | None => false end)
                      (map N.of_nat (seq 0 16)) = true) by reflexivity.
  rewrite forallb_forall in K.
  assert (I : In d (map N.of_nat (seq 0 16))).
  { apply in_map_iff. exists (N.to_nat d). split; [lia|]. apply in_seq. lia. }
  specialize (K d I). destruct (nth_error _ _) as [c|]; [|discriminate].
  apply Ascii.eqb_eq in K. now subst.
Qed.

Lemma digits_hexnum l : l <> [] -> Forall (fun c => exists d, (d < 16)%N /\ c = digitc d) l ->
  hexnum l (base_val digit_num 16 l).
Proof.
  intros Hne HF. induction l as [|c l IH] using rev_ind; [congruence|].
  apply Forall_app in HF. destruct HF as [HF1 HF2]. inversion HF2 as [|x y (d & Hd & ->) _]; subst.
  destruct l as [|c0 l0].
  - cbn [app]. unfold base_val. cbn [fold_left]. rewrite digit_num_digitc by lia.
    replace (0 * 16 + d)%N with (N.of_nat (N.to_nat d)) by lia. apply hex_one. now apply hexdig_digitc.
  - rewrite base_val_snoc, digit_num_digitc by lia.
    replace d with (N.of_nat (N.to_nat d)) at 2 by lia.
    apply hex_snoc; [|now apply hexdig_digitc]. apply IH; [discriminate|assumption].
Qed.

Lemma to_hex_hexnum m : hexnum (to_hex m) m.
Proof.
  rewrite <- (to_hex_val m) at 2. apply digits_hexnum; [apply to_hex_nonempty|apply to_hex_digits].
Qed.

Lemma to_hex_len m : (m < two64)%N -> (length (to_hex m) <= 16)%nat.
Proof.
  intros H. destruct (N.eq_dec m 0) as [->|Hm]; [cbn; lia|].
  pose proof (to_base_len_lo 16 ltac:(lia) ltac:(lia) (N.size_nat m) m ltac:(lia) (size_nat_lt m)) as L.
  fold (to_hex m) in L.
  destruct (Nat.le_gt_cases (length (to_hex m)) 16) as [|G]; [assumption|exfalso].
  assert (16 ^ 16 <= 16 ^ N.of_nat (pred (length (to_hex m))))%N by (apply N.pow_le_mono_r; lia).
  change (16 ^ 16)%N with two64 in H0. lia.
Qed.

Lemma to_hex_short n : (7 <= n)%nat -> (N.of_nat n < two64)%N -> (S (length (to_hex (N.of_nat n))) + 4 < n)%nat.
Proof.
  intros H H2. destruct (Nat.le_gt_cases n 15) as [L|G].
  { assert (length (to_hex (N.of_nat n)) <= length (to_hex 15))%nat by (apply to_hex_mono; lia).
    change (length (to_hex 15)) with 1%nat in H0. lia. }
  destruct (Nat.le_gt_cases n 255) as [L|G2].
  { assert (length (to_hex (N.of_nat n)) <= length (to_hex 255))%nat by (apply to_hex_mono; lia).
    change (length (to_hex 255)) with 2%nat in H0. lia. }
  pose proof (to_hex_len (N.of_nat n) H2). lia.
Qed.

Definition cen_with (en : enc) (st : est) (c : cest) (s : src) : enc :=
  mkEnc (set_src (en_resp en) s) st (en_head en) (en_headread en) (en_bodyread en) c.

Section Chunked.
  Variables (ev : env) (F : nat).
  Let n := e_bufcap ev.
  Hypothesis Hn : (7 <= n)%nat.
  Hypothesis Hn64 : (N.of_nat n < two64)%N.
  Hypothesis Hhex : hexlen_ok ev.
  Let poll := enc_poll F ev n.

  Definition chunked_inv (en : enc) : Prop :=
    en_state en = EChunked /\ (en_chunked en = CStart \/ en_chunked en = CChunks) /\ wf_src (en_src en).

  Definition chunked_end (en : enc) (out O : bytes) (k : endk) : Prop :=
    match k with
    | KOk => exists cw, chunks plain_size_line (src_data (en_src en)) cw /\
                        O = out ++ cw ++ last_chunk /\ clean (en_src en)
    | KErr => ~ clean (en_src en) /\
              exists p cw, prefix p (src_data (en_src en)) /\ chunks plain_size_line p cw /\ (O = out ++ cw \/ O = [] /\ cw = [])
    | KPanic => O = [] /\ at_end (en_src en) /\ (n - length out = 3 \/ n - length out = 4)%nat
    | KFuel => False
    end.

  Lemma finish_run e e' (O : bytes) :
    O <> [] -> poll e = (e', POk O) -> en_state e' = EChunked -> en_chunked e' = CEnd ->
    run poll e O KOk.
  Proof.
    intros HO Hp Hs Hc. rewrite <- (app_nil_r O). eapply run_out; [exact Hp|assumption|].
    eapply run_done.
    - unfold poll, enc_poll, enc_chunked. rewrite Hs, Hc. cbn. reflexivity.
    - reflexivity.
  Qed.

  Lemma cset_ok dbg a b c : cset dbg a b = Some c -> c = b.
  Proof. unfold cset. destruct (dbg && _); [discriminate|]. now intros [= <-]. Qed.

  Lemma cenc_eos_room dbg w0 k : (length w0 + 2 <= k)%nat -> cenc_eos dbg CEndOfStream w0 k = (CEnd, POk (w0 ++ CRLF)).
  Proof.
    intros H. unfold cenc_eos. replace (length w0 + 2 <=? k)%nat with true by lia.
    destruct dbg; reflexivity.
  Qed.

  Lemma chunks_eos_room dbg k : (5 <= k)%nat -> cenc_chunks_eos dbg CEndOfChunks k = (CEnd, POk last_chunk).
  Proof.
    intros H. unfold cenc_chunks_eos. replace (k <? 3)%nat with false by lia.
    assert (E1 : cset dbg CEndOfChunks CReceive = Some CReceive) by (destruct dbg; reflexivity).
    assert (E2 : cset dbg CReceive CTrailers = Some CTrailers) by (destruct dbg; reflexivity).
    assert (E3 : cset dbg CTrailers CEndOfStream = Some CEndOfStream) by (destruct dbg; reflexivity).
    rewrite E1. unfold cenc_receive. rewrite E2. unfold cenc_trailers. rewrite E3.
    rewrite cenc_eos_room by (cbn; lia). reflexivity.
  Qed.

  (** Outcome of one poll of the chunk encoder with [k] bytes of room, [k <= n]. *)
  Lemma cenc_step c s k :
    (c = CStart \/ c = CChunks) -> wf_src s -> (k <= n)%nat ->
    exists c' s' r, cenc_poll ev (e_ovf ev) c s k = (c', s', r) /\ wf_src s' /\
    match r with
    | POk [] => (c' = CChunks /\ s' = s /\ (k < n)%nat) \/
                (c' = CEndOfChunks /\ s' = s /\ s_evs s = [] /\ s_tail s = Eof /\ (k < 3)%nat)
    | POk w => (c' = CEnd /\ w = last_chunk /\ s_evs s = [] /\ s_tail s = Eof) \/
               (c' = CChunks /\ exists d sl, d <> [] /\ plain_size_line (N.of_nat (length d)) sl /\
                  w = sl ++ d ++ CRLF /\ src_data s = d ++ src_data s' /\
                  (src_size s' < src_size s)%nat /\ (clean s <-> clean s'))
    | PPend _ => c' = CChunks /\ src_data s' = src_data s /\ (src_size s' < src_size s)%nat /\ (clean s <-> clean s')
    | PErr => ~ clean s /\ src_data s = []
    | PPanic => s_evs s = [] /\ s_tail s = Eof /\ (k = 3 \/ k = 4)%nat
    | PFuel => False
    end.
  Proof.
    intros Hc Hw Hk.
    assert (E : exists c0, c0 = CChunks /\ cenc_poll ev (e_ovf ev) c s k = cenc_chunks ev (e_ovf ev) c0 s k).
    { exists CChunks. split; [reflexivity|]. destruct Hc as [-> | ->]; cbn; [|reflexivity].
      destruct (e_ovf ev); reflexivity. }
    destruct E as (c0 & -> & ->). unfold cenc_chunks.
    destruct (src_fill s) as [s1 r] eqn:R.
    unfold src_fill in R. destruct (s_evs s) as [|[d|fi|] l] eqn:EE.
    - destruct (s_tail s) eqn:ET; inversion R; subst s1 r; clear R.
      + assert (E1 : cset (e_ovf ev) CChunks CEndOfChunks = Some CEndOfChunks) by (destruct (e_ovf ev); reflexivity).
        rewrite E1.
        destruct (Nat.lt_ge_cases k 3) as [L|G].
        * unfold cenc_chunks_eos. replace (k <? 3)%nat with true by lia.
          eexists _, _, _. split; [reflexivity|]. split; [assumption|]. right. auto.
        * destruct (Nat.lt_ge_cases k 5) as [L|G5].
          -- assert (P : snd (cenc_chunks_eos (e_ovf ev) CEndOfChunks k) = PPanic).
             { assert (K : k = 3%nat \/ k = 4%nat) by lia. destruct K as [-> | ->]; destruct (e_ovf ev); reflexivity. }
             destruct (cenc_chunks_eos (e_ovf ev) CEndOfChunks k) as [c2 r2]. cbn in P. subst r2.
             eexists _, _, _. split; [reflexivity|]. split; [assumption|]. ands; auto. lia.
          -- rewrite chunks_eos_room by lia. eexists _, _, _. split; [reflexivity|]. split; [assumption|]. cbn. left. auto.
      + eexists _, _, _. split; [reflexivity|]. split; [assumption|].
        split; [intros [_ T]; congruence|]. unfold src_data. now rewrite EE.
    - inversion R; subst s1 r; clear R.
      assert (Hd : d <> []) by (unfold wf_src in Hw; rewrite EE in Hw; inversion Hw; subst; intros ->; now unfold wf_ev in *).
      destruct d as [|d0 d1]; [congruence|]. set (d := d0 :: d1) in *.
      cbv zeta. set (msg0 := Nat.min (length d) k). set (fr := (e_hexlen ev msg0 + 4)%nat).
      destruct (k <=? fr)%nat eqn:Efr.
      + eexists _, _, _. split; [reflexivity|]. split; [assumption|]. left. ands; auto.
        destruct (Nat.lt_ge_cases k n) as [|Hge]; [assumption|exfalso].
        assert (k = n) by lia. subst k.
        assert (Hm : (1 <= msg0 <= e_bufcap ev)%nat) by (unfold msg0; fold n; cbn [d length]; lia).
        pose proof (Hhex msg0 Hm) as [_ HU].
        assert (length (to_hex (N.of_nat msg0)) <= length (to_hex (N.of_nat n)))%nat by (apply to_hex_mono; unfold msg0; lia).
        pose proof (to_hex_short n Hn Hn64). unfold fr in *. lia.
      + set (msg := Nat.min msg0 (k - fr)).
        assert (Hk5 : (5 <= k)%nat) by (unfold fr in *; lia).
        assert (Hm0 : (1 <= msg0 <= e_bufcap ev)%nat) by (unfold msg0; fold n; cbn [d length]; lia).
        assert (Hmsg : (1 <= msg <= length d)%nat) by (unfold msg, msg0 in *; lia).
        pose proof (Hhex msg0 Hm0) as [HL _].
        assert (HM : (length (to_hex (N.of_nat msg)) <= length (to_hex (N.of_nat msg0)))%nat) by (apply to_hex_mono; unfold msg; lia).
        assert (Hfl : length (firstn msg d) = msg) by (rewrite firstn_length; lia).
        match goal with |- context [(length ?W <=? k)%nat] => assert (HW : (length W <=? k)%nat = true) end.
        { rewrite !app_length, Hfl. cbn [CRLF length]. unfold fr, msg in *. lia. }
        rewrite HW.
        eexists _, _, _. split; [reflexivity|]. split; [now apply src_consume_wf|].
        match goal with |- match ?W with [] => _ | _ => _ end => destruct W as [|w0 w1] eqn:EW end.
        { exfalso. apply app_eq_nil in EW. destruct EW. now apply (to_hex_nonempty (N.of_nat msg)). }
        rewrite <- EW. right. split; [reflexivity|].
        exists (firstn msg d), (to_hex (N.of_nat msg) ++ CRLF). ands.
        * intros X. rewrite X in Hfl. cbn [length] in Hfl. lia.
        * exists (to_hex (N.of_nat msg)). rewrite Hfl. ands; [apply to_hex_hexnum|apply to_hex_len; lia|reflexivity].
        * now rewrite <- !app_assoc.
        * eapply src_consume_data; eauto.
        * eapply src_consume_size; eauto. lia.
        * split; [apply src_consume_clean|]. unfold clean, src_consume. rewrite EE. cbn [s_evs s_tail]. intros [C T]. split; [|assumption].
          constructor; [discriminate|]. destruct (skipn msg d); [assumption|now inversion C].
    - inversion R; subst s1 r; clear R. eexists _, _, _. split; [reflexivity|].
      assert (Hw' : wf_src (mkSrc l (s_tail s))) by (unfold wf_src in *; rewrite EE in Hw; now inversion Hw).
      split; [assumption|]. unfold src_data, src_size, clean, clean_evs. rewrite EE. cbn [s_evs s_tail evs_size evs_data].
      ands; auto; try lia. split; intros [C T]; (split; [|exact T]).
      + now inversion C.
      + constructor; [discriminate|assumption].
    - inversion R; subst s1 r; clear R. eexists _, _, _. split; [reflexivity|].
      assert (Hw' : wf_src (mkSrc l (s_tail s))) by (unfold wf_src in *; rewrite EE in Hw; now inversion Hw).
      split; [assumption|]. unfold src_data, clean. rewrite EE. split; [|reflexivity].
      intros [C _]. inversion C; congruence.
  Qed.

  Lemma chunked_run_step e en out :
    chunked_inv en -> (length out <= n)%nat ->
    poll e = enc_chunked ev en out n ->
    (forall en', chunked_inv en' -> (src_size (en_src en') <= src_size (en_src en))%nat ->
       (out = [] -> src_size (en_src en') < src_size (en_src en))%nat ->
       exists O k, run poll en' O k /\ chunked_end en' [] O k) ->
    exists O k, run poll e O k /\ chunked_end en out O k.
  Proof.
    intros (Hst & Hc & Hwf) Ho Hp IH. unfold enc_chunked in Hp.
    destruct (cenc_step (en_chunked en) (en_src en) (n - length out) Hc Hwf ltac:(lia)) as (c' & s' & r & R & Hw' & Q).
    change (b_src (r_body (en_resp en))) with (en_src en) in Hp. rewrite R in Hp.
    assert (NoPanic : forall en' k O, en_src en' = s' -> src_size (en_src en') = src_size (en_src en') -> k = KPanic -> chunked_end en' [] O k -> False).
    { intros en' k O _ _ -> (_ & _ & H). cbn [length] in H. lia. }
    destruct r as [[|w0 w1]|fi| | |].
    - rewrite app_nil_r in Hp.
      destruct Q as [(-> & -> & Hk)|(-> & -> & EE & ET & Hk)].
      + assert (Hout : out <> []) by (intros ->; cbn in Hk; lia).
        destruct out as [|o0 o1]; [congruence|]. set (out := o0 :: o1) in *.
        cbv zeta in Hp. rewrite Hst in Hp.
        match type of Hp with _ = (?e1, _) => set (en1 := e1) in * end.
        destruct (IH en1) as (O & k & RO & QO).
        { unfold chunked_inv, en1. cbn. auto. }
        { unfold en1. cbn. lia. }
        { discriminate. }
        exists (out ++ O), k. split; [eapply run_out; eauto|].
        destruct k.
        * destruct QO as (cw & Q1 & -> & Q3). exists cw. auto.
        * destruct QO as (Q1 & p & cw & Q2 & Q3 & Q4). split; [exact Q1|]. exists p, cw. split; [exact Q2|]. split; [exact Q3|].
          left. destruct Q4 as [->|[-> ->]]; reflexivity.
        * exfalso. eapply NoPanic; eauto.
        * destruct QO.
      + assert (Hout : out <> []) by (intros ->; cbn in Hk; lia).
        destruct out as [|o0 o1]; [congruence|]. set (out := o0 :: o1) in *.
        cbv zeta in Hp. rewrite Hst in Hp.
        match type of Hp with _ = (?e1, _) => set (en1 := e1) in * end.
        exists (out ++ last_chunk), KOk. split.
        * eapply run_out; eauto. eapply finish_run.
          -- discriminate.
          -- unfold poll, enc_poll, en1. cbn [en_state]. unfold enc_chunked. cbn [en_chunked length cenc_poll].
             rewrite Nat.sub_0_r. rewrite chunks_eos_room by lia. reflexivity.
          -- reflexivity.
          -- reflexivity.
        * exists []. unfold src_data. rewrite EE. split; [constructor|]. split; [reflexivity|]. split; [rewrite EE; constructor|assumption].
    - set (w := w0 :: w1) in *.
      assert (HpE : exists en1, poll e = (en1, POk (out ++ w)) /\ en1 = cen_with en EChunked c' s').
      { eexists. split; [exact Hp|]. unfold cen_with. now rewrite Hst. }
      clear Hp. destruct HpE as (en1 & Hp & E1).
      assert (HNE : out ++ w <> []) by (destruct out; discriminate).
      destruct Q as [(-> & Hw & EE & ET)|(-> & d & sl & Hd & Hsl & Hw & HD & HS & HC)].
      + exists (out ++ last_chunk), KOk. rewrite Hw in *. split.
        * eapply finish_run; eauto; now rewrite E1.
        * exists []. unfold src_data. rewrite EE. split; [constructor|]. split; [reflexivity|]. split; [rewrite EE; constructor|assumption].
      + destruct (IH en1) as (O & k & RO & QO).
        { rewrite E1. unfold chunked_inv. cbn. auto. }
        { rewrite E1. cbn. lia. }
        { intros _. rewrite E1. cbn. lia. }
        exists ((out ++ w) ++ O), k. split; [eapply run_out; eauto|].
        assert (S1 : en_src en1 = s') by (rewrite E1; reflexivity).
        destruct k.
        * destruct QO as (cw & Q1 & -> & Q3). rewrite S1 in *.
          exists (sl ++ d ++ CRLF ++ cw). rewrite HD, Hw. split; [now constructor|].
          split; [|tauto]. cbn [app]. now rewrite <- !app_assoc.
        * destruct QO as (Q1 & p & cw & Q2 & Q3 & Q4). rewrite S1 in *. split; [tauto|].
          exists (d ++ p), (sl ++ d ++ CRLF ++ cw). rewrite HD. split; [now apply prefix_app|]. split; [now constructor|].
          left. rewrite Hw, <- !app_assoc. destruct Q4 as [->|[-> ->]]; reflexivity.
        * exfalso. eapply NoPanic; eauto.
        * destruct QO.
    - destruct Q as (-> & HD & HS & HC). cbv zeta in Hp.
      destruct out as [|o0 o1].
      + rewrite Hst in Hp.
        match type of Hp with _ = (?e1, _) => set (en1 := e1) in * end.
        destruct (IH en1) as (O & k & RO & QO).
        { unfold chunked_inv, en1. cbn. auto. }
        { unfold en1. cbn. lia. }
        { intros _. exact HS. }
        exists O, k. split; [eapply run_pend; eauto|].
        assert (S1 : en_src en1 = s') by reflexivity.
        destruct k.
        * destruct QO as (cw & Q1 & -> & Q3). rewrite S1, HD in *. exists cw. split; [assumption|]. tauto.
        * destruct QO as (Q1 & p & cw & Q2 & Q3 & Q4). rewrite S1, HD in *. split; [tauto|]. exists p, cw. auto.
        * exfalso. eapply NoPanic; eauto.
        * destruct QO.
      + rewrite Hst in Hp. set (out := o0 :: o1) in *.
        match type of Hp with _ = (?e1, _) => set (en1 := e1) in * end.
        destruct (IH en1) as (O & k & RO & QO).
        { unfold chunked_inv, en1. cbn. auto. }
        { unfold en1. cbn. lia. }
        { intros _. exact HS. }
        exists (out ++ O), k. split; [eapply run_out; eauto; discriminate|].
        assert (S1 : en_src en1 = s') by reflexivity.
        destruct k.
        * destruct QO as (cw & Q1 & -> & Q3). rewrite S1, HD in *. exists cw. split; [assumption|]. tauto.
        * destruct QO as (Q1 & p & cw & Q2 & Q3 & Q4). rewrite S1, HD in *. split; [tauto|]. exists p, cw. split; [assumption|].
          split; [assumption|]. left. destruct Q4 as [->|[-> ->]]; reflexivity.
        * exfalso. eapply NoPanic; eauto.
        * destruct QO.
    - destruct Q as (Q1 & Q2). exists [], KErr. split; [eapply run_err; eauto|]. split; [assumption|].
      exists [], []. split; [apply prefix_nil|]. split; [constructor|auto].
    - destruct Q as (EE & ET & Hk). exists [], KPanic. split; [eapply run_panic; eauto|].
      unfold chunked_end, at_end. rewrite EE. ands; auto.
    - destruct Q.
  Qed.

  Lemma chunked_run0 m : forall en, (src_size (en_src en) <= m)%nat -> chunked_inv en ->
    exists O k, run poll en O k /\ chunked_end en [] O k.
  Proof.
    induction m as [|m IH]; intros en Hm Hinv; (eapply chunked_run_step; [exact Hinv|cbn; lia| |]).
    - unfold poll, enc_poll. destruct Hinv as (-> & _). reflexivity.
    - intros en' Hi Hs Hs2. specialize (Hs2 eq_refl). lia.
    - unfold poll, enc_poll. destruct Hinv as (-> & _). reflexivity.
    - intros en' Hi Hs Hs2. specialize (Hs2 eq_refl). apply IH; auto; lia.
  Qed.

  Lemma chunked_run e en out :
    chunked_inv en -> (length out <= n)%nat -> poll e = enc_chunked ev en out n ->
    exists O k, run poll e O k /\ chunked_end en out O k.
  Proof.
    intros Hinv Ho Hp. eapply chunked_run_step; eauto.
    intros en' Hi Hs _. eapply chunked_run0; eauto.
  Qed.
End Chunked.
