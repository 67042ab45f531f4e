(** Sequences of reads from the chunked decoder. *)
From Verif Require Import ChunkedDec Reads SpecChunked SpecHead Lemmas Proofs_Parse Proofs_Buf Proofs_Dec Proofs_DecMsg Proofs_Map.

Definition ok_dec (d : dec) : Prop := np d (d_blk d) /\ ch_ok d.

Lemma read_ok ev n d d' r : grow_ok ev -> ok_dec d -> (0 < n)%nat -> dec_read ev n d = (d', r) ->
  match r with
  | POk out => ok_dec d' /\ (length out <= n)%nat /\ (tot d' (d_blk d') + length out <= tot d (d_blk d))%nat
  | PPend _ => ok_dec d' /\ (tot d' (d_blk d') < tot d (d_blk d))%nat
  | PErr => True
  | PPanic | PFuel => False
  end.
Proof.
  intros G [HN HC] Hn H. unfold dec_read in H.
  pose proof (poll_np ev n d (dec_fuel d) G HN) as P1. pose proof (poll_tot ev n d (dec_fuel d) HC) as P2.
  destruct (poll_mu ev n d Hn (proj1 (proj2 HN))) as (_ & P3 & _). unfold dec_read in P3.
  rewrite H in *. cbn [fst snd] in *. unfold ret_np, ret_tot in *. unfold ok_dec.
  destruct r; intuition.
Qed.

(** Reading to the end terminates. *)
Lemma reads_end ev : grow_ok ev -> forall ns d d' out k, ok_dec d -> Forall (fun n => 0 < n)%nat ns ->
  reads (dec_read ev) ns d = (d', out, k) ->
  k <> Panicked /\ k <> Hung /\ (length out <= tot d (d_blk d))%nat /\
  (k = Going -> ok_dec d' /\ (length ns <= tot d (d_blk d))%nat).
Proof.
  intros G. induction ns as [|n ns IH]; intros d d' out k HO HF H; cbn [reads] in H.
  - inversion H; subst. repeat split; try discriminate; try (cbn; lia); apply HO.
  - inversion HF; subst. destruct (dec_read ev n d) as [d1 r] eqn:E.
    pose proof (read_ok _ _ _ _ _ G HO H2 E) as P.
    destruct r as [x|f| | |]; try contradiction.
    + destruct P as (P1 & P2 & P3). destruct x as [|c x].
      * inversion H; subst. repeat split; try discriminate. cbn. lia.
      * destruct (reads (dec_read ev) ns d1) as [[d2 o2] k2] eqn:E2. inversion H; subst; clear H.
        destruct (IH _ _ _ _ P1 H3 E2) as (Q1 & Q2 & Q3 & Q4). cbn [length app] in *; rewrite ?app_length.
        split; [exact Q1|]. split; [exact Q2|]. split; [lia|]. intros K. destruct (Q4 K). split; [assumption|lia].
    + destruct P as (P1 & P2). destruct (IH _ _ _ _ P1 H3 H) as (Q1 & Q2 & Q3 & Q4).
      split; [exact Q1|]. split; [exact Q2|]. split; [lia|]. intros K. destruct (Q4 K). split; [assumption|cbn; lia].
    + inversion H; subst. repeat split; try discriminate. cbn. lia.
Qed.

(** Nothing changes after the end. *)
Lemma done_reads ev : grow_ok ev -> forall ns d d' out k, d_st d = DDone -> np d (d_blk d) ->
  reads_on (dec_read ev) ns d = (d', out, k) -> out = [] /\ d_chan d' = d_chan d.
Proof.
  intros G. induction ns as [|n ns IH]; intros d d' out k HD HN H; cbn [reads_on] in H; [inversion H; auto|].
  destruct (dec_read ev n d) as [d1 r] eqn:E. unfold dec_read in E.
  pose proof (done_poll _ _ _ _ _ _ HD HN E) as P. pose proof (poll_np ev n d (dec_fuel d) G HN) as PN.
  rewrite E in PN. cbn [fst snd] in PN. destruct r as [x|f| | |]; cbn [ret_np] in PN; try contradiction.
  - destruct P as (-> & P1 & P2). destruct (reads_on (dec_read ev) ns d1) as [[d2 o2] k2] eqn:E2. inversion H; subst; clear H.
    rewrite <- P2. eapply (IH d1); [exact P1|apply PN|exact E2].
  - destruct P as (P1 & P2). rewrite <- P2. eapply IH; eauto.
  - destruct P as (P1 & P2). inversion H; subst. auto.
  - destruct P as (P1 & P2). inversion H; subst. auto.
Qed.

(** Any input: no panic before the first error, no endless poll at all. *)
Lemma any_no_panic ev : grow_ok ev -> forall ns d d' out k, np d (d_blk d) ->
  reads_on (dec_read ev) ns d = (d', out, k) -> k <> Panicked.
Proof.
  intros G. induction ns as [|n ns IH]; intros d d' out k HN H; cbn [reads_on] in H; [inversion H; discriminate|].
  destruct (dec_read ev n d) as [d1 r] eqn:E. unfold dec_read in E.
  pose proof (poll_np ev n d (dec_fuel d) G HN) as PN. rewrite E in PN. cbn [fst snd] in PN.
  destruct r as [x|f| | |]; cbn [ret_np] in PN; try contradiction; try (inversion H; discriminate).
  - destruct (reads_on (dec_read ev) ns d1) as [[d2 o2] k2] eqn:E2. inversion H; subst; clear H. eapply (IH d1); [apply PN|exact E2].
  - eapply IH; eauto.
Qed.

Lemma any_progress ev : forall ns d d' out k, st_ok (d_st d) -> Forall (fun n => 0 < n)%nat ns ->
  reads_through (dec_read ev) ns d = (d', out, k) -> k <> Hung.
Proof.
  induction ns as [|n ns IH]; intros d d' out k HN HF H; cbn [reads_through] in H; [inversion H; discriminate|].
  inversion HF; subst. destruct (poll_mu ev n d H2 HN) as (P1 & P2 & _).
  destruct (dec_read ev n d) as [d1 r] eqn:E. cbn [fst snd] in *.
  destruct r as [x|f| | |]; try congruence; try (inversion H; discriminate); try (now eapply IH; eauto).
  destruct (reads_through (dec_read ev) ns d1) as [[d2 o2] k2] eqn:E2. inversion H; subst; clear H. eapply IH; eauto.
Qed.

Section Msg.
Variable ev : env.
Variable tr : list (bytes * bytes).
Variable h : hmap.
Variable extra : bytes.
Hypothesis Htr : (length tr <= 16)%nat.
Hypothesis Hh : append_trailers tr [] = Some h.
Hypothesis Hgrow : grow_ok ev.

Variable e : ekind.
Hypothesis Hcut : e = ECut -> extra = [].

(** A message that fits is delivered completely. *)
Lemma reads_fit : forall ns d p d' out k,
  St ev tr h extra true e d p -> d_st d <> DDone -> Forall (fun n => 0 < n)%nat ns ->
  reads (dec_read ev) ns d = (d', out, k) ->
  match k with
  | Going => exists p', p = out ++ p' /\ d_chan d' = []
  | Ended => out = p /\ match e with EOk => d_chan d' = [h] /\ k_data (d_blk d') ++ br_data (d_in d') = extra | ECut => d_chan d' = [] | EBad => False end /\
             d_st d' = DDone /\ np d' (d_blk d')
  | Failed => out = p /\ e = EBad
  | _ => False
  end.
Proof.
  induction ns as [|n ns IH]; intros d p d' out k HS ND HF H; cbn [reads] in H.
  - inversion H; subst. exists p. split; [reflexivity|]. destruct HS as ((_ & _ & HC & _) & _). now apply HC.
  - inversion HF; subst. destruct (dec_read ev n d) as [d1 r] eqn:E.
    pose proof (poll_R ev tr h extra Htr Hh Hgrow true e Hcut n d (dec_fuel d) p (fun _ => H2) HS ND) as P.
    assert (NF : r <> PFuel).
    { destruct HS as ((_ & (_ & HO & _) & _) & _). destruct (poll_mu ev n d H2 HO) as (_ & Q & _). now rewrite E in Q. }
    unfold dec_read in E. rewrite E in P. cbn [fst snd] in P.
    destruct r as [x|f| | |]; cbn [ret_R] in P; try contradiction; try discriminate.
    + destruct P as (p' & -> & P1 & P2 & P3). destruct x as [|c x].
      * inversion H; subst. specialize (P2 eq_refl). destruct P1 as ((P1 & PN & _) & _). unfold Rst in P1. rewrite P2 in P1.
        destruct (P1 eq_refl) as [-> Q]. auto.
      * destruct (reads (dec_read ev) ns d1) as [[d2 o2] k2] eqn:E2. inversion H; subst; clear H.
        assert (ND1 : d_st d1 <> DDone) by (intros Z; specialize (P3 eq_refl Z); discriminate).
        specialize (IH _ _ _ _ _ P1 ND1 H3 E2). destruct k; try contradiction.
        -- destruct IH as (p2 & -> & ?). exists p2. split; [cbn; rewrite <- ?app_assoc; reflexivity|assumption].
        -- destruct IH as [-> ?]. auto.
        -- destruct IH as [-> ?]. auto.
    + destruct P as (P1 & P2). eapply IH; eauto.
    + destruct (P eq_refl) as [P1 ->]. inversion H; subst. auto.
Qed.

(** Of any message, only a prefix of the payload is delivered. *)
Lemma reads_prefix : forall ns d p d' out k,
  St ev tr h extra false e d p ->
  reads_on (dec_read ev) ns d = (d', out, k) -> k <> Panicked /\ prefix out p.
Proof.
  induction ns as [|n ns IH]; intros d p d' out k HS H; cbn [reads_on] in H.
  - inversion H; subst. split; [discriminate|apply prefix_nil].
  - destruct (dec_read ev n d) as [d1 r] eqn:E. unfold dec_read in E.
    destruct (d_st d) eqn:ED;
    try (assert (ND : d_st d <> DDone) by (rewrite ED; discriminate); clear ED;
         pose proof (poll_R ev tr h extra Htr Hh Hgrow false e Hcut n d (dec_fuel d) p (fun Z => False_ind _ (diff_false_true Z)) HS ND) as P;
         rewrite E in P; cbn [fst snd] in P; destruct r as [x|f| | |]; cbn [ret_R] in P; try contradiction;
         [destruct P as (p' & -> & P1 & P2 & P3); destruct (reads_on (dec_read ev) ns d1) as [[d2 o2] k2] eqn:E2; inversion H; subst; clear H;
          destruct (IH _ _ _ _ _ P1 E2); split; [assumption|now apply prefix_app]
         |destruct P as (P1 & P2); eapply IH; eauto
         |inversion H; subst; split; [discriminate|apply prefix_nil]
         |inversion H; subst; split; [discriminate|apply prefix_nil]]).
    (* done *)
    destruct HS as (HR & HI). destruct HR as (HRs & HN & HC & HG).
    pose proof (done_poll _ _ _ _ _ _ ED HN E) as P.
    pose proof (poll_np ev n d (dec_fuel d) Hgrow HN) as PN. rewrite E in PN. cbn [fst snd] in PN.
    assert (HS1 : d_st d1 = DDone -> np d1 (d_blk d1) -> St ev tr h extra false e d1 p).
    { intros Z HN1. split; [split; [|split; [|split]]|].
      - unfold Rst. rewrite Z. discriminate.
      - exact HN1.
      - congruence.
      - discriminate.
      - now rewrite Z. }
    destruct r as [x|f| | |]; cbn [ret_np] in PN; try contradiction.
    + destruct P as (-> & P1 & P2). destruct (reads_on (dec_read ev) ns d1) as [[d2 o2] k2] eqn:E2. inversion H; subst; clear H.
      cbn [app]. eapply IH; [|exact E2]. apply HS1; tauto.
    + eapply IH; [|exact H]. apply HS1; tauto.
    + inversion H; subst. split; [discriminate|apply prefix_nil].
    + inversion H; subst. split; [discriminate|apply prefix_nil].
Qed.

Lemma St_new g br p m : msg ev tr g e false 0 p m -> br_data br = m ++ extra ->
  (g = true -> wf_brd br /\ (e = ECut -> clean (br_src br))) ->
  St ev tr h extra g e (dec_new ev br) p /\ d_st (dec_new ev br) <> DDone.
Proof.
  intros HM HB HW. split; [|discriminate]. split; [|intros _; reflexivity]. split; [|split; [|split]].
  - unfold Rst. cbn. exists m. auto.
  - apply new_np.
  - reflexivity.
  - intros G. destruct (HW G). split; [assumption|]. split; [assumption|]. intros _. split; reflexivity.
Qed.

(** Chunks in front of a message. *)
Lemma msg_any p cw q t : chunks size_line p cw -> (forall s, msg ev tr false e false s q t) ->
  forall s, msg ev tr false e false s (p ++ q) (cw ++ t).
Proof.
  intros HC HT. induction HC as [|d sl p w Hd Hs HC IH]; intros s; [apply HT|].
  rewrite <- !app_assoc. eapply msg_chunk with (s' := s); auto; [|discriminate]. now apply msg_after.
Qed.

Lemma msg_load p cw k q t : chunks_load (e_deccap ev) p cw k ->
  forall s, msg ev tr true e false (s + k) q t -> msg ev tr true e false s (p ++ q) (cw ++ t).
Proof.
  clear Htr Hh Hgrow Hcut. intros HC.
  induction HC as [|d sl p w k Hd Hs HC IH|d sl p w k Hd Hb Hs HC IH]; intros s L.
  - now rewrite Nat.add_0_r in L.
  - rewrite <- !app_assoc. eapply msg_chunk with (s' := (s + length sl + length d)%nat); auto.
    apply msg_after, IH. eapply msg_down; [exact L|]. intros _. lia.
  - rewrite <- !app_assoc. eapply msg_chunk with (s' := (s + length sl)%nat); auto.
    apply msg_after, IH. eapply msg_down; [exact L|]. intros _. lia.
Qed.
End Msg.

Lemma chunks_small_load cap p cw : chunks size_line p cw -> chunks_load cap p cw (length cw).
Proof.
  induction 1 as [|d sl p w Hd Hs HC IH]; [constructor|].
  replace (length (sl ++ d ++ CRLF ++ w)) with (length sl + length d + 2 + length w)%nat by (rewrite !app_length; change (length CRLF) with 2%nat; lia).
  now constructor.
Qed.

Lemma new_ok ev br : ok_dec (dec_new ev br).
Proof. split; [apply new_np|reflexivity]. Qed.

(** ** Results about fresh decoders *)
Lemma fresh_prefix ev br p tr wire extra ns d' out k :
  grow_ok ev -> chunked_message p tr wire -> br_data br = wire ++ extra ->
  reads_on (dec_read ev) ns (dec_new ev br) = (d', out, k) -> k <> Panicked /\ prefix out p.
Proof.
  intros G (cw & z & tw & HC & Hz & Ht & HL & ->) HB H.
  destruct (fields_holds _ _ Ht) as (h & Eh & _).
  assert (HM : msg ev tr false EOk false 0 p (cw ++ z ++ tw ++ CRLF)).
  { rewrite <- (app_nil_r p). apply msg_any; [assumption|]. intros s. constructor; [assumption|]. constructor; auto; discriminate. }
  destruct (St_new ev tr h extra EOk false br p _ HM HB) as [HS _]; [discriminate|].
  eapply (reads_prefix ev tr h extra HL Eh G EOk ltac:(discriminate)); eauto.
Qed.

Lemma fresh_load ev br p tr cw n z tw extra ns d' out k :
  grow_ok ev -> chunks_load (e_deccap ev) p cw n -> size_line 0 z -> fields tr tw -> (length tr <= 16)%nat ->
  (n + length (z ++ tw ++ CRLF) <= e_deccap ev)%nat ->
  wf_brd br -> br_data br = (cw ++ z ++ tw ++ CRLF) ++ extra -> Forall (fun n => 0 < n)%nat ns ->
  reads (dec_read ev) ns (dec_new ev br) = (d', out, k) ->
  match k with
  | Going => prefix out p /\ d_chan d' = [] /\ (length ns <= br_size br)%nat
  | Ended => out = p /\ (exists m, d_chan d' = [m] /\ hm_wf m /\ forall x, values x (hm_iter m) = values x tr) /\
             (forall ns2 d2 o2 k2, reads_on (dec_read ev) ns2 d' = (d2, o2, k2) -> o2 = [] /\ d_chan d2 = d_chan d') /\
             d_st d' = DDone /\ k_data (d_blk d') ++ br_data (d_in d') = extra
  | _ => False
  end.
Proof.
  intros G HC Hz Ht HL HF HW HB HN H.
  destruct (fields_holds _ _ Ht) as (h & Eh & Wh & Vh).
  assert (HM : msg ev tr true EOk false 0 p (cw ++ z ++ tw ++ CRLF)).
  { rewrite <- (app_nil_r p). eapply msg_load; [eassumption|]. constructor; [assumption|]. constructor; auto.
    rewrite !app_length in HF. change (length CRLF) with 2%nat in HF. lia. }
  destruct (St_new ev tr h extra EOk true br p _ HM HB) as [HS ND]; [intros _; split; [assumption|discriminate]|].
  pose proof (reads_fit ev tr h extra HL Eh G EOk ltac:(discriminate) _ _ _ _ _ _ HS ND HN H) as P.
  destruct (reads_end ev G _ _ _ _ _ (new_ok ev br) HN H) as (_ & _ & _ & Q).
  destruct k; try (now (contradiction || (destruct P; discriminate))).
  - destruct P as (p' & -> & P). split; [apply prefix_app_r|]. split; [exact P|]. destruct (Q eq_refl) as [_ Q2].
    unfold tot, dec_new, blk_fresh in Q2. cbn in Q2. lia.
  - destruct P as (-> & (P & PX) & PD & PN). split; [reflexivity|]. split; [exists h; auto|]. split; [|auto]. intros. eapply done_reads; eauto.
Qed.

(** Malformed messages. *)
Lemma load_chunks cap p cw k : chunks_load cap p cw k -> chunks size_line p cw.
Proof. induction 1; constructor; auto. Qed.

Lemma nil_append : append_trailers [] [] = Some []. Proof. reflexivity. Qed.

Lemma malformed_any ev p wire cap k : malformed cap p wire k -> forall s, msg ev [] false EBad false s p wire.
Proof.
  intros [p' cw k' u HC HU|p' cw k' c sl x HC Hc Hs Hx HX|p' cw k' z u HC Hz HU] s; apply load_chunks in HC.
  - rewrite <- (app_nil_r p'). apply msg_any; [assumption|]. intros s'. destruct (bad_size_line_rejects _ HU) as [H1 H2].
    apply msg_badline; auto; discriminate.
  - apply msg_any; [assumption|]. intros s'. rewrite <- (app_nil_r c) at 1. apply msg_chunk with (s' := s'); auto; [|discriminate].
    apply msg_badend; auto; discriminate.
  - rewrite <- (app_nil_r p'). apply msg_any; [assumption|]. intros s'. destruct (bad_trailers_rejects (e_trim ev) _ HU) as [H1 H2].
    apply msg_last; [assumption|]. apply trl_bad; auto; discriminate.
Qed.

Lemma malformed_fit ev p wire k : malformed (e_deccap ev) p wire k -> (k <= e_deccap ev)%nat ->
  msg ev [] true EBad false 0 p wire.
Proof.
  intros [p' cw k' u HC HU|p' cw k' c sl x HC Hc Hs Hx HX|p' cw k' z u HC Hz HU] L.
  - rewrite <- (app_nil_r p'). eapply msg_load; [eassumption|]. destruct (bad_size_line_rejects _ HU) as [H1 H2].
    apply msg_badline; auto.
  - eapply msg_load; [eassumption|]. rewrite <- (app_nil_r c) at 1.
    destruct (e_deccap ev <=? length c)%nat eqn:E.
    + apply msg_chunk with (s' := (k' + length sl)%nat); auto; [apply msg_badend; auto|]; intros _; lia.
    + apply msg_chunk with (s' := (k' + length sl + length c)%nat); auto; try (apply msg_badend; auto); intros _; lia.
  - rewrite <- (app_nil_r p'). eapply msg_load; [eassumption|]. destruct (bad_trailers_rejects (e_trim ev) _ HU) as [H1 H2].
    apply msg_last; [assumption|]. apply trl_bad; auto. all: intros _; lia.
Qed.

Lemma fresh_bad_prefix ev br p wire cap n extra ns d' out k :
  grow_ok ev -> malformed cap p wire n -> br_data br = wire ++ extra ->
  reads_on (dec_read ev) ns (dec_new ev br) = (d', out, k) -> k <> Panicked /\ prefix out p.
Proof.
  intros G HM HB H.
  destruct (St_new ev [] [] extra EBad false br p _ (malformed_any ev _ _ _ _ HM 0%nat) HB) as [HS _]; [discriminate|].
  eapply (reads_prefix ev [] [] extra ltac:(cbn; lia) nil_append G EBad ltac:(discriminate)); eauto.
Qed.

Lemma fresh_bad ev br p wire n extra ns d' out k :
  grow_ok ev -> malformed (e_deccap ev) p wire n -> (n <= e_deccap ev)%nat ->
  wf_brd br -> br_data br = wire ++ extra -> Forall (fun n => 0 < n)%nat ns ->
  reads (dec_read ev) ns (dec_new ev br) = (d', out, k) ->
  match k with
  | Going => prefix out p /\ d_chan d' = [] /\ (length ns <= br_size br)%nat
  | Failed => out = p
  | _ => False
  end.
Proof.
  intros G HM HF HW HB HN H.
  destruct (St_new ev [] [] extra EBad true br p _ (malformed_fit ev _ _ _ HM HF) HB) as [HS ND]; [intros _; split; [assumption|discriminate]|].
  pose proof (reads_fit ev [] [] extra ltac:(cbn; lia) nil_append G EBad ltac:(discriminate) _ _ _ _ _ _ HS ND HN H) as P.
  destruct (reads_end ev G _ _ _ _ _ (new_ok ev br) HN H) as (_ & _ & _ & Q).
  destruct k; try (now (contradiction || (destruct P as (_ & P & _); contradiction))).
  - destruct P as (p' & -> & P). split; [apply prefix_app_r|]. split; [exact P|]. destruct (Q eq_refl) as [_ Q2].
    unfold tot, dec_new, blk_fresh in Q2. cbn in Q2. lia.
  - now destruct P.
Qed.

(** Messages cut off by the end of the connection. *)
Lemma app_cut {A} (a b u rest : list A) : a ++ b = u ++ rest ->
  (exists x, a = u ++ x /\ x <> [] /\ rest = x ++ b) \/ exists u', u = a ++ u' /\ b = u' ++ rest.
Proof.
  revert u. induction a as [|y a IH]; intros u H; cbn in *; [right; eauto|].
  destruct u as [|z u].
  - left. exists (y :: a). split; [reflexivity|]. split; [discriminate|]. cbn in *. congruence.
  - cbn in H. injection H as -> H. destruct (IH _ H) as [(x & -> & ? & ->)|(u' & -> & ->)]; [left; exists x; auto|right; exists u'; auto].
Qed.

Lemma size_line_cut n sl a x : size_line n sl -> sl = a ++ x -> x <> [] -> parse_chunk_size a = HPart.
Proof.
  intros HS E Hx. pose proof (size_line_parse n sl [] HS) as P. rewrite app_nil_r, E in P.
  destruct (chunk_size_streams _ _ _ _ _ _ _ P) as [Q|(r1 & Q & E2)]; [exact Q|]. destruct r1; [|discriminate].
  cbn in E2. congruence.
Qed.

Lemma cut_load ev p cw n z tr tw : chunks_load (e_deccap ev) p cw n -> size_line 0 z -> fields tr tw -> (length tr <= 16)%nat ->
  forall s u rest, (s + n + length (z ++ tw ++ CRLF) <= e_deccap ev)%nat ->
  cw ++ z ++ tw ++ CRLF = u ++ rest -> rest <> [] -> exists q, prefix q p /\ carried q u /\ msg ev [] true ECut false s q u.
Proof.
  intros HC Hz HT HL. set (cap := e_deccap ev) in *. rewrite !app_length. change (length CRLF) with 2%nat.
  assert (CL : forall s n sl a x, size_line n sl -> sl = a ++ x -> x <> [] -> (s + length sl <= cap)%nat -> msg ev [] true ECut false s [] a).
  { intros s n0 sl a x HS -> Hx HB. apply msg_cutline; [reflexivity| |].
    - intros a1 b1 ->. eapply size_line_cut; [exact HS|now rewrite <- app_assoc|]. destruct b1; [exact Hx|discriminate].
    - intros _. rewrite app_length in HB. destruct x; [congruence|]. cbn in HB. unfold cap in *. lia. }
  assert (CE : forall s a x, CRLF = a ++ x -> x <> [] -> (s + 2 <= cap)%nat -> msg ev [] true ECut true s [] a).
  { intros s a x E Hx HB. apply msg_cutend; [reflexivity| |intros _; exact HB]. apply (f_equal (@length _)) in E. rewrite app_length in E.
    change (length CRLF) with 2%nat in E. destruct x; [congruence|]. cbn in E. lia. }
  induction HC as [|d sl p w k Hd Hs HC IH|d sl p w k Hd Hb Hs HC IH]; intros s u rest L E Hr.
  - exists []. split; [apply prefix_nil|]. cbn [app] in E.
    apply app_cut in E as [(x & -> & Hx & ->)|(u' & -> & E)].
    + split; [eapply carried_line; eauto|]. eapply CL; eauto. lia.
    + split; [eapply carried_last; eauto|]. apply msg_last; [assumption|].
      assert (HP : hp_headers (e_trim ev) 16 (u' ++ rest) = HDone (tr, [])).
      { rewrite <- E. pose proof (fields_parse (e_trim ev) tr tw [] 16 HT HL) as P. now rewrite app_nil_r in P. }
      apply trl_cut; [reflexivity| |].
      * intros a b ->. rewrite <- app_assoc in HP.
        destruct (hp_headers_streams _ _ _ _ _ _ HP) as [Q|(r1 & Q & E2)]; [exact Q|]. destruct r1; [|discriminate].
        cbn in E2. destruct b; [cbn in E2; congruence|discriminate].
      * intros _. apply (f_equal (@length _)) in E. rewrite !app_length in E. change (length CRLF) with 2%nat in E.
        destruct rest; [congruence|]. cbn in E. fold cap. lia.
  - rewrite <- !app_assoc in E. apply app_cut in E as [(x & E & Hx & ->)|(u' & -> & E)].
    + exists []. split; [apply prefix_nil|]. split; [exact (carried_line _ sl u x Hs E Hx)|]. eapply (CL s _ sl u x); eauto. lia.
    + apply app_cut in E as [(x & -> & Hx & ->)|(u'' & -> & E)].
      * exists u'. split; [rewrite <- app_assoc; apply prefix_app_r|].
        assert (LX : (N.of_nat (length u') < N.of_nat (length (u' ++ x)))%N) by (rewrite app_length; destruct x; [congruence|]; cbn; lia).
        split; [exact (carried_data _ sl _ Hs LX)|]. eapply msg_cutdata; [reflexivity|exact Hs|exact LX|intros _; fold cap; lia].
      * apply app_cut in E as [(x & E & Hx & ->)|(u3 & -> & E)].
        -- exists (d ++ []). split; [apply prefix_app, prefix_nil|]. split; [rewrite app_nil_r; exact (carried_end _ _ _ _ Hd Hs E Hx)|].
           eapply msg_chunk with (s' := (s + length sl + length d)%nat); auto. eapply CE; eauto. lia.
        -- destruct (IH (s + length sl + length d + 2)%nat u3 rest) as (q & Hq & HK & HM); [lia|assumption|assumption|].
           exists (d ++ q). split; [now apply prefix_app|]. split; [now apply carried_chunk|].
           eapply msg_chunk with (s' := (s + length sl + length d)%nat); auto. now apply msg_after.
  - rewrite <- !app_assoc in E. apply app_cut in E as [(x & E & Hx & ->)|(u' & -> & E)].
    + exists []. split; [apply prefix_nil|]. split; [exact (carried_line _ sl u x Hs E Hx)|]. eapply (CL s _ sl u x); eauto. lia.
    + apply app_cut in E as [(x & -> & Hx & ->)|(u'' & -> & E)].
      * exists u'. split; [rewrite <- app_assoc; apply prefix_app_r|].
        assert (LX : (N.of_nat (length u') < N.of_nat (length (u' ++ x)))%N) by (rewrite app_length; destruct x; [congruence|]; cbn; lia).
        split; [exact (carried_data _ sl _ Hs LX)|]. eapply msg_cutdata; [reflexivity|exact Hs|exact LX|intros _; fold cap; lia].
      * apply app_cut in E as [(x & E & Hx & ->)|(u3 & -> & E)].
        -- exists (d ++ []). split; [apply prefix_app, prefix_nil|]. split; [rewrite app_nil_r; exact (carried_end _ _ _ _ Hd Hs E Hx)|].
           eapply msg_chunk with (s' := (s + length sl)%nat); auto. eapply CE; eauto. lia.
        -- destruct (IH (s + length sl + 2)%nat u3 rest) as (q & Hq & HK & HM); [lia|assumption|assumption|].
           exists (d ++ q). split; [now apply prefix_app|]. split; [now apply carried_chunk|].
           eapply msg_chunk with (s' := (s + length sl)%nat); auto. now apply msg_after.
Qed.

Lemma fresh_cut ev p cw n z tr tw u rest :
  grow_ok ev -> chunks_load (e_deccap ev) p cw n -> size_line 0 z -> fields tr tw -> (length tr <= 16)%nat ->
  (n + length (z ++ tw ++ CRLF) <= e_deccap ev)%nat -> cw ++ z ++ tw ++ CRLF = u ++ rest -> rest <> [] ->
  exists q, prefix q p /\ carried q u /\
  forall br ns d' out k, wf_brd br -> clean (br_src br) -> br_data br = u -> Forall (fun n => 0 < n)%nat ns ->
  reads (dec_read ev) ns (dec_new ev br) = (d', out, k) ->
  match k with
  | Going => prefix out q /\ d_chan d' = [] /\ (length ns <= br_size br)%nat
  | Ended => out = q /\ d_chan d' = []
  | _ => False
  end.
Proof.
  intros G HC Hz HT HL HF E Hr. destruct (cut_load ev p cw n z tr tw HC Hz HT HL 0%nat u rest HF E Hr) as (q & Hq & HCq & HM).
  exists q. split; [exact Hq|]. split; [exact HCq|]. intros br ns d' out k HW HK HB HN H. rewrite <- (app_nil_r u) in HB.
  destruct (St_new ev [] [] [] ECut true br q _ HM HB) as [HS ND]; [auto|].
  pose proof (reads_fit ev [] [] [] ltac:(cbn; lia) nil_append G ECut ltac:(reflexivity) _ _ _ _ _ _ HS ND HN H) as P.
  destruct (reads_end ev G _ _ _ _ _ (new_ok ev br) HN H) as (_ & _ & _ & Q).
  destruct k; try (now (contradiction || (destruct P; discriminate))).
  - destruct P as (p' & -> & P). split; [apply prefix_app_r|]. split; [exact P|]. destruct (Q eq_refl) as [_ Q2].
    unfold tot, dec_new, blk_fresh in Q2. cbn in Q2. lia.
  - destruct P as (-> & P & _). auto.
Qed.

Lemma plain_message p cw : chunks plain_size_line p cw -> chunked_message p [] (cw ++ last_chunk).
Proof.
  assert (NE : chunk_ext []) by (exists [], []; repeat split; [constructor|now left]).
  intros H. exists cw, (B "0" ++ CRLF), []. split; [|split; [|split; [constructor|split; [cbn; lia|reflexivity]]]].
  - induction H as [|d sl p w Hd (ds & H1 & H2 & ->) HC IH]; constructor; auto. exists ds, []. auto.
  - exists (B "0"), []. split; [apply (hex_one (ascii_of_N 48) 0); now right|]. split; [cbn; lia|]. auto.
Qed.

Lemma going_ok ev : forall ns d d' out, st_ok (d_st d) -> Forall (fun n => 0 < n)%nat ns ->
  reads_through (dec_read ev) ns d = (d', out, Going) -> st_ok (d_st d').
Proof.
  induction ns as [|n ns IH]; intros d d' out HN HF H; cbn [reads_through] in H; [inversion H; subst; exact HN|].
  inversion HF; subst. destruct (poll_mu ev n d H2 HN) as (P1 & P2 & _).
  destruct (dec_read ev n d) as [d1 r] eqn:E. cbn [fst snd] in *.
  destruct r as [x|f| | |]; try congruence; try (now eapply IH; eauto).
  destruct (reads_through (dec_read ev) ns d1) as [[d2 o2] k2] eqn:E2. inversion H; subst; clear H. eapply IH; eauto.
Qed.
