(** [AsyncBufRead] and [AsyncRead] of a body agree. *)
From Verif Require Import BufReads Reads SpecIo SpecBody SpecReq Lemmas Proofs_Buf Proofs_Dec Proofs_DecReads.

Section Same.
  Variable ev : env.
  Hypothesis Hcap : (0 < e_bufcap ev)%nat.
  Hypothesis Hgrow : grow_ok ev.

  Definition rdr_ok (r : reader) : Prop :=
    match r with
    | RSrc s => wf_src s
    | RMsg (RFixed _ b) => wf_brd b
    | RMsg (RChunked _ d) => ok_dec d
    end.

  (** What has been looked at stays. *)
  Lemma fill_again r r' d : rdr_fill ev r = (r', POk d) -> d <> [] -> rdr_fill ev r' = (r', POk d).
  Proof.
    intros H Hd. destruct r as [s|[rem b|buf dc]]; cbn [rdr_fill] in *.
    - unfold src_fill in *. destruct (s_evs s) as [|[x|f|] l] eqn:E; try discriminate.
      + destruct (s_tail s); injection H as <- H; [congruence|discriminate].
      + injection H as <- <-. cbn [rdr_fill]. unfold src_fill. now rewrite E.
    - unfold take_fill in *. destruct (rem =? 0)%N eqn:R; [injection H as <- <-; congruence|].
      destruct (br_fill b) as [b1 [x|f| | |]] eqn:E; try discriminate. injection H as <- <-. cbn [rdr_fill]. unfold take_fill. rewrite R.
      assert (E2 : br_fill b1 = (b1, POk x)).
      { unfold br_fill in E |- *. destruct (br_buf b) as [|c y] eqn:EB.
        - destruct (src_read (br_cap b) (br_src b)) as [s' [y|f| | |]]; try discriminate. injection E as <- <-. cbn [br_buf br_cap br_src]. destruct y; [|reflexivity].
          rewrite firstn_nil in Hd. congruence.
        - injection E as <- <-. now rewrite EB. }
      now rewrite E2.
    - unfold bufdec_fill in *. destruct buf as [|c x].
      + destruct (dec_read ev (e_bufcap ev) dc) as [d' [x|f| | |]]; try discriminate. injection H as <- <-. cbn [rdr_fill bufdec_fill]. destruct x; [congruence|reflexivity].
      + injection H as <- <-. reflexivity.
  Qed.

  (** Looking and consuming is reading. *)
  Lemma fill_read r r' d k : rdr_ok r -> rdr_fill ev r = (r', POk d) -> d <> [] -> (0 < k)%nat ->
    rdr_poll ev (length (firstn k d)) r = (rdr_consume (length (firstn k d)) r', POk (firstn k d)).
  Proof.
    intros HO H Hd Hk. assert (Hn : (0 < length (firstn k d))%nat) by (rewrite firstn_length; destruct d; [congruence|cbn; lia]).
    assert (HF : firstn (length (firstn k d)) d = firstn k d) by (rewrite firstn_length; destruct (Nat.min_spec k (length d)) as [[? ->]|[? ->]]; [reflexivity|now rewrite firstn_all, firstn_all2 by lia]).
    assert (HL : (length (firstn k d) <= length d)%nat) by (rewrite firstn_length; lia).
    set (n := length (firstn k d)) in *. rewrite <- HF. clearbody n. clear HF Hk.
    destruct r as [s|[rem b|buf dc]]; cbn [rdr_fill rdr_poll] in *.
    - unfold src_fill, src_read in *. destruct (s_evs s) as [|[x|f|] l] eqn:E; try discriminate.
      + destruct (s_tail s) eqn:T; injection H as <- H; [|discriminate]. congruence.
      + injection H as <- <-. cbn [rdr_consume]. unfold src_consume. now rewrite E.
    - unfold take_fill in H. unfold body_read, take_read. destruct (rem =? 0)%N eqn:R; [injection H as <- <-; congruence|].
      destruct (br_fill b) as [b1 [x|f| | |]] eqn:E; try discriminate. injection H as <- <-. apply N.eqb_neq in R.
      rewrite firstn_length in HL. assert (ER : N.to_nat (N.min (N.of_nat n) rem) = n) by lia. rewrite ER.
      assert (FF : firstn n (firstn (N.to_nat (N.min rem (N.of_nat (length x)))) x) = firstn n x) by (rewrite firstn_firstn; f_equal; lia). rewrite FF.
      assert (LN : length (firstn n x) = n) by (rewrite firstn_length; lia).
      assert (EB : br_read n b = (br_consume n b1, POk (firstn n x))).
      { unfold br_read. destruct (br_buf b) as [|c y] eqn:EB.
        - destruct (br_cap b <=? n)%nat eqn:EC.
          + apply Nat.leb_le in EC. unfold br_fill in E. rewrite EB in E. unfold src_read in E |- *. destruct (s_evs (br_src b)) as [|[y|f|] l].
            * destruct (s_tail (br_src b)); [injection E as <- <-|discriminate]. cbn in *. lia.
            * injection E as <- <-. rewrite firstn_length in HL. assert (n = br_cap b) as -> by lia. unfold br_consume. cbn [br_cap br_buf br_src]. rewrite firstn_firstn, Nat.min_id.
              f_equal. f_equal. rewrite skipn_all2; [reflexivity|]. rewrite firstn_length. lia.
            * discriminate.
            * discriminate.
          + rewrite E, LN. reflexivity.
        - destruct (br_cap b <=? n)%nat; rewrite E, LN; reflexivity. }
      rewrite EB, LN. cbn [rdr_consume]. unfold take_consume. replace (N.to_nat (N.min (N.of_nat n) rem)) with n by lia. reflexivity.
    - unfold bufdec_fill in H. cbn [body_read]. unfold bufdec_read. destruct buf as [|c y].
      + destruct (dec_read ev (e_bufcap ev) dc) as [d' [x|f| | |]] eqn:E; try discriminate. injection H as <- <-. cbn [rdr_consume].
        assert (LN : length (firstn n x) = n) by (rewrite firstn_length; lia).
        destruct (e_bufcap ev <=? n)%nat eqn:EC; [|rewrite LN; reflexivity].
        apply Nat.leb_le in EC. pose proof (read_ok ev _ _ _ _ Hgrow HO Hcap E) as (_ & Q & _). assert (n = e_bufcap ev) as -> by lia. rewrite E, firstn_all2, skipn_all2 by lia. reflexivity.
      + injection H as <- <-. cbn [rdr_consume]. assert (LN : length (firstn n (c :: y)) = n) by (rewrite firstn_length; lia). rewrite LN. reflexivity.
  Qed.

  (** A read of more than what is shown gives what is shown. *)
  Lemma fill_plain r d n : rdr_fill ev r = (r, POk d) -> d <> [] -> (0 < n)%nat -> rdr_poll ev n r = rdr_poll ev (length (firstn n d)) r.
  Proof.
    intros H Hd Hn. assert (HF : firstn (length (firstn n d)) d = firstn n d) by (rewrite firstn_length; destruct (Nat.min_spec n (length d)) as [[? ->]|[? ->]]; [reflexivity|now rewrite firstn_all, firstn_all2 by lia]).
    destruct r as [s|[rem b|buf dc]]; cbn [rdr_fill rdr_poll] in *.
    - unfold src_fill, src_read in *. destruct (s_evs s) as [|[x|f|] l] eqn:E; try reflexivity. injection H as ->. rewrite HF.
      assert (ES : skipn n d = skipn (length (firstn n d)) d).
      { rewrite firstn_length; destruct (Nat.min_spec n (length d)) as [[? ->]|[? ->]]; [reflexivity|now rewrite skipn_all, skipn_all2 by lia]. }
      now rewrite <- ES.
    - unfold take_fill in H. unfold body_read, take_read. destruct (rem =? 0)%N eqn:R; [reflexivity|]. apply N.eqb_neq in R.
      destruct (br_fill b) as [b1 [x|f| | |]] eqn:E; try discriminate. injection H as -> <-.
      assert (NB : br_buf b = x /\ x <> []).
      { unfold br_fill in E. destruct (br_buf b) eqn:EB; [|injection E as E; rewrite <- E; split; [auto|discriminate]]. exfalso.
        destruct (src_read (br_cap b) (br_src b)) as [s' [y|f| | |]]; try discriminate. injection E as E1 E2. rewrite <- E1 in EB. cbn in EB. subst y x. rewrite firstn_nil in Hd. congruence. }
      destruct NB as [NB NX]. assert (Q : forall m, (0 < m)%nat -> br_read m b = (br_consume (length (firstn m x)) b, POk (firstn m x))).
      { intros m Hm. unfold br_read. rewrite NB. destruct x as [|c x]; [congruence|]. destruct (br_cap b <=? m)%nat; rewrite E; reflexivity. }
      set (k := N.to_nat (N.min rem (N.of_nat (length x)))) in *.
      assert (HX : (0 < length x)%nat) by (destruct x; [congruence|cbn; lia]).
      assert (L1 : length (firstn n (firstn k x)) = Nat.min n k) by (rewrite !firstn_length; lia). rewrite L1.
      rewrite !Q by lia. assert (EF : firstn (N.to_nat (N.min (N.of_nat (Nat.min n k)) rem)) x = firstn (N.to_nat (N.min (N.of_nat n) rem)) x).
      { destruct (Nat.le_gt_cases (length x) (N.to_nat (N.min (N.of_nat n) rem))) as [G|G]; [rewrite !firstn_all2 by lia; reflexivity|f_equal; lia]. }
      now rewrite EF.
    - unfold bufdec_fill in H. cbn [body_read]. unfold bufdec_read. destruct buf as [|c y].
      + destruct (dec_read ev (e_bufcap ev) dc) as [d' [x|f| | |]] eqn:E; try discriminate. injection H as -> _ <-. congruence.
      + injection H as <-. now rewrite HF.
  Qed.

  (** When there is nothing to look at. *)
  Lemma fill_none r r' x : rdr_ok r -> rdr_fill ev r = (r', x) -> (forall d, x = POk d -> d = []) -> rdr_poll ev 1 r = (r', x).
  Proof.
    intros HO H Hx. destruct r as [s|[rem b|buf dc]]; cbn [rdr_fill rdr_poll rdr_ok] in *.
    - unfold src_fill, src_read in *. destruct (s_evs s) as [|[d|f|] l] eqn:E; try exact H. injection H as <- <-. rewrite (Hx d eq_refl) in E.
      unfold wf_src in HO. rewrite E in HO. inversion HO as [|? ? W _]. now elim W.
    - unfold take_fill in H. unfold body_read, take_read. destruct (rem =? 0)%N eqn:R; [exact H|]. apply N.eqb_neq in R.
      assert (E1 : N.to_nat (N.min (N.of_nat 1) rem) = 1%nat) by lia. rewrite E1.
      destruct (br_fill b) as [b1 y] eqn:E. assert (Hy : forall d, y = POk d -> d = []).
      { intros d ->. injection H as <- <-. specialize (Hx _ eq_refl). destruct d; [reflexivity|]. exfalso.
        assert (L : (0 < N.to_nat (N.min rem (N.of_nat (length (a :: d)))))%nat) by (cbn [length]; lia). destruct (N.to_nat (N.min rem (N.of_nat (length (a :: d))))); [lia|discriminate]. }
      assert (EB : br_read 1 b = (b1, y)).
      { unfold br_read. destruct HO as [W HC]. destruct (br_buf b) as [|c z] eqn:EB.
        - destruct (br_cap b <=? 1)%nat eqn:EC.
          + apply Nat.leb_le in EC. assert (C1 : br_cap b = 1%nat) by lia. unfold br_fill in E. rewrite EB, C1 in E. rewrite C1.
            destruct (src_read 1 (br_src b)) as [s' [d|f| | |]]; injection E as <- <-; try reflexivity. now rewrite (Hy d eq_refl).
          + rewrite E. destruct y as [d|f| | |]; try reflexivity. rewrite (Hy d eq_refl). cbn [firstn length]. unfold br_consume. cbn [skipn]. now destruct b1.
        - exfalso. unfold br_fill in E. rewrite EB in E. injection E as <- <-. specialize (Hy _ eq_refl). discriminate. }
      rewrite EB. destruct y as [d|f| | |]; try exact H. rewrite (Hy d eq_refl) in *. cbn [length] in *. rewrite N.sub_0_r. rewrite firstn_nil in H. exact H.
    - unfold bufdec_fill in H. cbn [body_read]. unfold bufdec_read. destruct buf as [|c y].
      + destruct (e_bufcap ev <=? 1)%nat eqn:EC.
        * apply Nat.leb_le in EC. assert (C1 : e_bufcap ev = 1%nat) by lia. rewrite C1 in H.
          destruct (dec_read ev 1 dc) as [d' [d|f| | |]]; injection H as <- <-; try reflexivity. now rewrite (Hx d eq_refl).
        * destruct (dec_read ev (e_bufcap ev) dc) as [d' [d|f| | |]]; injection H as <- <-; try reflexivity. now rewrite (Hx d eq_refl).
      + injection H as <- <-. specialize (Hx _ eq_refl). discriminate.
  Qed.

  Lemma poll_ok n r r' x : rdr_ok r -> (0 < n)%nat -> rdr_poll ev n r = (r', x) -> (match x with POk _ | PPend _ => True | _ => False end) -> rdr_ok r'.
  Proof.
    intros HO Hn H Hx. destruct r as [s|[rem b|buf dc]]; cbn [rdr_poll rdr_ok] in *.
    - unfold wf_src in HO. unfold src_read in H. destruct (s_evs s) as [|[d|f|] l] eqn:E; injection H as <- <-; cbn [rdr_ok]; unfold wf_src; cbn [s_evs].
      + now rewrite E.
      + inversion HO as [|? ? _ W]. destruct (skipn n d) eqn:ES; [exact W|]. constructor; [discriminate|exact W].
      + now inversion HO.
      + now inversion HO.
    - unfold body_read, take_read in H. destruct (rem =? 0)%N; [injection H as <- <-; exact HO|].
      destruct (br_read _ b) as [b1 [d|f| | |]] eqn:E; injection H as <- <-; exact (br_read_wf _ _ _ _ E HO).
    - unfold body_read, bufdec_read in H. destruct buf as [|c y]; [|injection H as <- <-; exact HO].
      destruct (e_bufcap ev <=? n)%nat.
      + destruct (dec_read ev n dc) as [d' [d|f| | |]] eqn:E; injection H as <- <-; try contradiction; now destruct (read_ok ev _ _ _ _ Hgrow HO Hn E).
      + destruct (dec_read ev (e_bufcap ev) dc) as [d' [d|f| | |]] eqn:E; injection H as <- <-; try contradiction; now destruct (read_ok ev _ _ _ _ Hgrow HO Hcap E).
  Qed.

  Lemma fill_ok r r' x : rdr_ok r -> rdr_fill ev r = (r', POk x) -> rdr_ok r'.
  Proof.
    intros HO H. destruct r as [s|[rem b|buf dc]]; cbn [rdr_fill rdr_ok] in *.
    - unfold src_fill in H. destruct (s_evs s) as [|[d|f|] l]; try discriminate; [destruct (s_tail s); [|discriminate]|]; injection H as <- _; exact HO.
    - unfold take_fill in H. destruct (rem =? 0)%N; [injection H as <- _; exact HO|].
      destruct (br_fill b) as [b1 [d|f| | |]] eqn:E; try discriminate. injection H as <- _. cbn [rdr_ok]. destruct HO as [W C]. unfold br_fill in E.
      destruct (br_buf b) as [|c y] eqn:EB; [|injection E as <- _; split; assumption].
      destruct (src_read (br_cap b) (br_src b)) as [s' [d1|f| | |]] eqn:ES; try discriminate. injection E as <- _.
      apply (br_read_wf (br_cap b) b (mkBrd (br_cap b) [] s') (POk d1)); [|split; assumption]. unfold br_read. rewrite EB, Nat.leb_refl, ES. reflexivity.
    - unfold bufdec_fill in H. destruct buf as [|c y]; [|injection H as <- _; exact HO].
      destruct (dec_read ev (e_bufcap ev) dc) as [d' [d|f| | |]] eqn:E; try discriminate. injection H as <- _. now destruct (read_ok ev _ _ _ _ Hgrow HO Hcap E).
  Qed.

  Ltac stopped := split; [reflexivity|]; split; [now left|]; split; [reflexivity|]; split; [cbn [length]; lia|]; discriminate.

  (** The plain reader lags behind by what has only been looked at. *)
  Definition lags (r0 r : reader) : Prop := r0 = r \/ exists d, d <> [] /\ rdr_fill ev r0 = (r, POk d).
  Definition step_ok (o : step) : Prop := match o with Plain n => (0 < n)%nat | Peek _ => True end.
  Definition takes (o : step) : Prop := match o with Plain n => (0 < n)%nat | Peek k => (0 < k)%nat end.

  (** Consuming what is shown, in both readers. *)
  Lemma lag_step r0 r d k : rdr_ok r0 -> r0 = r \/ rdr_fill ev r0 = (r, POk d) -> rdr_fill ev r = (r, POk d) -> d <> [] -> (0 < k)%nat ->
    rdr_poll ev (length (firstn k d)) r0 = (rdr_consume (length (firstn k d)) r, POk (firstn k d)) /\
    rdr_ok (rdr_consume (length (firstn k d)) r) /\ (0 < length (firstn k d))%nat.
  Proof.
    intros HO HL HF Hd Hk. assert (HP : (0 < length (firstn k d))%nat) by (rewrite firstn_length; destruct d; [congruence|cbn; lia]).
    assert (E : rdr_poll ev (length (firstn k d)) r0 = (rdr_consume (length (firstn k d)) r, POk (firstn k d))).
    { destruct HL as [->|HL]; [exact (fill_read _ _ _ _ HO HF Hd Hk)|exact (fill_read _ _ _ _ HO HL Hd Hk)]. }
    split; [exact E|]. split; [|exact HP]. exact (poll_ok _ _ _ _ HO HP E I).
  Qed.

  Lemma read_then n ns r0 r1 x r2 out k : x <> [] -> rdr_poll ev n r0 = (r1, POk x) -> reads (rdr_poll ev) ns r1 = (r2, out, k) ->
    reads (rdr_poll ev) (n :: ns) r0 = (r2, x ++ out, k).
  Proof. intros Hx E R. cbn [reads]. rewrite E. destruct x; [congruence|]. now rewrite R. Qed.

  Lemma steps_reads os : forall r0 r r' out k, rdr_ok r0 -> lags r0 r -> Forall step_ok os -> steps ev os r = (r', out, k) ->
    exists ns r2, Forall (fun n => 0 < n)%nat ns /\ reads (rdr_poll ev) ns r0 = (r2, out, k) /\ lags r2 r' /\ (k <> Going -> r2 = r') /\
      (length ns <= length os)%nat /\ (k = Going -> Forall takes os -> length ns = length os).
  Proof.
    induction os as [|o os IH]; intros r0 r r' out k HO HL HS H.
    { injection H as <- <- <-. exists [], r0. repeat split; auto; congruence. }
    pose proof (Forall_inv HS) as Ho. apply Forall_inv_tail in HS.
    (* what both readers do when the real one looks at something *)
    assert (SEE : forall x r1 kk, rdr_fill ev r = (r1, POk x) -> x <> [] -> (0 < kk)%nat ->
      rdr_poll ev (length (firstn kk x)) r0 = (rdr_consume (length (firstn kk x)) r1, POk (firstn kk x)) /\
      rdr_ok (rdr_consume (length (firstn kk x)) r1) /\ (0 < length (firstn kk x))%nat /\ rdr_fill ev r1 = (r1, POk x) /\ (r0 = r \/ r = r1)).
    { intros x r1 kk E Hx Hk. pose proof (fill_again _ _ _ E Hx) as E1. destruct HL as [->|(d & Hd & EL)].
      - destruct (lag_step r r1 x kk HO (or_intror E) E1 Hx Hk) as (A1 & A2 & A3). auto 10.
      - pose proof (fill_again _ _ _ EL Hd) as E2. rewrite E in E2. injection E2 as -> ->.
        destruct (lag_step r0 r d kk HO (or_intror EL) E1 Hx Hk) as (A1 & A2 & A3). auto 10. }
    destruct o as [n|kk]; cbn [steps step_ok] in *.
    - destruct HL as [->|(d & Hd & EL)].
      + destruct (rdr_poll ev n r) as [r1 [x|f| | |]] eqn:E.
        * destruct x as [|c x].
          { injection H as <- <- <-. exists [n], r1. cbn [reads]. rewrite E. split; [now constructor|]. stopped. }
          destruct (steps ev os r1) as [[r3 o3] k3] eqn:E3. injection H as <- <- <-.
          destruct (IH r1 r1 _ _ _ (poll_ok _ _ _ _ HO Ho E I) (or_introl eq_refl) HS E3) as (ns & r2 & A1 & A2 & A3 & A4 & A5 & A6).
          exists (n :: ns), r2. split; [now constructor|]. split; [exact (read_then _ _ _ _ (c :: x) _ _ _ ltac:(discriminate) E A2)|].
          split; [auto|]. split; [exact A4|]. cbn [length]. split; [lia|]. intros K T. rewrite (A6 K (Forall_inv_tail T)). reflexivity.
        * destruct (IH r1 r1 _ _ _ (poll_ok _ _ _ _ HO Ho E I) (or_introl eq_refl) HS H) as (ns & r2 & A1 & A2 & A3 & A4 & A5 & A6).
          exists (n :: ns), r2. split; [now constructor|]. cbn [reads]. rewrite E. split; [exact A2|]. split; [auto|]. split; [exact A4|]. cbn [length]. split; [lia|].
          intros K T. rewrite (A6 K (Forall_inv_tail T)). reflexivity.
        * injection H as <- <- <-. exists [n], r1. cbn [reads]. rewrite E. split; [now constructor|]. stopped.
        * injection H as <- <- <-. exists [n], r1. cbn [reads]. rewrite E. split; [now constructor|]. stopped.
        * injection H as <- <- <-. exists [n], r1. cbn [reads]. rewrite E. split; [now constructor|]. stopped.
      + pose proof (fill_again _ _ _ EL Hd) as E1. destruct (SEE d r n E1 Hd Ho) as (B1 & B2 & B3 & _ & _).
        rewrite (fill_plain _ _ _ E1 Hd Ho), (fill_read r r d n (fill_ok _ _ _ HO EL) E1 Hd Ho) in H.
        set (x := firstn n d) in *. set (r1 := rdr_consume (length x) r) in *. assert (HX : x <> []) by (intros Z; rewrite Z in B3; cbn in B3; lia). clearbody x r1.
        destruct x as [|c x]; [congruence|]. destruct (steps ev os r1) as [[r3 o3] k3] eqn:E3. injection H as <- <- <-.
        destruct (IH r1 r1 _ _ _ B2 (or_introl eq_refl) HS E3) as (ns & r2 & A1 & A2 & A3 & A4 & A5 & A6).
        exists (length (c :: x) :: ns), r2. split; [now constructor|]. split; [exact (read_then _ _ _ _ (c :: x) _ _ _ ltac:(discriminate) B1 A2)|].
        split; [auto|]. split; [exact A4|]. cbn [length]. split; [lia|]. intros K T. rewrite (A6 K (Forall_inv_tail T)). reflexivity.
    - destruct (rdr_fill ev r) as [r1 y] eqn:E.
      assert (NONE : (forall d, y = POk d -> d = []) -> rdr_poll ev 1 r0 = (r1, y) /\ r0 = r).
      { intros Hy. destruct HL as [->|(d & Hd & EL)]; [split; [exact (fill_none _ _ _ HO E Hy)|reflexivity]|].
        exfalso. rewrite (fill_again _ _ _ EL Hd) in E. injection E as _ <-. now apply Hd, Hy. }
      destruct y as [x|f| | |].
      + destruct x as [|c x].
        { destruct NONE as [N1 ->]; [now intros d [= <-]|]. injection H as <- <- <-. exists [1%nat], r1. cbn [reads]. rewrite N1. split; [constructor; auto|]. stopped. }
        set (z := c :: x) in *. assert (HZ : z <> []) by discriminate. 
        destruct (steps ev os (rdr_consume (length (firstn kk z)) r1)) as [[r3 o3] k3] eqn:E3. injection H as <- <- <-. clearbody z.
        destruct kk as [|kk].
        * cbn [firstn length] in E3 |- *. assert (EC : rdr_consume 0 r1 = r1).
          { clear - E HZ. destruct r1 as [s|[rem b|buf dc]]; cbn [rdr_consume].
            - unfold src_consume. destruct (s_evs s) as [|[d|f|] l] eqn:EV; try reflexivity. f_equal. destruct s as [evs tl]. cbn in *. subst evs. 
              apply fill_again in E; [|exact HZ]. cbn [rdr_fill] in E. unfold src_fill in E. cbn [s_evs] in E. injection E as ->. destruct z; [congruence|reflexivity].
            - unfold take_consume. replace (N.to_nat (N.min (N.of_nat 0) rem)) with 0%nat by lia. change (N.of_nat 0) with 0%N. rewrite N.sub_0_r. now destruct b.
            - reflexivity. }
          rewrite EC in E3. assert (L1 : lags r0 r1).
          { destruct HL as [->|(d & Hd & EL)]; [right; now exists z|]. rewrite (fill_again _ _ _ EL Hd) in E. injection E as <- <-. right. now exists d. }
          destruct (IH r0 r1 _ _ _ HO L1 HS E3) as (ns & r2 & A1 & A2 & A3 & A4 & A5 & A6). exists ns, r2. split; [exact A1|]. split; [exact A2|].
          split; [exact A3|split; [exact A4|split; [cbn [length]; lia|]]].
          intros _ T. apply Forall_inv in T. cbn in T. lia.
        * destruct (SEE z r1 (S kk) eq_refl HZ ltac:(lia)) as (B1 & B2 & B3 & _ & _).
          set (x1 := firstn (S kk) z) in *. assert (HX : x1 <> []) by (intros Z; rewrite Z in B3; cbn in B3; lia). clearbody x1.
          destruct (IH _ _ _ _ _ B2 (or_introl eq_refl) HS E3) as (ns & r2 & A1 & A2 & A3 & A4 & A5 & A6).
          exists (length x1 :: ns), r2. split; [now constructor|]. split; [exact (read_then _ _ _ _ x1 _ _ _ HX B1 A2)|].
          split; [auto|]. split; [exact A4|]. cbn [length]. split; [lia|]. intros K T. rewrite (A6 K (Forall_inv_tail T)). reflexivity.
      + destruct NONE as [N1 ->]; [discriminate|].
        destruct (IH r1 r1 _ _ _ (poll_ok _ _ _ _ HO ltac:(auto) N1 I) (or_introl eq_refl) HS H) as (ns & r2 & A1 & A2 & A3 & A4 & A5 & A6).
        exists (1%nat :: ns), r2. split; [constructor; auto|]. cbn [reads]. rewrite N1. split; [exact A2|]. split; [auto|]. split; [exact A4|]. cbn [length]. split; [lia|].
        intros K T. rewrite (A6 K (Forall_inv_tail T)). reflexivity.
      + destruct NONE as [N1 ->]; [discriminate|]. injection H as <- <- <-. exists [1%nat], r1. cbn [reads]. rewrite N1. split; [constructor; auto|]. stopped.
      + destruct NONE as [N1 ->]; [discriminate|]. injection H as <- <- <-. exists [1%nat], r1. cbn [reads]. rewrite N1. split; [constructor; auto|]. stopped.
      + destruct NONE as [N1 ->]; [discriminate|]. injection H as <- <- <-. exists [1%nat], r1. cbn [reads]. rewrite N1. split; [constructor; auto|]. stopped.
  Qed.
End Same.

(** ** Lines *)
Lemma steps_app ev os2 : forall os1 r r1 out1, steps ev os1 r = (r1, out1, Going) ->
  steps ev (os1 ++ os2) r = let '(r2, out2, k) := steps ev os2 r1 in (r2, out1 ++ out2, k).
Proof.
  induction os1 as [|o os1 IH]; intros r r1 out1 H.
  - injection H as <- <-. cbn [app]. now destruct (steps ev os2 r) as [[? ?] ?].
  - cbn [app]. destruct o as [n|k]; cbn [steps] in *.
    + destruct (rdr_poll ev n r) as [r' [[|c x]|f| | |]]; try discriminate; [|exact (IH _ _ _ H)].
      destruct (steps ev os1 r') as [[r3 o3] k3] eqn:E. injection H as -> <- ->. rewrite (IH _ _ _ E). destruct (steps ev os2 r1) as [[? ?] ?]. now rewrite app_comm_cons, app_assoc.
    + destruct (rdr_fill ev r) as [r' [[|c x]|f| | |]]; try discriminate; [|exact (IH _ _ _ H)].
      destruct (steps ev os1 _) as [[r3 o3] k3] eqn:E. injection H as -> <- ->. rewrite (IH _ _ _ E). destruct (steps ev os2 r1) as [[? ?] ?]. now rewrite app_assoc.
Qed.

Lemma split_after_some c : forall l p q, split_after c l = Some (p, q) -> exists p0, p = p0 ++ [c] /\ ~ In c p0 /\ l = p ++ q.
Proof.
  induction l as [|x l IH]; intros p q H; [discriminate|]. cbn [split_after] in H. destruct (Ascii.eqb x c) eqn:E.
  - apply Ascii.eqb_eq in E as ->. injection H as <- <-. exists []. repeat split; auto.
  - destruct (split_after c l) as [[p1 q1]|]; [|discriminate]. injection H as <- <-. destruct (IH p1 q1 eq_refl) as (p0 & -> & N & ->).
    exists (x :: p0). repeat split. intros [->|Z]; [now rewrite Ascii.eqb_refl in E|contradiction].
Qed.
Lemma split_after_none c : forall l, split_after c l = None -> ~ In c l.
Proof.
  induction l as [|x l IH]; intros H; [auto|]. cbn [split_after] in H. destruct (Ascii.eqb x c) eqn:E; [discriminate|].
  destruct (split_after c l) as [[p1 q1]|]; [discriminate|]. intros [->|Z]; [now rewrite Ascii.eqb_refl in E|now apply IH].
Qed.

Lemma line_cut c : forall l1 p1 l2 p2 : bytes, ~ In c l1 -> ~ In c l2 -> l1 ++ c :: p1 = l2 ++ c :: p2 -> l1 = l2 /\ p1 = p2.
Proof.
  induction l1 as [|x l1 IH]; intros p1 [|y l2] p2 N1 N2 E; cbn in E.
  - injection E as E. auto.
  - injection E as -> E. exfalso. apply N2. now left.
  - injection E as -> E. exfalso. apply N1. now left.
  - injection E as -> E. destruct (IH p1 l2 p2) as [-> ->]; auto; intros Z; [apply N1|apply N2]; now right.
Qed.
Lemma lines_unique p ls1 ls2 : lines_of p ls1 -> lines_of p ls2 -> ls1 = ls2.
Proof.
  intros H. revert ls2. induction H as [|l Hl N|l p ls N H IH]; intros ls2 H2.
  - remember ([] : bytes) as e eqn:E. destruct H2 as [|l Hl N|l p ls N H]; [reflexivity|now elim Hl|destruct l; discriminate].
  - destruct H2 as [|l2 H2 N2|l2 p ls N2 H]; [now elim Hl|reflexivity|]. exfalso. apply N, in_or_app. right. now left.
  - remember (l ++ LF :: p) as e eqn:E. destruct H2 as [|l2 H2 N2|l2 p2 ls2 N2 H2].
    + destruct l; discriminate.
    + exfalso. apply N2. rewrite E. apply in_or_app. right. now left.
    + destruct (line_cut LF _ _ _ _ N2 N E) as [-> ->]. f_equal. now apply IH.
Qed.

Section Lines.
  Variable ev : env.
  Variables (r0 : reader) (p : bytes) (bound : nat).
  (** The body delivers [p] within [bound] steps. *)
  Hypothesis Hsteps : forall os r out k, Forall takes os -> steps ev os r0 = (r, out, k) ->
    match k with Going => prefix out p /\ (length os <= bound)%nat | Ended => out = p | _ => False end.

  Lemma fill_cases os r out r1 y : Forall takes os -> steps ev os r0 = (r, out, Going) -> rdr_fill ev r = (r1, y) ->
    match y with
    | POk [] => out = p /\ exists o, takes o /\ steps ev (os ++ [o]) r0 = (r1, out, Ended)
    | POk d => forall k, (0 < k)%nat -> steps ev (os ++ [Peek k]) r0 = (rdr_consume (length (firstn k d)) r1, out ++ firstn k d, Going)
    | PPend _ => steps ev (os ++ [Peek 1]) r0 = (r1, out, Going)
    | _ => False
    end.
  Proof.
    intros HT H E. assert (HT1 : forall k, (0 < k)%nat -> Forall takes (os ++ [Peek k])) by (intros k Hk; apply Forall_app; split; [exact HT|now constructor]).
    assert (Q : forall k, steps ev (os ++ [Peek k]) r0 = let '(r2, out2, e) := steps ev [Peek k] r in (r2, out ++ out2, e)) by (intros k; exact (steps_app _ _ _ _ _ _ H)).
    cbn [steps] in Q. rewrite E in Q. destruct y as [[|c d]|f| | |].
    - specialize (Q 1%nat). rewrite app_nil_r in Q. pose proof (Hsteps _ _ _ _ (HT1 1%nat ltac:(auto)) Q) as P. split; [exact P|]. exists (Peek 1). split; [cbn; lia|exact Q].
    - intros k Hk. rewrite (Q k), app_nil_r. reflexivity.
    - specialize (Q 1%nat). rewrite app_nil_r in Q. exact Q.
    - exact (Hsteps _ _ _ _ (HT1 1%nat ltac:(auto)) (Q 1%nat)).
    - exact (Hsteps _ _ _ _ (HT1 1%nat ltac:(auto)) (Q 1%nat)).
    - exact (Hsteps _ _ _ _ (HT1 1%nat ltac:(auto)) (Q 1%nat)).
  Qed.

  Lemma line_run : forall fuel os r out acc, Forall takes os -> steps ev os r0 = (r, out, Going) -> (bound < fuel + length os)%nat ->
    exists r' l, line_go fuel ev r acc = (r', ROk (acc ++ l)) /\
    ((exists l0 os', l = l0 ++ [LF] /\ ~ In LF l0 /\ (length os < length os')%nat /\ Forall takes os' /\ steps ev os' r0 = (r', out ++ l, Going)) \/
     (~ In LF l /\ out ++ l = p /\ exists os', Forall takes os' /\ steps ev os' r0 = (r', p, Ended))).
  Proof.
    induction fuel as [|f IH]; intros os r out acc HT H HB.
    { pose proof (Hsteps _ _ _ _ HT H) as [_ L]. lia. }
    cbn [line_go]. destruct (rdr_fill ev r) as [r1 y] eqn:E. pose proof (fill_cases _ _ _ _ _ HT H E) as P.
    assert (HT1 : forall k, (0 < k)%nat -> Forall takes (os ++ [Peek k])) by (intros k Hk; apply Forall_app; split; [exact HT|now constructor]).
    destruct y as [d|g| | |]; try contradiction.
    - destruct (split_after LF d) as [[q1 q2]|] eqn:ES.
      + apply split_after_some in ES as (q0 & -> & N & ED). exists (rdr_consume (length (q0 ++ [LF])) r1), (q0 ++ [LF]). split; [reflexivity|]. left. exists q0.
        assert (P' : forall k, (0 < k)%nat -> steps ev (os ++ [Peek k]) r0 = (rdr_consume (length (firstn k d)) r1, out ++ firstn k d, Going)) by (destruct d; [destruct q0; discriminate|exact P]).
        assert (F1 : firstn (length (q0 ++ [LF])) d = q0 ++ [LF]) by (rewrite ED; rewrite firstn_app, Nat.sub_diag, firstn_all; cbn; apply app_nil_r).
        exists (os ++ [Peek (length (q0 ++ [LF]))]). split; [reflexivity|]. split; [exact N|]. split; [rewrite app_length; cbn; lia|].
        assert (L : (0 < length (q0 ++ [LF]))%nat) by (rewrite app_length; cbn; lia). split; [now apply HT1|]. rewrite (P' _ L), F1. reflexivity.
      + apply split_after_none in ES. destruct d as [|c d].
        * destruct P as (-> & o & Ho & P). exists r1, []. rewrite !app_nil_r. split; [reflexivity|]. right. split; [auto|]. split; [reflexivity|].
          exists (os ++ [o]). split; [apply Forall_app; split; [exact HT|now constructor]|exact P].
        * set (z := c :: d) in *. assert (L : (0 < length z)%nat) by (cbn; lia). specialize (P _ L). rewrite firstn_all in P. clearbody z.
          destruct (IH _ _ _ (acc ++ z) (HT1 _ L) P) as (r' & l & E1 & Q); [rewrite app_length; cbn; lia|]. exists r', (z ++ l). split; [now rewrite E1, app_assoc|].
          destruct Q as [(l0 & os' & -> & Q1 & Q2 & Q3 & Q4)|(Q1 & Q2 & Q3)].
          -- left. exists (z ++ l0), os'. split; [now rewrite app_assoc|]. split; [intros Z; apply in_app_iff in Z as [Z|Z]; contradiction|]. rewrite app_length in Q2. cbn in Q2.
             split; [lia|]. split; [exact Q3|]. now rewrite app_assoc.
          -- right. split; [intros Z; apply in_app_iff in Z as [Z|Z]; contradiction|]. split; [now rewrite app_assoc|exact Q3].
    - destruct (IH _ _ _ acc (HT1 1%nat ltac:(auto)) P) as (r' & l & E1 & Q); [rewrite app_length; cbn; lia|]. exists r', l. split; [exact E1|].
      destruct Q as [(l0 & os' & -> & Q1 & Q2 & Q3 & Q4)|Q]; [left|right; exact Q]. exists l0, os'. rewrite app_length in Q2. cbn in Q2. repeat split; auto. lia.
  Qed.

  (** A reader at its end stays there, or the last line is complete. *)
  Hypothesis Hend : p = [] \/ (exists q, p = q ++ [LF]) \/
    forall os r out, Forall takes os -> steps ev os r0 = (r, out, Ended) -> exists r', rdr_fill ev r = (r', POk []).

  Lemma lines_run : forall m fuel os r out, Forall takes os -> steps ev os r0 = (r, out, Going) -> (bound < m + length os)%nat -> (bound < fuel)%nat ->
    exists r' ls rest, lines_go (S m) fuel ev r = (r', ROk ls) /\ p = out ++ rest /\ lines_of rest ls.
  Proof.
    induction m as [|m IH]; intros fuel os r out HT H HM HF.
    { pose proof (Hsteps _ _ _ _ HT H) as [_ L]. lia. }
    cbn [lines_go]. destruct (line_run fuel os r out [] HT H ltac:(lia)) as (r1 & l & E & Q). rewrite E. cbn [app].
    destruct Q as [(l0 & os' & -> & Q1 & Q2 & Q3 & Q4)|(Q1 & Q2 & os' & Q3 & Q4)].
    - destruct (IH fuel os' r1 _ Q3 Q4 ltac:(lia) HF) as (r' & ls & rest & E1 & -> & HL). cbn [lines_go] in E1.
      exists r', ((l0 ++ [LF]) :: ls), (l0 ++ LF :: rest). assert (NE : exists c x, l0 ++ [LF] = c :: x) by (destruct l0; cbn; eauto). destruct NE as (c & x & NE).
      split; [|split; [now rewrite <- !app_assoc|now constructor]].
      rewrite NE. cbn [lines_go]. rewrite E1. reflexivity.
    - destruct l as [|c x]; [exists r1, [], []; split; [reflexivity|split; [now symmetry|constructor]]|].
      destruct Hend as [->|[(q & ->)|HE]].
      + destruct out; discriminate.
      + exfalso. apply Q1. clear - Q2. destruct (exists_last (l := c :: x) ltac:(discriminate)) as (y & z & E). rewrite E, app_assoc in Q2. apply app_inj_tail in Q2 as [_ ->]. rewrite E. apply in_or_app. right. now left.
      + destruct (HE _ _ _ Q3 Q4) as (r2 & E2). exists r2, [c :: x], (c :: x). split; [|split; [now symmetry|constructor; [discriminate|exact Q1]]].
        destruct fuel as [|fuel]; [lia|]. cbn [lines_go line_go]. rewrite E2. reflexivity.
  Qed.

  Lemma lines_all : exists ls, lines_of p ls /\ settles (fun fuel => snd (body_lines fuel ev r0)) (ROk ls).
  Proof.
    destruct (lines_run (S bound) (S (S bound)) [] r0 [] (Forall_nil _) eq_refl ltac:(cbn; lia) ltac:(lia)) as (r' & ls & rest & _ & E0 & HL). cbn [app] in E0. subst rest.
    exists ls. split; [exact HL|]. exists (S (S bound)). intros fuel LF. unfold body_lines. destruct fuel as [|fuel]; [lia|].
    destruct (lines_run fuel (S fuel) [] r0 [] (Forall_nil _) eq_refl ltac:(cbn; lia) ltac:(lia)) as (r2 & ls2 & rest & E & E2 & HL2). rewrite E. cbn [snd app] in *. subst rest. f_equal.
    exact (lines_unique _ _ _ HL2 HL).
  Qed.
End Lines.
