(** The head loop of the server ([req_head] of ServerDec.v) against SpecReq.v. *)
From Verif Require Import ServerDec SpecReq Lemmas Proofs_Buf.

(** [win tmo l2 b l k]: before reaching the events [l2], the reader [b] offers the bytes [l] and
    then meets [k]. *)
Definition win (tmo : bool) (l2 : list ev) (b : brd) (l : bytes) (k : obstacle) : Prop :=
  exists l1, s_evs (br_src b) = l1 ++ l2 /\ l = br_buf b ++ fst (avail tmo l1) /\ k = snd (avail tmo l1).

Lemma avail_data tmo d r : avail tmo (Data d :: r) = (d ++ fst (avail tmo r), snd (avail tmo r)).
Proof. cbn [avail]. now destruct (avail tmo r). Qed.

Lemma fill_win tmo l2 b b' r l k : wf_brd b -> win tmo l2 b l k -> l <> [] -> br_fill b = (b', r) ->
  wf_brd b' /\ win tmo l2 b' l k /\ br_data b' = br_data b /\ br_cap b' = br_cap b /\
  s_tail (br_src b') = s_tail (br_src b) /\
  ((exists d, r = POk d /\ d <> [] /\ br_buf b' = d /\ prefix d l /\ (br_size b' <= br_size b)%nat) \/
   (exists f, r = PPend f /\ (tmo && f = false)%bool /\ (br_size b' < br_size b)%nat)).
Proof.
  intros [Wb Cb] (l1 & E1 & -> & ->) Hne. unfold br_fill. destruct (br_buf b) as [|c0 buf] eqn:EB.
  2:{ intros [= <- <-]. split; [now split|]. split; [exists l1; rewrite EB; auto|]. ands; auto. left.
      exists (c0 :: buf). rewrite EB. ands; try easy. apply prefix_app_r. }
  cbn [app] in *. destruct l1 as [|e l1]; [now elim Hne|].
  unfold src_read. rewrite E1. cbn [app].
  unfold wf_src in Wb. rewrite E1 in Wb. cbn [app] in Wb. inversion Wb as [|? ? We Wr]; subst.
  destruct e as [d|f|].
  - rewrite avail_data in *. cbn [fst snd] in *. intros [= <- <-].
    assert (Hd : d <> []) by (intros ->; now apply We).
    assert (Hf : firstn (br_cap b) d <> []).
    { destruct (br_cap b), d; try lia; try congruence; cbn; discriminate. }
    split; [|split; [|split; [|split; [|split]]]]; cbn [br_src br_cap br_buf s_tail s_evs]; auto.
    + split; [|assumption]. unfold wf_src. cbn [s_evs br_src].
      destruct (skipn (br_cap b) d) eqn:ES; [assumption|]. constructor; [discriminate|assumption].
    + destruct (skipn (br_cap b) d) as [|c1 d1] eqn:ES.
      * exists l1. cbn [br_src s_evs br_buf]. ands; auto. rewrite firstn_all2; [reflexivity|]. now apply skipn_nil_iff.
      * exists (Data (c1 :: d1) :: l1). rewrite avail_data. cbn [br_src s_evs br_buf fst snd]. ands; auto.
        rewrite app_assoc. f_equal. rewrite <- ES. symmetry. apply firstn_skipn.
    + unfold br_data, src_data. cbn [br_buf br_src s_evs]. rewrite E1, EB. cbn [app evs_data].
      pose proof (firstn_skipn (br_cap b) d). destruct (skipn (br_cap b) d) eqn:ES.
      * rewrite app_nil_r in H. now rewrite H.
      * cbn [evs_data]. rewrite app_assoc. now rewrite H.
    + left. exists (firstn (br_cap b) d). ands; auto.
      * eapply prefix_trans; [apply prefix_firstn|apply prefix_app_r].
      * unfold br_size, src_size. cbn [br_buf br_src s_evs]. rewrite E1, EB. cbn [app evs_size length].
        pose proof (firstn_skipn (br_cap b) d) as H. apply (f_equal (@length _)) in H. rewrite app_length in H.
        destruct (skipn (br_cap b) d) eqn:ES; cbn [evs_size length] in *; lia.
  - intros [= <- <-]. cbn [avail] in *. destruct (tmo && f)%bool eqn:TF; [now elim Hne|].
    split; [now split|]. split; [exists l1; cbn; auto|]. split; [|split; [|split]]; cbn; auto.
    + unfold br_data, src_data. cbn. now rewrite E1, EB.
    + right. exists f. ands; auto. unfold br_size, src_size. cbn. rewrite E1. cbn. lia.
  - now elim Hne.
Qed.

(** A reader that has nothing to offer before its obstacle. *)
Definition stopped (tmo : bool) (b b' : brd) {A} (k : obstacle) (r : rres A) : Prop :=
  match k with
  | ObTimer => r = RTimeout
  | ObFail => r = RErr
  | ObEnd => if match s_tail (br_src b) with Eof => true | FailForever => false end
             then exists a, r = ROk a /\ s_evs (br_src b') = [] /\ br_buf b' = [] else r = RErr
  end.

Lemma fill_win_end tmo b b' r k : wf_brd b -> win tmo [] b [] k -> br_fill b = (b', r) ->
  wf_brd b' /\ br_cap b' = br_cap b /\ s_tail (br_src b') = s_tail (br_src b) /\ br_buf b' = [] /\
  ((exists f, r = PPend f /\ (tmo && f = false)%bool /\ win tmo [] b' [] k /\ (br_size b' < br_size b)%nat) \/
   (exists f, r = PPend f /\ (tmo && f = true)%bool /\ k = ObTimer) \/
   (r = PErr /\ k = ObFail) \/
   (r = PErr /\ k = ObEnd /\ s_evs (br_src b') = [] /\ s_tail (br_src b) = FailForever) \/
   (r = POk [] /\ k = ObEnd /\ s_evs (br_src b') = [] /\ s_tail (br_src b) = Eof)).
Proof.
  intros [Wb Cb] (l1 & E1 & E2 & ->). rewrite app_nil_r in E1. unfold br_fill.
  symmetry in E2. apply app_eq_nil in E2 as [EB E2]. rewrite EB. unfold src_read.
  unfold wf_src in Wb. rewrite E1 in *.
  destruct l1 as [|[d|f|] l1].
  - destruct (s_tail (br_src b)) eqn:ET; intros [= <- <-]; cbn.
    + ands; auto. { split; cbn; auto. unfold wf_src. now rewrite E1. } repeat right. auto.
    + ands; auto. { split; cbn; auto. unfold wf_src. now rewrite E1. } right; right; right; left. auto.
  - exfalso. rewrite avail_data in E2. cbn in E2. inversion Wb; subst. destruct d; [now apply H1|discriminate].
  - inversion Wb; subst. intros [= <- <-]. cbn [avail] in *. destruct (tmo && f)%bool eqn:TF; cbn.
    + ands; auto. { now split. } right; left. eauto.
    + ands; auto. { now split. } left. exists f. ands; auto.
      * exists l1. cbn. rewrite app_nil_r. auto.
      * unfold br_size, src_size. cbn. rewrite E1. cbn. lia.
  - inversion Wb; subst. intros [= <- <-]. cbn. ands; auto 6. now split.
Qed.

(** ** [read_until] *)
Lemma split_after_app c (a b : bytes) : split_after c (a ++ b) =
  match split_after c a with
  | Some (p, q) => Some (p, q ++ b)
  | None => match split_after c b with Some (p, q) => Some (a ++ p, q) | None => None end
  end.
Proof.
  induction a as [|x a IH]; cbn; [destruct (split_after c b) as [[? ?]|]; reflexivity|].
  destruct (Ascii.eqb x c); [reflexivity|]. rewrite IH. destruct (split_after c a) as [[? ?]|]; [reflexivity|].
  destruct (split_after c b) as [[? ?]|]; reflexivity.
Qed.
Lemma split_after_eq c l p q : split_after c l = Some (p, q) -> l = p ++ q /\ exists r, p = r ++ [c] /\ ~ In c r.
Proof.
  revert p q. induction l as [|x l IH]; intros p q; cbn; [discriminate|]. destruct (Ascii.eqb_spec x c) as [->|N].
  - intros [= <- <-]. split; [reflexivity|]. exists []. auto.
  - destruct (split_after c l) as [[p' q']|]; [|discriminate]. intros [= <- <-].
    destruct (IH _ _ eq_refl) as (-> & r & -> & Hr). split; [reflexivity|]. exists (x :: r). split; [reflexivity|].
    intros [?|?]; congruence.
Qed.
Lemma split_after_none c l : split_after c l = None <-> ~ In c l.
Proof.
  induction l as [|x l IH]; cbn; [easy|]. destruct (Ascii.eqb_spec x c) as [->|N]; [split; [easy|intros H; elim H; now left]|].
  destruct (split_after c l) as [[? ?]|]; split; intros; try easy; try (intros [?|?]; [congruence|now apply IH]).
  elim H. right. destruct IH as [_ IH]. destruct (in_dec Ascii.ascii_dec c l); [assumption|]. now specialize (IH n).
Qed.

Lemma consume_win tmo l2 b l k n : win tmo l2 b l k -> (n <= length (br_buf b))%nat ->
  win tmo l2 (br_consume n b) (skipn n l) k.
Proof.
  intros (l1 & E1 & -> & ->) Hn. exists l1. cbn. ands; auto. now rewrite skipn_app_l.
Qed.
Lemma consume_wf b n : wf_brd b -> wf_brd (br_consume n b).
Proof. intros [? ?]. now split. Qed.
Lemma consume_data b n : (n <= length (br_buf b))%nat -> br_data b = firstn n (br_buf b) ++ br_data (br_consume n b).
Proof. intros. unfold br_data. cbn. now rewrite app_assoc, firstn_skipn. Qed.
Lemma consume_size b n : (n <= length (br_buf b))%nat -> (br_size (br_consume n b) + n = br_size b)%nat.
Proof. intros. unfold br_size. cbn. rewrite skipn_length. lia. Qed.

(** With a whole line available the result is that line. *)
Lemma until_line tmo l2 fuel : forall b l k p q acc b' r, (br_size b < fuel)%nat -> wf_brd b -> win tmo l2 b l k ->
  split_after LF l = Some (p, q) -> read_until_go fuel tmo b acc = (b', r) ->
  r = ROk (acc ++ p) /\ wf_brd b' /\ win tmo l2 b' q k /\ br_data b = p ++ br_data b' /\ br_cap b' = br_cap b /\
  s_tail (br_src b') = s_tail (br_src b) /\ (br_size b' + length p <= br_size b)%nat.
Proof.
  induction fuel as [|fuel IH]; intros b l k p q acc b' r Hf Wb Hw Hs; [lia|]. cbn [read_until_go].
  destruct (br_fill b) as [b1 r1] eqn:EF.
  assert (Hne : l <> []) by (intros ->; discriminate).
  destruct (fill_win _ _ _ _ _ _ _ Wb Hw Hne EF) as (W1 & Hw1 & D1 & C1 & T1 & [(d & -> & Hd & B1 & P1 & S1)|(f & -> & TF & S1)]).
  - destruct P1 as [y ->]. rewrite split_after_app in Hs. destruct (split_after LF d) as [[p1 q1]|] eqn:ED.
    + injection Hs as <- <-. destruct (split_after_eq _ _ _ _ ED) as (-> & _). intros [= <- <-].
      assert (Hle : (length p1 <= length (br_buf b1))%nat) by (rewrite B1, app_length; lia).
      split; [reflexivity|]. split; [now apply consume_wf|]. split.
      { pose proof (consume_win _ _ _ _ _ _ Hw1 Hle) as H. rewrite <- app_assoc in H.
        rewrite skipn_app, skipn_all, Nat.sub_diag in H. exact H. }
      split; [|split; [exact C1|split; [exact T1|]]].
      * rewrite <- D1, (consume_data b1 (length p1) Hle), B1. rewrite firstn_app, firstn_all, Nat.sub_diag. cbn. now rewrite app_nil_r.
      * pose proof (consume_size b1 _ Hle). lia.
    + destruct (split_after LF y) as [[p1 q1]|] eqn:EY; [|discriminate]. injection Hs as <- <-.
      destruct d as [|c d]; [easy|]. set (dd := c :: d) in *. intros H.
      assert (Hle : (length dd <= length (br_buf b1))%nat) by (rewrite B1; lia).
      assert (Hl : (0 < length dd)%nat) by (cbn; lia).
      pose proof (consume_size b1 _ Hle) as HC.
      assert (HF : (br_size (br_consume (length dd) b1) < fuel)%nat) by lia.
      pose proof (consume_win _ _ _ _ _ _ Hw1 Hle) as H2. rewrite skipn_app, skipn_all, Nat.sub_diag in H2. cbn [app skipn] in H2.
      destruct (IH _ _ _ _ _ _ _ _ HF (consume_wf _ _ W1) H2 EY H) as (-> & W2 & Hw2 & D2 & C2 & T2 & S2).
      split; [now rewrite app_assoc|]. ands; auto.
      * rewrite <- D1, (consume_data b1 _ Hle), B1, firstn_all, D2. now rewrite app_assoc.
      * cbn in *. congruence.
      * cbn in *. congruence.
      * rewrite app_length. lia.
  - rewrite TF. intros H.
    destruct (IH b1 _ _ _ _ _ _ _ ltac:(lia) W1 Hw1 Hs H) as (-> & W2 & Hw2 & D2 & C2 & T2 & S2).
    ands; auto; try congruence. lia.
Qed.

(** Without one, the obstacle decides. *)
Lemma until_end tmo fuel : forall b l k acc b' r, (br_size b < fuel)%nat -> wf_brd b -> win tmo [] b l k ->
  ~ In LF l -> read_until_go fuel tmo b acc = (b', r) ->
  wf_brd b' /\ br_cap b' = br_cap b /\ s_tail (br_src b') = s_tail (br_src b) /\ br_buf b' = [] /\
  match k with
  | ObTimer => r = RTimeout
  | ObFail => r = RErr
  | ObEnd => s_evs (br_src b') = [] /\
      match s_tail (br_src b) with Eof => r = ROk (acc ++ l) | FailForever => r = RErr end
  end.
Proof.
  induction fuel as [|fuel IH]; intros b l k acc b' r Hf Wb Hw Hs; [lia|]. cbn [read_until_go].
  destruct (br_fill b) as [b1 r1] eqn:EF. destruct l as [|c0 l0].
  - destruct (fill_win_end _ _ _ _ _ Wb Hw EF) as (W1 & C1 & T1 & B1 & [(f & -> & TF & Hw1 & S1)|[(f & -> & TF & ->)|[(-> & ->)|[(-> & -> & E1 & ET)|(-> & -> & E1 & ET)]]]]).
    + rewrite TF. intros H. destruct (IH b1 _ _ _ _ _ ltac:(lia) W1 Hw1 Hs H) as (W2 & C2 & T2 & B2 & K).
      rewrite T1 in *. ands; auto; congruence.
    + rewrite TF. intros [= <- <-]. ands; auto.
    + intros [= <- <-]. ands; auto.
    + intros [= <- <-]. ands; auto. now rewrite ET.
    + cbn. intros [= <- <-]. ands; auto. rewrite ET. now rewrite app_nil_r.
  - set (l := c0 :: l0) in *. assert (Hne : l <> []) by discriminate.
    destruct (fill_win _ _ _ _ _ _ _ Wb Hw Hne EF) as (W1 & Hw1 & D1 & C1 & T1 & [(d & -> & Hd & B1 & P1 & S1)|(f & -> & TF & S1)]).
    + destruct P1 as [y Ey]. assert (Hn : ~ In LF d) by (intros X; apply Hs; rewrite Ey; apply in_or_app; now left).
      apply split_after_none in Hn. rewrite Hn. destruct d as [|c d]; [easy|]. set (dd := c :: d) in *. intros H.
      assert (Hle : (length dd <= length (br_buf b1))%nat) by (rewrite B1; lia).
      assert (Hl : (0 < length dd)%nat) by (cbn; lia).
      pose proof (consume_size b1 _ Hle) as HC.
      assert (HF : (br_size (br_consume (length dd) b1) < fuel)%nat) by lia.
      pose proof (consume_win _ _ _ _ _ _ Hw1 Hle) as H2. rewrite Ey, skipn_app, skipn_all, Nat.sub_diag in H2. cbn [app skipn] in H2.
      assert (Hy : ~ In LF y) by (intros X; apply Hs; rewrite Ey; apply in_or_app; now right).
      destruct (IH _ _ _ _ _ _ HF (consume_wf _ _ W1) H2 Hy H) as (W2 & C2 & T2 & B2 & K).
      cbn [br_consume br_cap br_src] in *. rewrite <- app_assoc in K. rewrite Ey. rewrite T1 in K. ands; auto; congruence.
    + rewrite TF. intros H. destruct (IH b1 _ _ _ _ _ ltac:(lia) W1 Hw1 Hs H) as (W2 & C2 & T2 & B2 & K).
      rewrite T1 in K. ands; auto; congruence.
Qed.

(** ** Head blocks *)
Lemma head_end_iff w : head_end w <-> ends_with CRLF2 w = true.
Proof.
  unfold ends_with. rewrite andb_true_iff, Nat.leb_le, beq_eq. split.
  - intros [p ->]. change (CRLF ++ CRLF) with CRLF2. rewrite app_length. split; [lia|].
    rewrite Nat.add_sub, skipn_app, skipn_all, Nat.sub_diag. reflexivity.
  - intros [H E]. exists (firstn (length w - length CRLF2) w). rewrite <- (firstn_skipn (length w - length CRLF2) w) at 1.
    rewrite E. reflexivity.
Qed.
Lemma head_end_lf w : head_end w -> exists p, w = p ++ [LF].
Proof. intros [p ->]. exists (p ++ [CR; LF; CR]). now rewrite <- app_assoc. Qed.

(** The loop of [decode] over an input that contains a head block. *)
Lemma head_go_done tmo l2 fuel : forall b l k buf w rest b' r, (br_size b < fuel)%nat -> wf_brd b -> win tmo l2 b l k ->
  buf ++ l = w ++ rest -> head_block w -> (exists x, x <> [] /\ w = buf ++ x) -> read_head_go fuel tmo b buf = (b', r) ->
  r = HdDone w /\ wf_brd b' /\ win tmo l2 b' rest k /\ buf ++ br_data b = w ++ br_data b' /\ br_cap b' = br_cap b /\
  s_tail (br_src b') = s_tail (br_src b) /\ (br_size b' <= br_size b)%nat.
Proof.
  induction fuel as [|fuel IH]; intros b l k buf w rest b' r Hf Wb Hw El Hb (x & Hx & Ew); [lia|]. cbn [read_head_go].
  assert (El' : l = x ++ rest) by (rewrite Ew, <- app_assoc in El; now apply app_inv_head in El).
  assert (HL : In LF x).
  { destruct Hb as [HE _]. apply head_end_lf in HE as [p Hp]. destruct (exists_last Hx) as (x0 & c & ->).
    rewrite app_assoc in Ew. rewrite Ew in Hp. apply app_inj_tail in Hp as [_ ->]. apply in_or_app. right. now left. }
  destruct (split_after LF x) as [[p q]|] eqn:ES; [|apply split_after_none in ES; contradiction].
  assert (ES' : split_after LF l = Some (p, q ++ rest)) by (rewrite El', split_after_app, ES; reflexivity).
  unfold read_until. destruct (read_until_go (S (br_size b)) tmo b []) as [b1 r1] eqn:EU.
  destruct (until_line _ _ _ _ _ _ _ _ _ _ _ (Nat.lt_succ_diag_r _) Wb Hw ES' EU) as (-> & W1 & Hw1 & D1 & C1 & T1 & S1).
  cbn [app]. destruct (split_after_eq _ _ _ _ ES) as (-> & p0 & Ep & _).
  destruct p as [|c p']; [now destruct p0|]. set (p := c :: p') in *.
  assert (Hp : (0 < length p)%nat) by (cbn; lia).
  destruct (ends_with CRLF2 (buf ++ p)) eqn:EE.
  - assert (q = []) as ->.
    { destruct q as [|y q]; [reflexivity|]. exfalso. destruct Hb as [_ Hb]. apply (Hb (buf ++ p) (y :: q)); [|discriminate|].
      - now rewrite Ew, app_assoc.
      - now apply head_end_iff. }
    rewrite app_nil_r in Ew. intros [= <- <-]. rewrite <- Ew. ands; auto; try lia.
    now rewrite D1, app_assoc, <- Ew.
  - intros H. assert (Hq : q <> []).
    { intros ->. rewrite app_nil_r in Ew. destruct Hb as [HE _]. apply head_end_iff in HE. congruence. }
    destruct (IH b1 _ k (buf ++ p) w rest b' r ltac:(lia) W1 Hw1) as (-> & W2 & Hw2 & D2 & C2 & T2 & S2); auto.
    + rewrite <- El, El'. rewrite <- !app_assoc. reflexivity.
    + exists q. split; [assumption|]. now rewrite Ew, app_assoc.
    + ands; auto; try congruence; try lia. now rewrite D1, app_assoc.
Qed.

(** ... and over one that does not. *)
Lemma head_go_end tmo fuel : forall b l k buf b' r, (br_size b < fuel)%nat -> wf_brd b -> win tmo [] b l k ->
  no_head (buf ++ l) -> read_head_go fuel tmo b buf = (b', r) ->
  wf_brd b' /\ s_tail (br_src b') = s_tail (br_src b) /\
  match k with
  | ObTimer => r = HdTimeout
  | ObFail => r = HdLost
  | ObEnd => s_evs (br_src b') = [] /\
      match s_tail (br_src b) with Eof => r = HdNone | FailForever => r = HdLost end
  end.
Proof.
  induction fuel as [|fuel IH]; intros b l k buf b' r Hf Wb Hw Hn; [lia|]. cbn [read_head_go].
  unfold read_until. destruct (read_until_go (S (br_size b)) tmo b []) as [b1 r1] eqn:EU.
  destruct (split_after LF l) as [[p q]|] eqn:ES.
  - destruct (until_line _ _ _ _ _ _ _ _ _ _ _ (Nat.lt_succ_diag_r _) Wb Hw ES EU) as (-> & W1 & Hw1 & D1 & C1 & T1 & S1).
    destruct (split_after_eq _ _ _ _ ES) as (-> & p0 & Ep & _). cbn [app].
    destruct p as [|c p']; [now destruct p0|]. set (p := c :: p') in *.
    assert (Hp : (0 < length p)%nat) by (cbn; lia).
    destruct (ends_with CRLF2 (buf ++ p)) eqn:EE.
    { exfalso. apply (Hn (buf ++ p) q); [now rewrite app_assoc|]. now apply head_end_iff. }
    intros H. rewrite app_assoc in Hn. destruct (IH b1 _ k (buf ++ p) b' r ltac:(lia) W1 Hw1 Hn H) as (W2 & T2 & K).
    rewrite T1 in *. auto.
  - apply split_after_none in ES.
    destruct (until_end _ _ _ _ _ _ _ _ (Nat.lt_succ_diag_r _) Wb Hw ES EU) as (W1 & C1 & T1 & B1 & K).
    destruct k; [|subst r1; intros [= <- <-]; auto|subst r1; intros [= <- <-]; auto].
    destruct K as [K1 K2]. destruct (s_tail (br_src b)) eqn:ET; subst r1.
    + cbn [app]. destruct l as [|c l]; [intros [= <- <-]; auto|].
      destruct (ends_with CRLF2 (buf ++ c :: l)) eqn:EE.
      { exfalso. apply (Hn (buf ++ c :: l) []); [now rewrite app_nil_r|]. now apply head_end_iff. }
      intros H. assert (Hw1 : win tmo [] b1 [] ObEnd) by (exists []; rewrite K1, B1; auto).
      destruct (br_size b) eqn:EZ.
      { exfalso. destruct Hw as (l1 & E1 & E2 & _). unfold br_size, src_size in EZ. destruct (br_buf b); [|cbn in EZ; lia].
        rewrite app_nil_r in E1. rewrite E1 in EZ. destruct l1 as [|[?|?|] ?]; cbn in EZ; try lia. discriminate. }
      assert (Z1 : br_size b1 = 0%nat) by (unfold br_size, src_size; now rewrite B1, K1).
      destruct (IH b1 [] ObEnd _ b' r ltac:(lia) W1 Hw1 ltac:(rewrite app_nil_r; exact Hn) H) as (W2 & T2 & K).
      rewrite T1 in *. auto.
    + intros [= <- <-]. auto.
Qed.

(** A connection's input read from the start. *)
Lemma req_head_done tmo l1 l2 cap s w rest b' r : (0 < cap)%nat -> wf_src s -> s_evs s = l1 ++ l2 ->
  fst (avail tmo l1) = w ++ rest -> head_block w -> req_head tmo (br_new cap s) = (b', r) ->
  r = HdDone w /\ wf_brd b' /\ win tmo l2 b' rest (snd (avail tmo l1)) /\ src_data s = w ++ br_data b' /\
  br_cap b' = cap /\ s_tail (br_src b') = s_tail s /\ (br_size b' <= src_size s)%nat.
Proof.
  intros Hc Ws E1 EA Hb H. unfold req_head in H.
  assert (Hw : win tmo l2 (br_new cap s) (w ++ rest) (snd (avail tmo l1))) by (exists l1; cbn; auto).
  assert (Hx : w <> []) by (destruct Hb as [[p ->] _]; now destruct p).
  destruct (head_go_done _ _ _ _ _ _ [] w rest _ _ (Nat.lt_succ_diag_r _) (conj Ws Hc : wf_brd (br_new cap s)) Hw eq_refl Hb
    (ex_intro _ w (conj Hx eq_refl)) H) as (-> & W2 & Hw2 & D2 & C2 & T2 & S2).
  cbn in *. ands; auto.
Qed.

Lemma req_head_end tmo cap s b' r : (0 < cap)%nat -> wf_src s -> no_head (fst (avail tmo (s_evs s))) ->
  req_head tmo (br_new cap s) = (b', r) ->
  wf_brd b' /\ s_tail (br_src b') = s_tail s /\
  match snd (avail tmo (s_evs s)) with
  | ObTimer => r = HdTimeout
  | ObFail => r = HdLost
  | ObEnd => s_evs (br_src b') = [] /\ match s_tail s with Eof => r = HdNone | FailForever => r = HdLost end
  end.
Proof.
  intros Hc Ws Hn H. unfold req_head in H.
  assert (Hw : win tmo [] (br_new cap s) (fst (avail tmo (s_evs s))) (snd (avail tmo (s_evs s)))).
  { exists (s_evs s). cbn. rewrite app_nil_r. auto. }
  exact (head_go_end _ _ _ _ _ [] _ _ (Nat.lt_succ_diag_r _) (conj Ws Hc : wf_brd (br_new cap s)) Hw Hn H).
Qed.

(** Every input has a head block or none. *)
Lemma head_cases l : (exists w rest, l = w ++ rest /\ head_block w) \/ no_head l.
Proof.
  assert (G : forall n, (n <= length l)%nat ->
    (exists w rest, l = w ++ rest /\ head_block w) \/ (forall p q, l = p ++ q -> (length p <= n)%nat -> ~ head_end p)).
  { induction n as [|n IH]; intros Hn.
    - right. intros p q E Hp [x ->]. rewrite app_length in Hp. cbn in Hp. lia.
    - destruct (IH ltac:(lia)) as [H|H]; [now left|].
      destruct (ends_with CRLF2 (firstn (S n) l)) eqn:EE.
      + left. exists (firstn (S n) l), (skipn (S n) l). split; [symmetry; apply firstn_skipn|]. split; [now apply head_end_iff|].
        intros p q E Hq. apply (H p (q ++ skipn (S n) l)).
        * now rewrite app_assoc, <- E, firstn_skipn.
        * apply (f_equal (@length _)) in E. rewrite app_length, firstn_length_eq in E by assumption.
          destruct q; [easy|cbn in E; lia].
      + right. intros p q E Hp. destruct (Nat.eq_dec (length p) (S n)) as [HL|HL]; [|apply (H p q E); lia].
        intros X. apply head_end_iff in X. rewrite E, firstn_app, HL, Nat.sub_diag in EE. rewrite <- HL, firstn_all in EE.
        cbn in EE. rewrite app_nil_r in EE. congruence. }
  destruct (G (length l) (le_n _)) as [H|H]; [now left|right].
  intros p q E. apply (H p q E). rewrite E, app_length. lia.
Qed.
