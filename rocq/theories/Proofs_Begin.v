(** What a send has written so far, against the head of its response. *)
From Verif Require Import ServerEnc SpecHead SpecResponse Lemmas Proofs_Copy Proofs_ServerEnc Proofs_Head Proofs_Send.

Lemma prefix_compare {A} (a b l : list A) : prefix a l -> prefix b l -> prefix a b \/ prefix b a.
Proof.
  intros [x Hx] [y Hy]. revert b y l x Hx Hy. induction a as [|c a IH]; intros b y l x Hx Hy; [left; now exists b|].
  destruct b as [|d b]; [right; now exists (c :: a)|]. subst l. cbn [app] in Hy. injection Hy as <- Hy.
  destruct (IH b y (a ++ x) x eq_refl Hy) as [[z Z]|[z Z]]; [left|right]; exists z; now rewrite Z.
Qed.

(** ** The copy of a reader that has yet to yield [rem e] *)
Section Yet.
  Context {E : Type} (poll : E -> E * pres bytes) (inv : E -> Prop) (rem : E -> bytes).
  Hypothesis step : forall e e' r, inv e -> poll e = (e', r) ->
    match r with
    | POk x => inv e' /\ (exists y, x ++ rem e' = rem e ++ y) /\ (x = [] -> rem e = [])
    | PPend _ => inv e' /\ rem e = []
    | _ => True
    end.

  Lemma copy_yet fuel : forall e bb w amt w' x, inv e -> copy_go poll fuel e bb w amt = (w', x) ->
    exists p, w_out w' = w_out w ++ p /\ (prefix p (bb ++ rem e) \/ prefix (bb ++ rem e) p) /\ forall k, x = ROk k -> prefix (bb ++ rem e) p.
  Proof.
    assert (Z : forall (w : wtr) (l : bytes), exists p, w_out w = w_out w ++ p /\ (prefix p l \/ prefix l p) /\ forall k : N, @RErr N = ROk k -> prefix l p).
    { intros w l. exists []. rewrite app_nil_r. split; [reflexivity|]. split; [left; apply prefix_nil|discriminate]. }
    induction fuel as [|fuel IH]; intros e bb w amt w' x I H; cbn [copy_go] in H.
    { injection H as <- <-. exists []. rewrite app_nil_r. split; [reflexivity|]. split; [left; apply prefix_nil|discriminate]. }
    destruct bb as [|c bb].
    - destruct (poll e) as [e' r] eqn:P. pose proof (step _ _ _ I P) as S1. cbn [app]. destruct r as [d|f| | |].
      + destruct S1 as (I' & (y & Hy) & Hx). destruct d as [|d0 d].
        * rewrite (Hx eq_refl). destruct (w_flush w) as [w1 r1] eqn:W.
          assert (O : w_out w1 = w_out w) by (unfold w_flush in W; destruct (w_evs w) as [|[| |]]; injection W as <- <-; reflexivity).
          destruct r1 as [k|g|].
          -- injection H as <- <-. exists []. rewrite app_nil_r. split; [exact O|]. split; [left; apply prefix_nil|intros; apply prefix_nil].
          -- destruct (IH _ _ _ _ _ _ I' H) as (p & Hp & _). exists p. rewrite <- O. split; [exact Hp|]. split; [right; apply prefix_nil|intros; apply prefix_nil].
          -- injection H as <- <-. exists []. rewrite app_nil_r. split; [exact O|]. split; [left; apply prefix_nil|discriminate].
        * destruct (IH _ _ _ _ _ _ I' H) as (p & Hp & C & K). rewrite Hy in C, K. exists p. split; [exact Hp|]. split.
          -- destruct C as [C|C]; [apply (prefix_compare p (rem e) (rem e ++ y) C); apply prefix_app_r|right; eapply prefix_trans; [apply prefix_app_r|exact C]].
          -- intros k E1. eapply prefix_trans; [apply prefix_app_r|exact (K k E1)].
      + destruct S1 as (I' & ->). destruct (IH _ _ _ _ _ _ I' H) as (p & Hp & _). exists p. split; [exact Hp|]. split; [right; apply prefix_nil|intros; apply prefix_nil].
      + injection H as <- <-. apply Z.
      + injection H as <- <-. destruct (Z w (rem e)) as (p & Hp & C & _). exists p. split; [exact Hp|]. split; [exact C|discriminate].
      + injection H as <- <-. destruct (Z w (rem e)) as (p & Hp & C & _). exists p. split; [exact Hp|]. split; [exact C|discriminate].
    - set (b := c :: bb) in *. destruct (w_write b w) as [w1 r1] eqn:W. unfold w_write in W.
      assert (D : forall k, r1 = WrOk k -> w_out w1 = w_out w ++ firstn k b).
      { intros k ->. destruct (w_evs w) as [|[j|g|] l]; try discriminate W; injection W as <- E1; cbn [w_out]; f_equal; subst k.
        - symmetry. change (S (length bb)) with (length b). apply firstn_all.
        - reflexivity. }
      assert (D2 : (forall k, r1 <> WrOk k) -> w_out w1 = w_out w).
      { intros N. destruct (w_evs w) as [|[j|g|] l]; injection W as <- <-; try reflexivity; elim (N _ eq_refl). }
      destruct r1 as [[|k]|g|].
      + injection H as <- <-. pose proof (D 0%nat eq_refl) as O. cbn [firstn] in O. exists []. split; [exact O|]. split; [left; apply prefix_nil|discriminate].
      + destruct (IH _ _ _ _ _ _ I H) as (p & Hp & C & K). rewrite (D (S k) eq_refl) in Hp. exists (firstn (S k) b ++ p).
        assert (X : b ++ rem e = firstn (S k) b ++ skipn (S k) b ++ rem e) by now rewrite app_assoc, firstn_skipn.
        rewrite X. split; [now rewrite Hp, app_assoc|]. split.
        * destruct C as [C|C]; [left|right]; now apply prefix_app.
        * intros m E1. apply prefix_app. exact (K m E1).
      + destruct (IH _ _ _ _ _ _ I H) as (p & Hp & C & K). rewrite D2 in Hp by discriminate. now exists p.
      + injection H as <- <-. exists []. rewrite app_nil_r. split; [apply D2; discriminate|]. split; [left; apply prefix_nil|discriminate].
  Qed.
End Yet.

(** ** The encoder *)
Definition headless (en : enc) : Prop := en_state en <> EStart /\ en_state en <> EHead.
Lemma fixed_out ev n f : forall en out en' r, headless en -> enc_fixed f ev en out n = (en', r) ->
  match r with POk x => headless en' /\ prefix out x | PPend _ => headless en' /\ out = [] | _ => True end.
Proof.
  induction f as [|f IH]; intros en out en' r I H; cbn [enc_fixed] in H; [injection H as <- <-; exact Logic.I|].
  destruct (length out =? n)%nat; [injection H as <- <-; split; [exact I|apply prefix_refl]|].
  destruct (en_cl en) as [cl|]; [|injection H as <- <-; exact Logic.I].
  destruct (upper_arith _ _ _ _) as [u|]; [|injection H as <- <-; exact Logic.I].
  destruct (_ <? length out)%nat; [injection H as <- <-; exact Logic.I|].
  destruct (src_read _ _) as [s' [d|g| | |]].
  - destruct (cl =? _)%N.
    + injection H as <- <-. split; [split; cbn; discriminate|apply prefix_app_r].
    + apply IH in H; [|exact I]. destruct r; try exact H.
      * destruct H as [H1 H2]. split; [exact H1|]. eapply prefix_trans; [apply prefix_app_r|exact H2].
      * destruct H as [H1 H2]. split; [exact H1|]. now apply app_eq_nil in H2.
  - destruct out as [|c out]; injection H as <- <-; (split; [exact I|]); [reflexivity|apply prefix_refl].
  - injection H as <- <-. exact Logic.I.
  - injection H as <- <-. exact Logic.I.
  - injection H as <- <-. exact Logic.I.
Qed.
Lemma chunked_out ev n en out en' r : headless en -> enc_chunked ev en out n = (en', r) ->
  match r with POk x => headless en' /\ prefix out x | PPend _ => headless en' /\ out = [] | _ => True end.
Proof.
  intros I H. unfold enc_chunked in H. destruct (cenc_poll _ _ _ _ _) as [[c s] q].
  destruct q as [d|g| | |]; injection H as <- <-; try exact Logic.I.
  - split; [destruct d; [destruct out|]; (exact I || (split; cbn; discriminate))|apply prefix_app_r].
  - destruct out; (split; [exact I|]); [reflexivity|apply prefix_refl].
Qed.

(** Bytes of the head that have yet to be yielded. *)
Definition head_left (ev : env) (en : enc) : bytes :=
  match en_state en with
  | EStart => head_text ev (en_resp en)
  | EHead => skipn (en_headread en) (en_head en)
  | _ => []
  end.
Definition head_inv (en : enc) : Prop :=
  match en_state en with
  | EStart => en_head en = [] /\ en_headread en = 0%nat
  | EHead => (en_headread en < length (en_head en))%nat
  | _ => True
  end.
Lemma headless_left ev en : headless en -> head_inv en /\ head_left ev en = [].
Proof. unfold headless, head_inv, head_left. intros [H1 H2]. destruct (en_state en); tauto. Qed.

Lemma head_yet F ev n en en' r : (0 < n)%nat -> en_state en = EHead -> head_inv en -> enc_head F ev en n = (en', r) ->
  match r with
  | POk x => head_inv en' /\ (exists y, x ++ head_left ev en' = skipn (en_headread en) (en_head en) ++ y) /\ (x = [] -> skipn (en_headread en) (en_head en) = [])
  | PPend _ => head_inv en' /\ skipn (en_headread en) (en_head en) = []
  | _ => True
  end.
Proof.
  intros Hn ES I H. unfold head_inv in I. rewrite ES in I. unfold enc_head in H. set (h := en_headread en) in *. set (T := en_head en) in *.
  destruct (h + Nat.min (length T - h) n =? length T)%nat eqn:EQ.
  - apply Nat.eqb_eq in EQ. replace (firstn (Nat.min (length T - h) n) (skipn h T)) with (skipn h T) in H
      by (symmetry; apply firstn_all2; rewrite skipn_length; lia).
    assert (NE : skipn h T <> []) by (intros X; apply (f_equal (@length _)) in X; rewrite skipn_length in X; cbn in X; lia).
    assert (G : forall q, match q with POk x => headless en' /\ prefix (skipn h T) x | PPend _ => headless en' /\ skipn h T = [] | _ => True end ->
      match q with POk x => head_inv en' /\ (exists y, x ++ head_left ev en' = skipn h T ++ y) /\ (x = [] -> skipn h T = []) | PPend _ => head_inv en' /\ skipn h T = [] | _ => True end).
    { intros q Q. destruct q as [x|g| | |]; try exact Logic.I.
      - destruct Q as [Q [y Y]]. destruct (headless_left ev _ Q) as [Q1 ->]. split; [exact Q1|]. split; [exists y; now rewrite app_nil_r|].
        intros ->. symmetry in Y. now apply app_eq_nil in Y.
      - destruct Q as [_ Q]. now elim NE. }
    apply G. destruct (en_cl en); [eapply fixed_out|eapply chunked_out]; try exact H; split; cbn; discriminate.
  - apply Nat.eqb_neq in EQ. replace (Nat.min (length T - h) n) with n in H by lia. injection H as <- <-.
    split; [unfold head_inv; cbn [en_state en_headread en_head]; rewrite ES; fold T; lia|]. unfold head_left. cbn [en_state en_headread en_head]. rewrite ES. split.
    + exists []. rewrite app_nil_r, <- skipn_skipn', firstn_skipn. reflexivity.
    + intros X. apply (f_equal (@length _)) in X. rewrite firstn_length, skipn_length in X. cbn in X. lia.
Qed.
Lemma poll_yet F ev n en en' r : (0 < n)%nat -> head_inv en -> enc_poll F ev n en = (en', r) ->
  match r with
  | POk x => head_inv en' /\ (exists y, x ++ head_left ev en' = head_left ev en ++ y) /\ (x = [] -> head_left ev en = [])
  | PPend _ => head_inv en' /\ head_left ev en = []
  | _ => True
  end.
Proof.
  intros Hn I H. pose proof (eq_refl (head_left ev en)) as L. unfold head_left at 2 in L. unfold enc_poll in H. destruct (en_state en) eqn:ES; cbv iota in L; rewrite L.
  - unfold enc_start in H. unfold head_inv in I. rewrite ES in I. destruct I as [I1 I2]. apply head_yet in H; [|exact Hn|reflexivity|].
    + cbn [en_headread en_head] in H. rewrite I1, I2 in H. cbn [app skipn] in H. exact H.
    + unfold head_inv. cbn [en_state en_headread en_head]. rewrite I1, I2. apply head_text_pos.
  - apply head_yet in H; [|assumption..]. exact H.
  - assert (Q : headless en) by (split; rewrite ES; discriminate). apply fixed_out in H; [|exact Q].
    destruct r as [x|g| | |]; try exact Logic.I; destruct H as [H H2]; destruct (headless_left ev _ H) as [H1 E]; [|auto]. split; [exact H1|]. split; [exists x; rewrite E; apply app_nil_r|reflexivity].
  - assert (Q : headless en) by (split; rewrite ES; discriminate). apply chunked_out in H; [|exact Q].
    destruct r as [x|g| | |]; try exact Logic.I; destruct H as [H H2]; destruct (headless_left ev _ H) as [H1 E]; [|auto]. split; [exact H1|]. split; [exists x; rewrite E; apply app_nil_r|reflexivity].
  - injection H as <- <-. unfold head_left. rewrite ES. split; [exact I|]. split; [now exists []|reflexivity].
Qed.

Theorem send_opens ev r : (0 < e_bufcap ev)%nat -> sent_under ev r (head_text ev r).
Proof.
  intros Hn w fuel w' x H. unfold send in H.
  destruct (copy_yet (enc_poll fuel ev (e_bufcap ev)) head_inv (head_left ev) (fun e e' q => poll_yet fuel ev _ e e' q Hn) fuel (enc_new r) _ _ _ _ _ (conj eq_refl eq_refl) H) as (p & Q). now exists p.
Qed.
