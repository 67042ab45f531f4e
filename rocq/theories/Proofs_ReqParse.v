(** httparse's request parser (Httparse.v) accepts exactly the heads of SpecReq.v. *)
From Verif Require Import Httparse SpecChunked SpecReq Lemmas Proofs_Parse Proofs_Text.

Lemma nl_iff l r : parse_newline l = HDone r <-> exists nl, line_end nl /\ l = nl ++ r.
Proof.
  split.
  - destruct l as [|c l]; [discriminate|]. cbn [parse_newline]. destruct (Ascii.eqb_spec c CR) as [->|N].
    + destruct l as [|d l]; [discriminate|]. destruct (Ascii.eqb_spec d LF) as [->|]; [|discriminate].
      intros [= ->]. exists CRLF. split; [now left|reflexivity].
    + destruct (Ascii.eqb_spec c LF) as [->|]; [|discriminate]. intros [= ->]. exists [LF]. split; [now right|reflexivity].
  - intros (nl & [->| ->] & ->); reflexivity.
Qed.

Lemma nl_cons nl : line_end nl -> exists c t, nl = c :: t /\ (c = CR \/ c = LF).
Proof. intros [->| ->]; [exists CR, [LF]|exists LF, []]; auto. Qed.

Lemma value_char_iff c : value_char c <-> is_value_byte c = true.
Proof.
  unfold value_char, is_value_byte. rewrite orb_true_iff, andb_true_iff, negb_true_iff, N.leb_le, N.eqb_neq, N.eqb_eq.
  split; intros [H|H]; auto.
  - right. now subst.
  - right. apply bv_inj. exact H.
Qed.
Lemma nl_not_value c : c = CR \/ c = LF -> is_value_byte c = false.
Proof. intros [->| ->]; reflexivity. Qed.
Lemma nl_not_tchar c : c = CR \/ c = LF -> is_tchar c = false.
Proof. intros [->| ->]; reflexivity. Qed.

Lemma hp_value_iff l v r : hp_value l = HDone (v, r) <->
  exists nl, l = v ++ nl ++ r /\ Forall value_char v /\ line_end nl.
Proof.
  revert v r. induction l as [|c l IH]; intros v r.
  - split; [discriminate|]. intros (nl & E & _ & Hn). destruct (nl_cons _ Hn) as (x & t & -> & _). now destruct v.
  - cbn [hp_value]. unfold is_hp_value. destruct (is_value_byte c) eqn:EC.
    + split.
      * destruct (hp_value l) as [[v' r']| |] eqn:E; try discriminate. cbn. intros [= <- <-].
        destruct (proj1 (IH _ _) eq_refl) as (nl & -> & F & Hn). exists nl. ands; auto. constructor; [now apply value_char_iff|assumption].
      * intros (nl & E & F & Hn). destruct v as [|d v].
        { destruct (nl_cons _ Hn) as (x & t & -> & Hx). injection E as <- _. rewrite nl_not_value in EC by assumption. discriminate. }
        injection E as <- ->. inversion F; subst. destruct (IH v r) as [_ I].
        rewrite I by (exists nl; ands; auto). reflexivity.
    + split.
      * destruct (parse_newline (c :: l)) as [r'| |] eqn:E; try discriminate. intros H. cbn [hbind] in H. injection H as <- <-.
        apply nl_iff in E as (nl & Hn & E). exists nl. ands; auto.
      * intros (nl & E & F & Hn). destruct v as [|d v].
        { assert (P : parse_newline (c :: l) = HDone r) by (apply nl_iff; eauto). now rewrite P. }
        injection E as <- ->. inversion F; subst. apply value_char_iff in H1. congruence.
Qed.

Lemma hp_name_iff l n r : hp_name l = HDone (n, r) <-> l = n ++ [COLON] ++ r /\ Forall (fun c => is_tchar c = true) n.
Proof.
  revert n r. induction l as [|c l IH]; intros n r.
  - split; [discriminate|]. intros [E _]. now destruct n.
  - cbn [hp_name]. destruct (Ascii.eqb_spec c COLON) as [->|NC].
    + split.
      * intros [= <- <-]. auto.
      * intros [E F]. destruct n as [|d n]; [now injection E as <-|]. injection E as <- ->. inversion F; subst. discriminate.
    + destruct (is_tchar c) eqn:EC.
      * split.
        { destruct (hp_name l) as [[n' r']| |] eqn:E; try discriminate. cbn. intros [= <- <-].
          destruct (proj1 (IH _ _) eq_refl) as [-> F]. auto. }
        { intros [E F]. destruct n as [|d n]; [injection E as E _; congruence|]. injection E as <- ->. inversion F; subst.
          destruct (IH n r) as [_ I]. rewrite I by auto. reflexivity. }
      * split; [discriminate|]. intros [E F]. destruct n as [|d n]; [injection E as E _; congruence|].
        injection E as <- ->. inversion F; subst. congruence.
Qed.

Lemma hp_token_iff l m r : hp_token l = HDone (m, r) <-> l = m ++ [SP] ++ r /\ Forall (fun c => is_tchar c = true) m.
Proof.
  revert m r. induction l as [|c l IH]; intros n r.
  - split; [discriminate|]. intros [E _]. now destruct n.
  - cbn [hp_token]. destruct (Ascii.eqb_spec c SP) as [->|NC].
    + split.
      * intros [= <- <-]. auto.
      * intros [E F]. destruct n as [|d n]; [now injection E as <-|]. injection E as <- ->. inversion F; subst. discriminate.
    + destruct (is_tchar c) eqn:EC.
      * split.
        { destruct (hp_token l) as [[n' r']| |] eqn:E; try discriminate. cbn. intros [= <- <-].
          destruct (proj1 (IH _ _) eq_refl) as [-> F]. auto. }
        { intros [E F]. destruct n as [|d n]; [injection E as E _; congruence|]. injection E as <- ->. inversion F; subst.
          destruct (IH n r) as [_ I]. rewrite I by auto. reflexivity. }
      * split; [discriminate|]. intros [E F]. destruct n as [|d n]; [injection E as E _; congruence|].
        injection E as <- ->. inversion F; subst. congruence.
Qed.

Lemma hp_method_iff l m r : hp_method l = HDone (m, r) <-> l = m ++ [SP] ++ r /\ token m.
Proof.
  unfold hp_method, token; plain. destruct l as [|c l]; [split; [discriminate|intros [E _]; now destruct m]|].
  destruct (is_tchar c) eqn:EC.
  - rewrite hp_token_iff. split; [|intros (? & ? & ?); auto]. intros [E F]. ands; auto. intros ->. injection E as E _. subst. discriminate.
  - split; [discriminate|]. intros (E & N & F). destruct m as [|d m]; [easy|]. injection E as <- ->. inversion F; subst. congruence.
Qed.

Lemma target_char_iff c : target_char c <-> is_uri_tok c = true.
Proof. unfold target_char, is_uri_tok, in_range. lia. Qed.

Lemma hp_uri_iff l m r : hp_uri l = HDone (m, r) <-> l = m ++ [SP] ++ r /\ Forall target_char m.
Proof.
  revert m r. induction l as [|c l IH]; intros n r.
  - split; [discriminate|]. intros [E _]. now destruct n.
  - cbn [hp_uri]. destruct (Ascii.eqb_spec c SP) as [->|NC].
    + split.
      * intros [= <- <-]. auto.
      * intros [E F]. destruct n as [|d n]; [now injection E as <-|]. injection E as <- ->. inversion F; subst.
        apply target_char_iff in H1. discriminate.
    + destruct (is_uri_tok c) eqn:EC.
      * split.
        { destruct (hp_uri l) as [[n' r']| |] eqn:E; try discriminate. cbn. intros [= <- <-].
          destruct (proj1 (IH _ _) eq_refl) as [-> F]. split; [reflexivity|]. constructor; [now apply target_char_iff|assumption]. }
        { intros [E F]. destruct n as [|d n]; [injection E as E _; congruence|]. injection E as <- ->. inversion F; subst.
          destruct (IH n r) as [_ I]. rewrite I by auto. reflexivity. }
      * split; [discriminate|]. intros [E F]. destruct n as [|d n]; [injection E as E _; congruence|].
        injection E as <- ->. inversion F; subst. apply target_char_iff in H1. congruence.
Qed.

Lemma is_prefix_iff p l : is_prefix p l = true <-> exists r, l = p ++ r.
Proof.
  revert l. induction p as [|x p IH]; intros l; cbn; [split; eauto|]. destruct l as [|y l]; [split; [discriminate|intros [r E]; discriminate]|].
  rewrite andb_true_iff, Ascii.eqb_eq, IH. split.
  - intros (-> & r & ->). eauto.
  - intros [r [= -> ->]]. eauto.
Qed.

Lemma hp_version_iff l n r : hp_version l = HDone (n, r) <-> exists ver, version_minor n ver /\ l = ver ++ r.
Proof.
  unfold hp_version. split.
  - destruct (8 <=? length l)%nat; [|now destruct (is_prefix l _)].
    destruct (is_prefix (B "HTTP/1.1") l) eqn:E1.
    + apply is_prefix_iff in E1 as [x ->]. intros [= <- <-]. exists (B "HTTP/1.1"). split; [now left|reflexivity].
    + destruct (is_prefix (B "HTTP/1.0") l) eqn:E2; [|discriminate].
      apply is_prefix_iff in E2 as [x ->]. intros [= <- <-]. exists (B "HTTP/1.0"). split; [now right|reflexivity].
  - intros (ver & [[-> ->]|[-> ->]] & ->); reflexivity.
Qed.

Lemma skip_empty_iff l r : skip_empty_lines l = HDone r <->
  exists bl, blank_lines bl /\ l = bl ++ r /\ exists c t, r = c :: t /\ c <> CR /\ c <> LF.
Proof.
  split.
  - remember (length l) as n eqn:En. assert (Hn : (length l <= n)%nat) by lia. clear En. revert l r Hn.
    induction n as [|n IH]; intros l r Hn; [destruct l; [discriminate|cbn in Hn; lia]|].
    destruct l as [|c l]; [discriminate|]. cbn [skip_empty_lines]. destruct (Ascii.eqb_spec c CR) as [->|N1].
    + destruct l as [|d l]; [discriminate|]. destruct (Ascii.eqb_spec d LF) as [->|]; [|discriminate]. intros H.
      apply IH in H as (bl & Hb & -> & X); [|cbn in Hn; lia]. exists (CRLF ++ bl). split; [constructor; [now left|assumption]|]. split; [reflexivity|assumption].
    + destruct (Ascii.eqb_spec c LF) as [->|N2].
      * intros H. apply IH in H as (bl & Hb & -> & X); [|cbn in Hn; lia]. exists ([LF] ++ bl).
        split; [constructor; [now right|assumption]|]. split; [reflexivity|assumption].
      * intros [= <-]. exists []. split; [constructor|]. split; [reflexivity|]. eauto.
  - intros (bl & Hb & -> & c & t & -> & N1 & N2). induction Hb as [|nl l Hn Hb IH].
    + cbn [app skip_empty_lines]. apply Ascii.eqb_neq in N1, N2. now rewrite N1, N2.
    + destruct Hn as [->| ->]; exact IH.
Qed.

(** ** Fields *)
Lemma ows_iff c : ows c <-> is_ws c = true.
Proof. unfold ows, is_ws. rewrite orb_true_iff, !Ascii.eqb_eq. tauto. Qed.
Lemma skip_ws_split l : exists ws, l = ws ++ skip_ws l /\ Forall ows ws /\ (forall c r, skip_ws l = c :: r -> ~ ows c).
Proof.
  induction l as [|c l (ws & E & F & H)]; [exists []; cbn; ands; auto; discriminate|]. cbn [skip_ws].
  destruct (is_ws c) eqn:EC.
  - exists (c :: ws). rewrite E at 1. ands; auto. constructor; [now apply ows_iff|assumption].
  - exists []. ands; auto. intros d r [= -> _]. rewrite ows_iff. congruence.
Qed.
Lemma skip_ws_unique ws l : Forall ows ws -> (forall c r, l = c :: r -> ~ ows c) -> skip_ws (ws ++ l) = l.
Proof. exact (skip_ws_run ws l). Qed.
Lemma rtrim_split l : exists ws, l = rtrim_ws l ++ ws /\ Forall ows ws /\ (forall c r, rtrim_ws l = r ++ [c] -> ~ ows c).
Proof.
  unfold rtrim_ws. destruct (skip_ws_split (rev l)) as (ws & E & F & H). exists (rev ws). ands.
  - apply (f_equal (@rev _)) in E. rewrite rev_involutive, rev_app_distr in E. exact E.
  - now apply Forall_rev.
  - intros c r Er. apply (f_equal (@rev _)) in Er. rewrite rev_involutive, rev_app_distr in Er. now apply (H c (rev r)).
Qed.
Lemma rtrim_unique v ws : Forall ows ws -> (forall c r, v = r ++ [c] -> ~ ows c) -> rtrim_ws (v ++ ws) = v.
Proof.
  intros F H. unfold rtrim_ws. rewrite rev_app_distr, skip_ws_unique, rev_involutive; [reflexivity|now apply Forall_rev|].
  intros c r E. apply (f_equal (@rev _)) in E. rewrite rev_involutive in E. cbn in E. now apply (H c (rev r)).
Qed.

Lemma lfield_cons trim n v l : lfield trim n v l -> exists c t, l = c :: t /\ is_tchar c = true.
Proof.
  intros (ws & raw & ws2 & nl & -> & [Hn F] & _). destruct n as [|c n]; [easy|]. inversion F; subst. cbn. eauto.
Qed.

Lemma hp_headers_iff trim k : forall l hs r, hp_headers trim k l = HDone (hs, r) <->
  exists fw nl, l = fw ++ nl ++ r /\ lfields trim hs fw /\ line_end nl /\ (length hs <= k)%nat.
Proof.
  induction k as [|k IH]; intros l hs r; (split; [intros H|intros (fw & nl & E & LFS & Hn & Hk)]).
  - destruct l as [|c l]; [discriminate|]. cbn [hp_headers] in H. destruct (Ascii.eqb c CR || Ascii.eqb c LF).
    + destruct (parse_newline (c :: l)) as [r'| |] eqn:E; try discriminate. cbn [hbind] in H. injection H as <- <-.
      apply nl_iff in E as (nl & Hn & E). exists [], nl. ands; auto. constructor.
    + destruct (is_tchar c); discriminate.
  - destruct hs; [|cbn in Hk; lia]. inversion LFS; subst. cbn [app].
    assert (P : parse_newline (nl ++ r) = HDone r) by (apply nl_iff; eauto).
    destruct (nl_cons _ Hn) as (c & t & -> & Hc). cbn [app] in *. cbn [hp_headers].
    replace (Ascii.eqb c CR || Ascii.eqb c LF) with true by (destruct Hc as [->| ->]; reflexivity). now rewrite P.
  - destruct l as [|c l]; [discriminate|]. cbn [hp_headers] in H. destruct (Ascii.eqb c CR || Ascii.eqb c LF).
    + destruct (parse_newline (c :: l)) as [r'| |] eqn:E; try discriminate. cbn [hbind] in H. injection H as <- <-.
      apply nl_iff in E as (nl & Hn & E). exists [], nl. ands; auto; [constructor|cbn; lia].
    + destruct (is_tchar c) eqn:EC; [|discriminate].
      destruct (hp_name (c :: l)) as [[n l1]| |] eqn:EN; try discriminate. cbn [hbind fst snd] in H.
      destruct (hp_value (skip_ws l1)) as [[raw l2]| |] eqn:EV; try discriminate. cbn [hbind fst snd] in H.
      destruct (hp_headers trim k l2) as [[hs' r']| |] eqn:EH; try discriminate. cbn [hbind fst snd] in H. injection H as <- <-.
      apply IH in EH as (fw & nl & -> & LFS & Hn & Hk).
      apply hp_name_iff in EN as [EN FN]. apply hp_value_iff in EV as (nl1 & EV & FV & Hn1).
      destruct (skip_ws_split l1) as (ws & E1 & Fw & Hw). rewrite EV in E1, Hw.
      destruct (rtrim_split raw) as (ws2 & E2 & F2 & H2).
      assert (Nn : n <> []) by (intros ->; injection EN as E _; subst c; discriminate).
      assert (Hraw : forall c r, raw = c :: r -> ~ ows c) by (intros d t ->; now apply (Hw d (t ++ nl1 ++ fw ++ nl ++ r'))).
      set (v := if trim then rtrim_ws raw else raw).
      exists ((n ++ [COLON] ++ ws ++ raw ++ nl1) ++ fw), nl. ands; auto; [| |cbn; lia].
      * rewrite EN, E1. rewrite <- !app_assoc. reflexivity.
      * constructor; [|assumption]. unfold v. destruct trim.
        { exists ws, raw, ws2, nl1. ands; auto. now split. }
        { exists ws, raw, [], nl1. ands; auto; [now split|now rewrite app_nil_r]. }
  - destruct hs as [|[n v] hs].
    + inversion LFS; subst. cbn [app].
      assert (P : parse_newline (nl ++ r) = HDone r) by (apply nl_iff; eauto).
      destruct (nl_cons _ Hn) as (c & t & -> & Hc). cbn [app] in *. cbn [hp_headers].
      replace (Ascii.eqb c CR || Ascii.eqb c LF) with true by (destruct Hc as [->| ->]; reflexivity). now rewrite P.
    + inversion LFS as [|? ? fl ? fw' LF1 LFS']; subst. cbn in Hk.
      destruct (lfield_cons _ _ _ _ LF1) as (c & t & Ec & Tc).
      destruct LF1 as (ws & raw & ws2 & nl1 & -> & [Nn Fn] & Fw & FV & Hraw & Hn1 & E2 & F2 & H2).
      assert (P : hp_headers trim k (fw' ++ nl ++ r) = HDone (hs, r)) by (apply IH; exists fw', nl; ands; auto; lia).
      set (rest := fw' ++ nl ++ r) in *.
      assert (PV : hp_value (raw ++ nl1 ++ rest) = HDone (raw, rest)) by (apply hp_value_iff; exists nl1; auto).
      assert (PN : hp_name (n ++ [COLON] ++ ws ++ raw ++ nl1 ++ rest) = HDone (n, ws ++ raw ++ nl1 ++ rest)) by (apply hp_name_iff; auto).
      assert (PS : skip_ws (ws ++ raw ++ nl1 ++ rest) = raw ++ nl1 ++ rest).
      { apply skip_ws_unique; [assumption|]. intros d y E. destruct raw as [|x raw].
        - destruct (nl_cons _ Hn1) as (x & t' & -> & Hx). injection E as -> _. intros [->| ->]; destruct Hx; discriminate.
        - injection E as -> _. now apply (Hraw d raw). }
      replace (((n ++ [COLON] ++ ws ++ raw ++ nl1) ++ fw') ++ nl ++ r) with (n ++ [COLON] ++ ws ++ raw ++ nl1 ++ rest)
        by (unfold rest; rewrite <- !app_assoc; reflexivity).
      destruct n as [|c' n']; [easy|]. injection Ec as -> _. cbn [app hp_headers].
      pose proof (tchar_not_nl c Tc) as NC. rewrite NC, Tc. cbn [app] in PN. rewrite PN. cbn [hbind fst snd].
      cbn [app] in PS. rewrite PS, PV. cbn [hbind fst snd]. rewrite P. cbn [hbind fst snd].
      destruct trim; [rewrite E2, rtrim_unique by assumption; reflexivity|]. subst ws2. rewrite app_nil_r in E2. now subst.
Qed.

(** ** The whole head *)
Theorem parse_request_iff trim slots l q : parse_request trim slots l = HDone q <->
  exists w, l = w ++ q_rest q /\ lhead trim (mkRline (q_method q) (q_path q) (q_version q)) (q_headers q) w /\
            (length (q_headers q) <= slots)%nat.
Proof.
  unfold parse_request. split.
  - destruct (skip_empty_lines l) as [l1| |] eqn:E1; try discriminate. cbn [hbind fst snd].
    destruct (hp_method l1) as [[m l2]| |] eqn:E2; try discriminate. cbn [hbind fst snd].
    destruct (hp_uri l2) as [[u l3]| |] eqn:E3; try discriminate. cbn [hbind fst snd].
    destruct (hp_version l3) as [[v l4]| |] eqn:E4; try discriminate. cbn [hbind fst snd].
    destruct (parse_newline l4) as [l5| |] eqn:E5; try discriminate. cbn [hbind fst snd].
    destruct (hp_headers trim slots l5) as [[hs r]| |] eqn:E6; try discriminate. cbn [hbind fst snd]. intros [= <-].
    cbn [q_rest q_method q_path q_version q_headers].
    apply skip_empty_iff in E1 as (bl & Hb & -> & _). apply hp_method_iff in E2 as [-> Tm]. apply hp_uri_iff in E3 as [-> Fu].
    apply hp_version_iff in E4 as (ver & Hv & ->). apply nl_iff in E5 as (nl & Hn & ->).
    apply hp_headers_iff in E6 as (fw & nl2 & -> & LFS & Hn2 & Hk).
    exists (bl ++ m ++ [SP] ++ u ++ [SP] ++ ver ++ nl ++ fw ++ nl2). ands; auto.
    + rewrite <- !app_assoc. reflexivity.
    + exists bl, ver, nl, fw, nl2. cbn. ands; auto.
  - destruct q as [m u v hs r]. cbn [q_rest q_method q_path q_version q_headers].
    intros (w & -> & (bl & ver & nl & fw & nl2 & -> & Hb & Tm & Fu & Hv & Hn & LFS & Hn2) & Hk).
    cbn [l_method l_target l_minor] in *.
    set (l5 := fw ++ nl2 ++ r). set (l4 := nl ++ l5). set (l3 := ver ++ l4). set (l2 := u ++ [SP] ++ l3). set (l1 := m ++ [SP] ++ l2).
    replace ((bl ++ m ++ [SP] ++ u ++ [SP] ++ ver ++ nl ++ fw ++ nl2) ++ r) with (bl ++ l1)
      by (unfold l1, l2, l3, l4, l5; rewrite <- !app_assoc; reflexivity).
    assert (P1 : skip_empty_lines (bl ++ l1) = HDone l1).
    { apply skip_empty_iff. exists bl. ands; auto. destruct Tm as [Nm Fm]. destruct m as [|c m]; [easy|]. inversion Fm; subst.
      exists c, (m ++ [SP] ++ l2). ands; auto; intros ->; discriminate. }
    rewrite P1. cbn [hbind fst snd].
    assert (P2 : hp_method l1 = HDone (m, l2)) by (apply hp_method_iff; auto). rewrite P2. cbn [hbind fst snd].
    assert (P3 : hp_uri l2 = HDone (u, l3)) by (apply hp_uri_iff; auto). rewrite P3. cbn [hbind fst snd].
    assert (P4 : hp_version l3 = HDone (v, l4)) by (apply hp_version_iff; eauto). rewrite P4. cbn [hbind fst snd].
    assert (P5 : parse_newline l4 = HDone l5) by (apply nl_iff; eauto). rewrite P5. cbn [hbind fst snd].
    assert (P6 : hp_headers trim slots l5 = HDone (hs, r)) by (apply hp_headers_iff; exists fw, nl2; auto). rewrite P6. reflexivity.
Qed.

(** Strict heads are heads. *)
Lemma fields_lfields trim hs w : fields hs w -> lfields trim hs w.
Proof.
  induction 1 as [|n v l hs w (ws & (Nn & Fn & _) & (Fv & Hv1 & Hv2) & Fw & ->) _ IH]; constructor; [|assumption].
  exists ws, v, [], CRLF. ands; auto.
  - now split.
  - now left.
  - now rewrite app_nil_r.
  - destruct trim; auto.
Qed.
Lemma strict_lhead trim m t minor hs w : request_head m t minor hs w -> lhead trim (mkRline m t minor) hs w.
Proof.
  intros (ver & fw & -> & Tm & Ft & Hv & F). exists [], ver, CRLF, fw, CRLF. cbn. ands; auto.
  - constructor.
  - now left.
  - now apply fields_lfields.
  - now left.
Qed.
