(** The decoder of the client (Client.v) against SpecClient.v. *)
From Verif Require Import Client SpecChunked SpecHead SpecReq SpecResponse SpecClient Lemmas Proofs_Buf Proofs_Copy Proofs_Head Proofs_Map Proofs_Parse Proofs_ReqHead Proofs_ReqParse Proofs_ServerDec Proofs_Text.

(** ** Parsing *)
Lemma dec_val_iff c v : dec_val c = Some v <-> decdig c (N.to_nat v).
Proof.
  split.
  - intros H. apply dec_val_digit in H as [H ->]. now apply decdig_digitc.
  - intros H. pose proof (decdig_lt _ _ H) as L. assert (v < 10)%N as L2 by lia.
    rewrite (decdig_fun _ _ _ H (decdig_digitc v L2)). unfold dec_val. rewrite is_digit_digitc by exact L2. f_equal. rewrite digitc_bv by lia. destruct (v <? 10)%N eqn:E; lia.
Qed.
Lemma hp_code_iff l n r : hp_code l = HDone (n, r) <-> exists cd, three_digits n cd /\ l = cd ++ r.
Proof.
  split.
  - destruct l as [|a [|b [|c l]]]; cbn [hp_code]; try discriminate.
    + destruct (dec_val a); discriminate.
    + destruct (dec_val a); [|discriminate]. destruct (dec_val b); discriminate.
    + destruct (dec_val a) as [x|] eqn:Ea; [|discriminate]. destruct (dec_val b) as [y|] eqn:Eb; [|discriminate]. destruct (dec_val c) as [z|] eqn:Ec; [|discriminate].
      intros [= <- <-]. exists [a; b; c]. split; [|reflexivity]. split; [|reflexivity]. apply dec_val_iff in Ea, Eb, Ec.
      replace (x * 100 + y * 10 + z)%N with ((N.of_nat (N.to_nat x) * 10 + N.of_nat (N.to_nat y)) * 10 + N.of_nat (N.to_nat z))%N by lia.
      apply (dec_snoc [a; b]); [apply (dec_snoc [a]); [now constructor|assumption]|assumption].
  - intros (cd & [D L] & ->). inversion D as [a x Ha|l1 n1 c z D1 Hc]; subst; [discriminate|].
    inversion D1 as [a x Ha|l2 n2 b y D2 Hb]; subst; [discriminate|]. inversion D2 as [a x Ha|l3 n3 a x D3 Ha]; subst.
    2:{ exfalso. rewrite !app_length in L. cbn in L. apply decimal_cons in D3 as (? & ? & ->). cbn in L. lia. }
    cbn [app hp_code]. assert (X : forall c v, decdig c v -> dec_val c = Some (N.of_nat v)) by (intros ? ? K; apply dec_val_iff; now rewrite Nat2N.id).
    rewrite (X _ _ Ha), (X _ _ Hb), (X _ _ Hc). f_equal. f_equal. lia.
Qed.

Lemma reason_char_iff c : reason_char c <-> is_reason_char c = true.
Proof.
  unfold reason_char, is_reason_char, in_range. rewrite !orb_true_iff, andb_true_iff, !N.leb_le, N.eqb_eq. split.
  - intros [H| ->]; [|left; right; reflexivity]. destruct (N.le_gt_cases 128 (bv c)); [now right|]. left. left. lia.
  - intros [[H|H]|H].
    + left. lia.
    + right. apply (f_equal ascii_of_N) in H. unfold bv in H. rewrite ascii_N_embedding in H. exact H.
    + left. lia.
Qed.
Lemma hp_reason_iff l r : hp_reason l = HDone r <-> exists t nl, l = t ++ nl ++ r /\ Forall reason_char t /\ line_end nl.
Proof.
  revert r. induction l as [|c l IH]; intros r.
  - split; [discriminate|]. intros (t & nl & E & _ & Hn). symmetry in E. apply app_eq_nil in E as [_ E]. apply app_eq_nil in E as [-> _]. destruct Hn; discriminate.
  - cbn [hp_reason]. destruct (is_reason_char c) eqn:EC.
    + rewrite IH. split.
      * intros (t & nl & -> & F & Hn). exists (c :: t), nl. ands; auto. constructor; [now apply reason_char_iff|assumption].
      * intros ([|d t] & nl & E & F & Hn).
        { exfalso. destruct (nl_cons _ Hn) as (x & t' & -> & Hx). injection E as <- _. destruct Hx as [->| ->]; discriminate. }
        injection E as <- ->. exists t, nl. ands; auto. now inversion F.
    + rewrite nl_iff. split.
      * intros (nl & Hn & E). exists [], nl. ands; auto.
      * intros ([|d t] & nl & E & F & Hn); [exists nl; auto|]. injection E as <- _. inversion F as [|? ? FC]; subst. apply reason_char_iff in FC. congruence.
Qed.

Theorem parse_response_iff trim slots l p : parse_response trim slots l = HDone p <->
  exists w, l = w ++ p_rest p /\ lresp trim (p_version p) (p_code p) (p_headers p) w /\ (length (p_headers p) <= slots)%nat.
Proof.
  unfold parse_response. split.
  - destruct (skip_empty_lines l) as [l1| |] eqn:E1; try discriminate. cbn [hbind fst snd].
    destruct (hp_version l1) as [[v l2]| |] eqn:E2; try discriminate. cbn [hbind fst snd].
    destruct l2 as [|c2 l2]; [discriminate|]. destruct (Ascii.eqb_spec c2 SP) as [->|]; [|discriminate]. cbn [hbind fst snd].
    destruct (hp_code l2) as [[cd l3]| |] eqn:E3; try discriminate. cbn [hbind fst snd].
    intros H.
    assert (X : exists rsn nl l4, l3 = rsn ++ nl ++ l4 /\ (rsn = [] \/ exists t, rsn = SP :: t /\ Forall reason_char t) /\ line_end nl /\
      hbind (hp_headers trim slots l4) (fun h => HDone (mkHresp v cd (fst h) (snd h))) = HDone p).
    { destruct l3 as [|c3 l3]; [discriminate|]. destruct (Ascii.eqb_spec c3 SP) as [->|N3].
      - destruct (hp_reason l3) as [l4| |] eqn:E4; try discriminate. apply hp_reason_iff in E4 as (t & nl & -> & F & Hn).
        exists (SP :: t), nl, l4. ands; eauto.
      - destruct (parse_newline (c3 :: l3)) as [l4| |] eqn:E4; try discriminate. apply nl_iff in E4 as (nl & Hn & ->).
        exists [], nl, l4. ands; auto. }
    destruct X as (rsn & nl & l4 & -> & HR & Hn & H'). clear H.
    destruct (hp_headers trim slots l4) as [[hs r]| |] eqn:E6; try discriminate. cbn [hbind fst snd] in H'. injection H' as <-.
    cbn [p_rest p_version p_code p_headers].
    apply skip_empty_iff in E1 as (bl & Hb & -> & _). apply hp_version_iff in E2 as (ver & Hv & ->). apply hp_code_iff in E3 as (cw & Hc & ->).
    apply hp_headers_iff in E6 as (fw & nl2 & -> & LFS & Hn2 & Hk).
    exists (bl ++ ver ++ [SP] ++ cw ++ rsn ++ nl ++ fw ++ nl2). ands; auto.
    + rewrite <- !app_assoc. reflexivity.
    + exists bl, ver, cw, rsn, nl, fw, nl2. ands; auto.
  - destruct p as [v cd hs r]. cbn [p_rest p_version p_code p_headers].
    intros (w & -> & (bl & ver & cw & rsn & nl & fw & nl2 & -> & Hb & Hv & Hc & HR & Hn & LFS & Hn2) & Hk).
    set (l5 := fw ++ nl2 ++ r). set (l4 := nl ++ l5). set (l3 := rsn ++ l4). set (l2 := cw ++ l3). set (l1 := ver ++ [SP] ++ l2).
    match goal with |- hbind (skip_empty_lines ?x) _ = _ =>
      replace x with (bl ++ l1) by (unfold l1, l2, l3, l4, l5; rewrite <- !app_assoc; reflexivity) end.
    assert (P1 : skip_empty_lines (bl ++ l1) = HDone l1).
    { apply skip_empty_iff. exists bl. ands; auto. destruct Hv as [[_ ->]|[_ ->]]; eexists _, _; (split; [reflexivity|]); split; discriminate. }
    rewrite P1. cbn [hbind fst snd].
    assert (P2 : hp_version l1 = HDone (v, [SP] ++ l2)) by (apply hp_version_iff; eauto). rewrite P2. cbn [hbind fst snd app].
    change (Ascii.eqb SP SP) with true. cbv iota. cbn [hbind fst snd].
    assert (P3 : hp_code l2 = HDone (cd, l3)) by (apply hp_code_iff; eauto). rewrite P3. cbn [hbind fst snd].
    assert (P6 : hp_headers trim slots l5 = HDone (hs, r)) by (apply hp_headers_iff; exists fw, nl2; auto).
    assert (P5 : match l3 with [] => HPart | x :: r => if Ascii.eqb x SP then hp_reason r else parse_newline l3 end = HDone l5).
    { unfold l3. destruct HR as [->|(t & -> & F)].
      - cbn [app]. assert (K : parse_newline l4 = HDone l5) by (apply nl_iff; eauto). unfold l4 in *.
        destruct (nl_cons _ Hn) as (c & t & -> & Hcr). cbn [app] in *. replace (Ascii.eqb c SP) with false by (destruct Hcr as [->| ->]; reflexivity). exact K.
      - cbn [app]. change (Ascii.eqb SP SP) with true. cbv iota. apply hp_reason_iff. exists t, nl. auto. }
    etransitivity; [apply (f_equal (fun x => hbind x _)), P5|]. cbn [hbind fst snd]. now rewrite P6.
Qed.

(** ** Head blocks *)
Lemma ends_with_iff suf w : ends_with suf w = true <-> exists p, w = p ++ suf.
Proof.
  unfold ends_with. rewrite andb_true_iff, Nat.leb_le, beq_eq. split.
  - intros [H E]. exists (firstn (length w - length suf) w). rewrite <- (firstn_skipn (length w - length suf) w) at 1. now rewrite E.
  - intros [p ->]. rewrite app_length. split; [lia|]. rewrite Nat.add_sub, skipn_app, skipn_all, Nat.sub_diag. reflexivity.
Qed.
Definition resp_endb (w : bytes) : bool := ends_with CRLF2 w || ends_with LFLF w.
Lemma resp_end_iff w : resp_end w <-> resp_endb w = true.
Proof.
  unfold resp_endb. rewrite orb_true_iff, !ends_with_iff. split.
  - intros (p & [->| ->]); eauto.
  - intros [[p ->]|[p ->]]; exists p; auto.
Qed.
Lemma resp_end_lf w : resp_end w -> exists p, w = p ++ [LF].
Proof. intros (p & [->| ->]); [exists (p ++ [CR; LF; CR])|exists (p ++ [LF])]; now rewrite <- app_assoc. Qed.
Definition no_resp (l : bytes) : Prop := forall p q, l = p ++ q -> ~ resp_end p.

(** With a block on offer: it is found, unless it is too long. *)
Lemma c_go_done l2 fuel : forall b l k buf w rest b' r, (br_size b < fuel)%nat -> wf_brd b -> win false l2 b l k ->
  buf ++ l = w ++ rest -> resp_block w -> (exists x, x <> [] /\ w = buf ++ x) -> c_head_go fuel b buf = (b', r) ->
  if (c_max_head <=? N.of_nat (length w))%N then r = ChErr
  else r = ChDone w /\ wf_brd b' /\ win false l2 b' rest k /\ buf ++ br_data b = w ++ br_data b' /\ br_cap b' = br_cap b /\
    s_tail (br_src b') = s_tail (br_src b) /\ (br_size b' <= br_size b)%nat.
Proof.
  induction fuel as [|fuel IH]; intros b l k buf w rest b' r Hf Wb Hw El Hb (x & Hx & Ew); [lia|]. cbn [c_head_go].
  assert (El' : l = x ++ rest) by (rewrite Ew, <- app_assoc in El; now apply app_inv_head in El).
  assert (HL : In LF x).
  { destruct Hb as [HE _]. apply resp_end_lf in HE as [p Hp]. destruct (exists_last Hx) as (x0 & c & ->).
    rewrite app_assoc in Ew. rewrite Ew in Hp. apply app_inj_tail in Hp as [_ ->]. apply in_or_app. right. now left. }
  destruct (split_after LF x) as [[p q]|] eqn:ES; [|apply split_after_none in ES; contradiction].
  assert (ES' : split_after LF l = Some (p, q ++ rest)) by (rewrite El', split_after_app, ES; reflexivity).
  unfold read_until. destruct (read_until_go (S (br_size b)) false b []) as [b1 r1] eqn:EU.
  destruct (until_line _ _ _ _ _ _ _ _ _ _ _ (Nat.lt_succ_diag_r _) Wb Hw ES' EU) as (-> & W1 & Hw1 & D1 & C1 & T1 & S1).
  cbn [app]. destruct (split_after_eq _ _ _ _ ES) as (-> & p0 & Ep & _).
  destruct p as [|c p']; [now destruct p0|]. set (p := c :: p') in *.
  assert (Hp : (0 < length p)%nat) by (cbn; lia).
  assert (HLw : length w = (length (buf ++ p) + length q)%nat) by (rewrite Ew, !app_length; lia).
  destruct (c_max_head <=? N.of_nat (length (buf ++ p)))%N eqn:EM.
  { replace (c_max_head <=? N.of_nat (length w))%N with true by lia. now intros [= <- <-]. }
  fold (resp_endb (buf ++ p)). destruct (resp_endb (buf ++ p)) eqn:EE.
  - assert (q = []) as ->.
    { destruct q as [|y q]; [reflexivity|]. exfalso. destruct Hb as [_ Hb]. apply (Hb (buf ++ p) (y :: q)); [|discriminate|].
      - now rewrite Ew, app_assoc.
      - now apply resp_end_iff. }
    rewrite app_nil_r in Ew. replace (c_max_head <=? N.of_nat (length w))%N with false by (cbn [length] in HLw; lia).
    intros [= <- <-]. rewrite <- Ew. ands; auto; try lia. now rewrite D1, app_assoc, <- Ew.
  - intros H. assert (Hq : q <> []).
    { intros ->. rewrite app_nil_r in Ew. destruct Hb as [HE _]. apply resp_end_iff in HE. congruence. }
    assert (A : (buf ++ p) ++ q ++ rest = w ++ rest) by (rewrite <- El, El', <- !app_assoc; reflexivity).
    assert (A2 : exists x, x <> [] /\ w = (buf ++ p) ++ x) by (exists q; split; [assumption|]; now rewrite Ew, app_assoc).
    pose proof (IH b1 _ k (buf ++ p) w rest b' r ltac:(lia) W1 Hw1 A Hb A2 H) as Q.
    destruct (c_max_head <=? N.of_nat (length w))%N; [exact Q|]. destruct Q as (-> & W2 & Hw2 & D2 & C2 & T2 & S2).
    ands; auto; try congruence; try lia. now rewrite D1, app_assoc.
Qed.

(** Without one, an error. *)
Lemma c_go_end fuel : forall b l k buf b' r, (br_size b < fuel)%nat -> wf_brd b -> win false [] b l k ->
  no_resp (buf ++ l) -> c_head_go fuel b buf = (b', r) -> r = ChErr.
Proof.
  induction fuel as [|fuel IH]; intros b l k buf b' r Hf Wb Hw Hn; [lia|]. cbn [c_head_go].
  unfold read_until. destruct (read_until_go (S (br_size b)) false b []) as [b1 r1] eqn:EU.
  destruct (split_after LF l) as [[p q]|] eqn:ES.
  - destruct (until_line _ _ _ _ _ _ _ _ _ _ _ (Nat.lt_succ_diag_r _) Wb Hw ES EU) as (-> & W1 & Hw1 & D1 & C1 & T1 & S1).
    destruct (split_after_eq _ _ _ _ ES) as (-> & p0 & Ep & _). cbn [app].
    destruct p as [|c p']; [now destruct p0|]. set (p := c :: p') in *.
    assert (Hp : (0 < length p)%nat) by (cbn; lia).
    destruct (c_max_head <=? N.of_nat (length (buf ++ p)))%N; [now intros [= <- <-]|].
    fold (resp_endb (buf ++ p)). destruct (resp_endb (buf ++ p)) eqn:EE.
    { exfalso. apply (Hn (buf ++ p) q); [now rewrite app_assoc|]. now apply resp_end_iff. }
    intros H. rewrite app_assoc in Hn. exact (IH b1 _ k (buf ++ p) b' r ltac:(lia) W1 Hw1 Hn H).
  - apply split_after_none in ES.
    destruct (until_end _ _ _ _ _ _ _ _ (Nat.lt_succ_diag_r _) Wb Hw ES EU) as (W1 & C1 & T1 & B1 & K).
    destruct k.
    2:{ subst r1. now intros [= <- <-]. }
    2:{ exfalso. destruct Hw as (l1 & E1 & _ & E3). clear -E3. induction l1 as [|[d|f|] l1 IH]; try discriminate.
        - rewrite avail_data in E3. now apply IH.
        - apply IH, E3. }
    destruct K as [K1 K2]. destruct (s_tail (br_src b)) eqn:ET; subst r1; [|now intros [= <- <-]].
    cbn [app]. destruct l as [|c l]; [now intros [= <- <-]|].
    destruct (c_max_head <=? N.of_nat (length (buf ++ c :: l)))%N; [now intros [= <- <-]|].
    fold (resp_endb (buf ++ c :: l)). destruct (resp_endb (buf ++ c :: l)) eqn:EE.
    { exfalso. apply (Hn (buf ++ c :: l) []); [now rewrite app_nil_r|]. now apply resp_end_iff. }
    intros H. assert (Hw1 : win false [] b1 [] ObEnd) by (exists []; rewrite K1, B1; auto).
    destruct (br_size b) eqn:EZ.
    { exfalso. destruct Hw as (l1 & E1 & E2 & _). unfold br_size, src_size in EZ. destruct (br_buf b); [|cbn in EZ; lia].
      rewrite app_nil_r in E1. rewrite E1 in EZ. destruct l1 as [|[?|?|] ?]; cbn in EZ; try lia. discriminate. }
    assert (Z1 : br_size b1 = 0%nat) by (unfold br_size, src_size; now rewrite B1, K1).
    exact (IH b1 [] ObEnd _ b' r ltac:(lia) W1 Hw1 ltac:(rewrite app_nil_r; exact Hn) H).
Qed.

Lemma resp_cases l : (exists w rest, l = w ++ rest /\ resp_block w) \/ no_resp l.
Proof.
  assert (G : forall n, (n <= length l)%nat ->
    (exists w rest, l = w ++ rest /\ resp_block w) \/ (forall p q, l = p ++ q -> (length p <= n)%nat -> ~ resp_end p)).
  { induction n as [|n IH]; intros Hn.
    - right. intros p q E Hp H. apply resp_end_lf in H as [x ->]. rewrite app_length in Hp. cbn in Hp. lia.
    - destruct (IH ltac:(lia)) as [H|H]; [now left|].
      destruct (resp_endb (firstn (S n) l)) eqn:EE.
      + left. exists (firstn (S n) l), (skipn (S n) l). split; [symmetry; apply firstn_skipn|]. split; [now apply resp_end_iff|].
        intros p q E Hq. apply (H p (q ++ skipn (S n) l)).
        * now rewrite app_assoc, <- E, firstn_skipn.
        * apply (f_equal (@length _)) in E. rewrite app_length, firstn_length_eq in E by assumption.
          destruct q; [easy|cbn in E; lia].
      + right. intros p q E Hp. destruct (Nat.eq_dec (length p) (S n)) as [HL|HL]; [|apply (H p q E); lia].
        intros X. apply resp_end_iff in X. rewrite E, firstn_app, HL, Nat.sub_diag in EE. rewrite <- HL, firstn_all in EE.
        cbn in EE. rewrite app_nil_r in EE. congruence. }
  destruct (G (length l) (le_n _)) as [H|H]; [now left|right].
  intros p q E. apply (H p q E). rewrite E, app_length. lia.
Qed.

(** ** The header map *)
Lemma c_headers_append hs : forall m, c_headers hs m = append_trailers hs m.
Proof. induction hs as [|[n v] hs IH]; intros m; cbn [c_headers append_trailers]; [reflexivity|]. destruct (header_name n), (header_value v); auto. Qed.
Lemma lfields_short trim hs w : lfields trim hs w -> Forall (fun nv => (length (fst nv) <= length w)%nat) hs.
Proof.
  induction 1 as [|n v l hs w (ws & raw & ws2 & nl & -> & _) _ IH]; constructor.
  - cbn [fst]. rewrite !app_length. lia.
  - eapply Forall_impl; [|exact IH]. intros a H. cbn beta in *. rewrite app_length. lia.
Qed.
Lemma c_headers_some hs : Forall wf_field hs -> Forall (fun nv => (N.of_nat (length (fst nv)) <= 65535)%N) hs -> exists m, c_headers hs [] = Some m /\ holds m hs.
Proof.
  intros F L. assert (X : forall m, exists m', append_trailers hs m = Some m').
  { induction hs as [|[n v] hs IH]; intros m; cbn [append_trailers]; [eauto|]. inversion F as [|? ? [[N1 N2] V] F2]; subst. inversion L as [|? ? L1 L2]; subst. cbn [fst snd] in *.
    rewrite field_name_header by (split; [exact N1|split; [exact N2|exact L1]]).
    assert (E : header_value v = Some v). { unfold header_value. rewrite (value_bytes v); [reflexivity|exact V]. }
    rewrite E. now apply IH. }
  destruct (X []) as (m & E). exists m. rewrite c_headers_append. split; [exact E|].
  destruct (append_trailers_holds _ _ _ E hm_empty_wf) as [W H]. split; [exact W|]. intros n. now rewrite H.
Qed.
Lemma dated_holds ev m hs : env_wf ev -> holds m hs -> holds (c_dated ev m) (dated (e_date ev) hs).
Proof.
  intros [HE _] [W H]. unfold c_dated, dated. change h_date with (lower (B "date")) at 1. rewrite (get_first _ _ _ H).
  destruct (values (B "date") hs) as [|v vs] eqn:EV; cbn [hd_error]; [|now split]. split.
  - apply hm_insert_wf; auto.
  - intros n. rewrite get_all_insert, H, values_app. unfold values at 3; plain. cbn [filter fst]. unfold eq_ic.
    change (lower (B "date")) with h_date. destruct (beq_spec h_date (lower n)) as [E|E]; cbn [map snd]; [|now rewrite app_nil_r].
    assert (values n hs = []) as ->; [|reflexivity]. rewrite <- EV. unfold values; plain. f_equal. apply filter_ext. intros a. unfold eq_ic. change (lower (B "date")) with h_date. now rewrite E.
Qed.

(** ** Decoding *)
Lemma calm_iff l : snd (avail false l) = ObEnd <-> clean_evs l.
Proof.
  unfold clean_evs. induction l as [|[d|f|] l IH].
  - split; constructor.
  - rewrite avail_data. cbn [snd]. rewrite IH. split; [intros H; constructor; [discriminate|exact H]|intros H; now inversion H].
  - cbn. rewrite IH. split; [intros H; constructor; [discriminate|exact H]|intros H; now inversion H].
  - cbn. split; [discriminate|intros H; inversion H; congruence].
Qed.
Lemma win_clean b l k : win false [] b l k -> (clean (br_src b) <-> k = ObEnd /\ s_tail (br_src b) = Eof).
Proof. intros (l1 & E & _ & ->). rewrite app_nil_r in E. unfold clean. rewrite E. now rewrite calm_iff. Qed.
Lemma avail_win cap s : win false [] (br_new cap s) (fst (avail false (s_evs s))) (snd (avail false (s_evs s))).
Proof. exists (s_evs s). cbn. rewrite app_nil_r. auto. Qed.

Lemma resp_parse trim minor code hs w : resp_grammatical trim minor code hs w <->
  exists y, parse_response trim c_max_headers w = HDone (mkHresp minor code hs y).
Proof.
  split.
  - intros (x & y & -> & L & Hk). exists y. apply parse_response_iff. cbn. exists x. auto.
  - intros (y & H). apply parse_response_iff in H as (x & E & L & Hk). cbn in *. exists x, y. auto.
Qed.
Lemma resp_fun trim minor code hs w minor' code' hs' : resp_grammatical trim minor code hs w -> resp_grammatical trim minor' code' hs' w ->
  minor = minor' /\ code = code' /\ hs = hs'.
Proof. intros H1 H2. apply resp_parse in H1 as (y1 & H1). apply resp_parse in H2 as (y2 & H2). rewrite H1 in H2. injection H2. auto. Qed.
Lemma resp_minor trim minor code hs w : resp_grammatical trim minor code hs w -> minor = 1%N \/ minor = 0%N.
Proof. intros (x & y & _ & (bl & ver & cd & rsn & nl & fw & nl2 & _ & _ & [[-> _]|[-> _]] & _) & _); auto. Qed.
Lemma resp_code trim minor code hs w : resp_grammatical trim minor code hs w -> (code < 1000)%N.
Proof.
  intros (x & y & _ & (bl & ver & cd & rsn & nl & fw & nl2 & _ & _ & _ & [D L] & _) & _).
  inversion D as [a v Ha|l1 n1 c z D1 Hc]; subst; [discriminate|].
  inversion D1 as [a v Ha|l2 n2 b0 y0 D2 Hb]; subst; [discriminate|]. inversion D2 as [a v Ha|l3 n3 a v D3 Ha]; subst.
  - apply decdig_lt in Ha, Hb, Hc. lia.
  - exfalso. rewrite !app_length in L. cbn in L. apply decimal_cons in D3 as (? & ? & ->). cbn in L. lia.
Qed.
Lemma resp_fields trim minor code hs w : resp_grammatical trim minor code hs w -> (N.of_nat (length w) < 8192)%N -> exists m, c_headers hs [] = Some m /\ holds m hs.
Proof.
  intros (x & y & -> & (bl & ver & cd & rsn & nl & fw & nl2 & -> & _ & _ & _ & _ & _ & L & _) & _) HL.
  apply c_headers_some; [eapply lfields_wf, L|]. eapply Forall_impl; [|exact (lfields_short _ _ _ L)]. intros a H. cbn beta in *. unfold bytes, byte in *. rewrite !app_length in HL. lia.
Qed.
Lemma cl_value_str v n : cl_value v n -> value_to_str v = Some v.
Proof.
  intros [(d & Hd & D) _]. unfold value_to_str.
  assert (X : forallb is_str_byte d = true).
  { destruct (decimal_val _ _ D) as (_ & F & _). apply forallb_forall. rewrite Forall_forall in F. intros c I. destruct (F c I) as (k & Hk & ->).
    unfold is_str_byte, in_range. rewrite digitc_bv by lia. destruct (k <? 10)%N eqn:E; [|lia]. apply orb_true_iff. left. lia. }
  destruct Hd as [->| ->]; [now rewrite X|]. cbn [forallb]. now rewrite X.
Qed.

Lemma dated_values date hs n : n <> B "date" -> lower n = n -> values n (dated date hs) = values n hs.
Proof.
  intros N L. unfold dated. destruct (values (B "date") hs); [|reflexivity]. rewrite values_app. unfold values at 2; plain. cbn [filter fst].
  unfold eq_ic. rewrite L. destruct (beq_spec (lower (B "date")) n) as [E|_]; [now elim N|]. apply app_nil_r.
Qed.

(** What the rest of [decode] makes of the header map. *)
Lemma c_response_spec ev code hs m b v w : env_wf ev -> holds m hs -> resp_grammatical (e_trim ev) 1 code hs w -> (N.of_nat (length w) < 8192)%N ->
  cjudge (e_trim ev) w v -> canswers ev v b (match c_response ev code (c_dated ev m) b with Some r => COk r | None => CErr end).
Proof.
  intros He HM G HL J. pose proof (dated_holds ev m hs He HM) as HD. pose proof HD as [_ HV].
  assert (GC : hm_get h_content_length (c_dated ev m) = hd_error (values (B "content-length") hs)).
  { change h_content_length with (lower (B "content-length")). rewrite (get_first _ _ _ HV), dated_values; [reflexivity|discriminate|reflexivity]. }
  assert (GT : hm_get h_transfer_encoding (c_dated ev m) = hd_error (values (B "transfer-encoding") hs)).
  { change h_transfer_encoding with (lower (B "transfer-encoding")). rewrite (get_first _ _ _ HV), dated_values; [reflexivity|discriminate|reflexivity]. }
  pose proof (resp_code _ _ _ _ _ G) as HC.
  assert (FUN : forall minor' code' hs', resp_grammatical (e_trim ev) minor' code' hs' w -> minor' = 1%N /\ code' = code /\ hs' = hs).
  { intros minor' code' hs' G'. destruct (resp_fun _ _ _ _ _ _ _ _ G G') as (<- & <- & <-). auto. }
  unfold c_response. rewrite GC, GT.
  assert (BC : (match hd_error (values (B "transfer-encoding") hs) with Some v => beq v (B "chunked") | None => false end) = true <-> says_chunked hs).
  { unfold says_chunked. destruct (values (B "transfer-encoding") hs) as [|t r]; cbn [hd_error].
    - split; [discriminate|intros [? ?]; discriminate].
    - rewrite beq_eq. split; [intros ->; eauto|intros [? [= -> _]]; reflexivity]. }
  inversion J as [L|S|code' hs' G'|code' hs' G' N1 N2|code' hs' v0 r G' E1 E2|code' hs' G' E1 E2|code' hs' L G' E1 E2|code' hs' v0 r n L G' E0 E1 E2 E3|code' hs' L G' E0 E1 E2]; subst v; try lia.
  - now elim (S _ _ _ G).
  - destruct (FUN _ _ _ G') as (? & _). discriminate.
  - destruct (FUN _ _ _ G') as (_ & -> & ->). destruct (values (B "content-length") hs); [easy|]. destruct (values (B "transfer-encoding") hs); [easy|]. reflexivity.
  - destruct (FUN _ _ _ G') as (_ & -> & ->). rewrite E1 in *. cbn [hd_error].
    destruct (values (B "transfer-encoding") hs) eqn:ET; [|reflexivity]. cbn [hd_error].
    destruct (value_to_str v0) as [v1|] eqn:EV; [|reflexivity]. unfold value_to_str in EV. destruct (forallb is_str_byte v0); [|discriminate]. injection EV as <-.
    destruct (parse_usize v0) as [k|] eqn:EP; [|reflexivity]. apply cl_value_iff in EP. now elim (E2 k).
  - destruct (FUN _ _ _ G') as (_ & -> & ->).
    assert (SO : status_ok code = false) by (unfold status_ok; lia). rewrite SO.
    destruct (values (B "content-length") hs) as [|v0 r] eqn:EC; cbn [hd_error].
    + destruct (values (B "transfer-encoding") hs) as [|t rt] eqn:ET; cbn [hd_error]; [reflexivity|].
      destruct (beq_spec t (B "chunked")) as [->|]; [|reflexivity]. elim E1. unfold says_chunked. rewrite ET. eauto.
    + destruct (values (B "transfer-encoding") hs) as [|t rt] eqn:ET; cbn [hd_error]; [|reflexivity].
      destruct (value_to_str v0); [|reflexivity]. now destruct (parse_usize b0).
  - destruct (FUN _ _ _ G') as (_ & -> & ->). rewrite E1. cbn [hd_error]. destruct E2 as [rt ET]. rewrite ET. cbn [hd_error]. rewrite beq_refl. reflexivity.
  - destruct (FUN _ _ _ G') as (_ & -> & ->). rewrite E1, E2. cbn [hd_error].
    rewrite (cl_value_str _ _ E3), (proj2 (cl_value_iff v0 n) E3). assert (SO : status_ok code = true) by (unfold status_ok; lia). rewrite SO.
    cbn [canswers]. eauto.
  - destruct (FUN _ _ _ G') as (_ & -> & ->). rewrite E1. cbn [hd_error].
    assert (SO : status_ok code = true) by (unfold status_ok; lia).
    destruct (values (B "transfer-encoding") hs) as [|t rt] eqn:ET; cbn [hd_error].
    + rewrite SO. cbn [canswers]. eauto.
    + destruct (beq_spec t (B "chunked")) as [->|]; [elim E2; unfold says_chunked; rewrite ET; eauto|]. rewrite SO. cbn [canswers]. eauto.
Qed.

Section Decode.
Variable ev : env.
Hypothesis He : env_wf ev.
Hypothesis Hcap : (0 < e_bufcap ev)%nat.

Lemma new_wf s : wf_src s -> wf_brd (br_new (e_bufcap ev) s).
Proof. split; assumption. Qed.

(** The connection behind the head block. *)
Definition behind (s : src) (w rest : bytes) (b : brd) : Prop :=
  wf_brd b /\ br_cap b = e_bufcap ev /\ src_data s = w ++ br_data b /\ (clean s <-> clean (br_src b)) /\ (br_size b <= src_size s)%nat /\
  win false [] b rest (snd (avail false (s_evs s))) /\ s_tail (br_src b) = s_tail s.

Lemma decode_long s w rest : delivers s w rest -> (8192 <= N.of_nat (length w))%N -> snd (c_decode ev s) = CErr.
Proof.
  intros (Ws & Hb & E) HL. unfold c_decode, c_head. destruct (c_head_go _ _ _) as [b' r] eqn:EG.
  pose proof (avail_win (e_bufcap ev) s) as Hw.
  pose proof (c_go_done [] _ _ _ _ [] w rest b' r (Nat.lt_succ_diag_r _) (new_wf s Ws) Hw E Hb) as Q.
  replace (c_max_head <=? N.of_nat (length w))%N with true in Q by (unfold c_max_head; lia).
  rewrite Q; [reflexivity| |exact EG]. exists w. split; [|reflexivity]. intros ->. destruct Hb as [H _]. apply resp_end_lf in H as [[|] ?]; discriminate.
Qed.
Lemma decode_short s w rest : delivers s w rest -> (N.of_nat (length w) < 8192)%N ->
  exists b, behind s w rest b /\ fst (c_decode ev s) = b /\ forall v, cjudge (e_trim ev) w v -> canswers ev v b (snd (c_decode ev s)).
Proof.
  intros (Ws & Hb & E) HL. unfold c_decode, c_head. destruct (c_head_go _ _ _) as [b' r] eqn:EG.
  pose proof (avail_win (e_bufcap ev) s) as Hw.
  pose proof (c_go_done [] _ _ _ _ [] w rest b' r (Nat.lt_succ_diag_r _) (new_wf s Ws) Hw E Hb) as Q.
  replace (c_max_head <=? N.of_nat (length w))%N with false in Q by (unfold c_max_head; lia).
  destruct Q as (-> & W1 & Hw1 & D1 & C1 & T1 & S1); [|exact EG|].
  { exists w. split; [|reflexivity]. intros ->. destruct Hb as [H _]. apply resp_end_lf in H as [[|] ?]; discriminate. }
  cbn [br_new br_src br_cap br_buf] in *.
  exists b'. assert (HB : behind s w rest b').
  { split; [exact W1|]. split; [exact C1|]. split; [exact D1|]. split; [|split; [exact S1|split; [exact Hw1|exact T1]]].
    rewrite (win_clean _ _ _ Hw1), T1. unfold clean. now rewrite calm_iff. }
  split; [exact HB|]. destruct (parse_response (e_trim ev) c_max_headers w) as [p| |] eqn:EP.
  - destruct p as [minor code hs y]. cbn [p_version p_code p_headers].
    assert (G : resp_grammatical (e_trim ev) minor code hs w) by (apply resp_parse; eauto).
    destruct (N.eqb_spec minor 1) as [->|NE].
    + destruct (resp_fields _ _ _ _ _ G HL) as (m & -> & HM). split; [reflexivity|]. intros v J. eapply c_response_spec; eauto.
    + split; [reflexivity|]. intros v J. cbn [snd].
      assert (FUN : forall minor' code' hs', resp_grammatical (e_trim ev) minor' code' hs' w -> minor' <> 1%N).
      { intros ? ? ? G'. destruct (resp_fun _ _ _ _ _ _ _ _ G G') as (<- & _). exact NE. }
      inversion J; subst; try reflexivity; match goal with H : resp_grammatical _ 1 _ _ _ |- _ => now elim (FUN _ _ _ H) end.
  - split; [reflexivity|]. intros v J. cbn [snd].
    assert (FUN : forall minor' code' hs', ~ resp_grammatical (e_trim ev) minor' code' hs' w).
    { intros ? ? ? G'. apply resp_parse in G' as (y & G'). congruence. }
    inversion J; subst; try reflexivity; match goal with H : resp_grammatical _ 1 _ _ _ |- _ => now elim (FUN _ _ _ H) end.
  - split; [reflexivity|]. intros v J. cbn [snd].
    assert (FUN : forall minor' code' hs', ~ resp_grammatical (e_trim ev) minor' code' hs' w).
    { intros ? ? ? G'. apply resp_parse in G' as (y & G'). congruence. }
    inversion J; subst; try reflexivity; match goal with H : resp_grammatical _ 1 _ _ _ |- _ => now elim (FUN _ _ _ H) end.
Qed.
Lemma decode_none s : wf_src s -> (forall w rest, ~ delivers s w rest) -> snd (c_decode ev s) = CErr.
Proof.
  intros Ws N. unfold c_decode, c_head. destruct (c_head_go _ _ _) as [b' r] eqn:EG.
  pose proof (avail_win (e_bufcap ev) s) as Hw.
  rewrite (c_go_end _ _ _ _ [] b' r (Nat.lt_succ_diag_r _) (new_wf s Ws) Hw); [reflexivity| |exact EG].
  cbn [app]. destruct (resp_cases (fst (avail false (s_evs s)))) as [(w & rest & E & Hb)|H]; [|exact H].
  now elim (N w rest).
Qed.

Lemma cl_value_dec v : (exists n, cl_value v n) \/ forall n, ~ cl_value v n.
Proof.
  destruct (parse_usize v) as [n|] eqn:E; [left; exists n; now apply cl_value_iff|right].
  intros n H. apply cl_value_iff in H. congruence.
Qed.
Lemma says_dec hs : says_chunked hs \/ ~ says_chunked hs.
Proof.
  unfold says_chunked. destruct (values (B "transfer-encoding") hs) as [|t r]; [right; intros [? ?]; discriminate|].
  destruct (beq_spec t (B "chunked")) as [->|N]; [left; eauto|right]. intros [? [= ? _]]. now elim N.
Qed.
Lemma judge_total trim w : exists v, cjudge trim w v.
Proof.
  destruct (N.ltb_spec (N.of_nat (length w)) 8192) as [HL|HL]; [|exists CvReject; now apply cj_long].
  destruct (parse_response trim c_max_headers w) as [p| |] eqn:EP.
  2,3: exists CvReject; apply cj_syntax; intros ? ? ? G'; apply resp_parse in G' as (y & G'); congruence.
  destruct p as [minor code hs y].
  assert (G : resp_grammatical trim minor code hs w) by (apply resp_parse; eauto).
  destruct (resp_minor _ _ _ _ _ G) as [->| ->]; [|exists CvReject; eapply cj_version, G].
  destruct (values (B "content-length") hs) as [|v r] eqn:EC.
  - destruct (says_dec hs) as [S|S]; [exists CvChunked; eapply cj_chunked; eauto|].
    destruct (N.ltb_spec code 100); [exists CvReject; eapply cj_status; eauto|exists (CvNone code hs); now apply cj_none].
  - destruct (values (B "transfer-encoding") hs) as [|t rt] eqn:ET.
    2:{ exists CvReject. eapply cj_both; [exact G|rewrite EC; discriminate|rewrite ET; discriminate]. }
    destruct (cl_value_dec v) as [(n & Hn)|Hn]; [|exists CvReject; eapply cj_length_bad; eauto].
    destruct (N.ltb_spec code 100); [|exists (CvLength code hs n); eapply cj_length; eauto].
    exists CvReject. eapply cj_status; [exact G| |assumption]. unfold says_chunked. rewrite ET. intros [? ?]; discriminate.
Qed.
Lemma decode_ends s : wf_src s -> snd (c_decode ev s) = CErr \/ exists r, snd (c_decode ev s) = COk r.
Proof.
  intros Ws. destruct (resp_cases (fst (avail false (s_evs s)))) as [(w & rest & E & Hb)|H].
  - assert (D : delivers s w rest) by (split; [|split]; assumption).
    destruct (N.ltb_spec (N.of_nat (length w)) 8192) as [HL|HL]; [|left; eapply decode_long; eauto].
    destruct (decode_short _ _ _ D HL) as (b & _ & _ & J). destruct (judge_total (e_trim ev) w) as (v & Hv). specialize (J v Hv).
    destruct v; cbn [canswers] in J; [auto|eauto| |]; destruct J as (m & _ & ->); eauto.
  - left. apply decode_none; [exact Ws|]. intros w rest (_ & Hb & E). apply (H w rest E). apply Hb.
Qed.
End Decode.

(** ** How much is taken from the connection *)
Definition b_all (b : brd) : bytes := br_buf b ++ evs_all (s_evs (br_src b)).
Lemma fill_all b b' r : (length (br_buf b) <= br_cap b)%nat -> br_fill b = (b', r) ->
  b_all b = b_all b' /\ br_cap b' = br_cap b /\ (length (br_buf b') <= br_cap b)%nat /\ (forall d, r = POk d -> br_buf b' = d) /\ (r <> PPanic /\ r <> PFuel).
Proof.
  intros L. unfold br_fill, b_all. destruct (br_buf b) as [|c x] eqn:EB.
  - unfold src_read. destruct (s_evs (br_src b)) as [|[d|f|] l] eqn:EE.
    + destruct (s_tail (br_src b)); intros [= <- <-]; cbn; rewrite EE; cbn; ands; try easy; try lia; congruence.
    + intros [= <- <-]. cbn. rewrite firstn_length. ands; try easy; try lia; try congruence.
      rewrite <- (firstn_skipn (br_cap b) d) at 1. rewrite <- app_assoc. f_equal. destruct (skipn (br_cap b) d); reflexivity.
    + intros [= <- <-]. cbn. ands; try easy; lia.
    + intros [= <- <-]. cbn. ands; try easy; lia.
  - intros [= <- <-]. rewrite EB. ands; try easy. congruence.
Qed.
Lemma until_taken fuel : forall b acc b' r, (length (br_buf b) <= br_cap b)%nat -> read_until_go fuel false b acc = (b', r) ->
  exists y, b_all b = y ++ b_all b' /\ br_cap b' = br_cap b /\ (length (br_buf b') <= br_cap b)%nat /\
    (~ In LF y \/ exists z, y = z ++ [LF] /\ ~ In LF z) /\ (forall x, r = ROk x -> x = acc ++ y).
Proof.
  induction fuel as [|fuel IH]; intros b acc b' r L; cbn [read_until_go].
  { intros [= <- <-]. exists []. cbn. ands; auto; discriminate. }
  destruct (br_fill b) as [b1 r1] eqn:EF. destruct (fill_all _ _ _ L EF) as (A & C & L1 & D & P1 & P2).
  destruct r1 as [d|f| | |]; try easy.
  - specialize (D d eq_refl). destruct (split_after LF d) as [[p q]|] eqn:ES.
    + intros [= <- <-]. destruct (split_after_eq _ _ _ _ ES) as (-> & z & Ez & Hz). exists p. unfold b_all, br_consume in *. cbn. rewrite A, D.
      rewrite skipn_app, skipn_all, Nat.sub_diag. cbn [skipn app]. rewrite D, app_length in L1. ands; auto; try lia; try congruence.
      * now rewrite app_assoc.
      * right. eauto.
    + apply split_after_none in ES. destruct d as [|c d].
      * intros [= <- <-]. exists []. ands; auto; try congruence; try discriminate. intros x [= <-]. now rewrite app_nil_r.
      * intros H. apply IH in H as (y & A2 & C2 & L2 & Y & X); [|unfold br_consume; cbn; rewrite D, skipn_all; cbn; lia].
        exists ((c :: d) ++ y). unfold br_consume in A2, C2, L2. cbn [br_cap br_src] in C2, L2. rewrite D, skipn_all in A2. ands; auto; try congruence; try lia.
        -- rewrite A. unfold b_all at 1. rewrite D, <- app_assoc. f_equal. exact A2.
        -- destruct Y as [Y|(z & -> & Hz)].
           ++ left. rewrite in_app_iff. tauto.
           ++ right. exists ((c :: d) ++ z). rewrite app_assoc. split; [reflexivity|]. rewrite in_app_iff. tauto.
        -- intros x Hx. rewrite (X x Hx). now rewrite <- app_assoc.
  - cbn [andb]. intros H. rewrite <- C in L1. apply IH in H as (y & A2 & C2 & L2 & Y & X); [|exact L1].
    exists y. ands; auto; try congruence; try lia.
  - intros [= <- <-]. exists []. ands; auto; try congruence; discriminate.
Qed.
Lemma piece_len k a y b : pieces_le k (a ++ y ++ b) -> (~ In LF y \/ exists z, y = z ++ [LF] /\ ~ In LF z) -> (length y <= S k)%nat.
Proof.
  intros P [N|(z & -> & N)].
  - specialize (P a y b eq_refl N). lia.
  - rewrite <- !app_assoc in P. specialize (P a z _ eq_refl N). unfold bytes, byte in *. rewrite app_length. cbn [length] in *. lia.
Qed.
Lemma c_go_taken k fuel : forall b buf b' r, (length (br_buf b) <= br_cap b)%nat -> (N.of_nat (length buf) < 8192)%N -> pieces_le k (buf ++ b_all b) -> c_head_go fuel b buf = (b', r) ->
  exists y, b_all b = y ++ b_all b' /\ br_cap b' = br_cap b /\ (length (br_buf b') <= br_cap b)%nat /\ (N.of_nat (length (buf ++ y)) <= 8192 + N.of_nat k)%N.
Proof.
  induction fuel as [|fuel IH]; intros b buf b' r L HB P; cbn [c_head_go].
  { intros [= <- <-]. exists []. rewrite app_nil_r. ands; auto; lia. }
  unfold read_until. destruct (read_until_go (S (br_size b)) false b []) as [b1 r1] eqn:EU.
  apply until_taken in EU as (y & A & C & L1 & Y & X); [|exact L].
  assert (HY : (length y <= S k)%nat) by (rewrite A in P; exact (piece_len _ _ _ _ P Y)).
  assert (STOP : exists y0, b_all b = y0 ++ b_all b1 /\ br_cap b1 = br_cap b /\ (length (br_buf b1) <= br_cap b)%nat /\ (N.of_nat (length (buf ++ y0)) <= 8192 + N.of_nat k)%N).
  { exists y. ands; auto. rewrite app_length. lia. }
  destruct r1 as [x| | | |]; try (intros [= <- <-]; exact STOP).
  specialize (X x eq_refl). cbn [app] in X. subst x. destruct y as [|c y]; [intros [= <- <-]; exact STOP|].
  destruct (c_max_head <=? N.of_nat (length (buf ++ c :: y)))%N eqn:EM; [intros [= <- <-]; exact STOP|].
  destruct (ends_with CRLF2 (buf ++ c :: y) || ends_with LFLF (buf ++ c :: y)); [intros [= <- <-]; exact STOP|].
  intros H. apply IH in H as (y2 & A2 & C2 & L2 & B2); [|congruence|unfold c_max_head in EM; lia|rewrite <- app_assoc, <- A; exact P].
  exists ((c :: y) ++ y2). ands; try congruence.
  - now rewrite A, A2, <- app_assoc.
  - rewrite app_assoc. exact B2.
Qed.
Lemma decode_taken ev k s : pieces_le k (evs_all (s_evs s)) ->
  exists x, took s (fst (c_decode ev s)) x /\ (N.of_nat (length x) <= 8192 + N.of_nat k + N.of_nat (e_bufcap ev))%N.
Proof.
  intros P. unfold c_decode, c_head, took. destruct (c_head_go _ _ _) as [b' r] eqn:EG.
  apply (c_go_taken k) in EG as (y & A & C & L & HB); [|cbn; lia|reflexivity|exact P].
  assert (X : exists x, evs_all (s_evs s) = x ++ evs_all (s_evs (br_src b')) /\ (N.of_nat (length x) <= 8192 + N.of_nat k + N.of_nat (e_bufcap ev))%N).
  { exists (y ++ br_buf b'). split; [rewrite <- app_assoc; exact A|]. cbn [app br_new br_cap] in *. rewrite app_length. lia. }
  destruct r; [|exact X|exact X]. destruct (parse_response _ _ _) as [p| |]; [|exact X|exact X]. destruct (p_version p =? 1)%N; [|exact X]. destruct (c_headers _ _); exact X.
Qed.

(** A line that does not end is taken whole. *)
Lemma until_swallows fuel : forall (l : bytes) b acc, (length l < fuel)%nat -> (0 < br_cap b)%nat -> br_buf b = [] -> ~ In LF l -> s_evs (br_src b) = (match l with [] => [] | _ => [Data l] end) -> s_tail (br_src b) = Eof ->
  read_until_go fuel false b acc = (mkBrd (br_cap b) [] (mkSrc [] Eof), ROk (acc ++ l)).
Proof.
  induction fuel as [|fuel IH]; intros l b acc Hf Hc Hb Hn He Ht; [lia|]. cbn [read_until_go]. unfold br_fill, src_read. rewrite Hb, He, Ht.
  destruct b as [cap bf [evs tl]]. cbn [br_cap br_buf br_src s_evs s_tail] in *. subst bf tl.
  destruct l as [|c l]; [subst evs; cbn; now rewrite app_nil_r|].
  assert (N1 : ~ In LF (firstn cap (c :: l))) by (intros I; apply Hn; rewrite <- (firstn_skipn cap (c :: l)); apply in_or_app; now left).
  destruct (split_after LF (firstn cap (c :: l))) as [[p q]|] eqn:ES.
  { exfalso. destruct (split_after_eq _ _ _ _ ES) as (E & z & -> & _). apply N1. rewrite E. rewrite <- app_assoc. apply in_or_app. right. now left. }
  destruct cap as [|cap]; [lia|]. cbn [firstn]. cbn [skipn].
  rewrite IH with (l := skipn cap l).
  - cbn [br_consume br_cap br_src]. rewrite <- app_assoc. cbn [app]. rewrite firstn_skipn. reflexivity.
  - rewrite skipn_length. cbn in Hf. lia.
  - cbn. lia.
  - cbn [br_consume br_buf]. apply skipn_all.
  - intros I. apply Hn. right. rewrite <- (firstn_skipn cap l). apply in_or_app. now right.
  - cbn. destruct (skipn cap l); reflexivity.
  - reflexivity.
Qed.

(** ** Segmentation *)
Lemma decode_block ev s w rest : (0 < e_bufcap ev)%nat -> delivers s w rest -> (N.of_nat (length w) < 8192)%N ->
  exists b, br_buf b ++ fst (avail false (s_evs (br_src b))) = rest /\
  c_decode ev s = (b, match parse_response (e_trim ev) c_max_headers w with
    | HDone p => if (p_version p =? 1)%N then match c_headers (p_headers p) [] with None => CErr | Some m => match c_response ev (p_code p) (c_dated ev m) b with Some r => COk r | None => CErr end end else CErr
    | _ => CErr end).
Proof.
  intros Hcap (Ws & Hb & E) HL. unfold c_decode, c_head. destruct (c_head_go _ _ _) as [b' r] eqn:EG.
  pose proof (avail_win (e_bufcap ev) s) as Hw.
  pose proof (c_go_done [] _ _ _ _ [] w rest b' r (Nat.lt_succ_diag_r _) (new_wf ev Hcap s Ws) Hw E Hb) as Q.
  replace (c_max_head <=? N.of_nat (length w))%N with false in Q by (unfold c_max_head; lia).
  destruct Q as (-> & W1 & Hw1 & D1 & C1 & T1 & S1); [|exact EG|].
  { exists w. split; [|reflexivity]. intros ->. destruct Hb as [H _]. apply resp_end_lf in H as [[|] ?]; discriminate. }
  exists b'. split.
  - destruct Hw1 as (l1 & E1 & E2 & _). rewrite app_nil_r in E1. now rewrite E1, E2.
  - destruct (parse_response (e_trim ev) c_max_headers w) as [p| |]; try reflexivity. destruct (p_version p =? 1)%N; [|reflexivity]. now destruct (c_headers (p_headers p) []).
Qed.
Lemma response_same ev code m b1 b2 : br_buf b1 ++ fst (avail false (s_evs (br_src b1))) = br_buf b2 ++ fst (avail false (s_evs (br_src b2))) ->
  same_answer (match c_response ev code m b1 with Some r => COk r | None => CErr end) (match c_response ev code m b2 with Some r => COk r | None => CErr end).
Proof.
  intros E. unfold c_response. destruct (hm_get h_content_length m) as [v|].
  - destruct (hm_get h_transfer_encoding m); [constructor|]. destruct (value_to_str v); [|constructor]. destruct (parse_usize b); [|constructor].
    destruct (status_ok code); constructor. exact E.
  - destruct (hm_get h_transfer_encoding m) as [v|]; [destruct (beq v (B "chunked"))|].
    + apply sa_chunked. exact E.
    + destruct (status_ok code); constructor.
    + destruct (status_ok code); constructor.
Qed.
Lemma decode_segments ev s1 s2 : env_wf ev -> (0 < e_bufcap ev)%nat -> wf_src s1 -> wf_src s2 -> fst (avail false (s_evs s1)) = fst (avail false (s_evs s2)) ->
  same_answer (snd (c_decode ev s1)) (snd (c_decode ev s2)).
Proof.
  intros He Hc W1 W2 E. destruct (resp_cases (fst (avail false (s_evs s1)))) as [(w & rest & Ew & Hb)|H].
  - assert (D1 : delivers s1 w rest) by (split; [|split]; assumption). assert (D2 : delivers s2 w rest) by (split; [|split]; congruence).
    destruct (N.ltb_spec (N.of_nat (length w)) 8192) as [HL|HL].
    + destruct (decode_block ev _ _ _ Hc D1 HL) as (b1 & B1 & ->). destruct (decode_block ev _ _ _ Hc D2 HL) as (b2 & B2 & ->). cbn [snd].
      destruct (parse_response (e_trim ev) c_max_headers w) as [p| |]; try constructor. destruct (p_version p =? 1)%N; [|constructor].
      destruct (c_headers (p_headers p) []) as [m|]; [|constructor]. apply response_same. congruence.
    + rewrite (decode_long ev Hc _ _ _ D1 HL), (decode_long ev Hc _ _ _ D2 HL). constructor.
  - rewrite !decode_none; [constructor|assumption..| | |assumption|]; try assumption.
    + intros w rest (_ & Hb & Ew). rewrite <- E in Ew. apply (H w rest Ew). apply Hb.
    + intros w rest (_ & Hb & Ew). apply (H w rest Ew). apply Hb.
Qed.
