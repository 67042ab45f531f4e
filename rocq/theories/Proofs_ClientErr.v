(** The errors of the client. *)
From Verif Require Import ClientErr SpecText SpecHead SpecReq SpecResponse SpecClient SpecErr Lemmas Proofs_Copy Proofs_Map Proofs_Parse Proofs_Buf Proofs_ReqParse
  Proofs_ReqHead Proofs_ServerDec Proofs_Send Proofs_Client Proofs_ClientDec Proofs_ClientUse.

(** ** The two accounts of a call agree *)
Lemma encode_why q : c_encode_why q <> None <-> c_encode q = CEncode.
Proof.
  unfold c_encode_why, c_encode, c_target, c_host_line. destruct (is_connect q).
  - destruct (u_host (c_uri q)) as [h|]; [|split; [reflexivity|discriminate]]. destruct (u_port (c_uri q)) as [p|]; [|split; [reflexivity|discriminate]].
    destruct (hm_get h_host (c_hdrs q)); destruct (b_len (c_body q)); split; congruence.
  - destruct (hm_get h_host (c_hdrs q)); destruct (u_host (c_uri q)); destruct (b_len (c_body q)); split; congruence.
Qed.
Lemma head_why T fuel : forall b buf, c_head_why T fuel b buf <> None <-> snd (c_head_go fuel b buf) = ChErr.
Proof.
  induction fuel as [|fuel IH]; intros b buf; cbn [c_head_why c_head_go]; [split; cbn; congruence|].
  destruct (read_until false b) as [b' [[|c x]| | | |]]; cbn [snd]; try (split; congruence).
  destruct (c_max_head <=? _)%N; cbn [snd]; [split; congruence|]. destruct (_ || _); cbn [snd]; [split; congruence|apply IH].
Qed.
Lemma headers_why T hs : forall m, c_headers_why T hs <> None <-> c_headers hs m = None.
Proof.
  induction hs as [|[n v] hs IH]; intros m; cbn [c_headers_why c_headers]; [split; congruence|].
  destruct (header_value v) as [v'|]; [|split; congruence]. destruct (header_name n) as [n'|]; [apply IH|split; congruence].
Qed.
Lemma response_why T ev code m b : c_response_why T code m <> None <-> c_response ev code m b = None.
Proof.
  unfold c_response_why, c_response. destruct (hm_get h_content_length m) as [v|]; destruct (hm_get h_transfer_encoding m) as [t|]; try (split; congruence).
  - destruct (value_to_str v) as [v'|]; [|split; congruence]. destruct (parse_usize v'); [|split; congruence]. destruct (status_ok code); split; congruence.
  - destruct (beq t _); [split; congruence|]. destruct (status_ok code); split; congruence.
  - destruct (status_ok code); split; congruence.
Qed.
Lemma decode_why T ev s : c_decode_why T ev s <> None <-> snd (c_decode ev s) = CErr.
Proof.
  unfold c_decode_why, c_decode. set (b := br_new (e_bufcap ev) s). pose proof (head_why T (S (br_size b)) b []) as HW. unfold c_head.
  destruct (c_head_go (S (br_size b)) b []) as [b' [buf| |]]; cbn [snd] in *.
  - destruct (c_head_why _ _ _ _) as [e|]; [assert (X : ChDone buf = ChErr) by (apply HW; discriminate); discriminate|].
    destruct (parse_response _ _ buf) as [p| |]; try (split; cbn; congruence).
    destruct (p_version p =? 1)%N; [|split; cbn; congruence]. pose proof (headers_why T (p_headers p) []) as HH.
    destruct (c_headers_why T (p_headers p)) as [e|]; destruct (c_headers (p_headers p) []) as [m|]; cbn [snd].
    + assert (X : Some m = None) by (apply HH; discriminate). discriminate.
    + split; congruence.
    + pose proof (response_why T ev (p_code p) (c_dated ev m) b') as HR. rewrite HR. destruct (c_response _ _ _ _); split; congruence.
    + elim (proj2 HH eq_refl). reflexivity.
  - destruct (c_head_why _ _ _ _) as [e|]; [split; congruence|]. elim (proj2 HW eq_refl). reflexivity.
  - destruct (c_head_why _ _ _ _) as [e|]; [assert (X : ChFuel = ChErr) by (apply HW; discriminate); discriminate|]. split; congruence.
Qed.
Lemma connect_why_iff T ev fuel q s w : connect_why T ev fuel q s w <> None <-> snd (connect ev fuel q s w) = CErr.
Proof.
  unfold connect_why, connect. pose proof (encode_why q) as HE. destruct (c_encode_why q) as [e|].
  - rewrite (proj1 HE ltac:(discriminate)). split; cbn; congruence.
  - destruct (c_encode q) as [h| |]; [|elim (proj2 HE eq_refl); reflexivity|split; cbn; congruence].
    destruct (copy_go _ _ _ _ _ _) as [w' [k| | | |]]; cbn [snd]; try (split; congruence). apply decode_why.
Qed.

(** ** Why there is no head *)
Lemma why_done T l2 fuel : forall b l k buf w rest, (br_size b < fuel)%nat -> wf_brd b -> win false l2 b l k ->
  buf ++ l = w ++ rest -> resp_block w -> (exists x, x <> [] /\ w = buf ++ x) -> (8192 <= N.of_nat (length w))%N ->
  c_head_why T fuel b buf = Some (err_decode m_long).
Proof.
  induction fuel as [|fuel IH]; intros b l k buf w rest Hf Wb Hw El Hb (x & Hx & Ew) HL8; [lia|]. cbn [c_head_why].
  assert (El' : l = x ++ rest) by (rewrite Ew, <- app_assoc in El; now apply app_inv_head in El).
  assert (HL : In LF x).
  { destruct Hb as [HE _]. apply resp_end_lf in HE as [p Hp]. destruct (exists_last Hx) as (x0 & c & ->).
    rewrite app_assoc in Ew. rewrite Ew in Hp. apply app_inj_tail in Hp as [_ ->]. apply in_or_app. right. now left. }
  destruct (split_after LF x) as [[p q]|] eqn:ES; [|apply split_after_none in ES; contradiction].
  assert (ES' : split_after LF l = Some (p, q ++ rest)) by (rewrite El', split_after_app, ES; reflexivity).
  unfold read_until. destruct (read_until_go (S (br_size b)) false b []) as [b1 r1] eqn:EU.
  destruct (until_line _ _ _ _ _ _ _ _ _ _ _ (Nat.lt_succ_diag_r _) Wb Hw ES' EU) as (-> & W1 & Hw1 & D1 & C1 & T1 & S1).
  cbn [app]. destruct (split_after_eq _ _ _ _ ES) as (-> & p0 & Ep & _).
  destruct p as [|c p']; [now destruct p0|]. set (p := c :: p') in *.
  assert (Hp : (0 < length p)%nat) by (cbn; lia).
  assert (HLw : length w = (length (buf ++ p) + length q)%nat) by (rewrite Ew, !app_length; lia).
  destruct (c_max_head <=? N.of_nat (length (buf ++ p)))%N eqn:EM; [reflexivity|].
  assert (Hq : q <> []) by (intros ->; cbn [length] in HLw; unfold c_max_head in EM; lia).
  fold (resp_endb (buf ++ p)). destruct (resp_endb (buf ++ p)) eqn:EE.
  - exfalso. destruct Hb as [_ Hb]. apply (Hb (buf ++ p) q); [now rewrite Ew, app_assoc|exact Hq|now apply resp_end_iff].
  - assert (A : (buf ++ p) ++ q ++ rest = w ++ rest) by (rewrite <- El, El', <- !app_assoc; reflexivity).
    apply (IH b1 _ k (buf ++ p) w rest ltac:(lia) W1 Hw1 A Hb); [|exact HL8]. exists q. split; [assumption|]. now rewrite Ew, app_assoc.
Qed.

Lemma why_end T fuel : forall b l k buf, (br_size b < fuel)%nat -> wf_brd b -> win false [] b l k ->
  no_resp (buf ++ l) -> (N.of_nat (length buf) < 8192)%N ->
  (c_head_why T fuel b buf = Some (err_decode m_long) /\ (8192 <= N.of_nat (length (buf ++ l)))%N) \/
  (c_head_why T fuel b buf = Some (err_decode_by (t_read T)) /\ ~ (k = ObEnd /\ s_tail (br_src b) = Eof)) \/
  (c_head_why T fuel b buf = Some (err_decode m_empty) /\ k = ObEnd /\ s_tail (br_src b) = Eof /\ (N.of_nat (length (buf ++ l)) < 8192)%N).
Proof.
  induction fuel as [|fuel IH]; intros b l k buf Hf Wb Hw Hn H8; [lia|]. cbn [c_head_why].
  unfold read_until. destruct (read_until_go (S (br_size b)) false b []) as [b1 r1] eqn:EU.
  destruct (split_after LF l) as [[p q]|] eqn:ES.
  - destruct (until_line _ _ _ _ _ _ _ _ _ _ _ (Nat.lt_succ_diag_r _) Wb Hw ES EU) as (-> & W1 & Hw1 & D1 & C1 & T1 & S1).
    destruct (split_after_eq _ _ _ _ ES) as (-> & p0 & Ep & _). cbn [app].
    destruct p as [|c p']; [now destruct p0|]. set (p := c :: p') in *.
    assert (Hp : (0 < length p)%nat) by (cbn; lia).
    destruct (c_max_head <=? N.of_nat (length (buf ++ p)))%N eqn:EM; unfold c_max_head in EM.
    { left. split; [reflexivity|]. rewrite app_assoc, app_length. lia. }
    fold (resp_endb (buf ++ p)). destruct (resp_endb (buf ++ p)) eqn:EE.
    { exfalso. apply (Hn (buf ++ p) q); [now rewrite app_assoc|]. now apply resp_end_iff. }
    rewrite app_assoc in *. rewrite <- T1. apply IH; auto; lia.
  - apply split_after_none in ES.
    destruct (until_end _ _ _ _ _ _ _ _ (Nat.lt_succ_diag_r _) Wb Hw ES EU) as (W1 & C1 & T1 & B1 & K).
    destruct k.
    2:{ subst r1. right. left. split; [reflexivity|]. intros [? _]. discriminate. }
    2:{ exfalso. destruct Hw as (l1 & E1 & _ & E3). clear -E3. induction l1 as [|[d|f|] l1 IH]; try discriminate.
        - rewrite avail_data in E3. now apply IH.
        - apply IH, E3. }
    destruct K as [K1 K2]. destruct (s_tail (br_src b)) eqn:ET; subst r1.
    2:{ right. left. split; [reflexivity|]. intros [_ ?]. discriminate. }
    cbn [app]. destruct l as [|c l].
    { right. right. rewrite app_nil_r. auto. }
    destruct (c_max_head <=? N.of_nat (length (buf ++ c :: l)))%N eqn:EM; unfold c_max_head in EM.
    { left. split; [reflexivity|lia]. }
    fold (resp_endb (buf ++ c :: l)). destruct (resp_endb (buf ++ c :: l)) eqn:EE.
    { exfalso. apply (Hn (buf ++ c :: l) []); [now rewrite app_nil_r|]. now apply resp_end_iff. }
    assert (Hw1 : win false [] b1 [] ObEnd) by (exists []; rewrite K1, B1; auto).
    destruct (br_size b) eqn:EZ.
    { exfalso. destruct Hw as (l1 & E1 & E2 & _). unfold br_size, src_size in EZ. destruct (br_buf b); [|cbn in EZ; lia].
      rewrite app_nil_r in E1. rewrite E1 in EZ. destruct l1 as [|[?|?|] ?]; cbn in EZ; try lia. discriminate. }
    assert (Z1 : br_size b1 = 0%nat) by (unfold br_size, src_size; now rewrite B1, K1).
    destruct (IH b1 [] ObEnd (buf ++ c :: l) ltac:(lia) W1 Hw1 ltac:(rewrite app_nil_r; exact Hn) ltac:(lia)) as [[_ Q]|[[_ Q]|(Q & _)]].
    + rewrite app_nil_r in Q. lia.
    + elim Q. auto.
    + right. right. ands; auto. lia.
Qed.

(** ** Why there is no response *)
Lemma headers_fine T trim minor code hs w : resp_grammatical trim minor code hs w -> (N.of_nat (length w) < 8192)%N -> c_headers_why T hs = None.
Proof.
  intros G L. destruct (resp_fields _ _ _ _ _ G L) as (m & E & _). destruct (c_headers_why T hs) as [e|] eqn:EW; [|reflexivity].
  assert (X : c_headers hs [] = None) by (apply (headers_why T); rewrite EW; discriminate). congruence.
Qed.
Lemma response_says T ev s w rest code hs m e : env_wf ev -> delivers s w rest -> resp_grammatical (e_trim ev) 1 code hs w -> holds m hs ->
  c_response_why T code (c_dated ev m) = Some e -> blames T (e_trim ev) s (error_text e).
Proof.
  intros He D G HM H. pose proof (dated_holds ev m hs He HM) as HD. pose proof HD as [_ HV].
  assert (GC : hm_get h_content_length (c_dated ev m) = hd_error (values (B "content-length") hs)).
  { change h_content_length with (lower (B "content-length")). rewrite (get_first _ _ _ HV), dated_values; [reflexivity|discriminate|reflexivity]. }
  assert (GT : hm_get h_transfer_encoding (c_dated ev m) = hd_error (values (B "transfer-encoding") hs)).
  { change h_transfer_encoding with (lower (B "transfer-encoding")). rewrite (get_first _ _ _ HV), dated_values; [reflexivity|discriminate|reflexivity]. }
  unfold c_response_why in H. rewrite GC, GT in H.
  pose proof (resp_code _ _ _ _ _ G) as HC.
  assert (ST : forall e', (if status_ok code then None else Some (err_decode_by (t_status T))) = Some e' -> ~ says_chunked hs -> blames T (e_trim ev) s (error_text e')).
  { intros e' X NC. destruct (status_ok code) eqn:SO; [discriminate|]. injection X as <-. eapply (bl_status T _ _ w rest code hs); auto. unfold status_ok in SO. lia. }
  destruct (values (B "content-length") hs) as [|v r] eqn:EC; destruct (values (B "transfer-encoding") hs) as [|t rt] eqn:ET; cbn [hd_error] in H.
  - apply ST; [exact H|]. intros [? X]. congruence.
  - destruct (beq_spec t (B "chunked")) as [->|NE]; [discriminate|]. apply ST; [exact H|]. intros [? X]. rewrite ET in X. injection X as X _. now elim NE.
  - assert (NC : ~ says_chunked hs) by (intros [? X]; congruence).
    destruct (value_to_str v) as [v1|] eqn:EV.
    + unfold value_to_str in EV. destruct (forallb is_str_byte v); [|discriminate]. injection EV as <-.
      destruct (parse_usize v) as [k|] eqn:EP; [now apply ST|]. injection H as <-.
      apply (bl_length T _ _ w rest code hs v r); auto. intros n X. apply cl_value_iff in X. congruence.
    + injection H as <-. apply (bl_length T _ _ w rest code hs v r); auto. intros n X. apply cl_value_str in X. congruence.
  - injection H as <-. apply (bl_both T _ _ w rest code hs); auto; congruence.
Qed.
Lemma decode_says T ev s e : env_wf ev -> (0 < e_bufcap ev)%nat -> wf_src s -> c_decode_why T ev s = Some e -> blames T (e_trim ev) s (error_text e).
Proof.
  intros He Hcap Ws H. unfold c_decode_why in H. pose proof (avail_win (e_bufcap ev) s) as Hw.
  set (b0 := br_new (e_bufcap ev) s) in *. assert (W0 : wf_brd b0) by (split; assumption).
  destruct (resp_cases (fst (avail false (s_evs s)))) as [(w & rest & E & Hb)|Hn].
  - assert (D : delivers s w rest) by (split; auto).
    assert (NW : exists x, x <> [] /\ w = [] ++ x).
    { exists w. split; [|reflexivity]. intros ->. destruct Hb as [X _]. apply resp_end_lf in X as [[|] ?]; discriminate. }
    destruct (8192 <=? N.of_nat (length w))%N eqn:EL.
    + rewrite (why_done T [] _ b0 _ _ [] w rest (Nat.lt_succ_diag_r _) W0 Hw E Hb NW ltac:(lia)) in H. injection H as <-.
      apply (bl_long T _ s w); [eauto|lia].
    + assert (HL : (N.of_nat (length w) < 8192)%N) by lia.
      destruct (c_head_go (S (br_size b0)) b0 []) as [b' r] eqn:EG.
      pose proof (c_go_done [] _ _ _ _ [] w rest b' r (Nat.lt_succ_diag_r _) W0 Hw E Hb NW EG) as Q.
      replace (c_max_head <=? N.of_nat (length w))%N with false in Q by (unfold c_max_head; lia). destruct Q as (-> & _).
      destruct (c_head_why T (S (br_size b0)) b0 []) as [e'|] eqn:EW.
      { assert (X : snd (c_head_go (S (br_size b0)) b0 []) = ChErr) by (apply (head_why T); rewrite EW; discriminate). rewrite EG in X. discriminate. }
      unfold c_head in H. rewrite EG in H. destruct (parse_response (e_trim ev) c_max_headers w) as [p| |] eqn:EP.
      * destruct p as [minor code hs y]. cbn [p_version p_code p_headers] in H.
        assert (G : resp_grammatical (e_trim ev) minor code hs w) by (apply resp_parse; eauto).
        destruct (N.eqb_spec minor 1) as [->|NE].
        -- rewrite (headers_fine T _ _ _ _ _ G HL) in H. destruct (resp_fields _ _ _ _ _ G HL) as (m & EM & HM). rewrite EM in H.
           eapply response_says; eauto.
        -- injection H as <-. assert (minor = 0%N) as ->.
           { destruct G as (x & y' & _ & (bl & ver & cd & rsn & nl & fw & nl2 & _ & _ & V & _) & _). destruct V as [[V _]|[V _]]; congruence. }
           apply (bl_version T _ s w rest code hs); auto.
      * injection H as <-. apply (bl_syntax T _ s w rest); auto. intros ? ? ? G'. apply resp_parse in G' as (y & G'). congruence.
      * injection H as <-. apply (bl_syntax T _ s w rest); auto. intros ? ? ? G'. apply resp_parse in G' as (y & G'). congruence.
  - assert (U : unanswered s) by (intros w rest (_ & [X _] & E); now apply (Hn w rest)).
    destruct (why_end T _ b0 _ _ [] (Nat.lt_succ_diag_r _) W0 Hw Hn ltac:(cbn; lia)) as [[Q L]|[[Q L]|(Q & K1 & K2 & L)]]; rewrite Q in H; injection H as <-.
    + apply (bl_long T _ s (fst (avail false (s_evs s)))); auto.
    + apply bl_lost; auto. intros [C1 C2]. apply L. split; [now apply calm_iff|exact C2].
    + assert (C : clean s) by (split; [now apply calm_iff|exact K2]).
      apply bl_closed; auto. cbn [app] in L. unfold src_data. rewrite <- (proj2 (Proofs_Body.avail_calm false (s_evs s) K1)). exact L.
Qed.

(** ** Why the call fails *)
Lemma connect_says T ev fuel q s w e : env_wf ev -> (0 < e_bufcap ev)%nat -> creq_wf q -> wf_src (b_src (c_body q)) -> wf_src s ->
  connect_why T ev fuel q s w = Some e ->
  exists o, w_out (fst (connect ev fuel q s w)) = w_out w ++ o /\ complains T (e_trim ev) q s w o (error_text e).
Proof.
  intros He Hc Wq Wb Ws H. assert (WM : hm_wf (c_hdrs q)) by apply Wq. unfold connect_why in H. pose proof (encode_why q) as HE.
  destruct (c_encode_why q) as [e'|] eqn:EW.
  - injection H as <-. exists []. unfold connect. rewrite (proj1 HE ltac:(discriminate)). split; [cbn [fst]; now rewrite app_nil_r|].
    unfold c_encode_why in EW. rewrite (host_get q WM) in EW.
    destruct (connect_dec q) as [[EC M]|[EC M]]; rewrite EC in EW; destruct (u_host (c_uri q)) as [h|] eqn:EH.
    + destruct (u_port (c_uri q)) as [p|] eqn:EP.
      * destruct (hd_error _); discriminate.
      * injection EW as <-. apply cp_port; congruence.
    + injection EW as <-. apply cp_host; auto.
    + destruct (hd_error _); discriminate.
    + destruct (values (B "host") (hm_iter (c_hdrs q))) eqn:EV; [|discriminate]. injection EW as <-. apply cp_host; auto.
  - destruct (c_encode q) as [h| |] eqn:EE; try discriminate.
    assert (HH : creq_head q h) by now apply encode_reads.
    assert (A : addressed q).
    { destruct HH as (t & n & fs & HT & _ & (hf & _ & _ & HF & _) & _). split; eauto. }
    destruct (cenced_sends ev q h w Hc Wb) as (F & w' & r & p & HC & HO & HP & HR).
    unfold connect. rewrite EE. destruct (copy_go (cenc_poll (e_bufcap ev)) fuel _ [] w 0) as [w1 r1] eqn:EG.
    destruct r1 as [k| | | |]; try discriminate.
    all: assert (EQ : (w1, _) = (w', r)) by (rewrite <- (HC (Nat.max F fuel) (Nat.le_max_l _ _)); symmetry;
           eapply Proofs_ServerEnc.copy_go_mono; [|apply Nat.le_max_r|exact EG|discriminate]; auto).
    all: injection EQ as -> <-.
    + exists p. split; [destruct (c_decode ev s); exact HO|]. destruct HR as [(C & _ & Ep)|[? _]]; [|discriminate]. rewrite Ep.
      apply cp_answer; auto. now apply decode_says.
    + exists p. split; [exact HO|]. destruct HR as [(_ & ? & _)|[_ N]]; [discriminate|]. injection H as <-. now apply (cp_unsent T _ q s w h).
    + destruct HR as [(_ & ? & _)|[? _]]; discriminate.
Qed.
