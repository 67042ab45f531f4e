(** Single requests on a connection. *)
From Verif Require Import Accept Reads SpecChunked SpecHead SpecResponse SpecReq SpecServer Lemmas Proofs_Copy Proofs_Parse Proofs_Buf
  Proofs_Dec Proofs_DecReads Proofs_ReqHead Proofs_ReqParse Proofs_ServerEnc Proofs_Head Proofs_Send Proofs_ServerDec Proofs_Body Proofs_Accept Proofs_Text.

Lemma ok_cap ev : env_ok ev -> (0 < e_bufcap ev)%nat.
Proof. intros (_ & H & _). lia. Qed.

(** ** Refusals *)
Lemma refuse_same ev o s w c code : env_ok ev -> offers (o_timeout o) s w -> judged ev w c (Refuse code) ->
  forall wt fuel h h', turn fuel ev o h s wt = turn fuel ev o h' s wt.
Proof.
  intros He (Ws & Hb & rest & A) J wt fuel h h'.
  destruct (decode_block ev (o_timeout o) (s_evs s) [] s w rest (ok_cap ev He) Ws ltac:(now rewrite app_nil_r) A Hb) as (b & _ & _ & _ & _ & _ & _ & HD).
  destruct (HD c _ J) as (out & (f & -> & _) & HDec). unfold turn. rewrite HDec.
  destruct (snd (interim c (o_timeout o) wt)); reflexivity.
Qed.

Lemma refuse ev o s w c code : env_ok ev -> offers (o_timeout o) s w -> judged ev w c (Refuse code) -> refused ev o s c code.
Proof.
  intros He HO J. split; [eapply refuse_same; eauto|]. destruct HO as (Ws & Hb & rest & A).
  destruct (refused_turn ev code He) as (m & Hm & HT). exists m. split; [exact Hm|]. intros wt Ha Hp.
  destruct (HT o s wt (s_evs s) [] w rest c Ws ltac:(now rewrite app_nil_r) A Hb J Ha Hp) as (b & F & wt' & _ & _ & _ & T & O & _ & _).
  exists F, (br_src b), wt'. split; [exact O|]. intros h n fuel Hf. cbn [accept_go]. rewrite (T fuel (h 0%nat) Hf). now destruct (code =? 501)%N.
Qed.

(** More than 16 fields is not grammatical. *)
Lemma many_fields trim rl hs x y : lhead trim rl hs x -> (16 < length hs)%nat -> forall rl' hs', ~ grammatical trim rl' hs' (x ++ y).
Proof.
  intros L Hn rl' hs' (x' & y' & E & L' & Hn').
  assert (P1 : parse_request trim (length hs) (x ++ y) = HDone (mkHreq (l_method rl) (l_target rl) (l_minor rl) hs y)).
  { apply parse_request_iff. exists x. cbn. destruct rl. auto. }
  assert (P2 : parse_request trim (length hs) (x ++ y) = HDone (mkHreq (l_method rl') (l_target rl') (l_minor rl') hs' y')).
  { apply parse_request_iff. exists x'. cbn. destruct rl'. ands; auto. lia. }
  rewrite P1 in P2. injection P2 as _ _ _ EH _. subst hs'. lia.
Qed.

(** ** What [decode] returns *)
Lemma split_obstacle tmo : forall l, exists l1 l2, l = l1 ++ l2 /\ avail tmo l1 = (fst (avail tmo l), ObEnd) /\
  match snd (avail tmo l) with ObEnd => l2 = [] | ObFail => exists r, l2 = Fail :: r | ObTimer => tmo = true /\ exists r, l2 = Pend true :: r end.
Proof.
  induction l as [|[d|f|] l (l1 & l2 & -> & A & K)].
  - exists [], []. cbn. auto.
  - exists (Data d :: l1), l2. split; [reflexivity|]. rewrite !avail_data, A. cbn [fst snd]. auto.
  - cbn [avail]. destruct (tmo && f)%bool eqn:E.
    + apply andb_true_iff in E as [-> ->]. exists [], (Pend true :: l1 ++ l2). cbn. ands; eauto.
    + exists (Pend f :: l1), l2. cbn [avail app]. rewrite E. auto.
  - exists [], (Fail :: l1 ++ l2). cbn. eauto.
Qed.
Lemma calm_clean tmo l : snd (avail tmo l) = ObEnd -> clean_evs l.
Proof.
  unfold clean_evs. induction l as [|[d|f|] l IH]; intros H.
  - constructor.
  - rewrite avail_data in H. constructor; [discriminate|]. apply IH, H.
  - cbn in H. destruct (tmo && f)%bool; [discriminate|]. constructor; [discriminate|]. now apply IH.
  - discriminate.
Qed.

(** A head block on offer: the state [b] after reading it does not depend on the writer. *)
Lemma decode_offer ev tmo s w : (0 < e_bufcap ev)%nat -> offers tmo s w ->
  exists b rest, fst (avail tmo (s_evs s)) = w ++ rest /\ br_buf b ++ fst (avail tmo (s_evs (br_src b))) = rest /\
    snd (avail tmo (s_evs (br_src b))) = snd (avail tmo (s_evs s)) /\
    wf_brd b /\ src_data s = w ++ br_data b /\ (clean s <-> clean (br_src b)) /\ (br_size b <= src_size s)%nat /\ br_cap b = e_bufcap ev /\
    forall c v, judged ev w c v -> exists o, answers ev v b o /\
    forall wt, decode ev tmo s wt = (br_src b, fst (interim c tmo wt), after_interim (snd (interim c tmo wt)) o).
Proof.
  intros Hc (Ws & Hb & rest & A). destruct (split_obstacle tmo (s_evs s)) as (l1 & l2 & E & A1 & K).
  assert (F1 : fst (avail tmo l1) = w ++ rest) by now rewrite A1.
  destruct (decode_block ev tmo l1 l2 s w rest Hc Ws E F1 Hb) as (b & W1 & W2 & W3 & W4 & W5 & W6 & HD).
  exists b, rest. rewrite A1 in W2. cbn [snd] in W2. destruct W2 as (l3 & E3 & ER & K3). symmetry in K3.
  assert (C1 : clean_evs l1) by (apply (calm_clean tmo); now rewrite A1).
  assert (C3 : clean_evs l3) by now apply (calm_clean tmo).
  destruct (avail_calm _ _ K3) as [CM3 ED3].
  assert (CM1 : calm tmo l1) by (apply avail_calm; now rewrite A1).
  assert (AV : avail tmo l2 = ([], snd (avail tmo (s_evs s)))).
  { destruct (snd (avail tmo (s_evs s))); [subst l2; reflexivity|destruct K as (r & ->); reflexivity|destruct K as (-> & r & ->); reflexivity]. }
  rewrite E3. rewrite (avail_app tmo l3 l2 CM3), AV. cbn [fst snd]. rewrite app_nil_r.
  ands; auto; try (rewrite ER; congruence).
  unfold clean, clean_evs in *. rewrite E, E3, W5, !Forall_app. tauto.
Qed.

Lemma decode_none ev tmo s : (0 < e_bufcap ev)%nat -> wf_src s -> no_head (fst (avail tmo (s_evs s))) ->
  exists s', forall wt, decode ev tmo s wt = (s', wt,
    match snd (avail tmo (s_evs s)), s_tail s with
    | ObTimer, _ => OTimeout | ObEnd, Eof => ONone | _, _ => OFail FConnLost end).
Proof.
  intros Hc Ws NH. destruct (req_head tmo (br_new (e_bufcap ev) s)) as [b r] eqn:RH.
  destruct (req_head_end tmo (e_bufcap ev) s b r) as (W1 & W2 & W3); auto.
  exists (br_src b). intros wt. unfold decode. rewrite RH. destruct (snd (avail tmo (s_evs s))).
  - destruct W3 as [_ W3]. destruct (s_tail s); subst r; reflexivity.
  - subst r. destruct (s_tail s); reflexivity.
  - subst r. destruct (s_tail s); reflexivity.
Qed.

Lemma decode_req ev tmo s wt s' wt' q b : (0 < e_bufcap ev)%nat -> wf_src s -> decode ev tmo s wt = (s', wt', OReq q b) ->
  exists w br c m u hs len, offers tmo s w /\ src_data s = w ++ br_data br /\ wf_brd br /\ b = body_reader ev len br /\
    (clean s <-> clean (br_src br)) /\ (br_size br <= src_size s)%nat /\ br_cap br = e_bufcap ev /\
    judged ev w c (Accept m u hs len) /\ presents q m u hs len /\ interim c tmo wt = (wt', ROk tt).
Proof.
  intros Hc Ws H. destruct (head_cases (fst (avail tmo (s_evs s)))) as [(w & rest & A & Hb)|NH].
  - assert (HO : offers tmo s w) by (split; [exact Ws|]; split; [exact Hb|]; eauto).
    destruct (decode_offer ev tmo s w Hc HO) as (br & rest' & _ & _ & _ & W1 & W2 & W3 & W4 & W5 & HD).
    destruct (judge_total (e_trim ev) (parse_uri (e_uri ev)) w) as (c & v & J). destruct (HD c v J) as (o & AN & HDec).
    rewrite HDec in H. destruct (interim c tmo wt) as [w1 [[]| | | |]] eqn:EI; cbn [fst snd after_interim] in H; try discriminate.
    injection H as <- <- ->. destruct v as [code|m u hs len]; [destruct AN as (f & ? & _); discriminate|].
    destruct AN as (h & [= -> ->] & HW & HG). exists w, br, c, m, u, hs, len. ands; auto. unfold presents; cbn [q_meth q_uri q_hdrs q_len]; ands; auto.
  - destruct (decode_none ev tmo s Hc Ws NH) as (s1 & HD). rewrite HD in H. destruct (snd (avail tmo (s_evs s))), (s_tail s); discriminate.
Qed.

Lemma segments ev tmo s1 s2 wt : (0 < e_bufcap ev)%nat -> wf_src s1 -> wf_src s2 -> avail tmo (s_evs s1) = avail tmo (s_evs s2) -> s_tail s1 = s_tail s2 ->
  snd (fst (decode ev tmo s1 wt)) = snd (fst (decode ev tmo s2 wt)) /\
  same_request tmo (snd (decode ev tmo s1 wt)) (snd (decode ev tmo s2 wt)).
Proof.
  intros Hc W1 W2 EA ET. destruct (head_cases (fst (avail tmo (s_evs s1)))) as [(w & rest & A & Hb)|NH].
  - assert (O1 : offers tmo s1 w) by (split; [exact W1|]; split; [exact Hb|]; eauto).
    assert (O2 : offers tmo s2 w) by (split; [exact W2|]; split; [exact Hb|]; rewrite <- EA; eauto).
    destruct (req_head tmo (br_new (e_bufcap ev) s1)) as [b1 r1] eqn:R1. destruct (req_head tmo (br_new (e_bufcap ev) s2)) as [b2 r2] eqn:R2.
    assert (A2 := A). rewrite EA in A2.
    destruct (req_head_done tmo (s_evs s1) [] _ s1 w rest b1 r1 Hc W1 ltac:(now rewrite app_nil_r) A Hb R1) as (-> & _ & (l1 & E1 & B1 & _) & _).
    destruct (req_head_done tmo (s_evs s2) [] _ s2 w rest b2 r2 Hc W2 ltac:(now rewrite app_nil_r) A2 Hb R2) as (-> & _ & (l2 & E2 & B2 & _) & _).
    rewrite app_nil_r in E1, E2. subst l1 l2. rewrite B1 in B2. clear - B2 R1 R2.
    unfold decode. rewrite R1, R2. destruct (parse_head ev w) as [f|[[m path] a]]; [split; [reflexivity|constructor]|].
    assert (S : same_request tmo (build_req ev m path a b1) (build_req ev m path a b2)).
    { unfold build_req. destruct (negb (h_hashost a)); [constructor|]. destruct (parse_uri (e_uri ev) path); [|constructor].
      destruct (h_te a && h_chunked a)%bool; constructor; auto. }
    destruct (expects_continue a); [|split; [reflexivity|exact S]].
    destruct (write_all tmo continue_text wt) as [w' r] eqn:E. apply write_all_spec in E as (_ & p & _ & _ & [[-> _]|[[-> _]|[-> _]]]);
    (split; [reflexivity|first [exact S|constructor]]).
  - destruct (decode_none ev tmo s1 Hc W1 NH) as (x1 & D1). rewrite EA in NH. destruct (decode_none ev tmo s2 Hc W2 NH) as (x2 & D2).
    rewrite D1, D2, EA, ET. cbn [fst snd]. split; [reflexivity|]. destruct (snd (avail tmo (s_evs s2))), (s_tail s2); constructor.
Qed.

(** ** Strict heads are head blocks *)
Definition flat_lines (ls : list bytes) : bytes := concat (map (fun l => l ++ CRLF) ls).
Lemma flat_lines_app a b : flat_lines (a ++ b) = flat_lines a ++ flat_lines b.
Proof. unfold flat_lines. now rewrite map_app, concat_app. Qed.
Lemma cut_at (c : byte) (a b x y : bytes) : a ++ c :: b = x ++ c :: y -> ~ In c a ->
  (x = a /\ y = b) \/ exists x', x = a ++ c :: x' /\ b = x' ++ c :: y.
Proof.
  revert x. induction a as [|d a IH]; intros x E Hn.
  - destruct x as [|d x]; cbn in E; injection E.
    + intros ->. now left.
    + intros E1 <-. right. exists x. auto.
  - destruct x as [|e x]; cbn in E; injection E.
    + intros _ ->. elim Hn. now left.
    + intros E1 <-. destruct (IH x E1) as [[-> ->]|(x' & -> & ->)]; [intros I; apply Hn; now right|now left|]. right. exists x'. auto.
Qed.
Lemma lf_prefix : forall ls p q, Forall (fun l => ~ In LF l) ls -> flat_lines ls ++ CRLF = p ++ LF :: q -> q <> [] ->
  exists ls1 l ls2, ls = ls1 ++ l :: ls2 /\ p ++ [LF] = flat_lines ls1 ++ l ++ CRLF.
Proof.
  induction ls as [|l ls IH]; intros p q HF E Hq.
  - exfalso. cbn in E. destruct p as [|a [|b p]]; cbn in E; try discriminate.
    + injection E as _ <-. now apply Hq.
    + injection E as _ _ E. now destruct p.
  - pose proof (Forall_inv HF) as Hl. pose proof (Forall_inv_tail HF) as HF2. cbv beta in Hl.
    assert (E2 : (l ++ [CR]) ++ LF :: (flat_lines ls ++ CRLF) = p ++ LF :: q).
    { rewrite <- E. unfold flat_lines. cbn [map concat]. rewrite <- !app_assoc. reflexivity. }
    destruct (cut_at _ _ _ _ _ E2) as [[-> ->]|(x' & -> & E3)].
    + intros I. apply in_app_or in I as [I|[I|[]]]; [now apply Hl|discriminate].
    + exists [], l, ls. split; [reflexivity|]. cbn. now rewrite <- app_assoc.
    + destruct (IH x' q HF2 E3 Hq) as (ls1 & l' & ls2 & -> & E4). exists (l :: ls1), l', ls2. split; [reflexivity|].
      transitivity ((l ++ [CR]) ++ LF :: (x' ++ [LF])); [now rewrite <- !app_assoc|]. rewrite E4. unfold flat_lines. cbn [map concat].
      rewrite <- !app_assoc. reflexivity.
Qed.
Lemma lines_block ls : ls <> [] -> Forall (fun l => l <> [] /\ ~ In LF l) ls -> head_block (flat_lines ls ++ CRLF).
Proof.
  intros Hne HF. split.
  - destruct ls as [|l ls] using rev_ind; [easy|]. rewrite flat_lines_app. exists (flat_lines ls ++ l). unfold flat_lines at 2. cbn [map concat].
    rewrite app_nil_r, <- !app_assoc. reflexivity.
  - intros p q E Hq [y ->]. assert (E2 : flat_lines ls ++ CRLF = (y ++ [CR; LF; CR]) ++ LF :: q).
    { rewrite E, <- !app_assoc. reflexivity. }
    assert (HF1 : Forall (fun l => ~ In LF l) ls) by (eapply Forall_impl; [|exact HF]; intros a [_ X]; exact X).
    destruct (lf_prefix ls _ q HF1 E2 Hq) as (ls1 & l & ls2 & -> & E3).
    apply Forall_app in HF as [_ HF]. destruct (Forall_inv HF) as [Hl1 Hl2].
    destruct l as [|c l] using rev_ind; [easy|]. clear IHl.
    assert (E4 : (y ++ [CR]) ++ [LF] ++ CRLF = (flat_lines ls1 ++ l) ++ [c] ++ CRLF) by (rewrite <- !app_assoc in *; exact E3).
    rewrite !app_assoc in E4. change CRLF with ([CR] ++ [LF]) in E4. rewrite !app_assoc in E4.
    apply app_inj_tail in E4 as [E4 _]. apply app_inj_tail in E4 as [E4 _]. apply app_inj_tail in E4 as [_ <-].
    apply Hl2, in_or_app. right. now left.
Qed.

Lemma token_no_lf n : Forall (fun c => is_tchar c = true) n -> ~ In LF n.
Proof. intros F I. rewrite Forall_forall in F. apply F in I. discriminate. Qed.
Lemma fields_lines hs fw : fields hs fw -> exists ls, fw = flat_lines ls /\ Forall (fun l => l <> [] /\ ~ In LF l) ls.
Proof.
  induction 1 as [|n v l hs w (ws & (Hn1 & Hn2 & _) & (Hv & _) & Hws & ->) _ (ls & -> & IH)]; [exists []; split; [reflexivity|constructor]|].
  exists ((n ++ [COLON] ++ ws ++ v) :: ls). split.
  - unfold flat_lines. cbn [map concat]. now rewrite <- !app_assoc.
  - constructor; [|exact IH]. split; [destruct n; [easy|discriminate]|]. intros I.
    apply in_app_or in I as [I|I]; [now apply (token_no_lf n)|]. apply in_app_or in I as [[I|[]]|I]; [discriminate|].
    apply in_app_or in I as [I|I].
    + rewrite Forall_forall in Hws. destruct (Hws _ I); discriminate.
    + rewrite Forall_forall in Hv. destruct (Hv _ I) as [[L _]|]; [|discriminate]. revert L. vm_compute. congruence.
Qed.
Lemma strict_block m t minor hs w : request_head m t minor hs w -> head_block w.
Proof.
  intros (ver & fw & -> & [Tm1 Tm2] & Ft & Hv & F). destruct (fields_lines _ _ F) as (ls & -> & HL).
  assert (E : m ++ [SP] ++ t ++ [SP] ++ ver ++ CRLF ++ flat_lines ls ++ CRLF = flat_lines ((m ++ [SP] ++ t ++ [SP] ++ ver) :: ls) ++ CRLF).
  { unfold flat_lines. cbn [map concat]. now rewrite <- !app_assoc. }
  rewrite E. apply lines_block; [discriminate|]. constructor; [|exact HL]. split; [destruct m; [easy|discriminate]|]. intros I.
  apply in_app_or in I as [I|I]; [now apply (token_no_lf m)|]. apply in_app_or in I as [[I|[]]|I]; [discriminate|].
  apply in_app_or in I as [I|I].
  - rewrite Forall_forall in Ft. destruct (Ft _ I) as ([L _] & _). revert L. vm_compute. congruence.
  - apply in_app_or in I as [[I|[]]|I]; [discriminate|]. destruct Hv as [[_ ->]|[_ ->]]; cbn in I; intuition discriminate.
Qed.
Lemma strict_grammatical trim m t minor hs w : request_head m t minor hs w -> (length hs <= 16)%nat ->
  grammatical trim (mkRline m t minor) hs w.
Proof. intros H L. exists w, []. rewrite app_nil_r. ands; auto. now apply strict_lhead. Qed.
(** With a strict head at the start of the data on offer, the block is that head. *)
Lemma block_unique l w w' r r' : l = w ++ r -> l = w' ++ r' -> head_block w -> head_block w' -> w = w' /\ r = r'.
Proof.
  assert (X : forall w w' r r' : bytes, w ++ r = w' ++ r' -> head_block w -> head_block w' -> (length w <= length w')%nat -> w = w' /\ r = r').
  { intros w0 w1 r0 r1 E H0 H1 L. apply app_eq_app in E as (y & [[-> ->]|[-> ->]]).
    - rewrite app_length in L. destruct y; [|cbn in L; lia]. rewrite app_nil_r. auto.
    - destruct y as [|c y]; [rewrite app_nil_r; auto|]. exfalso. destruct H0 as [H0 _]. destruct H1 as [_ H1]. now apply (H1 w0 (c :: y)). }
  intros E1 E2 H1 H2. rewrite E1 in E2. destruct (Nat.le_ge_cases (length w) (length w')) as [L|L]; [now apply X|].
  destruct (X w' w r' r) as [-> ->]; auto.
Qed.

(** ** The verdict, computed *)
Definition verdict_of (ev : env) (w : bytes) : bool * verdict :=
  match parse_request (e_trim ev) 16 w with
  | HDone q =>
      match parse_head ev w with
      | inl f => (false, Refuse (match fail_response f with Some r => r_status r | None => 0 end))
      | inr (m, path, a) =>
          (expects_continue a,
           if h_hashost a then
             match parse_uri (e_uri ev) path with
             | Some u => Accept m u (q_headers q)
                           (if h_te a && h_chunked a then None else Some match h_cl a with Some n => n | None => 0 end)%N
             | None => Refuse 400
             end
           else Refuse 400)
      end
  | _ => (false, Refuse 400)
  end.
Lemma verdict_judge ev w c v : verdict_of ev w = (c, v) -> judged ev w c v.
Proof.
  destruct (judge_total (e_trim ev) (parse_uri (e_uri ev)) w) as (c0 & v0 & J). intros H.
  assert (E : verdict_of ev w = (c0, v0)); [|rewrite E in H; injection H as <- <-; exact J].
  pose proof (judge_parse ev w c0 v0 J) as P. unfold verdict_of.
  destruct (parse_request (e_trim ev) 16 w) as [q| |] eqn:PR.
  2,3: inversion J as [NG|? ? G|? ? G|? ? ? G|? ? ? G|? ? ? G|? ? ? ? ? G]; subst; [reflexivity|..]; apply grammatical_parse in G as (q & PR' & _); congruence.
  destruct (parse_head ev w) as [f|[[m path] a]].
  - destruct P as (-> & code & -> & -> & _). reflexivity.
  - destruct P as (-> & P). specialize (P (br_new 1 (mkSrc [] Eof))). unfold build_req in P. destruct (h_hashost a); cbn [negb] in P.
    + destruct (parse_uri (e_uri ev) path) as [u|].
      * destruct v0 as [code|m' u' hs len]; cbn [answers] in P; [destruct P as (f & [=] & _)|]. destruct P as (h & [= <- <- <- <-] & _).
        inversion J as [| | | | | |? ? ? ? ? G]; subst. apply grammatical_parse in G as (q' & PR' & _ & ->). rewrite PR in PR'. now injection PR' as <-.
      * destruct v0 as [code|m' u' hs len]; cbn [answers] in P; [|destruct P as (h & [=] & _)]. destruct P as (f & [= <-] & [= <-] & _). reflexivity.
    + destruct v0 as [code|m' u' hs len]; cbn [answers] in P; [|destruct P as (h & [=] & _)]. destruct P as (f & [= <-] & [= <-] & _). reflexivity.
Qed.
Definition head_blockb (w : bytes) : bool :=
  ends_with CRLF2 w && forallb (fun n => negb (ends_with CRLF2 (firstn n w))) (seq 0 (length w)).
Lemma head_blockb_ok w : head_blockb w = true -> head_block w.
Proof.
  unfold head_blockb. rewrite andb_true_iff, forallb_forall. intros [H1 H2]. split; [now apply head_end_iff|].
  intros p q -> Hq He. apply head_end_iff in He. specialize (H2 (length p)). rewrite firstn_app, Nat.sub_diag, firstn_all, app_nil_r, He in H2.
  assert (I : In (length p) (seq 0 (length (p ++ q)))) by (apply in_seq; rewrite app_length; destruct q; [easy|cbn; lia]).
  specialize (H2 I). discriminate.
Qed.
Lemma offers_ok tmo s w rest : wf_src s -> head_blockb w = true -> avail tmo (s_evs s) = (w ++ rest, snd (avail tmo (s_evs s))) -> offers tmo s w.
Proof. intros W H A. split; [exact W|]. split; [now apply head_blockb_ok|]. exists rest. now rewrite A. Qed.

(** ** Headers *)
Lemma present_names q m u hs len k vs : presents q m u hs len -> In (k, vs) (q_hdrs q) -> exists n v, In (n, v) hs /\ lower n = k.
Proof.
  intros (_ & _ & _ & [ND HW] & G) I. rewrite Forall_forall in HW. destruct (HW _ I) as (Hk & Hv & _). cbn [fst snd] in *.
  assert (LK : lower k = k). { unfold name_ok in Hk. destruct (header_name k) as [k'|] eqn:E; [|discriminate]. apply beq_eq in Hk as <-.
    unfold header_name in E. destruct k; [discriminate|]. destruct (_ && _)%bool; congruence. }
  assert (GA : hm_get_all k (q_hdrs q) = vs).
  { clear -I ND. induction (q_hdrs q) as [|[k0 v0] h IH]; [easy|]. cbn [hm_get_all]. cbn [map fst] in ND. inversion ND as [|? ? NI ND2]; subst.
    destruct I as [[= -> ->]|I]; [now rewrite beq_refl|]. destruct (beq_spec k0 k) as [->|N]; [|now apply IH].
    elim NI. change k with (fst (k, vs)). now apply in_map. }
  specialize (G k). plain; rewrite LK, GA in G. destruct (values k hs) as [|v l] eqn:E; [destruct (Hv G)|].
  assert (IV : In v (values k hs)) by (rewrite E; now left). unfold values in IV; plain. apply in_map_iff in IV as ([n v'] & <- & IV).
  apply filter_In in IV as [I1 I2]. cbn [fst snd] in *. exists n, v'. split; [exact I1|]. apply eq_ic_name in I2; [exact I2|exact LK].
Qed.

Lemma body_reader_unread ev len b : unread (body_reader ev len b) = br_data b.
Proof. destruct len; reflexivity. Qed.

(** ** Fixed bodies: an i/o error is never taken for the end *)
Lemma br_read_clean_back n b b' r : br_read n b = (b', r) -> (exists d, r = POk d) \/ (exists f, r = PPend f) -> clean (br_src b') -> clean (br_src b).
Proof.
  intros H R C. br_cases H; cbn [br_src] in *; auto; try (eapply src_read_clean_iff; eauto; fail);
  destruct R as [[? R]|[? R]]; discriminate.
Qed.
Lemma br_read_nil_clean n b b' : (0 < n)%nat -> wf_brd b -> br_read n b = (b', POk []) -> clean (br_src b).
Proof.
  intros Hn [W C] H.
  assert (X : forall m s s' , (0 < m)%nat -> wf_src s -> src_read m s = (s', POk []) -> clean s).
  { intros m s s' Hm Ws E. apply src_read_nil in E as (E1 & E2 & _); auto. split; [rewrite E1; constructor|exact E2]. }
  assert (Y : forall l : bytes, firstn n l = [] -> l = []) by (intros [|? ?] E; [reflexivity|destruct n; [lia|discriminate]]).
  br_cases H.
  - eapply X; [|exact W|exact ES]. lia.
  - apply Y in H2. subst. eapply X; [|exact W|exact ES]. lia.
  - apply (Y (x :: xs)) in H2. discriminate.
Qed.
Lemma fixed_short_clean ev : forall ms rem b b' x, wf_brd b -> Forall (fun n => 0 < n)%nat ms ->
  reads (body_read ev) ms (RFixed rem b) = (b', x, Ended) -> (N.of_nat (length x) < rem)%N -> clean (br_src b).
Proof.
  induction ms as [|n ms IH]; intros rem b b' x HW HF H HL; cbn [reads] in H; [discriminate|].
  pose proof (Forall_inv HF) as Hn. pose proof (Forall_inv_tail HF) as HF2. cbv beta in Hn. clear HF.
  cbn [body_read] in H. unfold take_read in H. destruct (rem =? 0)%N eqn:Z; [lia|].
  set (n' := N.to_nat (N.min (N.of_nat n) rem)) in *. assert (Hn' : (0 < n')%nat) by lia.
  destruct (br_read n' b) as [b1 r] eqn:E. pose proof (br_read_wf _ _ _ _ E HW) as HW1.
  destruct r as [d|f| | |]; try discriminate.
  - destruct d as [|c d]; [eapply br_read_nil_clean; eauto|].
    destruct (reads (body_read ev) ms (RFixed (rem - N.of_nat (length (c :: d))) b1)) as [[b2 x2] k2] eqn:E2. injection H as <- <- ->.
    eapply br_read_clean_back; [exact E|eauto|]. eapply IH; eauto. change (c :: d ++ x2) with ((c :: d) ++ x2) in HL. rewrite app_length in HL. lia.
  - eapply br_read_clean_back; [exact E|eauto|]. eapply IH; eauto.
Qed.

(** ** The bodies of obtained requests *)
Lemma fixed_body ev tmo s wt s' wt' q b n : (0 < e_bufcap ev)%nat -> wf_src s -> decode ev tmo s wt = (s', wt', OReq q b) -> q_len q = Some n ->
  exists w rest, offers tmo s w /\ src_data s = w ++ rest /\
  (forall ms b' x k, Forall (fun m => 0 < m)%nat ms -> reads (body_read ev) ms b = (b', x, k) ->
     match k with
     | Going => prefix x (firstn (N.to_nat n) rest) /\ (length ms <= src_size s)%nat
     | Ended => x = firstn (N.to_nat n) rest /\ rest = x ++ unread b' /\ ((N.of_nat (length x) < n)%N -> clean s)
     | Failed => x = rest /\ (N.of_nat (length rest) < n)%N /\ ~ clean s
     | _ => False
     end) /\
  (forall ms b' x k, Forall (fun m => 0 < m)%nat ms -> reads_on (body_read ev) ms b = (b', x, k) ->
     prefix x (firstn (N.to_nat n) rest) /\ k <> Panicked /\ k <> Hung /\ (k <> Failed -> rest = x ++ unread b')).
Proof.
  intros Hc Ws H Hn. destruct (decode_req ev tmo s wt s' wt' q b Hc Ws H) as (w & br & c & m & u & hs & len & HO & HD & HW & -> & HC & HS & _ & J & PR & _).
  destruct PR as (_ & _ & PL & _). rewrite PL in Hn. subst len. cbn [body_reader]. exists w, (br_data br). ands; auto.
  - intros ms b' x k HF HR. pose proof (fixed_reads ev ms n br b' x k HW HF HR) as P. destruct k; auto.
    + split; [tauto|]. destruct P. lia.
    + destruct P as (P1 & rem' & b2 & -> & P2 & _). ands; auto. intros L. apply HC. eapply fixed_short_clean; eauto.
    + destruct P as (P1 & P2 & P3). ands; auto. now rewrite HC.
  - intros ms b' x k HF HR. destruct (fixed_reads_on ev ms n br b' x k HW HF HR) as (P1 & P2 & P3 & rem' & b2 & -> & P4). auto.
Qed.

Lemma chunked_body ev tmo s wt s' wt' q b : env_ok ev -> wf_src s -> decode ev tmo s wt = (s', wt', OReq q b) -> q_len q = None ->
  exists w rest, offers tmo s w /\ src_data s = w ++ rest /\
  forall p tr wire extra, fitting (e_deccap ev) p tr wire -> rest = wire ++ extra ->
  forall ms b' x k, Forall (fun m => 0 < m)%nat ms -> reads (body_read ev) ms b = (b', x, k) ->
     match k with
     | Going => prefix x p /\ (length ms <= length p + src_size s)%nat
     | Ended => x = p /\ unread b' = extra
     | _ => False
     end.
Proof.
  intros He Ws H Hn. destruct (decode_req ev tmo s wt s' wt' q b (ok_cap ev He) Ws H) as (w & br & c & m & u & hs & len & HO & HD & HW & -> & HC & HS & _ & J & PR & _).
  destruct PR as (_ & _ & PL & _). rewrite PL in Hn. subst len. cbn [body_reader]. exists w, (br_data br). ands; auto.
  intros p tr wire extra HF HE ms b' x k HM HR. destruct He as (_ & Hc & _ & _ & G).
  assert (GO : going ev br [] (dec_new ev br) []) by (split; [reflexivity|constructor]).
  pose proof (chunked_reads ev p wire extra tr br G HF ltac:(lia) HW HE ms [] (dec_new ev br) [] [] [] p b' x k HM GO eq_refl eq_refl HR) as P.
  destruct k; auto.
  - destruct P as [P1 P2]. split; [exact P1|]. cbn [length] in P2. lia.
  - destruct P as (P1 & d' & -> & _ & P2). auto.
Qed.

(** ** Verdicts for particular faults *)
Lemma no_host ev o s w rl hs : env_ok ev -> offers (o_timeout o) s w -> grammatical (e_trim ev) rl hs w -> values (B "host") hs = [] ->
  exists c code, refused ev o s c code /\
    (l_minor rl = 1%N -> (forall x, In x hs -> ~ faulty x BadEncoding) -> code = 400%N).
Proof.
  intros He HO G HH. destruct (judge_total (e_trim ev) (parse_uri (e_uri ev)) w) as (c & v & J).
  assert (X : exists code, v = Refuse code /\ (l_minor rl = 1%N -> (forall x, In x hs -> ~ faulty x BadEncoding) -> code = 400%N)).
  { inversion J as [NG|rl' hs' G' M'|rl' hs' G' M' FF|rl' hs' f G' M' FF NF|rl' hs' c' G' M' FF|rl' hs' c' G' M' FF|rl' hs' c' u len G' M' FF C' H']; subst;
    try (destruct (grammatical_fun _ _ _ _ _ _ G G') as [<- <-]); try contradiction; eexists; (split; [reflexivity|]); try reflexivity; intros M1 NB.
    - congruence.
    - destruct FF as (a & nv & b & -> & _ & F2). elim (NB nv); [apply in_or_app; right; now left|exact F2]. }
  destruct X as (code & -> & K). exists c, code. split; [eapply refuse; eauto|exact K].
Qed.

Lemma accept_decode ev tmo s w c m u hs len : env_ok ev -> offers tmo s w -> judged ev w c (Accept m u hs len) ->
  forall wt, accepting wt -> prompt tmo wt ->
  exists s' wt' q b, decode ev tmo s wt = (s', wt', OReq q b) /\ presents q m u hs len /\
    w_out wt' = w_out wt ++ (if c then go_ahead else []).
Proof.
  intros He HO J wt Ha Hp. destruct (decode_offer ev tmo s w (ok_cap ev He) HO) as (br & rest & _ & _ & _ & _ & _ & _ & _ & _ & HD).
  destruct (HD c _ J) as (o & (h & -> & HW & HG) & HDec). destruct (interim_ok c tmo wt Ha Hp) as (w1 & EI & _ & _ & O1).
  rewrite HDec, EI. cbn [fst snd after_interim]. eexists _, _, _, _. split; [reflexivity|]. split; [|exact O1].
  unfold presents. cbn [q_meth q_uri q_hdrs q_len]. auto.
Qed.

(** The interim response: what is written before the handler is called. *)
Lemma interim_exact ev tmo s w rl hs c : env_ok ev -> offers tmo s w -> grammatical (e_trim ev) rl hs w -> l_minor rl = 1%N ->
  faultless hs -> continues hs c ->
  forall wt s' wt' o, decode ev tmo s wt = (s', wt', o) ->
  exists p, w_out wt' = w_out wt ++ p /\ prefix p (if c then go_ahead else []) /\
    ((exists q b, o = OReq q b) -> p = if c then go_ahead else []) /\
    (accepting wt -> prompt tmo wt -> p = if c then go_ahead else []).
Proof.
  intros He HO G M F C wt s' wt' o H. destruct (judge_total (e_trim ev) (parse_uri (e_uri ev)) w) as (c0 & v & J).
  assert (c0 = c).
  { assert (CF : forall hs c c', continues hs c -> continues hs c' -> c = c') by (intros hs0 [|] [|]; cbn; tauto).
    inversion J as [NG|rl' hs' G' M'|rl' hs' G' M' FF|rl' hs' f G' M' FF NF|rl' hs' c' G' M' FF C'|rl' hs' c' G' M' FF C'|rl' hs' c' u len G' M' FF C' H']; subst;
    try (destruct (grammatical_fun _ _ _ _ _ _ G G') as [<- <-]); try (now apply (CF hs)).
    - elim (NG rl hs G).
    - congruence.
    - elim (first_fault_faultless _ _ FF F).
    - elim (first_fault_faultless _ _ FF F). }
  subst c0. destruct (decode_offer ev tmo s w (ok_cap ev He) HO) as (br & rest & _ & _ & _ & _ & _ & _ & _ & _ & HD).
  destruct (HD c _ J) as (o' & _ & HDec). rewrite HDec in H. injection H as <- <- <-.
  unfold interim. destruct c.
  - destruct (write_all tmo continue_text wt) as [w1 r] eqn:E. apply write_all_spec in E as (_ & p & P & O & K). exists p. cbn [fst snd].
    ands; auto; destruct K as [[-> ->]|[[-> K]|[-> K]]]; auto; try (intros (q & b & X); discriminate); contradiction.
  - exists []. cbn [fst snd]. rewrite app_nil_r. ands; auto. now exists [].
Qed.

(** Invalid content-length before any bad transfer-encoding. *)
Lemma bad_length ev o s w rl a n v b : env_ok ev -> offers (o_timeout o) s w -> grammatical (e_trim ev) rl (a ++ (n, v) :: b) w -> l_minor rl = 1%N ->
  (forall x, In x a -> ~ faulty x BadEncoding) -> name_is n (B "content-length") -> (forall k, ~ cl_value v k) -> refused ev o s false 400.
Proof.
  intros He HO G M NB Hn Hv. eapply refuse; eauto. assert (FV : faulty (n, v) BadLength) by now constructor.
  assert (X : exists f, first_fault (a ++ (n, v) :: b) f /\ f <> BadEncoding).
  { destruct (fault_cases a) as [FA|(f & a1 & x & a2 & -> & F1 & F2)].
    - exists BadLength. split; [|discriminate]. exists a, (n, v), b. ands; auto.
    - exists f. split.
      + exists a1, x, (a2 ++ (n, v) :: b). rewrite <- app_assoc. auto.
      + intros ->. apply (NB x); [apply in_or_app; right; now left|exact F2]. }
  destruct X as (f & FF & NF). eapply j_field; eauto.
Qed.

Lemma too_many ev o s x y rl hs : env_ok ev -> offers (o_timeout o) s (x ++ y) -> lhead (e_trim ev) rl hs x -> (16 < length hs)%nat -> refused ev o s false 400.
Proof. intros He HO L HN. eapply refuse; eauto. apply j_syntax. intros. now eapply many_fields; eauto. Qed.

(** The head an obtained request came from. *)
Lemma obtained ev tmo s wt s' wt' q b : (0 < e_bufcap ev)%nat -> wf_src s -> decode ev tmo s wt = (s', wt', OReq q b) ->
  exists w rl hs, offers tmo s w /\ grammatical (e_trim ev) rl hs w /\ src_data s = w ++ unread b /\
    l_minor rl = 1%N /\ faultless hs /\ values (B "host") hs <> [] /\ parse_uri (e_uri ev) (l_target rl) = Some (q_uri q) /\ q_meth q = l_method rl /\
    framing hs (q_len q) /\ (forall n, hm_get_all (lower n) (q_hdrs q) = values n hs) /\
    forall k vs, In (k, vs) (q_hdrs q) -> exists n v, In (n, v) hs /\ lower n = k.
Proof.
  intros Hc Ws H. destruct (decode_req ev tmo s wt s' wt' q b Hc Ws H) as (w & br & c & m & u & hs & len & HO & HD & HW & -> & HC & HS & _ & J & PR & _).
  pose proof PR as (P1 & P2 & P3 & P4 & P5).
  inversion J as [| | | | | |rl hs' c' u' len' G M F C H' U FR]; subst. exists w, rl, hs. rewrite body_reader_unread. ands; auto.
  intros k vs. now apply (present_names q _ _ _ _ k vs PR).
Qed.
Lemma offers_unique tmo s w w' : offers tmo s w -> offers tmo s w' -> w = w'.
Proof. intros (_ & H1 & r1 & E1) (_ & H2 & r2 & E2). now destruct (block_unique _ _ _ _ _ E1 E2 H1 H2). Qed.

Lemma strict_obtained ev tmo s wt s' wt' q b m t minor hs w rest : (0 < e_bufcap ev)%nat -> wf_src s -> request_head m t minor hs w ->
  fst (avail tmo (s_evs s)) = w ++ rest -> decode ev tmo s wt = (s', wt', OReq q b) ->
  src_data s = w ++ unread b /\ q_meth q = m /\ parse_uri (e_uri ev) t = Some (q_uri q) /\
  forall n, hm_get_all (lower n) (q_hdrs q) = values n hs.
Proof.
  intros Hc Ws R A H. pose proof (strict_block _ _ _ _ _ R) as Hb.
  assert (HO : offers tmo s w) by (split; [exact Ws|]; split; [exact Hb|]; eauto).
  destruct (obtained ev tmo s wt s' wt' q b Hc Ws H) as (w' & rl & hs' & HO' & G & E & _ & _ & _ & U & M & _ & V & _).
  rewrite <- (offers_unique tmo s w w' HO HO') in *. pose proof G as (x & y & EW & L & LH).
  assert (LE : mkRline m t minor = rl /\ hs = hs').
  { assert (P2 : parse_request (e_trim ev) (16 + length hs) w = HDone (mkHreq m t minor hs [])).
    { apply parse_request_iff. exists w. cbn [q_rest q_method q_path q_version q_headers]. ands; [now rewrite app_nil_r|now apply strict_lhead|lia]. }
    assert (P1 : parse_request (e_trim ev) (16 + length hs) w = HDone (mkHreq (l_method rl) (l_target rl) (l_minor rl) hs' y)).
    { apply parse_request_iff. exists x. cbn [q_rest q_method q_path q_version q_headers]. destruct rl. ands; auto. lia. }
    rewrite P2 in P1. injection P1 as -> -> -> <- _. destruct rl. auto. }
  destruct LE as [<- <-]. cbn [l_method l_target] in *. auto.
Qed.

(** Heads without bound. *)
Definition long_head (k : nat) : bytes :=
  B "GET" ++ [SP] ++ B "/" ++ [SP] ++ B "HTTP/1.1" ++ CRLF ++ (B "host" ++ [COLON] ++ [SP] ++ repeat (ascii_of_N 97) k ++ CRLF) ++ CRLF.
Lemma repeat_last {A} (x : A) k c r : repeat x k = r ++ [c] -> c = x.
Proof. intros E. apply (repeat_spec k x c). rewrite E. apply in_or_app. right. now left. Qed.
Lemma long_head_strict k : request_head (B "GET") (B "/") 1 [(B "host", repeat (ascii_of_N 97) k)] (long_head k).
Proof.
  exists (B "HTTP/1.1"), (B "host" ++ [COLON] ++ [SP] ++ repeat (ascii_of_N 97) k ++ CRLF). split; [reflexivity|].
  split; [split; [discriminate|repeat constructor]|]. split; [repeat constructor; discriminate|]. split; [now left|].
  assert (F : field_line (B "host") (repeat (ascii_of_N 97) k) (B "host" ++ [COLON] ++ [SP] ++ repeat (ascii_of_N 97) k ++ CRLF)).
  { exists [SP]. split; [split; [discriminate|split; [repeat constructor|cbn; lia]]|]. split; [|split; [constructor; [now left|constructor]|reflexivity]].
    split; [|split].
    - apply Forall_forall. intros c I. apply repeat_spec in I. subst c. left. cbn. lia.
    - intros c r E. destruct k; [discriminate|]. injection E as <- _. intros [|]; discriminate.
    - intros c r E. apply repeat_last in E. subst c. intros [|]; discriminate. }
  pose proof (fields_cons _ _ _ _ _ F fields_nil) as X. now rewrite app_nil_r in X.
Qed.
Lemma host_faultless v : faultless [(B "host", v)].
Proof. intros x g [<-|[]] F. inversion F as [? ? H1|? ? H1|? ? ? ? H1]; subst; try discriminate. Qed.
Lemma long_heads bound : exists s w, offers true s w /\ (bound < length w)%nat /\
  forall ev wt, env_ok ev -> accepting wt -> prompt true wt ->
  exists s' wt' q b, decode ev true s wt = (s', wt', OReq q b).
Proof.
  pose proof (long_head_strict bound) as R. exists (mkSrc [Data (long_head bound)] Eof), (long_head bound).
  assert (HO : offers true (mkSrc [Data (long_head bound)] Eof) (long_head bound)).
  { split; [repeat constructor; discriminate|]. split; [eapply strict_block, R|]. exists []. reflexivity. }
  split; [exact HO|]. split; [unfold long_head; rewrite !app_length, repeat_length; cbn; lia|]. intros ev wt He Ha Hp.
  destruct (framing_total _ (host_faultless (repeat (ascii_of_N 97) bound))) as (len & FR).
  assert (J : judged ev (long_head bound) false (Accept (B "GET") (mkUri None None (B "/") None) [(B "host", repeat (ascii_of_N 97) bound)] len)).
  { apply (j_accept (e_trim ev) (parse_uri (e_uri ev)) _ (mkRline (B "GET") (B "/") 1)); auto.
    - apply strict_grammatical; [exact R|cbn; lia].
    - apply host_faultless.
    - intros (r & E). discriminate.
    - discriminate. }
  destruct (accept_decode ev true _ _ _ _ _ _ _ He HO J wt Ha Hp) as (s' & wt' & q & b & D & _). eauto.
Qed.

Lemma fixed_stays ev tmo s wt s' wt' q b n ms b' x : (0 < e_bufcap ev)%nat -> wf_src s -> decode ev tmo s wt = (s', wt', OReq q b) -> q_len q = Some n ->
  Forall (fun m => 0 < m)%nat ms -> reads (body_read ev) ms b = (b', x, Ended) -> N.of_nat (length x) = n ->
  forall k, body_read ev k b' = (b', POk []).
Proof.
  intros Hc Ws H Hn HF HR HL k.
  destruct (decode_req ev tmo s wt s' wt' q b Hc Ws H) as (w & br & c & m & u & hs & len & _ & _ & HW & -> & _ & _ & _ & _ & PR & _).
  destruct PR as (_ & _ & PL & _). rewrite PL in Hn. subst len. cbn [body_reader] in HR.
  destruct (fixed_reads ev ms n br b' x Ended HW HF HR) as (_ & rem' & b2 & -> & _ & -> & _). cbn [body_read]. unfold take_read.
  replace (n - N.of_nat (length x))%N with 0%N by lia. reflexivity.
Qed.
