(** The answers to a conversation do not depend on the segments its bytes come in. *)
From Verif Require Import Accept Reads SpecChunked SpecHead SpecResponse SpecReq SpecServer SpecLax Lemmas Proofs_Parse Proofs_Copy Proofs_ServerEnc Proofs_Send
  Proofs_Buf Proofs_DecReads Proofs_ReqHead Proofs_ReqParse Proofs_ServerDec Proofs_Body Proofs_Accept Proofs_Request Proofs_Sound.

(** ** What is written for a response *)
Lemma writes_unique ev r m1 m2 : writes ev r m1 -> writes ev r m2 -> m1 = m2.
Proof.
  intros H1 H2. destruct (H1 (mkWtr [] [])) as (F1 & w1 & x1 & p1 & S1 & O1 & _ & K1). destruct (H2 (mkWtr [] [])) as (F2 & w2 & x2 & p2 & S2 & O2 & _ & K2).
  assert (A : accepting (mkWtr [] [])) by constructor.
  destruct K1 as [[_ ->]|[_ K]]; [|contradiction]. destruct K2 as [[_ ->]|[_ K]]; [|contradiction].
  specialize (S1 (F1 + F2)%nat ltac:(lia)). specialize (S2 (F1 + F2)%nat ltac:(lia)). rewrite S1 in S2. injection S2 as <- _.
  rewrite O1 in O2. now apply app_inv_head in O2.
Qed.

Inductive written (ev : env) : list (bool * response) -> bytes -> Prop :=
| wr_nil : written ev [] []
| wr_cons c r xs m t : writes ev r m -> written ev xs t -> written ev ((c, r) :: xs) ((if c : bool then go_ahead else []) ++ m ++ t).

Lemma written_ex ev xs : env_ok ev -> (forall x, In x xs -> sendable ev (snd x)) -> exists t, transcript (e_date ev) xs t /\ written ev xs t.
Proof.
  intros He. induction xs as [|[c r] xs IH]; intros HS; [exists []; split; constructor|].
  destruct IH as (t & H1 & H2); [intros x I; apply HS; now right|]. destruct (send_message ev r He (HS (c, r) (or_introl eq_refl))) as (m & M & W).
  eexists. split; constructor; eassumption.
Qed.

Lemma refused_writes ev code m : env_ok ev -> writes ev (bare code) m ->
  forall o s wt l1 l2 w rest c, wf_src s -> s_evs s = l1 ++ l2 ->
  fst (avail (o_timeout o) l1) = w ++ rest -> head_block w -> judged ev w c (Refuse code) ->
  accepting wt -> prompt (o_timeout o) wt ->
  exists b F wt', wf_brd b /\ win (o_timeout o) l2 b rest (snd (avail (o_timeout o) l1)) /\ s_tail (br_src b) = s_tail s /\
    (forall fuel h, (F <= fuel)%nat -> turn fuel ev o h s wt = (br_src b, wt', if (code =? 501)%N then Some AErr else None)) /\
    w_out wt' = w_out wt ++ (if c then go_ahead else []) ++ m /\ accepting wt' /\ prompt (o_timeout o) wt'.
Proof.
  intros He HS o s wt l1 l2 w rest c Ws E A Hb J Ha Hp.
  destruct (decode_block ev (o_timeout o) l1 l2 s w rest) as (b & W1 & W2 & _ & _ & W5 & _ & HD); auto; [destruct He as (_ & ? & _); lia|].
  destruct (HD c _ J) as (out & (f & -> & FR & FF) & HDec). clear HD.
  destruct (interim_ok c (o_timeout o) wt Ha Hp) as (w1 & EI & A1 & P1 & O1).
  destruct (HS w1) as (F & w2 & x & p & S1 & S2 & _ & [[-> ->]|[_ X]]); [|contradiction].
  pose proof (send_suf _ _ _ _ _ _ (S1 F (le_n F))) as SU.
  exists b, F, w2. ands; auto.
  - intros fuel h Hf. unfold turn. rewrite HDec, EI. cbn [fst snd after_interim]. unfold handle_fail. rewrite FR. unfold send_ignored.
    change (plain_response code) with (bare code). rewrite (S1 fuel Hf). rewrite FF. reflexivity.
  - rewrite S2, O1, <- app_assoc. reflexivity.
  - eapply suf_accepting; eauto.
  - eapply suf_prompt; eauto.
Qed.

Theorem conversation_writes ev o tl : env_ok ev -> forall h l xs a,
  conversation (e_trim ev) (parse_uri (e_uri ev)) (e_deccap ev) o tl h l xs a -> forall t, written ev xs t ->
  forall pads wt, calm (o_timeout o) pads -> evs_data pads = [] -> Forall wf_ev pads -> Forall wf_ev l ->
    accepting wt -> prompt (o_timeout o) wt ->
  exists F s' wt', w_out wt' = w_out wt ++ t /\
    forall n fuel, (F <= n)%nat -> (F <= fuel)%nat -> accept_go n fuel ev o h (mkSrc (pads ++ l) tl) wt = (s', wt', a).
Proof.
  intros He h l xs a H. induction H as [h l NH HK|h l1 l2 w wb p c m u hs len r xs a A Hb J BW HD HC IH
                                     |h l1 l2 w c code xs a A Hb J NE HC IH|h l1 l2 w rest c A Hb J]; intros t0 HW pads wt C D Wp Wl Ha Hp.
  - inversion HW; subst.
    assert (AP : avail (o_timeout o) (pads ++ l) = avail (o_timeout o) l).
    { rewrite avail_app, D by exact C. cbn. now destruct (avail (o_timeout o) l). }
    assert (Ws : wf_src (mkSrc (pads ++ l) tl)) by (apply Forall_app; auto).
    assert (NH' : no_head (fst (avail (o_timeout o) (s_evs (mkSrc (pads ++ l) tl))))) by (cbn [s_evs]; now rewrite AP).
    destruct (end_turn ev o _ He Ws NH') as (s' & E). cbn [s_evs s_tail] in E. rewrite AP in E.
    exists 1%nat, s', wt. split; [now rewrite app_nil_r|]. intros [|n] fuel Hn Hf; [lia|]. apply accept_stop. rewrite E.
    destruct HK as [->|[-> ->]]; reflexivity.
  - inversion HW as [|c0 r0 xs0 msg t Hm Ht]; subst. pose proof (accepted_writes ev r msg He Hm) as HT.
    apply Forall_app in Wl as [Wl1 Wl2].
    assert (AP : avail (o_timeout o) (pads ++ l1) = (w ++ wb, ObEnd)).
    { rewrite avail_app, D by exact C. rewrite A. reflexivity. }
    destruct (HT o (h O) (mkSrc (pads ++ l1 ++ l2) tl) wt (pads ++ l1) l2 w wb p c m u hs len) as
      (pads' & F & wt1 & P1 & P2 & P3 & T & O1 & A1 & Q1); auto.
    { unfold wf_src. cbn [s_evs]. repeat (apply Forall_app; split); assumption. }
    { apply app_assoc. }
    cbn [s_tail] in T.
    destruct (IH t Ht pads' wt1 P1 P2 P3 Wl2 A1 Q1) as (F2 & s' & wt' & O2 & R).
    exists (S (F + F2))%nat, s', wt'. split; [rewrite O2, O1, <- !app_assoc; reflexivity|].
    intros [|n] fuel Hn Hf; [lia|]. rewrite (accept_step _ _ _ _ _ _ _ _ _ (T fuel ltac:(lia))). apply R; lia.
  - inversion HW as [|c0 r0 xs0 msg t Hm Ht]; subst. pose proof (refused_writes ev code msg He Hm) as HT.
    apply Forall_app in Wl as [Wl1 Wl2].
    assert (AP : avail (o_timeout o) (pads ++ l1) = (w, ObEnd)).
    { rewrite avail_app, D by exact C. rewrite A. reflexivity. }
    destruct (HT o (mkSrc (pads ++ l1 ++ l2) tl) wt (pads ++ l1) l2 w [] c) as
      (b & F & wt1 & B1 & B2 & B3 & T & O1 & A1 & Q1); auto.
    { unfold wf_src. cbn [s_evs]. repeat (apply Forall_app; split); assumption. }
    { apply app_assoc. }
    { rewrite AP, app_nil_r. reflexivity. }
    rewrite AP in B2. cbn [snd] in B2. destruct (win_iso _ _ _ _ B1 B2) as (b1 & EB & _ & [BW _] & BD & BC).
    cbn [s_tail] in B3. rewrite B3 in EB. unfold br_data in BD. apply app_eq_nil in BD as [_ BD].
    destruct (IH t Ht (s_evs (br_src b1)) wt1 BC BD BW Wl2 A1 Q1) as (F2 & s' & wt' & O2 & R).
    exists (S (F + F2))%nat, s', wt'. split; [rewrite O2, O1, <- !app_assoc; reflexivity|].
    intros [|n] fuel Hn Hf; [lia|]. specialize (T fuel (h O) ltac:(lia)). destruct (N.eqb_spec code 501); [congruence|].
    rewrite (accept_step _ _ _ _ _ _ _ _ _ T). rewrite EB. apply R; lia.
  - inversion HW as [|c0 r0 xs0 msg t Hm Ht]; subst. inversion Ht; subst. pose proof (refused_writes ev 501 msg He Hm) as HT.
    apply Forall_app in Wl as [Wl1 Wl2].
    assert (AP : fst (avail (o_timeout o) (pads ++ l1)) = w ++ rest).
    { rewrite avail_app, D by exact C. exact A. }
    destruct (HT o (mkSrc (pads ++ l1 ++ l2) tl) wt (pads ++ l1) l2 w rest c) as
      (b & F & wt1 & B1 & B2 & B3 & T & O1 & A1 & Q1); auto.
    { unfold wf_src. cbn [s_evs]. repeat (apply Forall_app; split); assumption. }
    { apply app_assoc. }
    exists (S F), (br_src b), wt1. split; [rewrite O1, app_nil_r; reflexivity|].
    intros [|n] fuel Hn Hf; [lia|]. apply accept_stop. apply T. lia.
Qed.

(** ** The responses due are determined by the bytes *)
Lemma drains_fun {A} must (fin1 fin2 : A) : forall n p x, (length p <= n)%nat -> drains must fin1 p x -> drains must fin2 p x -> fin1 = fin2.
Proof.
  induction n as [|n IH]; intros p x L H1 H2.
  - destruct p; [|cbn in L; lia]. inversion H1; subst; inversion H2; subst; [|reflexivity].
    match goal with A : _ = [] -> _ = Rt fin1, B : _ = [] -> _ = Rt fin2 |- _ => specialize (A eq_refl); specialize (B eq_refl); congruence end.
  - destruct p as [|b p].
    + apply (IH [] x); auto; cbn; lia.
    + inversion H1 as [l k kk Hk _ P1 _|]; subst. inversion H2 as [l k' kk' _ _ P2 _|]; subst.
      apply (IH p (kk (POk [b]))); [cbn in L; lia|apply P1|apply P2]; try discriminate; try reflexivity; cbn; lia.
Qed.
Lemma replies_fun verbose fin r1 r2 : replies verbose fin r1 -> replies verbose fin r2 -> r1 = r2.
Proof. intros A B. destruct A; now inversion B. Qed.

Lemma message_entire trim p tr w : chunked_message p tr w -> entire trim p tr w.
Proof.
  intros (cw & z & tw & H1 & H2 & H3 & H4 & ->). pose proof (fields_parse trim tr tw [] 16 H3 H4) as P.
  apply hp_headers_iff in P as (fw & nl & E & P1 & P2 & _). rewrite !app_nil_r in E. exists cw, z, fw, nl. ands; auto.
  - now left.
  - now rewrite E.
Qed.
Lemma body_wire_fun cap len p1 w1 p2 w2 x1 x2 : body_wire cap len p1 w1 -> body_wire cap len p2 w2 -> w1 ++ x1 = w2 ++ x2 -> p1 = p2 /\ w1 = w2.
Proof.
  destruct len as [n|]; cbn [body_wire].
  - intros [-> H1] [-> H2] E. assert (L : length p1 = length p2) by lia. assert (p1 = p2); [|auto].
    clear H1 H2. revert p2 L E. induction p1 as [|c p1 IH]; intros [|c2 p2] L E; try discriminate; [reflexivity|].
    injection E as -> E. f_equal. apply IH; [now injection L|exact E].
  - assert (M : forall p tr w, fitting cap p tr w -> chunked_message p tr w).
    { intros p tr w (cw & k & z & tw & H1 & H2 & H3 & H4 & _ & ->). exists cw, z, tw. apply load_chunks in H1. auto. }
    intros (tr1 & H1) (tr2 & H2) E. apply M in H1, H2. apply (message_entire true) in H1. destruct (entire_unique _ _ _ _ _ _ _ _ _ H1 H2 E) as (-> & _ & ->). auto.
Qed.

Lemma calm_data tmo l : calm tmo l -> avail tmo l = (evs_data l, ObEnd).
Proof. intros C. rewrite <- (app_nil_r l) at 1. rewrite avail_app by exact C. cbn. now rewrite app_nil_r. Qed.

Lemma presented ev w c m u hs len : env_ok ev -> head_block w -> judged ev w c (Accept m u hs len) -> exists q, presents q m u hs len.
Proof.
  intros He Hb J. assert (NE : w <> []) by (intros ->; destruct Hb as [(p & E) _]; destruct p; discriminate).
  destruct (decode_block ev false [Data w] [] (mkSrc [Data w] Eof) w []) as (b & _ & _ & _ & _ & _ & _ & HD); auto; [exact (ok_cap ev He)|constructor; [intros [= Z]; congruence|constructor]|].
  destruct (HD c _ J) as (o & (hm & -> & HW & HG) & _). exists (mkRhead m u hm len). split; [reflexivity|]. auto.
Qed.

Lemma block_not_none w x : head_block w -> ~ no_head (w ++ x).
Proof. intros [H _] N. exact (N w x eq_refl H). Qed.

Lemma evs_data_app_calm tmo l1 l2 : calm tmo l1 -> evs_data (l1 ++ l2) = evs_data l1 ++ evs_data l2.
Proof. induction 1 as [|e l [H _] _ IH]; [reflexivity|]. destruct e; cbn [app evs_data]; rewrite ?IH, ?app_assoc; [reflexivity|reflexivity|congruence]. Qed.

Theorem same_due ev o tl : env_ok ev -> forall h l1 xs1 a1, conversation (e_trim ev) (parse_uri (e_uri ev)) (e_deccap ev) o tl h l1 xs1 a1 ->
  forall l2 xs2 a2, conversation (e_trim ev) (parse_uri (e_uri ev)) (e_deccap ev) o tl h l2 xs2 a2 ->
  calm (o_timeout o) l1 -> calm (o_timeout o) l2 -> evs_data l1 = evs_data l2 -> xs1 = xs2 /\ a1 = a2.
Proof.
  intros He h l1 xs1 a1 H.
  assert (SPL : forall x y, calm (o_timeout o) (x ++ y) -> calm (o_timeout o) x /\ calm (o_timeout o) y /\ avail (o_timeout o) x = (evs_data x, ObEnd) /\ evs_data (x ++ y) = evs_data x ++ evs_data y).
  { intros x y C. apply Forall_app in C as [C1 C2]. split; [exact C1|]. split; [exact C2|]. split; [now apply calm_data|now apply (evs_data_app_calm (o_timeout o))]. }
  induction H as [h l NH _|h k1 k2 w wb p c m u hs len r xs a A Hb J BW HD HC IH
                 |h k1 k2 w c code xs a A Hb J NE HC IH|h k1 k2 w rest c A Hb J]; intros l2 xs2 a2 H2 C1 C2 E.
  - assert (EN : no_head (evs_data l2)) by (rewrite <- E; now rewrite (calm_data _ _ C1) in NH).
    destruct H2 as [l2 _ _|j1 j2 w' wb' p' c' m' u' hs' len' r' xs' a' A' Hb' _ _ _ _|j1 j2 w' c' code' xs' a' A' Hb' _ _ _|j1 j2 w' rest' c' A' Hb' _]; [auto| | |];
      apply SPL in C2 as (_ & _ & C2 & D2); rewrite C2 in A'; rewrite D2 in EN.
    + injection A' as A'. exfalso. rewrite A', <- app_assoc in EN. now apply block_not_none in EN.
    + injection A' as A'. exfalso. rewrite A' in EN. now apply block_not_none in EN.
    + cbn [fst] in A'. exfalso. rewrite A', <- app_assoc in EN. now apply block_not_none in EN.
  - apply SPL in C1 as (_ & C1 & K1 & D1). rewrite K1 in A. injection A as A. rewrite D1, A, <- app_assoc in E.
    destruct H2 as [l2 NH2 _|j1 j2 w' wb' p' c' m' u' hs' len' r' xs' a' A' Hb' J' BW' HD' HC'|j1 j2 w' c' code' xs' a' A' Hb' J' _ _|j1 j2 w' rest' c' A' Hb' J'].
    + exfalso. rewrite (calm_data _ _ C2) in NH2. cbn [fst] in NH2. rewrite <- E in NH2. now apply block_not_none in NH2.
    + apply SPL in C2 as (_ & C2 & K2 & D2). rewrite K2 in A'. injection A' as A'. rewrite D2, A', <- app_assoc in E.
      destruct (block_unique _ _ _ _ _ eq_refl E Hb Hb') as [-> E']. destruct (judge_fun _ _ _ _ _ _ _ J J') as [-> EV]. injection EV as <- <- <- <-.
      destruct (body_wire_fun _ _ _ _ _ _ _ _ BW BW' E') as [<- <-]. apply app_inv_head in E'.
      destruct (presented ev w' c' m u hs len He Hb' J) as (q & PQ). destruct (HD q PQ) as (f1 & Q1 & R1). destruct (HD' q PQ) as (f2 & Q2 & R2).
      assert (f1 = f2) by exact (drains_fun _ _ _ (length p) p _ (le_n _) Q1 Q2). subst f2. rewrite (replies_fun _ _ _ _ R1 R2).
      destruct (IH _ _ _ HC' C1 C2 E') as [-> ->]. auto.
    + apply SPL in C2 as (_ & C2 & K2 & D2). rewrite K2 in A'. injection A' as A'. rewrite D2, A' in E.
      destruct (block_unique _ _ _ _ _ eq_refl E Hb Hb') as [-> _]. destruct (judge_fun _ _ _ _ _ _ _ J J') as [_ EV]. discriminate.
    + apply SPL in C2 as (_ & C2 & K2 & D2). rewrite K2 in A'. cbn [fst] in A'. rewrite D2, A', <- app_assoc in E.
      destruct (block_unique _ _ _ _ _ eq_refl E Hb Hb') as [-> _]. destruct (judge_fun _ _ _ _ _ _ _ J J') as [_ EV]. discriminate.
  - apply SPL in C1 as (_ & C1 & K1 & D1). rewrite K1 in A. injection A as A. rewrite D1, A in E.
    destruct H2 as [l2 NH2 _|j1 j2 w' wb' p' c' m' u' hs' len' r' xs' a' A' Hb' J' BW' HD' HC'|j1 j2 w' c' code' xs' a' A' Hb' J' NE' HC'|j1 j2 w' rest' c' A' Hb' J'].
    + exfalso. rewrite (calm_data _ _ C2) in NH2. cbn [fst] in NH2. rewrite <- E in NH2. now apply block_not_none in NH2.
    + apply SPL in C2 as (_ & C2 & K2 & D2). rewrite K2 in A'. injection A' as A'. rewrite D2, A', <- app_assoc in E.
      destruct (block_unique _ _ _ _ _ eq_refl E Hb Hb') as [-> _]. destruct (judge_fun _ _ _ _ _ _ _ J J') as [_ EV]. discriminate.
    + apply SPL in C2 as (_ & C2 & K2 & D2). rewrite K2 in A'. injection A' as A'. rewrite D2, A' in E.
      destruct (block_unique _ _ _ _ _ eq_refl E Hb Hb') as [-> E']. destruct (judge_fun _ _ _ _ _ _ _ J J') as [-> EV]. injection EV as <-.
      destruct (IH _ _ _ HC' C1 C2 E') as [-> ->]. auto.
    + apply SPL in C2 as (_ & C2 & K2 & D2). rewrite K2 in A'. cbn [fst] in A'. rewrite D2, A', <- app_assoc in E.
      destruct (block_unique _ _ _ _ _ eq_refl E Hb Hb') as [-> _]. destruct (judge_fun _ _ _ _ _ _ _ J J') as [_ EV]. congruence.
  - apply SPL in C1 as (_ & C1 & K1 & D1). rewrite K1 in A. cbn [fst] in A. rewrite D1, A, <- app_assoc in E.
    destruct H2 as [l2 NH2 _|j1 j2 w' wb' p' c' m' u' hs' len' r' xs' a' A' Hb' J' BW' HD' HC'|j1 j2 w' c' code' xs' a' A' Hb' J' NE' HC'|j1 j2 w' rest' c' A' Hb' J'].
    + exfalso. rewrite (calm_data _ _ C2) in NH2. cbn [fst] in NH2. rewrite <- E in NH2. now apply block_not_none in NH2.
    + apply SPL in C2 as (_ & C2 & K2 & D2). rewrite K2 in A'. injection A' as A'. rewrite D2, A', <- app_assoc in E.
      destruct (block_unique _ _ _ _ _ eq_refl E Hb Hb') as [-> _]. destruct (judge_fun _ _ _ _ _ _ _ J J') as [_ EV]. discriminate.
    + apply SPL in C2 as (_ & C2 & K2 & D2). rewrite K2 in A'. injection A' as A'. rewrite D2, A' in E.
      destruct (block_unique _ _ _ _ _ eq_refl E Hb Hb') as [-> _]. destruct (judge_fun _ _ _ _ _ _ _ J J') as [_ EV]. congruence.
    + apply SPL in C2 as (_ & C2 & K2 & D2). rewrite K2 in A'. cbn [fst] in A'. rewrite D2, A', <- app_assoc in E.
      destruct (block_unique _ _ _ _ _ eq_refl E Hb Hb') as [-> _]. destruct (judge_fun _ _ _ _ _ _ _ J J') as [-> _]. auto.
Qed.
