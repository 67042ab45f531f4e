(** Proofs: calls of the client that a server of this crate answers. *)
From Verif Require Import Client Accept SpecBody SpecChunked SpecHead SpecReq SpecResponse SpecServer SpecClient SpecCall Lemmas Proofs_Copy Proofs_Buf
  Proofs_ReqHead Proofs_ServerDec Proofs_ServerEnc Proofs_Send Proofs_Body Proofs_Head Proofs_Accept Proofs_Request Proofs_Client Proofs_ClientDec Proofs_RoundTrip Proofs_Length.

(** The same message from the two descriptions of what the server sends. *)
Lemma writes_same ev r m m' : writes ev r m -> (forall w, accepting w -> exists F w', w_out w' = w_out w ++ m' /\
    forall fuel, (F <= fuel)%nat -> send fuel ev r w = (w', ROk (N.of_nat (length m')))) -> m = m'.
Proof.
  intros W S. destruct (W (mkWtr [] [])) as (F & w' & x & p & H1 & H2 & _ & [[-> ->]|[_ X]]); [|elim X; constructor].
  destruct (S (mkWtr [] [])) as (F2 & w2 & O & H3); [constructor|].
  specialize (H1 (F + F2)%nat ltac:(lia)). specialize (H3 (F + F2)%nat ltac:(lia)). rewrite H1 in H3. injection H3 as -> _.
  rewrite H2 in O. now apply app_inv_head in O.
Qed.

(** What comes back, and what the client makes of it. *)
Lemma answer_got sev cev r : env_ok sev -> plain_value (e_date sev) -> env_ok cev -> answerable sev r ->
  exists bt, body_text (r_body r) bt /\ writes sev r (head_text sev r ++ bt) /\
  ((N.of_nat (length (head_text sev r)) < 8192)%N -> (b_len (r_body r) = None -> fitting (e_deccap cev) (src_data (b_src (r_body r))) [] bt) ->
   forall s extra, wf_src s -> fst (avail false (s_evs s)) = (head_text sev r ++ bt) ++ extra -> exists b a, c_decode cev s = (b, COk a) /\ got sev cev r a).
Proof.
  intros He HD Hc (Sr & HR). pose proof He as (We & Hb & H64 & Hx & _). pose proof Sr as (Wr & Ws & HB). pose proof Hc as (Wc & _).
  destruct (b_len (r_body r)) as [n|] eqn:HL.
  - destruct HB as (B1 & B2 & B3). destruct (send_message sev r He Sr) as (t & _ & HW).
    destruct (response_trip_text sev cev r n We HD ltac:(lia) Wc (ok_cap cev Hc) Wr HR HL Ws B1 B2 B3) as (T1 & T2).
    exists (firstn (N.to_nat n) (src_data (b_src (r_body r)))). split; [now apply bt_fixed|].
    rewrite <- (writes_same sev r t _ HW T1). split; [exact HW|]. rewrite (writes_same sev r t _ HW T1). intros LH _ s extra Wf A.
    destruct (T2 ltac:(rewrite app_length, firstn_length; lia) s extra Wf A) as (b & a & fs & E & E1 & E2 & E3 & E4 & E5). exists b, a. split; [exact E|].
    eapply got_all; eauto.
  - destruct HB as (B1 & B2). apply (unpinched sev r We Wr) in B2. destruct (chunked_text sev r Ws Hb H64 Hx HL B1 B2) as (cw & Hcw & H).
    exists (cw ++ last_chunk). split; [now apply bt_chunked|]. split; [exact H|]. intros LH HF s extra Wf A. rewrite <- app_assoc in A.
    destruct (chunked_trip sev cev r (cw ++ last_chunk) We HD Hc Wr HR HL LH _ (HF eq_refl) s extra Wf A) as (b & f & E & L & K).
    exists b, (mkCresp 200 [] f). split; [exact E|]. now apply got_body.
Qed.

Lemma call_over sev cev q r : env_ok sev -> plain_value (e_date sev) -> env_ok cev -> callable q -> answerable sev r ->
  exists m t, over sev cev (q, r) m t /\
  forall o h s wt l1 l2, wf_src s -> s_evs s = l1 ++ l2 -> avail (o_timeout o) l1 = (m, ObEnd) ->
    handles (o_verbose o) (q, r) h -> accepting wt -> prompt (o_timeout o) wt ->
  exists pads F wt', calm (o_timeout o) pads /\ evs_data pads = [] /\ Forall wf_ev pads /\
    (forall fuel, (F <= fuel)%nat -> turn fuel sev o h s wt = (mkSrc (pads ++ l2) (s_tail s), wt', None)) /\
    w_out wt' = w_out wt ++ t /\ accepting wt' /\ prompt (o_timeout o) wt'.
Proof.
  intros He HD Hc (W & HA & HO & HX) AN. destruct (answer_got sev cev r He HD Hc AN) as (bt & BT & HW & HG).
  pose proof HO as (_ & _ & _ & _ & _ & _ & _ & WB & CB & HLq & HN).
  destruct (request_told sev q W HA HO) as (h & hf & EH & HF & HK & J & AR).
  exists (h ++ src_data (b_src (c_body q))), (head_text sev r ++ bt). split.
  - exists (head_text sev r), bt. split; [apply head_response; [apply AN|apply He]|]. split; [exact BT|]. split; [reflexivity|].
    intros w Aw. destruct (request_written cev q h (ok_cap cev Hc) EH WB CB w Aw) as (F & w' & O & K). exists F, w'. split; [exact O|].
    cbn [fst snd]. intros LH FI fuel s extra Hf Wf A. destruct (HG LH FI s extra Wf A) as (b & a & E & G). exists a. rewrite K, E by exact Hf. split; [reflexivity|exact G].
  - intros o hd s wt l1 l2 Wf E A Hd Ha Hp.
    assert (NC : continues (creq_fields q hf (N.of_nat (length (src_data (b_src (c_body q)))))) false).
    { intros (x & X). apply HX. exists x. rewrite (ord_values q HO hf _ HF eq_refl) in X. exact X. }
    specialize (J false NC).
    apply (accepted_writes sev r _ He HW o hd s wt l1 l2 h _ (src_data (b_src (c_body q))) false _ _ _ _ Wf E A HK J (conj eq_refl eq_refl)); auto.
Qed.

(** One call after the other on one connection. *)
Lemma session sev cev o : env_ok sev -> plain_value (e_date sev) -> env_ok cev ->
  forall cs, Forall (fun c => callable (fst c) /\ answerable sev (snd c)) cs ->
  exists xs, Forall2 (fun c x => over sev cev c (fst x) (snd x)) cs xs /\
  forall h tl ls pads rest wt, (forall i c, nth_error cs i = Some c -> handles (o_verbose o) c (h i)) ->
    Forall2 (fun l x => avail (o_timeout o) l = (fst x, ObEnd)) ls xs -> calm (o_timeout o) pads -> evs_data pads = [] -> Forall wf_ev pads ->
    Forall (Forall wf_ev) ls -> Forall wf_ev rest -> accepting wt -> prompt (o_timeout o) wt ->
  exists F pads' wt', w_out wt' = w_out wt ++ concat (map snd xs) /\ calm (o_timeout o) pads' /\ evs_data pads' = [] /\
    forall n fuel, (F <= fuel)%nat ->
      accept_go (length cs + n) fuel sev o h (mkSrc (pads ++ concat ls ++ rest) tl) wt =
      accept_go n fuel sev o (fun i => h (length cs + i)%nat) (mkSrc (pads' ++ rest) tl) wt'.
Proof.
  intros He HD Hc cs HF. induction HF as [|[q r] cs [HQ HR] _ IH].
  - exists []. split; [constructor|]. intros h tl ls pads rest wt _ H2 C D Wp _ _ _ _. inversion H2; subst. exists O, pads, wt. cbn [concat map app]. rewrite app_nil_r. auto.
  - destruct IH as (xs & F2 & IH). destruct (call_over sev cev q r He HD Hc HQ HR) as (m & t & OV & TU).
    exists ((m, t) :: xs). split; [constructor; auto|]. intros h tl ls pads rest wt HH H2 C D Wp Wl Wr Ha Hp. inversion H2 as [|l ? ls' ? A H2']; subst. cbn [fst] in A.
    inversion Wl as [|? ? W1 W2]; subst.
    destruct (TU o (h O) (mkSrc (pads ++ concat (l :: ls') ++ rest) tl) wt (pads ++ l) (concat ls' ++ rest)) as (p1 & F1 & wt1 & C1 & D1 & Wp1 & T & O1 & A1 & Q1); auto.
    { unfold wf_src. cbn [s_evs concat]. repeat (apply Forall_app; split); auto. clear - W2. induction W2; cbn [concat]; [constructor|apply Forall_app; auto]. }
    { cbn [s_evs concat]. now rewrite <- !app_assoc. }
    { rewrite avail_app, D by exact C. now rewrite A. }
    destruct (IH (later h) tl ls' p1 rest wt1 (fun i => HH (S i)) H2' C1 D1 Wp1 W2 Wr A1 Q1) as (F3 & p3 & wt3 & O3 & C3 & D3 & R).
    exists (F1 + F3)%nat, p3, wt3. split; [rewrite O3, O1; cbn [map concat snd]; now rewrite app_assoc|]. split; [exact C3|]. split; [exact D3|].
    intros n fuel Hf. cbn [length Nat.add]. rewrite (accept_step _ _ _ _ _ _ _ _ _ (T fuel ltac:(lia))). cbn [s_tail]. apply R. lia.
Qed.
