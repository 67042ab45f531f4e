(** Proofs: calls of the client one after the other on one transport (SpecCall.v). *)
From Verif Require Import Client Accept BodyRead SpecBody SpecChunked SpecHead SpecReq SpecResponse SpecServer SpecClient SpecCall Lemmas Proofs_Copy Proofs_Buf Proofs_Dec
  Proofs_DecReads Proofs_ReqHead Proofs_ServerDec Proofs_ServerEnc Proofs_Send Proofs_Body Proofs_BodyRead Proofs_Head Proofs_Accept Proofs_Request Proofs_Client
  Proofs_ClientDec Proofs_RoundTrip Proofs_Call.

Section Reuse.
  Variables (l2 : list ev) (t : rtail) (ev : env).
  Hypothesis He : env_ok ev.

  (** Reading a body to its end is the same whatever comes behind it. *)
  Lemma reads_ext : forall ns b b' x, broken (body_brd b) -> body_ok b -> reads (body_read ev) ns b = (b', x, Ended) ->
    reads (body_read ev) ns (bext l2 t b) = (bext l2 t b', x, Ended).
  Proof.
    induction ns as [|n ns IH]; intros b b' x T K H; cbn [reads] in *; [discriminate|].
    destruct (body_read ev n b) as [b1 r] eqn:E. destruct (body_ext l2 t ev n b b1 r (ok_cap ev He) T K E) as (T1 & K1 & [->|X]); [discriminate|].
    rewrite X. destruct r as [[|c d]|f| | |]; try discriminate.
    - now injection H as <- <-.
    - destruct (reads (body_read ev) ns b1) as [[b2 o2] k2] eqn:E2. injection H as <- <- ->. now rewrite (IH _ _ _ T1 K1 E2).
    - now apply IH.
  Qed.
  Lemma reads_nice tmo : forall ns b b' x k, nice tmo (body_brd b) -> reads (body_read ev) ns b = (b', x, k) -> nice tmo (body_brd b').
  Proof.
    induction ns as [|n ns IH]; intros b b' x k N H; cbn [reads] in *; [now injection H as <- <- <-|].
    destruct (body_read ev n b) as [b1 r] eqn:E. pose proof (body_inv (nice tmo) (nice_read tmo) ev n b b1 r E N) as N1.
    destruct r as [[|c d]|f| | |]; try (now injection H as <- <- <-); [|eauto].
    destruct (reads (body_read ev) ns b1) as [[b2 o2] k2] eqn:E2. injection H as <- <- <-. eauto.
  Qed.

  (** A body that has arrived, read to its end. *)
  Lemma fixed_to_end sz b1 : (forall i, 0 < sz i)%nat -> broken b1 -> nice false b1 ->
    exists b', drained l2 t false b' /\ settles (fun fuel => read_to_end ev fuel sz (RMsg (RFixed (N.of_nat (length (br_data b1))) (ext l2 t b1)))) (RMsg b', ROk (br_data b1)).
  Proof.
    intros P T N. pose proof N as [W _]. set (b := RFixed (N.of_nat (length (br_data b1))) b1).
    destruct (read_all (body_read ev) b sz (br_size b1) P) as (b' & x & k & K & E & F).
    { intros ns e' out FN E. now destruct (fixed_reads ev ns _ _ _ _ _ W FN E). }
    pose proof (fixed_reads ev _ _ _ _ _ _ W (sizes_pos sz P _ _) E) as Q.
    assert (k = Ended) as -> by (destruct k; try contradiction; try congruence; lia).
    rewrite Nat2N.id, firstn_all in Q. destruct Q as (-> & rem & b2 & -> & D & _).
    assert (D2 : br_data b2 = []) by (apply (app_inv_head (br_data b1)); now rewrite app_nil_r).
    exists (bext l2 t (RFixed rem b2)). split.
    - exists b2. split; [reflexivity|]. destruct (reads_nice false _ b _ _ _ N E) as [W2 C2]. auto.
    - exists (S (br_size b1)). intros fuel L. apply (read_end ev fuel sz _ _ (br_data b1) Ended). rewrite msg_reads.
      change (RFixed (N.of_nat (length (br_data b1))) (ext l2 t b1)) with (bext l2 t b). rewrite (reads_ext _ b _ _ T I (F fuel L)). reflexivity.
  Qed.
  Lemma chunked_to_end sz b1 p tr : (forall i, 0 < sz i)%nat -> broken b1 -> nice false b1 -> fitting (e_deccap ev) p tr (br_data b1) ->
    exists b', drained l2 t false b' /\ settles (fun fuel => read_to_end ev fuel sz (RMsg (RChunked [] (dec_new ev (ext l2 t b1))))) (RMsg b', ROk p).
  Proof.
    intros P T N HF. pose proof N as [W _]. pose proof He as (_ & _ & _ & _ & G). set (b := RChunked [] (dec_new ev b1)).
    assert (D : br_data b1 = br_data b1 ++ []) by now rewrite app_nil_r.
    assert (G0 : going ev b1 [] (dec_new ev b1) []) by (split; [reflexivity|constructor]).
    destruct (read_all (body_read ev) b sz (length p + br_size b1) P) as (b' & x & k & K & E & F).
    { intros ns e' out FN E. pose proof (chunked_reads ev p (br_data b1) [] tr b1 G HF (ok_cap ev He) W D ns [] _ [] [] [] p _ _ _ FN G0 eq_refl eq_refl E) as [_ Q]. cbn [length] in Q. lia. }
    pose proof (chunked_reads ev p (br_data b1) [] tr b1 G HF (ok_cap ev He) W D _ [] _ [] [] [] p _ _ _ (sizes_pos sz P _ _) G0 eq_refl eq_refl E) as Q.
    assert (k = Ended) as -> by (destruct k; try contradiction; congruence). destruct Q as (-> & d' & -> & _ & Q). apply app_eq_nil in Q as [_ Q].
    exists (bext l2 t (RChunked [] d')). split.
    - exists (d_in d'). split; [reflexivity|]. destruct (reads_nice false _ b _ _ _ N E) as [W2 C2]. auto.
    - exists (S (length p + br_size b1)). intros fuel L. apply (read_end ev fuel sz _ _ p Ended). rewrite msg_reads.
      change (RChunked [] (dec_new ev (ext l2 t b1))) with (bext l2 t b). rewrite (reads_ext _ b _ _ T) by (try exact (F fuel L); constructor). reflexivity.
  Qed.
End Reuse.

(** The head, apart from the segments behind its response. *)
Lemma decode_at ev s l1 l2 w body v : env_ok ev -> wf_src s -> s_evs s = l1 ++ l2 -> avail false l1 = (w ++ body, ObEnd) -> resp_block w ->
  cjudge (e_trim ev) w v -> v <> CvReject ->
  exists b1, broken b1 /\ nice false b1 /\ br_data b1 = body /\ fst (c_decode ev s) = ext l2 (s_tail s) b1 /\ canswers ev v (ext l2 (s_tail s) b1) (snd (c_decode ev s)).
Proof.
  intros He Ws E A Hb J NR. pose proof He as (We & _). pose proof (judge_short _ _ _ J NR) as HL.
  destruct (avail_calm false l1) as [CM ED]; [now rewrite A|].
  assert (D : delivers s w (body ++ fst (avail false l2))).
  { split; [exact Ws|]. split; [exact Hb|]. rewrite E, (avail_app false l1 l2 CM). cbn [fst]. rewrite <- ED, A. cbn [fst]. now rewrite app_assoc. }
  destruct (decode_short ev We (ok_cap ev He) s _ _ D HL) as (b & BH & EB & HJ). specialize (HJ v J).
  assert (EW : win false l2 b body ObEnd /\ wf_brd b /\ s_tail (br_src b) = s_tail s).
  { split; [|split; [apply BH|apply BH]].
    assert (EF : fst (c_head (br_new (e_bufcap ev) s)) = b).
    { rewrite <- EB. unfold c_decode. destruct (c_head _) as [b' [buf| |]]; try reflexivity. destruct (parse_response _ _ _); try reflexivity.
      destruct (_ =? 1)%N; [|reflexivity]. destruct (c_headers _ _); reflexivity. }
    unfold c_head in EF. destruct (c_head_go _ _ _) as [b' r] eqn:EG. cbn [fst] in EF. subst b'.
    assert (W0 : win false l2 (br_new (e_bufcap ev) s) (w ++ body) ObEnd) by (exists l1; cbn; rewrite A; auto).
    pose proof (c_go_done l2 _ _ _ _ [] w body b r (Nat.lt_succ_diag_r _) (new_wf ev (ok_cap ev He) s Ws) W0 eq_refl Hb) as Q.
    replace (c_max_head <=? N.of_nat (length w))%N with false in Q by (unfold c_max_head; lia). apply Q; [|exact EG].
    exists w. split; [|reflexivity]. intros ->. destruct Hb as [H _]. apply resp_end_lf in H as [[|] ?]; discriminate. }
  destruct EW as (EW & Wb & ET). destruct (win_iso false l2 b body Wb EW) as (b1 & EX & B1 & B2 & B3 & B4). rewrite ET in EX.
  exists b1. rewrite <- EX. ands; auto. split; auto.
Qed.

(** One call. *)
Lemma one_call ev sz x v p : env_ok ev -> (forall i, 0 < sz i)%nat -> reply ev x v p ->
  forall s l1 l2, wf_src s -> s_evs s = l1 ++ l2 -> avail false l1 = (x, ObEnd) ->
  exists a r pads F, snd (c_decode ev s) = COk a /\ (forall fuel, (F <= fuel)%nat -> read_to_end ev fuel sz (f_rdr (a_body a)) = (r, ROk p)) /\
    returned ev v p (COk a, ROk p) /\ calm false pads /\ evs_data pads = [] /\ Forall wf_ev pads /\
    match r with RMsg b => body_src b | RSrc _ => br_src (fst (c_decode ev s)) end = mkSrc (pads ++ l2) (s_tail s).
Proof.
  intros He P HR s l1 l2 Ws E A. destruct HR as [w code hs p Hb J|w p tr wire Hb J HF|w code hs Hb J].
  - destruct (decode_at ev s l1 l2 w p _ He Ws E A Hb J ltac:(discriminate)) as (b1 & B1 & B2 & B3 & EB & m & HH & EO). subst p.
    destruct (fixed_to_end l2 (s_tail s) ev He sz b1 P B1 B2) as (b' & DR & F & S). destruct (drained_src _ _ _ _ DR) as (pads & E1 & E2 & E3 & E4).
    eexists _, (RMsg b'), pads, F. split; [exact EO|]. split; [exact S|]. split; [now constructor|]. auto.
  - destruct (decode_at ev s l1 l2 w wire _ He Ws E A Hb J ltac:(discriminate)) as (b1 & B1 & B2 & B3 & EB & EO). subst wire. cbn [canswers] in EO.
    destruct (chunked_to_end l2 (s_tail s) ev He sz b1 p tr P B1 B2 HF) as (b' & DR & F & S). destruct (drained_src _ _ _ _ DR) as (pads & E1 & E2 & E3 & E4).
    eexists _, (RMsg b'), pads, F. split; [exact EO|]. split; [exact S|]. split; [now constructor|]. auto.
  - destruct (decode_at ev s l1 l2 w [] (CvNone code hs) He Ws E ltac:(now rewrite app_nil_r) Hb J ltac:(discriminate)) as (b1 & B1 & [W1 C1] & B3 & EB & m & HH & EO).
    unfold br_data in B3. apply app_eq_nil in B3 as [_ B3].
    eexists _, (RSrc (mkSrc [] Eof)), (s_evs (br_src b1)), 1%nat. split; [exact EO|]. split; [intros [|f] L; [lia|reflexivity]|]. split; [now constructor|].
    split; [exact C1|]. split; [exact B3|]. split; [apply W1|]. now rewrite EB.
Qed.

Lemma written_on ev q : (0 < e_bufcap ev)%nat -> askable q -> exists m, asks q m /\ forall w, accepting w ->
  exists F w', w_out w' = w_out w ++ m /\ accepting w' /\ forall s fuel, (F <= fuel)%nat -> connect ev fuel q s w = (w', snd (c_decode ev s)).
Proof.
  intros Hc (W & HA & (n & HN) & WB & CB). destruct (encode_defined q n) as [h E]; [apply W|assumption|assumption|].
  exists (h ++ src_data (b_src (c_body q))). split; [exists h; split; [now apply encode_reads|reflexivity]|]. intros w Aw.
  destruct (cenced_sends ev q h w Hc WB) as (F & w' & r & p & HF & HO & _ & [(_ & Er & Ep)|(_ & X)]); [|elim X; auto].
  exists F, w'. split; [now rewrite HO, Ep|]. split; [eapply suf_accepting; [eapply copy_suf, (HF F (le_n _))|exact Aw]|].
  intros s fuel Hf. unfold connect. now rewrite E, HF, Er.
Qed.

Lemma calls_ok ev sz : env_ok ev -> (forall i, 0 < sz i)%nat -> forall qs, Forall askable qs ->
  exists ms, Forall2 asks qs ms /\
  forall xs ls pads rest tl w, length xs = length qs -> Forall (fun x => reply ev (fst (fst x)) (snd (fst x)) (snd x)) xs ->
    Forall2 (fun l (x : bytes * cverdict * bytes) => avail false l = (fst (fst x), ObEnd)) ls xs -> Forall (Forall wf_ev) ls -> Forall wf_ev rest -> accepting w ->
    calm false pads -> evs_data pads = [] -> Forall wf_ev pads ->
  exists F pads' w' rs, w_out w' = w_out w ++ concat ms /\ calm false pads' /\ evs_data pads' = [] /\
    Forall2 (fun x r => returned ev (snd (fst x)) (snd x) r) xs rs /\
    forall fuel, (F <= fuel)%nat -> calls ev fuel sz qs (mkSrc (pads ++ concat ls ++ rest) tl) w = (mkSrc (pads' ++ rest) tl, w', rs).
Proof.
  intros He P qs HQ. induction HQ as [|q qs AQ _ IH].
  - exists []. split; [constructor|]. intros [|x xs] ls pads rest tl w HL _ H2 _ _ _ C D Wp; [|discriminate]. inversion H2; subst. exists O, pads, w, []. cbn [concat app calls].
    rewrite app_nil_r. ands; auto.
  - destruct IH as (ms & M2 & IH). destruct (written_on ev q (ok_cap ev He) AQ) as (m & AM & HW). exists (m :: ms). split; [now constructor|].
    intros [|[[x v] p] xs] ls pads rest tl w HL HX H2 Wl Wr Aw C D Wp; [discriminate|]. inversion H2 as [|l ? ls' ? A H2']; subst. cbn [fst snd] in *.
    inversion Wl as [|? ? W1 W2]; subst. inversion HX as [|? ? RX HX']; subst. cbn [fst snd] in RX.
    set (s := mkSrc (pads ++ concat (l :: ls') ++ rest) tl).
    assert (Ws : wf_src s).
    { unfold wf_src, s. cbn [s_evs concat]. repeat (apply Forall_app; split); auto. clear - W2. induction W2; cbn [concat]; [constructor|apply Forall_app; auto]. }
    destruct (one_call ev sz x v p He P RX s (pads ++ l) (concat ls' ++ rest) Ws) as (a & r & p1 & F1 & ED & ER & RT & C1 & D1 & Wp1 & ES).
    { unfold s. cbn [s_evs concat]. now rewrite <- !app_assoc. }
    { rewrite avail_app, D by exact C. now rewrite A. }
    destruct (HW w Aw) as (F2 & w2 & O2 & A2 & K2).
    destruct (IH xs ls' p1 rest tl w2) as (F3 & p3 & w3 & rs & O3 & C3 & D3 & R3 & K3); auto.
    exists (F1 + F2 + F3)%nat, p3, w3, ((COk a, ROk p) :: rs). split; [rewrite O3, O2; cbn [concat]; now rewrite app_assoc|].
    split; [exact C3|]. split; [exact D3|]. split; [constructor; auto|]. intros fuel L. cbn [calls]. fold s. rewrite K2, ED, ER by lia. rewrite ES.
    change (s_tail s) with tl. now rewrite K3 by lia.
Qed.

(** The replies of a server of this crate. *)
Lemma answer_reply sev cev r : env_ok sev -> plain_value (e_date sev) -> env_ok cev -> answerable sev r ->
  exists head bt, response_head (e_date sev) r head /\ body_text (r_body r) bt /\ writes sev r (head ++ bt) /\
  ((N.of_nat (length head) < 8192)%N -> (b_len (r_body r) = None -> fitting (e_deccap cev) (src_data (b_src (r_body r))) [] bt) ->
   exists v p, told sev r v p /\ reply cev (head ++ bt) v p).
Proof.
  intros He HD Hc AN. pose proof AN as (Sr & HR). pose proof He as (We & _). pose proof Sr as (Wr & Ws & HB).
  destruct (answer_got sev cev r He HD Hc AN) as (bt & BT & HW & _). exists (head_text sev r), bt. split; [apply head_response; [exact Wr|exact We]|].
  split; [exact BT|]. split; [exact HW|]. intros HL HF. pose proof (sent_ok sev r Wr We) as SF. pose proof SF as (FF & _). unfold framing_fields in FF. pose proof HR as (_ & HSt & HC & _).
  pose proof (head_resp_block sev r Wr We HD HR) as RB.
  assert (GR : resp_grammatical (e_trim cev) 1 (r_status r) (head_fields sev r) (head_text sev r)).
  { exists (head_text sev r), []. rewrite app_nil_r. split; [reflexivity|]. split; [now apply head_lresp|now apply head_count]. }
  inversion BT as [n HL2 EB|cw HL2 HC2 EB]; subst bt; rewrite HL2 in FF, HB.
  - destruct FF as (v & V1 & V2 & V3). destruct HB as (B1 & B2 & B3).
    set (p := firstn (N.to_nat n) (src_data (b_src (r_body r)))). assert (LP : N.of_nat (length p) = n) by (unfold p; rewrite firstn_length; lia).
    assert (CL : cl_value v n) by (split; [exists v; split; [now left|apply V2]|lia]).
    exists (CvLength (r_status r) (head_fields sev r) n), p. split; [now apply td_all|]. rewrite <- LP. apply ry_length; [exact RB|]. rewrite LP.
    eapply cj_length; try eassumption. lia.
  - destruct FF as (F1 & F2). exists CvChunked, (src_data (b_src (r_body r))). split; [now apply td_body|]. eapply ry_chunked; [exact RB| |now apply HF].
    eapply cj_chunked; try eassumption. eexists. exact F2.
Qed.

(** A body that is not read stays on the transport. *)
Lemma unread_stays ev s lh lb rest w v : env_ok ev -> wf_src s -> s_evs s = lh ++ lb ++ rest -> avail false lh = (w, ObEnd) -> resp_block w ->
  cjudge (e_trim ev) w v -> v <> CvReject ->
  exists pads, calm false pads /\ evs_data pads = [] /\ (exists a, snd (c_decode ev s) = COk a) /\
    br_src (fst (c_decode ev s)) = mkSrc (pads ++ lb ++ rest) (s_tail s).
Proof.
  intros He Ws E A Hb J NR. destruct (decode_at ev s lh (lb ++ rest) w [] v He Ws E ltac:(now rewrite app_nil_r) Hb J NR) as (b1 & _ & [_ C] & D & EB & CA).
  unfold br_data in D. apply app_eq_nil in D as [_ D]. exists (s_evs (br_src b1)). split; [exact C|]. split; [exact D|]. split; [|now rewrite EB].
  destruct v; cbn [canswers] in CA; [now elim NR|eauto|destruct CA as (m & _ & ->); eauto|destruct CA as (m & _ & ->); eauto].
Qed.
