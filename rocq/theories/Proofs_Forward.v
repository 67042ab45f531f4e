(** Forwarding of received bodies by the client (Forward.v). *)
From Verif Require Import Forward SpecIo SpecChunked SpecHead SpecReq SpecResponse SpecServer SpecClient SpecBody Lemmas Proofs_Copy Proofs_Head Proofs_Map Proofs_ServerEnc
  Proofs_Buf Proofs_ServerDec Proofs_Request Proofs_Relay Proofs_Client Proofs_ClientDec Proofs_RoundTrip Proofs_RelayReq.

(** ** Own bodies: the same as [connect] *)
Lemma own_poll ev n e : fenc_poll ev n (mkFenc (ce_head e) (RSrc (ce_src e)) (ce_done e)) =
  let '(e', x) := cenc_poll n e in (mkFenc (ce_head e') (RSrc (ce_src e')) (ce_done e'), x).
Proof.
  unfold fenc_poll, cenc_poll. cbn [fe_head fe_rdr fe_done rdr_poll]. destruct (ce_done e); [reflexivity|].
  now destruct (src_read (n - length (firstn n (ce_head e))) (ce_src e)) as [s' [d|f| | |]].
Qed.
Lemma map_copy {E F} (g : E -> F) (p : E -> E * pres bytes) (q : F -> F * pres bytes) :
  (forall e, q (g e) = let '(e', x) := p e in (g e', x)) -> forall fuel e bb w amt, copy_go q fuel (g e) bb w amt = copy_go p fuel e bb w amt.
Proof.
  intros H. induction fuel as [|f IH]; intros e bb w amt; [reflexivity|]. cbn [copy_go]. destruct bb as [|c bb].
  - rewrite H. destruct (p e) as [e' [[|c x]|g0| | |]]; auto. destruct (w_flush w) as [w' [k|g0|]]; auto.
  - destruct (w_write (c :: bb) w) as [w' [[|k]|g0|]]; auto.
Qed.
Lemma own_connect ev fuel m u hs b s w : fconnect ev fuel (mkFreq m u hs (BodyRead.full b)) s w = connect ev fuel (mkCreq m u hs b) s w.
Proof.
  unfold fconnect, connect. assert (E : c_encode (fq_head (mkFreq m u hs (BodyRead.full b))) = c_encode (mkCreq m u hs b)) by reflexivity. rewrite E.
  destruct (c_encode (mkCreq m u hs b)) as [h| |]; auto. cbn [fq_body BodyRead.full f_rdr c_body].
  pose proof (map_copy (fun e => mkFenc (ce_head e) (RSrc (ce_src e)) (ce_done e)) (cenc_poll (e_bufcap ev)) (fenc_poll ev (e_bufcap ev)) (own_poll ev (e_bufcap ev)) fuel (mkCenc h (b_src b) false) [] w 0%N) as Q.
  cbn [ce_head ce_src ce_done] in Q. now rewrite Q.
Qed.

(** ** Bodies of declared length *)
Lemma fixed_poll_spec ev n rem b r x : wf_brd b -> rdr_poll ev n (RMsg (RFixed rem b)) = (r, x) ->
  let D := firstn (N.to_nat rem) (br_data b) in
  match x with
  | POk d => exists b1, r = RMsg (RFixed (rem - N.of_nat (length d)) b1) /\ wf_brd b1 /\ D = d ++ firstn (N.to_nat (rem - N.of_nat (length d))) (br_data b1) /\ (length d <= n)%nat /\
      br_data b = d ++ br_data b1 /\ (br_size b1 + length d <= br_size b)%nat /\ (clean (br_src b) <-> clean (br_src b1)) /\ (N.of_nat (length d) <= rem)%N /\
      (d = [] -> (0 < n)%nat -> D = [] /\ (rem <= N.of_nat (length (br_data b)) \/ clean (br_src b))%N)
  | PPend f => exists b1, r = RMsg (RFixed rem b1) /\ wf_brd b1 /\ br_data b1 = br_data b /\ (br_size b1 < br_size b)%nat /\ (clean (br_src b) <-> clean (br_src b1))
  | PErr => (N.of_nat (length (br_data b)) < rem)%N /\ ~ clean (br_src b)
  | _ => False
  end.
Proof.
  intros W H. cbn [rdr_poll body_read] in H. unfold take_read in H. cbv zeta. destruct (rem =? 0)%N eqn:Z.
  { apply N.eqb_eq in Z as ->. injection H as <- <-. exists b. cbn. split; [reflexivity|]. split; [exact W|]. split; [reflexivity|]. split; [lia|]. split; [reflexivity|]. split; [lia|]. split; [reflexivity|]. split; [lia|]. intros _ _. split; [reflexivity|left; lia]. }
  apply N.eqb_neq in Z. destruct (br_read (N.to_nat (N.min (N.of_nat n) rem)) b) as [b1 y] eqn:E. pose proof (br_read_wf _ _ _ _ E W) as W1. destruct y as [d|f| | |].
  - injection H as <- <-. exists b1. pose proof (br_read_data _ _ _ _ E) as D1. pose proof (br_read_len _ _ _ _ E) as D2. pose proof (br_read_size _ _ _ _ E) as D3.
    split; [reflexivity|]. split; [exact W1|]. split; [rewrite D1, firstn_app, firstn_all2 by lia; f_equal; f_equal; lia|]. split; [lia|]. split; [exact D1|]. split; [exact D3|].
    split; [eapply br_read_clean_iff; eauto|]. split; [lia|]. intros -> Hn. assert (Hp : (0 < N.to_nat (N.min (N.of_nat n) rem))%nat) by lia.
    destruct (br_read_nil _ _ _ Hp W E) as [D4 _]. rewrite D4, firstn_nil. split; [reflexivity|]. right. eapply br_read_nil_clean; eauto.
  - injection H as <- <-. exists b1. split; [reflexivity|]. split; [exact W1|]. split; [eapply br_read_pend_data; eauto|]. split; [eapply br_read_pend_size; eauto|]. eapply br_read_clean_iff; eauto.
  - injection H as <- <-. rewrite (br_read_err _ _ _ E). split; [cbn; lia|]. intros C. now destruct (br_read_clean _ _ _ _ E C).
  - now destruct (br_read_never _ _ _ _ E).
  - now destruct (br_read_never _ _ _ _ E).
Qed.

Lemma fenc_run ev n : (0 < n)%nat -> forall m h rem b, wf_brd b -> (length h + br_size b <= m)%nat ->
  let P := firstn (N.to_nat rem) (br_data b) in
  exists O k, run (fenc_poll ev n) (mkFenc h (RMsg (RFixed rem b)) false) O k /\
    ((k = KOk /\ O = h ++ P /\ (rem <= N.of_nat (length (br_data b)) \/ clean (br_src b))%N) \/
     (k = KErr /\ prefix O (h ++ P) /\ (N.of_nat (length (br_data b)) < rem)%N /\ ~ clean (br_src b))).
Proof.
  intros Hn. induction m as [m IH] using lt_wf_ind. intros h rem b W Hm. cbv zeta.
  destruct (rdr_poll ev (n - length (firstn n h)) (RMsg (RFixed rem b))) as [r x] eqn:E.
  assert (EP : fenc_poll ev n (mkFenc h (RMsg (RFixed rem b)) false) =
    match x with
    | POk d => (mkFenc (skipn n h) r (match firstn n h ++ d with [] => true | _ => false end), POk (firstn n h ++ d))
    | PErr => (mkFenc (skipn n h) r false, PErr)
    | PPend f => (mkFenc (skipn n h) r false, match firstn n h with [] => PPend f | _ => POk (firstn n h) end)
    | PPanic => (mkFenc (skipn n h) r false, PPanic)
    | PFuel => (mkFenc (skipn n h) r false, PFuel)
    end) by (unfold fenc_poll; cbn [fe_head fe_rdr fe_done]; rewrite E; now destruct x).
  pose proof (fixed_poll_spec _ _ _ _ _ _ W E) as Q. cbv zeta in Q. clear E.
  assert (HH : h = firstn n h ++ skipn n h) by (symmetry; apply firstn_skipn).
  assert (HL : length h = (length (firstn n h) + length (skipn n h))%nat) by (rewrite <- app_length; now f_equal).
  destruct x as [d|f| | |]; try contradiction.
  - destruct Q as (b1 & -> & W1 & Q1 & Q2 & Q3 & Q4 & Q5 & Q6 & Q7). destruct (firstn n h ++ d) as [|c0 l0] eqn:EO.
    + apply app_eq_nil in EO as [E0 ->]. assert (h = []) as -> by (destruct h; [reflexivity|destruct n; [lia|discriminate]]).
      rewrite firstn_nil in *. cbn [length] in *. rewrite skipn_nil in *. destruct (Q7 eq_refl ltac:(lia)) as [Q8 Q9]. rewrite Q8. exists [], KOk. split.
      * eapply run_done; [exact EP|]. unfold fenc_poll. cbn [fe_done fe_head fe_rdr]. now rewrite firstn_nil, skipn_nil.
      * left. auto.
    + rewrite <- EO in *. assert (NE : firstn n h ++ d <> []) by (rewrite EO; discriminate). clear EO.
      assert (MS : (length (skipn n h) + br_size b1 < m)%nat).
      { destruct (firstn n h) eqn:EF.
        - cbn [app] in NE. destruct d; [easy|cbn in *; lia].
        - cbn in HL. lia. }
      destruct (IH _ MS (skipn n h) (rem - N.of_nat (length d))%N b1 W1 (le_n _)) as (O & k & R & Q).
      assert (HO : h ++ firstn (N.to_nat rem) (br_data b) = (firstn n h ++ d) ++ skipn n h ++ firstn (N.to_nat (rem - N.of_nat (length d))) (br_data b1)).
      { rewrite Q1. destruct (skipn n h) eqn:ES.
        - rewrite app_nil_r in HH. rewrite <- HH. cbn [app]. now rewrite app_assoc.
        - assert (H : length (firstn n h) = n) by (apply firstn_length_eq; pose proof (skipn_length n h) as K; rewrite ES in K; cbn in K; lia).
          rewrite H, Nat.sub_diag in Q2. destruct d; [|cbn in Q2; lia]. rewrite app_nil_r. cbn [app]. rewrite HH at 1. now rewrite <- app_assoc. }
      exists ((firstn n h ++ d) ++ O), k. split; [eapply run_out; eauto|]. rewrite HO, Q5. assert (LB : length (br_data b) = (length d + length (br_data b1))%nat) by (rewrite Q3; apply app_length).
      destruct Q as [(-> & -> & C)|(-> & P & C1 & C2)].
      * left. ands; auto. destruct C as [C|C]; [left; lia|right; exact C].
      * right. ands; auto; [now apply prefix_app|lia].
  - destruct Q as (b1 & -> & W1 & Q1 & Q2 & Q3).
    destruct (IH (length (skipn n h) + br_size b1)%nat ltac:(lia) (skipn n h) rem b1 W1 (le_n _)) as (O & k & R & Q). rewrite Q1, <- Q3 in Q.
    exists (firstn n h ++ O), k. split.
    { destruct (firstn n h) eqn:EF; [eapply run_pend; eauto|]. eapply run_out; [exact EP|discriminate|exact R]. }
    assert (HO : forall y, h ++ y = firstn n h ++ skipn n h ++ y) by (intros y; rewrite HH at 1; now rewrite <- app_assoc).
    rewrite HO. destruct Q as [(-> & -> & C)|(-> & P & C)].
    + left. auto.
    + right. ands; try apply C; auto. now apply prefix_app.
  - exists [], KErr. split; [eapply run_err; exact EP|]. right. ands; auto; try apply Q. apply prefix_nil.
Qed.

(** What is written of a request with a received body of declared length. *)
Lemma forward_fixed ev m u hs n br : (0 < e_bufcap ev)%nat -> wf_brd br -> let q := mkFreq m u hs (msg_body (Some n) (RFixed n br)) in
  creq_wf (fq_head q) -> addressed (fq_head q) ->
  exists h, c_encode (fq_head q) = CHead h /\ creq_head (fq_head q) h /\ forall s w, exists w' p out, settles (fun fuel => fconnect ev fuel q s w) (w', out) /\ w_out w' = w_out w ++ p /\
    let t := h ++ firstn (N.to_nat n) (br_data br) in
    prefix p t /\ (p = t /\ (n <= N.of_nat (length (br_data br)) \/ clean (br_src br))%N /\ out = snd (c_decode ev s) \/
                   out = CErr /\ ~ ((n <= N.of_nat (length (br_data br)) \/ clean (br_src br))%N /\ accepting w)).
Proof.
  intros Hc W q Hq A. destruct (encode_defined (fq_head q) n) as [h E]; [apply Hq|assumption|reflexivity|]. exists h. split; [exact E|]. split; [now apply encode_reads|].
  intros s w. destruct (fenc_run ev _ Hc _ h n br W (le_n _)) as (O & k & R & Q). destruct (copy_run _ _ _ _ R w 0%N) as (F & w' & r & p & HF & HP & HO & HR).
  unfold fconnect. rewrite E. cbn [fq_body q msg_body f_rdr]. destruct Q as [(-> & -> & C)|(-> & P & C1 & C2)].
  - destruct HR as [[-> ->]|[-> NA]].
    + exists w', (h ++ firstn (N.to_nat n) (br_data br)), (snd (c_decode ev s)). split; [exists F; intros fuel L; now rewrite HF|]. split; [exact HO|]. split; [apply prefix_refl|]. left. auto.
    + exists w', p, CErr. split; [exists F; intros fuel L; now rewrite HF|]. split; [exact HO|]. split; [exact HP|]. right. split; [reflexivity|]. intros [_ ?]. auto.
  - exists w', p, CErr. split; [exists F; intros fuel L; rewrite HF by exact L; now destruct HR as [[-> _]|[-> _]]|]. split; [exact HO|]. split; [eapply prefix_trans; eauto|]. right. split; [reflexivity|].
    intros [[?|?] _]; [lia|contradiction].
Qed.

(** ** Requests passed on *)
Lemma addressed_same m u hs b1 b2 : addressed (mkCreq m u hs b1) -> addressed (mkCreq m u hs b2).
Proof.
  intros [[t T] [hf F]]. split.
  - destruct T as [h p H1 H2 H3|H1 H2|x H1 H2]; eexists; [exact (tg_connect (mkCreq m u hs b2) h p H1 H2 H3)|exact (tg_path (mkCreq m u hs b2) H1 H2)|exact (tg_query (mkCreq m u hs b2) x H1 H2)].
  - destruct F as [H|h H1 H2 H3|h p H1 H2 H3]; eexists; [exact (hf_caller (mkCreq m u hs b2) H)|exact (hf_uri (mkCreq m u hs b2) h H1 H2 H3)|exact (hf_port (mkCreq m u hs b2) h p H1 H2 H3)].
Qed.
Lemma forward_request ev tmo s wt s' wt' q b n m u hs : env_ok ev -> wf_src s -> decode ev tmo s wt = (s', wt', OReq q b) -> q_len q = Some n ->
  let y := mkFreq m u hs (msg_body (q_len q) b) in creq_wf (fq_head y) -> addressed (fq_head y) ->
  exists w rest h, offers tmo s w /\ src_data s = w ++ rest /\ c_encode (fq_head y) = CHead h /\ creq_head (fq_head y) h /\
  forall up wr, exists wr' p out, settles (fun fuel => fconnect ev fuel y up wr) (wr', out) /\ w_out wr' = w_out wr ++ p /\ prefix p (h ++ firstn (N.to_nat n) rest) /\
    (p = h ++ firstn (N.to_nat n) rest /\ (n <= N.of_nat (length rest) \/ clean s)%N /\ out = snd (c_decode ev up) \/
     out = CErr /\ ~ ((n <= N.of_nat (length rest) \/ clean s)%N /\ accepting wr)).
Proof.
  intros He Ws H Hn y Hq A. destruct (request_reader ev tmo s wt s' wt' q b He Ws H) as (w & br & HO & HD & HW & HC & Eb). subst y.
  rewrite Hn in Hq, A, Eb |- *. subst b. cbn [body_reader] in *. destruct (forward_fixed ev m u hs n br (ok_cap ev He) HW Hq A) as (h & E & HH & Q).
  exists w, (br_data br), h. split; [exact HO|]. split; [exact HD|]. split; [exact E|]. split; [exact HH|]. intros up wr. destruct (Q up wr) as (wr' & p & out & Q1 & Q2 & Q3 & Q4).
  exists wr', p, out. rewrite HC. auto.
Qed.

Lemma forward_trip ev sev tmo s wt s' wt' q b n m u hs : env_ok ev -> env_ok sev -> wf_src s -> decode ev tmo s wt = (s', wt', OReq q b) -> q_len q = Some n ->
  let y := mkFreq m u hs (msg_body (q_len q) b) in
  exists w rest, offers tmo s w /\ src_data s = w ++ rest /\ let p := firstn (N.to_nat n) rest in let q0 := mkCreq m u hs (body_from_bytes p) in
  ((n <= N.of_nat (length rest))%N -> creq_wf q0 -> addressed q0 -> ordinary q0 ->
   exists t, (forall up wr, accepting wr -> exists wr', w_out wr' = w_out wr ++ t /\ settles (fun fuel => fconnect ev fuel y up wr) (wr', snd (c_decode ev up))) /\
   forall tm s2 extra w2, wf_src s2 -> fst (avail tm (s_evs s2)) = t ++ extra -> accepting w2 -> prompt tm w2 ->
   exists s3 w3 q2 b2, decode sev tm s2 w2 = (s3, w3, OReq q2 b2) /\ arrived q0 q2 /\
     forall sz, (forall i, 0 < sz i)%nat -> settles (fun fuel => into_bytes sev fuel sz (msg_body (q_len q2) b2)) (ROk p)).
Proof.
  intros He Hs Ws H Hn y. destruct (request_reader ev tmo s wt s' wt' q b He Ws H) as (w & br & HO & HD & HW & HC & Eb). subst y.
  rewrite Hn in Eb |- *. subst b. cbn [body_reader] in *. exists w, (br_data br). split; [exact HO|]. split; [exact HD|]. cbv zeta. intros L Hq A O.
  set (p := firstn (N.to_nat n) (br_data br)) in *. assert (EL : N.of_nat (length p) = n) by (unfold p; rewrite firstn_length; lia).
  set (q0 := mkCreq m u hs (body_from_bytes p)) in *.
  assert (DP : src_data (b_src (c_body q0)) = p) by (cbn; unfold src_data, bytes_src; destruct p; [reflexivity|cbn; now rewrite app_nil_r]).
  destruct (forward_fixed ev m u hs n br (ok_cap ev He) HW) as (h & E & _ & Q); [exact Hq|exact (addressed_same _ _ _ _ _ A)|].
  destruct (request_trip ev sev q0 (ok_cap ev He) Hs Hq A O) as (t & T1 & T2). rewrite DP in T2. exists t. split; [|exact T2].
  assert (ET : t = h ++ p).
  { destruct (T1 (mkWtr [] []) (mkSrc [] Eof) (Forall_nil _)) as (F & w' & E1 & E2). 
    pose proof O as (_ & _ & _ & _ & _ & _ & _ & WB & CB & _).
    assert (E0 : c_encode q0 = CHead h) by (rewrite <- E; unfold c_encode, q0; cbn [fq_head c_body b_len body_from_bytes fq_body msg_body f_len fq_meth fq_uri fq_hdrs]; now rewrite EL).
    destruct (request_written ev q0 h (ok_cap ev He) E0 WB CB (mkWtr [] []) (Forall_nil _)) as (F2 & w2 & E3 & E4). rewrite DP in E3.
    specialize (E2 (F + F2)%nat ltac:(lia)). rewrite (E4 (mkSrc [] Eof) (F + F2)%nat ltac:(lia)) in E2. cbn [fst] in E2. subst w'. rewrite E1 in E3. exact E3. }
  subst t. intros up wr Aw. destruct (Q up wr) as (wr' & p' & out & Q1 & Q2 & _ & [(-> & _ & ->)|(_ & N)]); [|exfalso; apply N; split; [left; exact L|exact Aw]].
  exists wr'. split; [exact Q2|exact Q1].
Qed.

Lemma forward_chunked ev fuel m u hs b up wr : let y := mkFreq m u hs (msg_body None b) in
  creq_wf (fq_head y) -> addressed (fq_head y) -> fconnect ev fuel y up wr = (wr, CPanic).
Proof.
  intros y Hq [[t T] [hf F]]. unfold fconnect, c_encode. apply target_iff in T. rewrite T.
  assert (EH : c_host_line (fq_head y) = Some (flat_map header_line hf)) by (apply host_iff; [apply Hq|]; now exists hf). now rewrite EH.
Qed.
