(** Turns of the connection loop with arbitrary handlers. *)
From Verif Require Import Accept Reads SpecChunked SpecHead SpecResponse SpecReq SpecServer Lemmas Proofs_Copy Proofs_Parse Proofs_Buf
  Proofs_Map Proofs_Dec Proofs_DecReads Proofs_ReqHead Proofs_ReqParse Proofs_ServerEnc Proofs_Head Proofs_Send Proofs_ServerDec Proofs_Body Proofs_Accept Proofs_Request Proofs_Hand.

(** ** What is left of a connection *)
Lemma rest_trans a b c : rest_of a b -> rest_of b c -> rest_of a c.
Proof. intros H. revert c. induction H; intros c' H'; [exact H'|apply ro_drop; auto|apply ro_cut; auto]. Qed.
Lemma rest_skip n d r : rest_of (Data d :: r) (match skipn n d with [] => r | d' => Data d' :: r end).
Proof.
  destruct (skipn n d) as [|c d'] eqn:E; [apply ro_drop, ro_here|].
  rewrite <- (firstn_skipn n d), E. apply ro_cut, ro_here.
Qed.
Lemma rest_size a b : rest_of a b -> (evs_size b <= evs_size a)%nat.
Proof. induction 1 as [|e l l' _ IH|x y l l' _ IH]; cbn in *; [lia| |rewrite app_length; lia]. destruct e; cbn; lia. Qed.

(** Readers over what is left of [s]. *)
Definition left_of (s : src) (b : brd) : Prop := rest_of (s_evs s) (s_evs (br_src b)) /\ s_tail (br_src b) = s_tail s /\ (wf_src s -> wf_src (br_src b)).
Lemma src_read_left n s s' r : src_read n s = (s', r) -> rest_of (s_evs s) (s_evs s') /\ s_tail s' = s_tail s /\ (wf_src s -> wf_src s').
Proof.
  unfold src_read, wf_src. destruct (s_evs s) as [|[d|f|] l] eqn:E; intros [= <- <-]; cbn [s_evs s_tail]; rewrite ?E;
    (split; [first [apply ro_here|apply rest_skip|apply ro_drop, ro_here]|]); (split; [reflexivity|]); intros W; auto; inversion W; subst; auto.
  now apply wf_skip.
Qed.
Lemma left_trans s b s' : left_of s b -> rest_of (s_evs (br_src b)) (s_evs s') /\ s_tail s' = s_tail (br_src b) /\ (wf_src (br_src b) -> wf_src s') ->
  rest_of (s_evs s) (s_evs s') /\ s_tail s' = s_tail s /\ (wf_src s -> wf_src s').
Proof. intros (A & B & C) (A' & B' & C'). ands; auto; [eapply rest_trans; eauto|congruence]. Qed.
Lemma fill_left s b b' r : br_fill b = (b', r) -> left_of s b -> left_of s b'.
Proof.
  unfold br_fill. destruct (br_buf b); [|intros [= <- <-]; auto].
  destruct (src_read (br_cap b) (br_src b)) as [s' q] eqn:E. apply src_read_left in E. intros H L.
  pose proof (left_trans _ _ _ L E). destruct q; injection H as <- <-; assumption.
Qed.
Lemma consume_left s k b : left_of s b -> left_of s (br_consume k b).
Proof. auto. Qed.
Lemma read_left s n b b' r : br_read n b = (b', r) -> left_of s b -> left_of s b'.
Proof.
  unfold br_read. intros H L. destruct (br_buf b), (br_cap b <=? n)%nat;
  try (destruct (br_fill b) as [b1 [x|f| | |]] eqn:E; apply (fill_left s) in E; auto; injection H as <- <-; auto; fail).
  destruct (src_read n (br_src b)) as [s' q] eqn:E. apply src_read_left in E. injection H as <- <-. exact (left_trans _ _ _ L E).
Qed.
Lemma until_left s tmo : forall fuel b acc b' r, read_until_go fuel tmo b acc = (b', r) -> left_of s b -> left_of s b'.
Proof.
  induction fuel as [|f IH]; intros b acc b' r; cbn [read_until_go]; [intros [= <- <-]; auto|].
  intros H L. destruct (br_fill b) as [b1 [x|fi| | |]] eqn:E; apply (fill_left s) in E; auto; try (injection H as <- <-; assumption).
  - destruct (split_after LF x) as [[p q]|]; [injection H as <- <-; auto|]. destruct x; [injection H as <- <-; auto|].
    eapply IH; eauto.
  - destruct (tmo && fi)%bool; [injection H as <- <-; auto|eauto].
Qed.
Lemma head_left s tmo : forall fuel b acc b' r, read_head_go fuel tmo b acc = (b', r) -> left_of s b -> left_of s b'.
Proof.
  induction fuel as [|f IH]; intros b acc b' r; cbn [read_head_go]; [intros [= <- <-]; auto|].
  intros H L. unfold read_until in H. destruct (read_until_go (S (br_size b)) tmo b []) as [b1 [x| | | |]] eqn:E; apply (until_left s) in E; auto; try (injection H as <- <-; assumption).
  destruct x as [|c x]; [injection H as <- <-; auto|]. destruct (ends_with _ _); [injection H as <- <-; auto|eauto].
Qed.

(** The first poll of a head takes something from the connection, or the connection has ended. *)
Lemma src_read_less n s s' r : (0 < n)%nat -> s_evs s <> [] -> src_read n s = (s', r) -> (src_size s' < src_size s)%nat.
Proof.
  unfold src_read, src_size. intros Hn Hs. destruct (s_evs s) as [|[d|f|] l] eqn:E; [easy| | |]; intros [= <- <-]; cbn [s_evs evs_size]; try lia.
  destruct (skipn n d) as [|c d'] eqn:K; [lia|]. cbn [evs_size]. pose proof (skipn_length n d) as L. rewrite K in L. cbn in *. lia.
Qed.
Lemma head_less tmo cap s b r : (0 < cap)%nat -> s_evs s <> [] -> req_head tmo (br_new cap s) = (b, r) -> (src_size (br_src b) < src_size s)%nat.
Proof.
  intros Hc Hs H. unfold req_head in H. cbn [read_head_go] in H. unfold read_until in H. cbn [read_until_go] in H.
  unfold br_fill in H. cbn [br_new br_buf br_cap br_src] in H.
  destruct (src_read cap s) as [s1 q] eqn:E. pose proof (src_read_less _ _ _ _ Hc Hs E) as L.
  assert (FIN : forall b1, br_src b1 = s1 -> forall b2, (left_of s1 b1 -> left_of s1 b2) -> (src_size (br_src b2) < src_size s)%nat).
  { intros b1 E1 b2 HL. destruct HL as (R & _); [split; rewrite E1; [apply ro_here|auto]|]. apply rest_size in R. unfold src_size in *. lia. }
  set (n0 := br_size _) in H. clearbody n0.
  assert (HD : forall b2 x, (if ends_with CRLF2 ([] ++ x) then (b2, HdDone ([] ++ x)) else read_head_go n0 tmo b2 ([] ++ x)) = (b, r) ->
    left_of s1 b2 -> left_of s1 b).
  { intros b2 x K. destruct (ends_with _ _); [injection K as <- <-; auto|eapply head_left; exact K]. }
  assert (TL : forall b2 acc, (let '(b', y) := read_until_go n0 tmo b2 acc in match y with
      | ROk [] => (b', HdNone) | ROk (c :: l) => if ends_with CRLF2 ([] ++ c :: l) then (b', HdDone ([] ++ c :: l)) else read_head_go n0 tmo b' ([] ++ c :: l)
      | RErr => (b', HdLost) | RTimeout => (b', HdTimeout) | _ => (b', HdFuel) end) = (b, r) -> left_of s1 b2 -> left_of s1 b).
  { intros b2 acc K L2. destruct (read_until_go n0 tmo b2 acc) as [b3 y] eqn:K3. apply (until_left s1) in K3; [|exact L2].
    destruct y as [[|c l]| | | |]; try (injection K as <- <-; exact K3). eapply HD; eauto. }
  destruct q as [x|fi| | |].
  - destruct (split_after LF x) as [[p y]|] eqn:SA.
    + apply (FIN (br_consume (length p) (mkBrd cap x s1)) eq_refl). cbn [app] in H.
      destruct p as [|c p]; [injection H as <- <-; auto|]. eapply HD; exact H.
    + destruct x as [|c x]; [injection H as <- <-; apply (FIN (mkBrd cap [] s1) eq_refl); auto|].
      apply (FIN (br_consume (length (c :: x)) (mkBrd cap (c :: x) s1)) eq_refl). apply (TL _ ([] ++ c :: x)).
      destruct (read_until_go _ _ _ _) as [? [[|]| | | |]]; exact H.
  - destruct (tmo && fi)%bool; [injection H as <- <-; apply (FIN (mkBrd cap [] s1) eq_refl); auto|].
    apply (FIN (mkBrd cap [] s1) eq_refl). apply (TL _ []). destruct (read_until_go _ _ _ _) as [? [[|]| | | |]]; exact H.
  - injection H as <- <-. apply (FIN (mkBrd cap [] s1) eq_refl); auto.
  - injection H as <- <-. apply (FIN (mkBrd cap [] s1) eq_refl); auto.
  - injection H as <- <-. apply (FIN (mkBrd cap [] s1) eq_refl); auto.
Qed.

(** ** Turns *)
Lemma reading_left s {A} ev : forall fuel (p : reading A) b b' x, run_reading fuel ev p b = (b', x) -> left_of s (body_brd b) -> left_of s (body_brd b').
Proof.
  induction fuel as [|f IH]; intros p b b' x; destruct p as [n k|a]; cbn [run_reading]; intros H L; try (injection H as <- <-; assumption).
  destruct (body_read ev n b) as [b1 r] eqn:E. apply (body_inv (left_of s)) in E; [|intros; eapply read_left; eauto|exact L].
  destruct r; try (injection H as <- <-; assumption); eauto.
Qed.
Lemma reading_no_err {A} ev : forall fuel (p : reading A) b b' x, run_reading fuel ev p b = (b', inr x) -> x <> AErr.
Proof.
  induction fuel as [|f IH]; intros p b b' x; destruct p as [n k|a]; cbn [run_reading]; intros H; try discriminate.
  - injection H as _ <-. discriminate.
  - destruct (body_read ev n b) as [b1 [y|fi| | |]]; try (injection H as _ <-; discriminate); eauto.
Qed.
Lemma relay_left s ev fuel st v hs len b w b' w' x : relay_body fuel ev st v hs len b w = (b', w', x) -> left_of s (body_brd b) -> left_of s (body_brd b').
Proof.
  apply (inv_relay ev (fun b => left_of s (body_brd b))).
  - intros n b0 b1 r E L. apply (body_inv (left_of s)) in E; [exact E|intros; eapply read_left; eauto|exact L].
  - intros [s0|[rem b0|buf d]] r' y; cbn [rdr_fill at_msg body_brd]; [intros _ []| |].
    + unfold take_fill. destruct (rem =? 0)%N; [now intros [= <- <-]|]. destruct (br_fill b0) as [b1 z] eqn:E. intros H L. apply (fill_left s) in E; [|exact L].
      destruct z; injection H as <- <-; exact E.
    + unfold bufdec_fill. destruct buf; [|now intros [= <- <-]]. destruct (dec_read ev (e_bufcap ev) d) as [d1 z] eqn:E. intros H L. unfold dec_read in E.
      apply (poll_inv (left_of s)) in E; [|intros; eapply read_left; eauto|exact L]. destruct z; injection H as <- <-; exact E.
  - intros k [s0|[rem b0|buf d]]; cbn; auto.
Qed.
Lemma handler_left s ev fuel p b w b' w' x : run_handler fuel ev p b w = (b', w', x) -> left_of s (body_brd b) ->
  left_of s (body_brd b') /\ x <> inr AErr.
Proof.
  unfold run_handler. destruct (run_reading fuel ev p b) as [b1 [y|y]] eqn:E; intros H L; pose proof (reading_left s ev _ _ _ _ _ E L) as L1.
  2: { injection H as <- <- <-. split; [exact L1|]. apply reading_no_err in E. congruence. }
  destruct y as [g|r kok kerr|st v hs len kok kerr]; [injection H as <- <- <-; split; [exact L1|discriminate]| |].
  2: { destruct (relay_body fuel ev st v hs len b1 w) as [[b2 w1] z] eqn:E2. apply (relay_left s) in E2; [|exact L1].
       destruct z; injection H as <- <- <-; (split; [exact E2|discriminate]). }
  destruct (send fuel ev r w) as [w1 [k| | | |]]; try (injection H as <- <- <-; split; [exact L1|discriminate]).
  - destruct (run_reading fuel ev (kok k) b1) as [b2 y] eqn:E2. injection H as <- <- <-. split; [eapply reading_left; eauto|].
    intros ->. now apply reading_no_err in E2.
  - destruct (run_reading fuel ev kerr b1) as [b2 [y|y]] eqn:E2; injection H as <- <- <-; (split; [eapply reading_left; eauto|]); [discriminate|].
    intros [= ->]. now apply reading_no_err in E2.
Qed.
Lemma body_brd_src b : body_src b = br_src (body_brd b).
Proof. destruct b; reflexivity. Qed.
Lemma ignored_no_err fuel ev r w w' x : send_ignored fuel ev r w = (w', Some x) -> x <> AErr.
Proof. unfold send_ignored. destruct (send fuel ev r w) as [w1 [k| | | |]]; intros [= <- <-]; discriminate. Qed.

(** [decode] leaves a rest of the connection, under the body too, and takes something. *)
Lemma decode_left ev tmo s wt s' wt' out : (0 < e_bufcap ev)%nat -> decode ev tmo s wt = (s', wt', out) ->
  exists b, br_src b = s' /\ left_of s b /\ (s_evs s <> [] -> (src_size s' < src_size s)%nat) /\
    forall q bd, out = OReq q bd -> body_src bd = s'.
Proof.
  intros Hc. unfold decode. destruct (req_head tmo (br_new (e_bufcap ev) s)) as [b r] eqn:E.
  assert (L : left_of s b) by (eapply head_left; [exact E|split; cbn; auto using ro_here]).
  assert (Z : s_evs s <> [] -> (src_size (br_src b) < src_size s)%nat) by (intros; eapply head_less; eauto).
  assert (G : forall m path a q bd, build_req ev m path a b = OReq q bd -> body_src bd = br_src b).
  { intros m path a q bd. unfold build_req. destruct (negb _); [discriminate|]. destruct (parse_uri _ _); [|discriminate].
    destruct (h_te a && h_chunked a)%bool; intros [= <- <-]; reflexivity. }
  destruct r; intros H; try (injection H as <- <- <-; exists b; ands; auto; discriminate).
  destruct (parse_head ev buf) as [f|[[m path] a]]; [injection H as <- <- <-; exists b; ands; auto; discriminate|].
  destruct (expects_continue a); [|injection H as <- <- <-; exists b; ands; eauto].
  destruct (write_all tmo continue_text wt) as [w1 [u| | | |]]; injection H as <- <- <-; exists b; ands; eauto; discriminate.
Qed.

Lemma turn_left fuel ev o h s wt s' wt' x : (0 < e_bufcap ev)%nat -> turn fuel ev o h s wt = (s', wt', x) ->
  rest_of (s_evs s) (s_evs s') /\ s_tail s' = s_tail s /\ (wf_src s -> wf_src s') /\
  (s_evs s <> [] -> (src_size s' < src_size s)%nat).
Proof.
  intros Hc. unfold turn. destruct (decode ev (o_timeout o) s wt) as [[s1 w1] out] eqn:E.
  destruct (decode_left _ _ _ _ _ _ _ Hc E) as (b & <- & L & Z & G).
  assert (K : rest_of (s_evs s) (s_evs (br_src b)) /\ s_tail (br_src b) = s_tail s /\ (wf_src s -> wf_src (br_src b)) /\
    (s_evs s <> [] -> (src_size (br_src b) < src_size s)%nat)) by (destruct L as (? & ? & ?); auto).
  destruct out as [q bd| |f| |]; try (intros [= <- <- <-]; exact K).
  - destruct (run_handler fuel ev (h q) bd w1) as [[b' w2] y] eqn:RH.
    apply (handler_left (br_src b)) in RH as [L2 _]; [|split; rewrite <- body_brd_src, (G _ _ eq_refl); auto using ro_here].
    assert (K2 : rest_of (s_evs s) (s_evs (body_src b')) /\ s_tail (body_src b') = s_tail s /\ (wf_src s -> wf_src (body_src b')) /\
      (s_evs s <> [] -> (src_size (body_src b') < src_size s)%nat)).
    { rewrite body_brd_src. destruct L2 as (A1 & A2 & A3), K as (B1 & B2 & B3 & B4). ands; auto; [eapply rest_trans; eauto|congruence|].
      intros N. specialize (B4 N). apply rest_size in A1. unfold src_size in *. lia. }
    destruct y as [[g|]|y]; try (intros [= <- <- <-]; exact K2).
    destruct (send_ignored _ _ _ _) as [w3 z]. intros [= <- <- <-]. exact K2.
  - destruct (handle_fail fuel ev f w1) as [w2 z]. intros [= <- <- <-]. exact K.
Qed.

(** ** When [accept] fails *)
Lemma turn_err fuel ev o h s wt s' wt' : env_ok ev -> wf_src s -> turn fuel ev o h s wt = (s', wt', Some AErr) ->
  exists w c, offers (o_timeout o) s w /\ judged ev w c (Refuse 501).
Proof.
  intros He Ws. pose proof (ok_cap ev He) as Hc. unfold turn. destruct (head_cases (fst (avail (o_timeout o) (s_evs s)))) as [(w & rest & A & Hb)|NH].
  - assert (HO : offers (o_timeout o) s w) by (split; [exact Ws|]; split; [exact Hb|]; eauto).
    destruct (decode_offer ev (o_timeout o) s w Hc HO) as (b & _ & _ & _ & _ & _ & _ & _ & _ & _ & HD).
    destruct (judge_total (e_trim ev) (parse_uri (e_uri ev)) w) as (c & v & J). destruct (HD c v J) as (out & AN & HDec).
    rewrite HDec. destruct (interim c (o_timeout o) wt) as [w1 [u| | | |]]; cbn [fst snd after_interim]; try discriminate.
    destruct v as [code|m u' hs len].
    + destruct AN as (f & -> & FR & FF). unfold handle_fail. rewrite FR. intros H. exists w, c. split; [exact HO|].
      destruct (send_ignored fuel ev (plain_response code) w1) as [w2 [z|]] eqn:SI.
      * injection H as _ _ ->. now apply ignored_no_err in SI.
      * rewrite FF in H. destruct (N.eqb_spec code 501) as [->|]; [exact J|discriminate].
    + destruct AN as (h' & -> & _ & _). destruct (run_handler _ _ _ _ _) as [[b' w2] y] eqn:RH.
      apply (handler_left (body_src (body_reader ev len b))) in RH as [_ NE]; [|split; rewrite <- body_brd_src; auto using ro_here].
      destruct y as [[g|]|y]; [|discriminate|congruence].
      destruct (send_ignored _ _ _ _) as [w3 [z|]] eqn:SI; intros [= _ _ Z]. subst z. now apply ignored_no_err in SI.
  - destruct (decode_none ev (o_timeout o) s Hc Ws NH) as (s1 & HD). rewrite HD.
    destruct (snd (avail _ _)), (s_tail s); cbn; discriminate.
Qed.

Lemma accept_err ev o : env_ok ev -> forall n fuel h s wt s' wt', wf_src s -> accept_go n fuel ev o h s wt = (s', wt', AErr) ->
  exists l w rest rl hs, rest_of (s_evs s) l /\ fst (avail (o_timeout o) l) = w ++ rest /\ head_block w /\
    grammatical (e_trim ev) rl hs w /\ l_minor rl = 1%N /\
    exists nm v, In (nm, v) hs /\ name_is nm (B "transfer-encoding") /\ ~ te_chunked v /\ ~ te_identity v.
Proof.
  intros He. induction n as [|n IH]; intros fuel h s wt s' wt' Ws; cbn [accept_go]; [discriminate|].
  destruct (turn fuel ev o (h O) s wt) as [[s1 w1] x] eqn:T. destruct (turn_left _ _ _ _ _ _ _ _ _ (ok_cap ev He) T) as (R & _ & W1 & _).
  destruct x as [x|].
  - intros [= <- <- ->]. apply turn_err in T as (w & c & (_ & Hb & rest & A) & J); auto.
    inversion J as [| |rl hs G V FF| | | |]; subst. exists (s_evs s), w, rest, rl, hs. ands; auto using ro_here.
    destruct FF as (a & nv & b & -> & _ & F). inversion F as [|nm v F1 F2 F3|]; subst. exists nm, v. ands; auto. apply in_or_app. right. now left.
  - intros H. destruct (IH _ _ _ _ _ _ (W1 Ws) H) as (l & w & rest & rl & hs & R' & K). exists l, w, rest, rl, hs. split; [eapply rest_trans; eauto|exact K].
Qed.

(** ** A bound on the number of turns *)
Lemma accept_bound ev o fuel : (0 < e_bufcap ev)%nat -> forall n h s wt, s_tail s = Eof -> (src_size s < n)%nat ->
  accept_go n fuel ev o h s wt = accept_go (S (src_size s)) fuel ev o h s wt.
Proof.
  intros Hc n. induction n as [n IH] using lt_wf_ind. intros h s wt T L. destruct n as [|n]; [lia|]. cbn [accept_go].
  destruct (turn fuel ev o (h O) s wt) as [[s1 w1] [x|]] eqn:E; [reflexivity|].
  destruct (turn_left _ _ _ _ _ _ _ _ _ Hc E) as (_ & T1 & _ & Z).
  assert (NE : s_evs s <> []).
  { intros X. unfold turn, decode, req_head in E. destruct s as [evs tl]. cbn in X, T. subst evs tl. cbn in E. discriminate. }
  specialize (Z NE). rewrite T in T1. rewrite (IH n) by (auto; lia). destruct (Nat.eq_dec (src_size s) n) as [<-|NN].
  - symmetry. apply IH; auto; lia.
  - symmetry. apply IH; auto; lia.
Qed.

(** ** A connection that is broken for good *)
Lemma broken_turn fuel ev o h wt : turn fuel ev o h (mkSrc [] FailForever) wt = (mkSrc [] FailForever, wt, None).
Proof. reflexivity. Qed.
Lemma broken_forever ev o : forall n fuel h wt, accept_go n fuel ev o h (mkSrc [] FailForever) wt = (mkSrc [] FailForever, wt, AFuel).
Proof. induction n as [|n IH]; intros fuel h wt; [reflexivity|]. cbn [accept_go]. rewrite broken_turn. apply IH. Qed.

(** ** Sending with any amount of fuel *)
Lemma w_write_out d w w' r : w_write d w = (w', r) -> prefix (w_out w) (w_out w').
Proof. unfold w_write. destruct (w_evs w) as [|[k|f|] l]; intros [= <- <-]; cbn; try apply prefix_refl; apply prefix_app_r. Qed.
Lemma w_flush_out w w' r : w_flush w = (w', r) -> prefix (w_out w) (w_out w').
Proof. unfold w_flush. destruct (w_evs w) as [|[k|f|] l]; intros [= <- <-]; cbn; apply prefix_refl. Qed.
Lemma copy_out {E} (poll : E -> E * pres bytes) : forall fuel e bb w amt w' r, copy_go poll fuel e bb w amt = (w', r) -> prefix (w_out w) (w_out w').
Proof.
  induction fuel as [|f IH]; intros e bb w amt w' r; cbn [copy_go]; [intros [= <- <-]; apply prefix_refl|].
  destruct bb as [|c bb].
  - destruct (poll e) as [e' [[|c d]|fi| | |]]; try (intros [= <- <-]; apply prefix_refl); try apply IH.
    destruct (w_flush w) as [w1 [k|fi|]] eqn:EW; apply w_flush_out in EW.
    + intros [= <- <-]. exact EW.
    + intros H. eapply prefix_trans; [exact EW|eapply IH, H].
    + intros [= <- <-]. exact EW.
  - destruct (w_write (c :: bb) w) as [w1 [[|k]|fi|]] eqn:EW; apply w_write_out in EW; intros H;
    try (injection H as <- <-; exact EW); (eapply prefix_trans; [exact EW|eapply IH, H]).
Qed.
Lemma copy_less {E} (p1 p2 : E -> E * pres bytes) :
  (forall e e' r, p1 e = (e', r) -> r <> PFuel -> p2 e = (e', r)) ->
  forall f f' e bb w amt w1 r1 w2 r2, (f <= f')%nat ->
    copy_go p1 f e bb w amt = (w1, r1) -> copy_go p2 f' e bb w amt = (w2, r2) -> prefix (w_out w1) (w_out w2).
Proof.
  intros Hp f. induction f as [|f IH]; intros f' e bb w amt w1 r1 w2 r2 Hf H1 H2.
  - injection H1 as <- <-. eapply copy_out, H2.
  - destruct f' as [|f']; [lia|]. pose proof (copy_out _ _ _ _ _ _ _ _ H2) as PO. cbn [copy_go] in H1, H2.
    destruct bb as [|c bb].
    + destruct (p1 e) as [e1 q] eqn:P1. destruct q as [d|fi| | |].
      5: injection H1 as <- <-; exact PO.
      all: rewrite (Hp _ _ _ P1) in H2 by discriminate.
      * destruct d; [|eapply IH; [| exact H1|exact H2]; lia].
        destruct (w_flush w) as [w3 [k|fi|]]; [injection H1 as <- <-; injection H2 as <- <-; apply prefix_refl| |injection H1 as <- <-; injection H2 as <- <-; apply prefix_refl].
        eapply IH; [|exact H1|exact H2]; lia.
      * eapply IH; [|exact H1|exact H2]; lia.
      * injection H1 as <- <-; injection H2 as <- <-; apply prefix_refl.
      * injection H1 as <- <-; injection H2 as <- <-; apply prefix_refl.
    + destruct (w_write (c :: bb) w) as [w3 [[|k]|fi|]];
      try (injection H1 as <- <-; injection H2 as <- <-; apply prefix_refl); (eapply IH; [|exact H1|exact H2]; lia).
Qed.
Lemma send_any ev r : env_ok ev -> sendable ev r -> exists m, message (e_date ev) r m /\ forall w, accepting w -> forall fuel w1 x,
  send fuel ev r w = (w1, x) -> exists p, w_out w1 = w_out w ++ p /\ prefix p m /\ accepting w1 /\
    ((exists k, x = ROk k) /\ p = m \/ x = RFuel).
Proof.
  intros He Hr. destruct (send_message ev r He Hr) as (m & Hm & HS). exists m. split; [exact Hm|]. intros w Ha fuel w1 x S.
  destruct (HS w) as (F & w2 & y & p & S1 & O & P & [[-> ->]|[_ X]]); [|contradiction].
  specialize (S1 (Nat.max F fuel) ltac:(lia)).
  assert (PO : exists q, w_out w1 = w_out w ++ q) by (unfold send in S; apply copy_out in S as [q S]; eauto).
  destruct PO as (q & EQ). exists q. split; [exact EQ|].
  assert (PQ : prefix q m).
  { assert (X : prefix (w_out w1) (w_out w2)).
    { unfold send in S, S1. refine (copy_less _ _ _ fuel (Nat.max F fuel) _ _ _ _ _ _ _ _ _ S S1); [|lia].
      intros e e' z Hz Hn. refine (enc_poll_mono _ _ _ _ _ _ _ _ Hz Hn). lia. }
    rewrite EQ, O in X. destruct X as [t X]. rewrite <- app_assoc in X. apply app_inv_head in X. now exists t. }
  split; [exact PQ|]. split; [eapply suf_accepting; [eapply send_suf, S|exact Ha]|].
  assert (D : x = RFuel \/ x <> RFuel) by (destruct x; auto; right; discriminate). destruct D as [->|D]; [auto|left].
  apply (send_mono ev r w fuel (Nat.max F fuel)) in S; [|lia|exact D]. rewrite S in S1. injection S1 as -> ->.
  split; [eauto|]. rewrite EQ in O. now apply app_inv_head in O.
Qed.

(** ** One response per request *)
Lemma reading_always {A} (P : A -> Prop) ev : forall fuel p b b' a, run_reading fuel ev p b = (b', inl a) -> always P p -> P a.
Proof.
  induction fuel as [|f IH]; intros p b b' a H HA; destruct p as [n k|x]; cbn [run_reading] in H; try discriminate.
  - injection H as <- <-. now inversion HA.
  - inversion HA as [? ? HK|]; subst. destruct (body_read ev n b) as [b1 [y|fi| | |]]; try discriminate; eapply IH; eauto.
  - injection H as <- <-. now inversion HA.
Qed.

(** The bytes [p] are a response, whole if [done], and otherwise perhaps cut short. *)
Definition a_response (date : bytes) (done : bool) (p : bytes) : Prop :=
  exists r m, message date r m /\ prefix p m /\ (done = true -> p = m).
Lemma nothing_response ev : env_ok ev -> a_response (e_date ev) false [].
Proof.
  intros He. destruct (send_message ev (bare 400) He (bare_sendable ev 400 He)) as (m & Hm & _). exists (bare 400), m. ands; auto using prefix_nil. discriminate.
Qed.
Definition complete (x : option aout) : bool := match x with None | Some AErr => true | _ => false end.

Lemma ignored_once ev r w fuel w' x : env_ok ev -> sendable ev r -> accepting w -> send_ignored fuel ev r w = (w', x) ->
  exists p, w_out w' = w_out w ++ p /\ a_response (e_date ev) (complete x) p.
Proof.
  intros He Hr Ha. destruct (send_any ev r He Hr) as (m & Hm & HS). unfold send_ignored.
  destruct (send fuel ev r w) as [w1 y] eqn:S. destruct (HS w Ha _ _ _ S) as (p & O & P & _ & K). intros H.
  exists p. destruct y as [k| | | |]; injection H as <- <-; (split; [exact O|]); exists r, m; ands; auto; try discriminate;
  intros _; destruct K as [[[? K] ->]|K]; try discriminate; reflexivity.
Qed.

Lemma handler_once ev verbose fuel p b w b' w' x : env_ok ev -> accepting w -> always (one_reply ev verbose) p -> run_handler fuel ev p b w = (b', w', x) ->
  match x with
  | inl (Some g) => w' = w /\ sendable ev (glitch_response verbose g)
  | inl None => exists q, w_out w' = w_out w ++ q /\ a_response (e_date ev) true q
  | inr _ => exists q, w_out w' = w_out w ++ q /\ a_response (e_date ev) false q
  end.
Proof.
  intros He Ha HA. unfold run_handler. destruct (run_reading fuel ev p b) as [b1 [y|y]] eqn:R.
  2: { intros [= <- <- <-]. exists []. rewrite app_nil_r. split; [reflexivity|now apply nothing_response]. }
  pose proof (reading_always _ _ _ _ _ _ _ R HA) as Y. destruct y as [g|r kok kerr|]; cbn [one_reply] in Y; [| |contradiction].
  { intros [= <- <- <-]. auto. }
  destruct Y as [Hr HK]. destruct (send_any ev r He Hr) as (m & Hm & HS).
  destruct (send fuel ev r w) as [w1 y] eqn:S. destruct (HS w Ha _ _ _ S) as (q & O & P & _ & K). intros H.
  assert (PART : a_response (e_date ev) false q) by (exists r, m; ands; auto; discriminate).
  destruct y as [k| | | |]; try (injection H as <- <- <-; eauto; fail).
  - destruct K as [[_ ->]|K]; [|discriminate].
    destruct (run_reading fuel ev (kok k) b1) as [b2 z] eqn:R2. injection H as <- <- <-.
    destruct z as [z|z]; [|eauto]. pose proof (reading_always _ _ _ _ _ _ _ R2 (HK k)) as Z. cbn in Z. subst z.
    exists m. split; [exact O|]. exists r, m. ands; auto.
  - destruct K as [[[? K] _]|K]; discriminate.
Qed.

Lemma turn_once ev o h s wt fuel s' wt' x : env_ok ev -> wf_src s ->
  (forall q, always (one_reply ev (o_verbose o)) (h q)) -> accepting wt -> prompt (o_timeout o) wt ->
  turn fuel ev o h s wt = (s', wt', x) ->
  ((exists w c p, offers (o_timeout o) s w /\ w_out wt' = w_out wt ++ (if c : bool then go_ahead else []) ++ p /\ a_response (e_date ev) (complete x) p) \/
   (no_head (fst (avail (o_timeout o) (s_evs s))) /\ wt' = wt)).
Proof.
  intros He Ws Hh Ha Hp. pose proof (ok_cap ev He) as Hc. unfold turn.
  destruct (head_cases (fst (avail (o_timeout o) (s_evs s)))) as [(w & rest & A & Hb)|NH].
  - assert (HO : offers (o_timeout o) s w) by (split; [exact Ws|]; split; [exact Hb|]; eauto).
    destruct (decode_offer ev (o_timeout o) s w Hc HO) as (b & _ & _ & _ & _ & _ & _ & _ & _ & _ & HD).
    destruct (judge_total (e_trim ev) (parse_uri (e_uri ev)) w) as (c & v & J). destruct (HD c v J) as (out & AN & HDec).
    rewrite HDec. destruct (interim_ok c (o_timeout o) wt Ha Hp) as (w1 & EI & A1 & P1 & O1). rewrite EI. cbn [fst snd after_interim].
    intros H. left. exists w, c.
    assert (FIN : forall wx y, w_out wx = w_out w1 ++ y -> w_out wx = w_out wt ++ (if c then go_ahead else []) ++ y)
      by (intros wx y ->; now rewrite O1, <- app_assoc).
    destruct v as [code|m u' hs len].
    + destruct AN as (f & -> & FR & FF). unfold handle_fail in H. rewrite FR in H.
      destruct (send_ignored fuel ev (plain_response code) w1) as [w2 z] eqn:SI.
      apply ignored_once in SI as (p & O2 & RS); auto; [|now apply bare_sendable].
      exists p. split; [exact HO|]. destruct z as [z|]; injection H as <- <- <-; (split; [now apply FIN|]); [exact RS|].
      destruct (fail_is_fatal f); exact RS.
    + destruct AN as (h' & -> & _ & _). destruct (run_handler _ _ _ _ _) as [[b' w2] y] eqn:RH.
      pose proof (handler_left (body_src (body_reader ev len b)) _ _ _ _ _ _ _ _ RH ltac:(split; rewrite <- body_brd_src; auto using ro_here)) as [_ NE].
      apply (handler_once ev (o_verbose o)) in RH; auto. destruct y as [[g|]|y].
      * destruct RH as [-> HS]. destruct (send_ignored _ _ _ _) as [w3 z] eqn:SI. apply ignored_once in SI as (p & O2 & RS); auto.
        injection H as <- <- <-. exists p. split; [exact HO|]. split; [now apply FIN|exact RS].
      * destruct RH as (p & O2 & RS). injection H as <- <- <-. exists p. split; [exact HO|]. split; [now apply FIN|exact RS].
      * destruct RH as (p & O2 & RS). injection H as <- <- <-. exists p. split; [exact HO|]. split; [now apply FIN|].
        destruct RS as (r & m' & M1 & M2 & _). exists r, m'. ands; auto.
        destruct y; cbn; congruence.
  - destruct (decode_none ev (o_timeout o) s Hc Ws NH) as (s1 & HD). rewrite HD. intros H. right. split; [exact NH|].
    destruct (snd (avail _ _)), (s_tail s); cbn in H; injection H as <- <- <-; reflexivity.
Qed.

(** ** Glitches *)
Lemma glitch_sendable ev verbose g : (forall hs, g_headers g = Some hs -> hm_wf hs) ->
  (N.of_nat (length (glitch_text verbose g)) + N.of_nat (e_bufcap ev) < two64)%N -> sendable ev (glitch_response verbose g).
Proof.
  intros Hh Hl. unfold sendable, glitch_response, resp_wf, body_from_string. cbn [r_headers r_body b_len b_src].
  set (t := glitch_text verbose g) in *. clearbody t.
  assert (W : hm_wf (match g_headers g with Some h => h | None => [] end)) by (destruct (g_headers g); [now apply Hh|apply hm_empty_wf]).
  split; [|split; [|split; [exact Hl|split]]].
  - destruct t; [exact W|]. apply hm_insert_wf; [exact W|reflexivity|reflexivity].
  - unfold wf_src. destruct t; repeat constructor. discriminate.
  - destruct t; cbn; rewrite ?app_nil_r; lia.
  - intros _. split; [|reflexivity]. destruct t; repeat constructor. discriminate.
Qed.

Lemma handler_fails ev o (h : handler) s wt s1 wt1 q b fuel0 b' g : env_ok ev -> 
  decode ev (o_timeout o) s wt = (s1, wt1, OReq q b) -> run_reading fuel0 ev (h q) b = (b', inl (PFail g)) ->
  (forall hs, g_headers g = Some hs -> hm_wf hs) ->
  (N.of_nat (length (glitch_text (o_verbose o) g)) + N.of_nat (e_bufcap ev) < two64)%N -> accepting wt1 ->
  exists m F wt', message (e_date ev) (glitch_response (o_verbose o) g) m /\ w_out wt' = w_out wt1 ++ m /\
    forall fuel, (F <= fuel)%nat -> turn fuel ev o h s wt = (body_src b', wt', None).
Proof.
  intros He HD HR Hh Hl Ha. destruct (send_message ev _ He (glitch_sendable ev (o_verbose o) g Hh Hl)) as (m & Hm & HS).
  destruct (HS wt1) as (F & w2 & x & p & S1 & O & _ & [[-> ->]|[_ X]]); [|contradiction].
  exists m, (F + fuel0)%nat, w2. ands; auto. intros fuel Hf. unfold turn. rewrite HD. unfold run_handler.
  assert (MONO : forall A fu fu' (p : reading A) bd bd' a, (fu <= fu')%nat -> run_reading fu ev p bd = (bd', inl a) -> run_reading fu' ev p bd = (bd', inl a)).
  { clear. induction fu as [|fu IH]; intros fu' p bd bd' a L E; destruct p as [n k|y]; cbn [run_reading] in E; try discriminate.
    - destruct fu'; exact E.
    - destruct fu' as [|fu']; [lia|]. cbn [run_reading]. destruct (body_read ev n bd) as [b1 [z|fi| | |]]; try discriminate; eapply IH; eauto; lia.
    - destruct fu'; exact E. }
  rewrite (MONO _ fuel0 fuel (h q) b b' (PFail g) ltac:(lia) HR). unfold send_ignored. rewrite S1 by lia. reflexivity.
Qed.

(** ** A head and a complete fixed body in one segment *)
Lemma head_in_buffer tmo wb s0 cap w : forall fuel acc x, acc ++ x = w -> x <> [] -> head_block w -> (length x <= fuel)%nat ->
  read_head_go fuel tmo (mkBrd cap (x ++ wb) s0) acc = (mkBrd cap wb s0, HdDone w).
Proof.
  induction fuel as [|f IH]; intros acc x E Hx HB L; [destruct x; [easy|cbn in L; lia]|].
  assert (HL : exists y, x = y ++ [LF]).
  { destruct x as [|c x] using rev_ind; [easy|]. clear IHx. exists x. f_equal. f_equal. destruct HB as [(p & HE) _]. rewrite <- E, app_assoc in HE.
    change (CRLF ++ CRLF) with ([CR; LF; CR] ++ [LF]) in HE. rewrite app_assoc in HE. now apply app_inj_tail in HE. }
  destruct (split_after LF x) as [[p r]|] eqn:SA.
  2: { exfalso. destruct HL as (y & ->). clear - SA. induction y as [|c y IH]; cbn [app split_after] in SA; [discriminate|]. destruct (Ascii.eqb c LF); [discriminate|].
       destruct (split_after LF (y ++ [LF])) as [[? ?]|]; [discriminate|auto]. }
  assert (SP : split_after LF (x ++ wb) = Some (p, r ++ wb) /\ x = p ++ r /\ p <> []).
  { clear - SA. revert p r SA. induction x as [|c x IH]; intros p r SA; cbn [app split_after] in *; [discriminate|]. destruct (Ascii.eqb c LF); [injection SA as <- <-; ands; auto; discriminate|].
    destruct (split_after LF x) as [[p' r']|]; [|discriminate]. injection SA as <- <-. destruct (IH _ _ eq_refl) as (-> & -> & _). ands; auto; discriminate. }
  destruct SP as (SP & -> & Hp).
  cbn [read_head_go]. unfold read_until. cbn [read_until_go]. unfold br_fill. cbn [br_buf].
  destruct ((p ++ r) ++ wb) as [|c0 l0] eqn:EB; [destruct p; [easy|discriminate]|]. rewrite SP.
  cbn [app]. destruct p as [|c p]; [easy|]. set (p0 := c :: p) in *.
  assert (CS : br_consume (length p0) (mkBrd cap (c0 :: l0) s0) = mkBrd cap (r ++ wb) s0).
  { unfold br_consume. cbn [br_buf br_cap br_src]. f_equal. rewrite <- EB, <- app_assoc, skipn_app, skipn_all, Nat.sub_diag. reflexivity. }
  destruct (ends_with CRLF2 (acc ++ p0)) eqn:EW.
  - assert (r = []) as ->.
    { destruct r as [|c1 r]; [reflexivity|exfalso]. destruct HB as [_ HB]. apply (HB (acc ++ p0) (c1 :: r)); [now rewrite <- app_assoc|discriminate|].
      now apply head_end_iff in EW. }
    rewrite app_nil_r in E. rewrite E, CS. reflexivity.
  - rewrite CS. apply IH; auto.
    + now rewrite <- app_assoc.
    + intros ->. rewrite app_nil_r in E. rewrite E in EW. destruct HB as [(q & ->) _].
      assert (X : ends_with CRLF2 (q ++ CRLF ++ CRLF) = true) by (apply head_end_iff; now exists q). congruence.
    + rewrite app_length in L. unfold p0 in L. cbn in L. lia.
Qed.

Definition buffered (s0 : src) (b : rbody) : Prop :=
  match b with RFixed rem b => br_src b = s0 /\ (rem <= N.of_nat (length (br_buf b)))%N | RChunked _ _ => False end.
Lemma buffered_read s0 ev n b b' r : body_read ev n b = (b', r) -> buffered s0 b -> buffered s0 b'.
Proof.
  destruct b as [rem b|]; [|intros _ []]. cbn [body_read buffered]. unfold take_read. intros H [E L].
  destruct (N.eqb_spec rem 0) as [->|NZ]; [injection H as <- <-; split; [exact E|cbn; lia]|]. unfold br_read, br_fill in H.
  destruct (br_buf b) as [|c l] eqn:B; [cbn in L; lia|]. injection H as <- <-. cbn [buffered br_consume br_src br_buf].
  split; [exact E|]. rewrite B. set (z := c :: l) in *. rewrite skipn_length, !firstn_length. lia.
Qed.
Lemma buffered_reading s0 {A} ev : forall fuel (p : reading A) b b' x, run_reading fuel ev p b = (b', x) -> buffered s0 b -> buffered s0 b'.
Proof.
  induction fuel as [|f IH]; intros p b b' x; destruct p as [n k|a]; cbn [run_reading]; intros H L; try (injection H as <- <-; assumption).
  destruct (body_read ev n b) as [b1 r] eqn:E. apply (buffered_read s0) in E; [|exact L].
  destruct r; try (injection H as <- <-; assumption); eauto.
Qed.
Lemma buffered_relay s0 ev fuel st v hs len b w b' w' x : relay_body fuel ev st v hs len b w = (b', w', x) -> buffered s0 b -> buffered s0 b'.
Proof.
  apply (inv_relay ev (buffered s0)).
  - intros n b0 b1 r. apply buffered_read.
  - intros [s1|[rem b0|buf d]] r' y; cbn [rdr_fill at_msg buffered]; [intros _ []| |intros _ []].
    unfold take_fill. destruct (N.eqb_spec rem 0) as [->|NZ]; [now intros [= <- <-]|]. unfold br_fill. destruct (br_buf b0) as [|c l] eqn:B; [cbn; intros _ [_ L]; lia|].
    intros [= <- <-]. cbn [at_msg buffered]. now rewrite B.
  - intros k [s1|[rem b0|buf d]]; cbn [rdr_consume at_msg buffered]; auto. unfold take_consume. intros [E L]. cbn [at_msg buffered br_consume br_src br_buf].
    split; [exact E|]. rewrite skipn_length. lia.
Qed.
Lemma buffered_handler s0 ev fuel p b w b' w' x : run_handler fuel ev p b w = (b', w', x) -> buffered s0 b -> buffered s0 b'.
Proof.
  unfold run_handler. destruct (run_reading fuel ev p b) as [b1 [y|y]] eqn:E; intros H L; pose proof (buffered_reading s0 ev _ _ _ _ _ E L) as L1.
  2: injection H as <- <- <-; exact L1.
  destruct y as [g|r kok kerr|st v hs len kok kerr]; [injection H as <- <- <-; exact L1| |].
  2: { destruct (relay_body fuel ev st v hs len b1 w) as [[b2 w1] z] eqn:E2. apply (buffered_relay s0) in E2; [|exact L1]. destruct z; injection H as <- <- <-; exact E2. }
  destruct (send fuel ev r w) as [w1 [k| | | |]]; try (injection H as <- <- <-; exact L1).
  - destruct (run_reading fuel ev (kok k) b1) as [b2 y] eqn:E2. injection H as <- <- <-. eapply buffered_reading; eauto.
  - destruct (run_reading fuel ev kerr b1) as [b2 [y|y]] eqn:E2; injection H as <- <- <-; eapply buffered_reading; eauto.
Qed.

Lemma head_one_segment ev tmo w rest l2 tl : (length (w ++ rest) <= e_bufcap ev)%nat -> head_block w ->
  req_head tmo (br_new (e_bufcap ev) (mkSrc (Data (w ++ rest) :: l2) tl)) = (mkBrd (e_bufcap ev) rest (mkSrc l2 tl), HdDone w).
Proof.
  intros Hl HB.
  assert (NW : w <> []) by (destruct HB as [([|] & ->) _]; discriminate).
  assert (X : forall fu, (length w <= fu)%nat ->
    read_head_go (S fu) tmo (br_new (e_bufcap ev) (mkSrc (Data (w ++ rest) :: l2) tl)) [] =
    read_head_go (S fu) tmo (mkBrd (e_bufcap ev) (w ++ rest) (mkSrc l2 tl)) []).
  { intros fu _. cbn [read_head_go].
    assert (U : read_until tmo (br_new (e_bufcap ev) (mkSrc (Data (w ++ rest) :: l2) tl)) =
                read_until tmo (mkBrd (e_bufcap ev) (w ++ rest) (mkSrc l2 tl))).
    { unfold read_until. destruct (w ++ rest) as [|c0 l0] eqn:EW; [destruct w; [easy|discriminate]|].
      assert (SA : exists p r, split_after LF (c0 :: l0) = Some (p, r)).
      { rewrite <- EW. destruct HB as [(p & ->) _]. clear. rewrite <- !app_assoc. induction p as [|a p IH]; [cbn; eauto|].
        cbn [app split_after]. destruct (Ascii.eqb a LF); [eauto|]. destruct IH as (p' & r & IH). rewrite IH. eauto. }
      destruct SA as (p & r & SA). cbn [read_until_go]. unfold br_fill. cbn [br_new br_buf br_cap br_src src_read s_evs s_tail].
      unfold src_read. cbn [s_evs s_tail]. rewrite skipn_all2, firstn_all2 by exact Hl. rewrite SA. reflexivity. }
    now rewrite U. }
  unfold req_head. rewrite X by (unfold br_size, src_size; cbn; rewrite app_length; lia).
  apply head_in_buffer; auto. unfold br_size, src_size; cbn. rewrite app_length. lia.
Qed.
Lemma one_segment ev o h w rest l2 tl wt c v fuel s' wt' x : (length (w ++ rest) <= e_bufcap ev)%nat -> head_block w ->
  judged ev w c v -> (forall m u hs len, v = Accept m u hs len -> exists n, len = Some n /\ (n <= N.of_nat (length rest))%N) ->
  turn fuel ev o h (mkSrc (Data (w ++ rest) :: l2) tl) wt = (s', wt', x) -> s' = mkSrc l2 tl.
Proof.
  intros Hl HB J HV. unfold turn, decode.
  pose proof (head_one_segment ev (o_timeout o) w rest l2 tl Hl HB) as HR.
  rewrite HR. pose proof (judge_parse ev w c v J) as JP. destruct (parse_head ev w) as [f|[[m path] a]].
  { destruct (handle_fail fuel ev f wt). intros [= <- _ _]. reflexivity. }
  destruct JP as [_ JP]. specialize (JP (mkBrd (e_bufcap ev) rest (mkSrc l2 tl))).
  set (bb := mkBrd (e_bufcap ev) rest (mkSrc l2 tl)) in *.
  assert (FIN : forall wx, (let '(s2, w2, y) := (let out := build_req ev m path a bb in match out with
      | OReq q b => match run_handler fuel ev (h q) b wx with
          | (b', w', inr x) => (body_src b', w', Some x) | (b', w', inl None) => (body_src b', w', None)
          | (b', w', inl (Some g)) => let (w'', x) := send_ignored fuel ev (glitch_response (o_verbose o) g) w' in (body_src b', w'', x) end
      | ONone | OTimeout => (br_src bb, wx, Some AOk) | OFuel => (br_src bb, wx, Some AFuel)
      | OFail f => let (w', x) := handle_fail fuel ev f wx in (br_src bb, w', x) end) in s2 = mkSrc l2 tl)).
  { intros wx. cbv zeta. destruct v as [code|m' u' hs len].
    - destruct JP as (f & -> & _). destruct (handle_fail fuel ev f wx). reflexivity.
    - destruct JP as (h' & -> & _). destruct (HV _ _ _ _ eq_refl) as (n & -> & Hn). cbn [body_reader].
      destruct (run_handler _ _ _ _ _) as [[b' w2] y] eqn:RH. apply (buffered_handler (mkSrc l2 tl)) in RH; [|split; [reflexivity|exact Hn]].
      destruct b' as [rem b'|]; [|destruct RH]. destruct RH as [RH _]. cbn [body_src].
      destruct y as [[g|]|y]; try exact RH. destruct (send_ignored _ _ _ _). exact RH. }
  destruct (expects_continue a).
  - destruct (write_all (o_timeout o) continue_text wt) as [w1 [u| | | |]]; try (intros [= <- _ _]; reflexivity).
    + intros H. specialize (FIN w1). cbv zeta in FIN. 
      assert (E : forall T : src * wtr * option aout, T = (s', wt', x) -> (let '(s2, _, _) := T in s2 = mkSrc l2 tl) -> s' = mkSrc l2 tl) by (intros T -> K; exact K).
      eapply E; [exact H|exact FIN].
  - intros H. specialize (FIN wt). cbv zeta in FIN.
    assert (E : forall T : src * wtr * option aout, T = (s', wt', x) -> (let '(s2, _, _) := T in s2 = mkSrc l2 tl) -> s' = mkSrc l2 tl) by (intros T -> K; exact K).
    eapply E; [exact H|exact FIN].
Qed.
