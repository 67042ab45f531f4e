(** Proofs: what the client has sent when the body of its request has nothing to offer yet. *)
From Verif Require Import Client Accept Reads SpecBody SpecChunked SpecHead SpecReq SpecResponse SpecServer SpecClient Lemmas Proofs_Copy
  Proofs_Buf Proofs_Dec Proofs_ReqHead Proofs_ServerDec Proofs_Accept Proofs_Client Proofs_ClientDec Proofs_Stream Proofs_InTime.

(** The encoder over a script that stops for a while; there are data before the stop, or enough
    events for all of the head to be passed on. *)
Lemma cenc_steps n f m : (0 < n)%nat -> forall h evs, (evs_size evs + length h < m)%nat -> wf_evs evs -> clean_evs evs -> (length h <= n * S (length evs))%nat \/ evs_data evs <> [] ->
  exists outs, concat outs = h ++ evs_data evs /\
    forall rest tl, exists e', steps (Client.cenc_poll n) (mkCenc h (waits evs f rest tl) false) outs e'.
Proof.
  intros Hn. induction m as [|m IH]; intros h evs Hm Hw Hc Hh; [lia|]. destruct (le_lt_dec (length h) n) as [Hs|Hs]; [clear Hh; rename Hs into Hh|].
  2:{ assert (N1 : firstn n h <> []) by (destruct n; [lia|]; destruct h; [cbn in Hs; lia|discriminate]).
    assert (N2 : (length (skipn n h) < length h)%nat) by (rewrite skipn_length; lia). assert (N0 : (n - length (firstn n h) = 0)%nat) by (rewrite firstn_length; lia).
    destruct evs as [|[d|f'|] l]; [destruct Hh as [Hh|Hh]; [cbn [length] in Hh; lia|now elim Hh]| | |inversion Hc; congruence].
    - assert (Hd' : d <> []) by (inversion Hw; subst; intros ->; now unfold wf_ev in * ).
      destruct (IH (skipn n h) (Data d :: l)) as (outs & Q1 & Q2); auto; [lia|right; cbn [evs_data]; destruct d; [congruence|discriminate]|]. exists (firstn n h :: outs). split; [cbn [concat]; rewrite Q1, app_assoc, firstn_skipn; reflexivity|].
      intros rest tl. destruct (Q2 rest tl) as (e' & S). exists e'. eapply steps_out; [|exact N1|exact S].
      unfold Client.cenc_poll. cbn [ce_head ce_done ce_src]. rewrite N0. unfold waits, src_read. cbn [s_evs s_tail app firstn skipn].
      assert (Hd : d <> []) by (inversion Hw; subst; intros ->; now unfold wf_ev in * ). rewrite app_nil_r. destruct d; [congruence|]. destruct (firstn n h); [congruence|reflexivity].
    - assert (Hw' : wf_evs l) by now inversion Hw. assert (Hc' : clean_evs l) by now inversion Hc. cbn [evs_size] in Hm.
      destruct (IH (skipn n h) l) as (outs & Q1 & Q2); auto; [lia|destruct Hh as [Hh|Hh]; [left; rewrite skipn_length; cbn [length] in Hh; lia|now right]|]. exists (firstn n h :: outs). split; [cbn [concat]; rewrite Q1, app_assoc, firstn_skipn; reflexivity|].
      intros rest tl. destruct (Q2 rest tl) as (e' & S). exists e'. eapply steps_out; [|exact N1|exact S].
      unfold Client.cenc_poll. cbn [ce_head ce_done ce_src]. unfold waits, src_read. cbn [s_evs s_tail app]. destruct (firstn n h); [congruence|reflexivity]. }
  assert (E1 : firstn n h = h) by (apply firstn_all2; lia). assert (E2 : skipn n h = []) by (apply skipn_all2; lia).
  destruct evs as [|[d|f'|] l].
  - exists [h]. cbn [concat evs_data]. split; [reflexivity|]. intros rest tl. unfold Client.cenc_poll, waits.
    destruct h as [|c h]; [eexists; eapply steps_pend; [|constructor]; unfold Client.cenc_poll; cbn [ce_head ce_done ce_src]; rewrite E1; reflexivity|].
    eexists. eapply steps_out; [|discriminate|constructor]. unfold Client.cenc_poll. cbn [ce_head ce_done ce_src]. rewrite E1. reflexivity.
  - assert (Hd : d <> []) by (inversion Hw; subst; intros ->; now unfold wf_ev in *).
    assert (Hw' : wf_evs l) by now inversion Hw. assert (Hc' : clean_evs l) by now inversion Hc. set (k := (n - length h)%nat).
    destruct (IH [] (cut k d l)) as (outs & Q1 & Q2).
    { assert (evs_size (cut k d l) <= evs_size (Data d :: l))%nat.
      { unfold cut. destruct (skipn k d) eqn:E; cbn [evs_size]; [lia|]. rewrite <- E, skipn_length. lia. }
      destruct (Nat.eq_dec k 0) as [K|K]; [|pose proof (cut_size k d l ltac:(lia) Hd); cbn [length]; lia]. cbn [length]. lia. }
    { now apply cut_wf. } { now apply cut_clean. } { left. cbn; lia. }
    exists ((h ++ firstn k d) :: outs). split.
    { cbn [concat]. rewrite Q1, cut_data. cbn [app evs_data]. now rewrite <- app_assoc, (app_assoc (firstn k d)), firstn_skipn. }
    intros rest tl. destruct (Q2 rest tl) as (e' & S). exists e'.
    assert (NE : h ++ firstn k d <> []).
    { destruct h as [|c h]; [|discriminate]. cbn [app]. unfold k. cbn [length]. destruct d; [congruence|]. destruct n; [lia|discriminate]. }
    eapply steps_out; [|exact NE|exact S]. unfold Client.cenc_poll. cbn [ce_head ce_done ce_src]. rewrite E1, E2. fold k. unfold waits, src_read. cbn [s_evs s_tail app].
    unfold waits in S. rewrite <- cut_app. unfold cut. destruct (h ++ firstn k d); [now elim NE|reflexivity].
  - assert (Hw' : wf_evs l) by now inversion Hw. assert (Hc' : clean_evs l) by now inversion Hc. cbn [evs_size] in Hm.
    destruct (IH [] l) as (outs & Q1 & Q2); auto; [cbn [length]; lia|left; cbn; lia|].
    exists (h :: outs). split; [cbn [concat]; rewrite Q1; reflexivity|]. intros rest tl. destruct (Q2 rest tl) as (e' & S). exists e'.
    destruct h as [|c h]; [eapply steps_pend; [|exact S]|eapply steps_out; [|discriminate|exact S]]; unfold Client.cenc_poll; cbn [ce_head ce_done ce_src]; rewrite E1, E2; reflexivity.
  - inversion Hc. congruence.
Qed.

Lemma encode_src q s : c_encode (with_src q s) = c_encode q.
Proof. reflexivity. Qed.

Lemma pends_data (f : bool) k evs : evs_data (evs ++ repeat (Pend f) k) = evs_data evs.
Proof.
  induction evs as [|[d|g|] l IH]; cbn [app evs_data]; [induction k; auto|now rewrite IH|exact IH|reflexivity].
Qed.

Lemma pends_move (f : bool) k evs rest : (evs ++ repeat (Pend f) k) ++ Pend f :: rest = evs ++ repeat (Pend f) (S k) ++ rest.
Proof. rewrite <- app_assoc. apply f_equal. cbn [repeat app]. induction k; cbn [repeat app]; [reflexivity|]. now rewrite IHk. Qed.

Lemma connect_streams ev q h evs f k : (0 < e_bufcap ev)%nat -> c_encode q = CHead h -> (length h <= e_bufcap ev * S k)%nat \/ evs_data evs <> [] -> Forall wf_ev evs -> clean_evs evs ->
  forall w, accepting w -> exists F, forall rest tl s fuel, (F <= fuel)%nat ->
    prefix (w_out w ++ h ++ evs_data evs) (w_out (fst (connect ev fuel (with_src q (mkSrc (evs ++ repeat (Pend f) (S k) ++ rest) tl)) s w))).
Proof.
  intros Hc EH HL Hw HC w Ha. pose proof (pends_data f k evs) as ED.
  destruct (cenc_steps _ f _ Hc h (evs ++ repeat (Pend f) k) (Nat.lt_succ_diag_r _)) as (outs & Q1 & Q2).
  { apply Forall_app. split; [exact Hw|]. apply Forall_forall. intros x Hx. apply repeat_spec in Hx as ->. discriminate. }
  { apply Forall_app. split; [exact HC|]. apply Forall_forall. intros x Hx. apply repeat_spec in Hx as ->. discriminate. }
  { rewrite ED. destruct HL as [HL|HL]; [left|now right]. rewrite app_length, repeat_length. nia. }
  rewrite ED in Q1. destruct (copy_steps outs w Ha) as (c & w2 & O & R). exists c. intros rest tl s fuel Hf. destruct (Q2 rest tl) as (e' & ST).
  destruct (R _ _ _ _ 0%N (fuel - c)%nat ST) as (a & Q). replace (c + (fuel - c))%nat with fuel in Q by lia.
  unfold connect. rewrite encode_src, EH. cbn [with_src c_body b_src]. unfold waits in Q.
  replace (evs ++ repeat (Pend f) (S k) ++ rest) with ((evs ++ repeat (Pend f) k) ++ Pend f :: rest) by (now rewrite pends_move).
  rewrite Q. rewrite <- Q1, <- O.
  pose proof (copy_grows (Client.cenc_poll (e_bufcap ev)) (fuel - c) e' [] w2 a) as G.
  destruct (copy_go (Client.cenc_poll (e_bufcap ev)) (fuel - c) e' [] w2 a) as [w' [x| | | |]]; exact G.
Qed.

Lemma cenc_wait n e e' f : (0 < n)%nat -> Client.cenc_poll n e = (e', PPend f) -> ce_head e = [] /\ s_evs (ce_src e) = Pend f :: s_evs (ce_src e').
Proof.
  intros Hn. unfold Client.cenc_poll. destruct (ce_done e); [discriminate|]. unfold src_read. destruct (ce_src e) as [[|[d|g|] l] t]; cbn [s_evs s_tail].
  - destruct t; discriminate.
  - discriminate.
  - destruct (firstn n (ce_head e)) eqn:E; intros [= <- <-]. split; [|reflexivity]. destruct n; [lia|]. now destruct (ce_head e).
  - discriminate.
Qed.

(** ** Responses *)
(** The head block is all that is waited for: nothing of [l2] is taken when it lies in [l1]. *)
Lemma decode_stops ev s l1 l2 w rest : (0 < e_bufcap ev)%nat -> wf_src s -> s_evs s = l1 ++ l2 -> fst (avail false l1) = w ++ rest -> resp_block w ->
  (N.of_nat (length w) < 8192)%N -> exists l, s_evs (br_src (fst (c_decode ev s))) = l ++ l2.
Proof.
  intros Hc Ws E A Hb HL. unfold c_decode, c_head. destruct (c_head_go _ _ _) as [b' r] eqn:EG.
  assert (Hw : win false l2 (br_new (e_bufcap ev) s) (w ++ rest) (snd (avail false l1))).
  { exists l1. cbn [br_new br_src br_buf app]. now rewrite E, A. }
  pose proof (c_go_done l2 _ _ _ _ [] w rest b' r (Nat.lt_succ_diag_r _) (new_wf ev Hc s Ws) Hw eq_refl Hb) as Q.
  replace (c_max_head <=? N.of_nat (length w))%N with false in Q by (unfold c_max_head; lia).
  destruct Q as (-> & _ & (l & Hl & _) & _); [|exact EG|].
  { exists w. split; [|reflexivity]. intros ->. destruct Hb as [H _]. apply resp_end_lf in H as [[|] ?]; discriminate. }
  exists l. destruct (parse_response _ _ _) as [p| |]; try exact Hl. destruct (p_version p =? 1)%N; [|exact Hl]. destruct (c_headers (p_headers p) []); exact Hl.
Qed.

Lemma answer_reader ev s w rest b a : env_ok ev -> delivers s w rest -> c_decode ev s = (b, COk a) ->
  f_rdr (a_body a) = RSrc (mkSrc [] Eof) \/
  exists br, wf_brd br /\ src_data s = w ++ br_data br /\ f_rdr (a_body a) = RMsg (body_reader ev (f_len (a_body a)) br).
Proof.
  intros (He & H7 & _) D H. assert (Hc : (0 < e_bufcap ev)%nat) by lia. destruct (N.ltb_spec (N.of_nat (length w)) 8192) as [HL|HL].
  - destruct (decode_short ev He Hc _ _ _ D HL) as (br & (HW & _ & HD & _) & _ & J). destruct (judge_total (e_trim ev) w) as (v & Hv). specialize (J v Hv).
    rewrite H in J. cbn [snd] in J. destruct v; cbn [canswers] in J.
    + discriminate J.
    + injection J as ->. right. exists br. auto.
    + destruct J as (m & _ & [= ->]). right. exists br. auto.
    + destruct J as (m & _ & [= ->]). left. reflexivity.
  - pose proof (decode_long ev Hc _ _ _ D HL) as Q. rewrite H in Q. discriminate Q.
Qed.
