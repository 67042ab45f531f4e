(** The client (Client.v) against SpecClient.v. *)
From Verif Require Import Client SpecChunked SpecHead SpecReq SpecResponse SpecClient Lemmas Proofs_Copy Proofs_Head Proofs_Map Proofs_ServerEnc.

(** ** Writing the request *)
Lemma src_read_le n s s' r : src_read n s = (s', r) -> (src_size s' <= src_size s)%nat.
Proof.
  unfold src_read, src_size. destruct (s_evs s) as [|[x|f'|] l] eqn:E; intros H; inversion H; subst; cbn [s_evs evs_size]; rewrite ?E; cbn [evs_size]; try lia.
  pose proof (evs_size_skip n x l) as Q. rewrite skipn_length in Q. lia.
Qed.

Lemma cenc_run n : (0 < n)%nat -> forall m e, ce_done e = false -> wf_src (ce_src e) -> (length (ce_head e) + src_size (ce_src e) <= m)%nat ->
  exists O k, run (cenc_poll n) e O k /\
    ((k = KOk /\ O = ce_head e ++ src_data (ce_src e) /\ clean (ce_src e)) \/
     (k = KErr /\ prefix O (ce_head e ++ src_data (ce_src e)) /\ ~ clean (ce_src e))).
Proof.
  intros Hn. induction m as [m IH] using lt_wf_ind. intros [h s dn] Hd Hw Hm. cbn [ce_head ce_src ce_done] in *. subst dn.
  assert (EP : forall s' r, src_read (n - length (firstn n h)) s = (s', r) -> cenc_poll n (mkCenc h s false) =
    match r with
    | POk d => (mkCenc (skipn n h) s' (match firstn n h ++ d with [] => true | _ => false end), POk (firstn n h ++ d))
    | PErr => (mkCenc (skipn n h) s' false, PErr)
    | PPend f => (mkCenc (skipn n h) s' false, match firstn n h with [] => PPend f | _ => POk (firstn n h) end)
    | PPanic => (mkCenc (skipn n h) s' false, PPanic)
    | PFuel => (mkCenc (skipn n h) s' false, PFuel)
    end).
  { intros s' r E. unfold cenc_poll. cbn [ce_head ce_src ce_done]. rewrite E. now destruct r. }
  destruct (src_read (n - length (firstn n h)) s) as [s' r] eqn:E. specialize (EP _ _ eq_refl).
  pose proof (src_read_wf _ _ _ _ E Hw) as Hw'. pose proof (src_read_le _ _ _ _ E) as Hs.
  assert (HH : h = firstn n h ++ skipn n h) by (symmetry; apply firstn_skipn).
  assert (HL : length h = (length (firstn n h) + length (skipn n h))%nat) by (rewrite <- app_length; now f_equal).
  destruct r as [d|f| | |].
  - pose proof (src_read_data _ _ _ _ E) as HD.
    pose proof (src_read_clean_iff _ _ _ _ E ltac:(left; eauto)) as HC.
    destruct (firstn n h ++ d) as [|c0 l0] eqn:EO.
    + apply app_eq_nil in EO as [E0 ->]. assert (h = []) as -> by (destruct h; [reflexivity|destruct n; [lia|discriminate]]).
      rewrite firstn_nil in *. cbn [length] in *. rewrite skipn_nil in *. rewrite Nat.sub_0_r in E.
      apply src_read_nil in E as (E1 & E2 & ->); auto. exists [], KOk. split.
      * eapply run_done; [exact EP|]. unfold cenc_poll. cbn [ce_done ce_head ce_src]. now rewrite firstn_nil, skipn_nil.
      * left. unfold src_data. rewrite E1. cbn. ands; auto. split; [rewrite E1; constructor|exact E2].
    + rewrite <- EO in *. assert (NE : firstn n h ++ d <> []) by (rewrite EO; discriminate). clear EO.
      assert (MS : (length (skipn n h) + src_size s' < m)%nat).
      { destruct (firstn n h) eqn:EF.
        - cbn [app] in NE. pose proof (src_read_ok_size _ _ _ _ E NE). destruct d; [easy|cbn in *; lia].
        - cbn in HL. lia. }
      destruct (IH _ MS (mkCenc (skipn n h) s' false) eq_refl Hw' (le_n _)) as (O & k & R & Q). cbn [ce_head ce_src] in Q.
      (* the order of head and body bytes *)
      assert (HO : h ++ src_data s = (firstn n h ++ d) ++ skipn n h ++ src_data s').
      { rewrite HD. destruct (skipn n h) eqn:ES.
        - rewrite app_nil_r in HH. rewrite <- HH. cbn [app]. now rewrite app_assoc.
        - assert (H : length (firstn n h) = n) by (apply firstn_length_eq; pose proof (skipn_length n h) as K; rewrite ES in K; cbn in K; lia).
          apply src_read_len in E. rewrite H, Nat.sub_diag in E. destruct d; [|cbn in E; lia]. rewrite app_nil_r. cbn [app]. rewrite HH at 1. now rewrite <- app_assoc. }
      exists ((firstn n h ++ d) ++ O), k. split; [eapply run_out; eauto|]. rewrite HO. destruct Q as [(-> & -> & C)|(-> & P & C)].
      * left. ands; auto. now apply HC.
      * right. ands; auto; [now apply prefix_app|]. rewrite HC. exact C.
  - pose proof (src_read_pend_data _ _ _ _ E) as HD. pose proof (src_read_pend_size _ _ _ _ E) as HZ.
    pose proof (src_read_clean_iff _ _ _ _ E ltac:(right; eauto)) as HC.
    destruct (IH (length (skipn n h) + src_size s')%nat ltac:(lia) (mkCenc (skipn n h) s' false) eq_refl Hw' (le_n _)) as (O & k & R & Q). cbn [ce_head ce_src] in Q.
    exists (firstn n h ++ O), k. split.
    { destruct (firstn n h) eqn:EF; [eapply run_pend; eauto|]. eapply run_out; [exact EP|discriminate|exact R]. }
    assert (HO : h ++ src_data s = firstn n h ++ skipn n h ++ src_data s') by (rewrite HH at 1; now rewrite HD, <- app_assoc).
    rewrite HO. destruct Q as [(-> & -> & C)|(-> & P & C)].
    + left. ands; auto. now apply HC.
    + right. ands; auto; [now apply prefix_app|]. rewrite HC. exact C.
  - exists [], KErr. split; [eapply run_err; exact EP|]. right. ands; auto; [apply prefix_nil|]. now apply src_read_err in E.
  - now apply src_read_never in E.
  - now apply src_read_never in E.
Qed.

(** ** The head of a request *)
Lemma connect_dec q : is_connect q = true /\ c_meth q = B "CONNECT" \/ is_connect q = false /\ c_meth q <> B "CONNECT".
Proof. unfold is_connect. destruct (beq_spec (c_meth q) (B "CONNECT")); auto. Qed.
Lemma target_iff q t : c_target q = Some t <-> target_for q t.
Proof.
  unfold c_target. destruct (connect_dec q) as [[-> E]|[-> E]].
  - split.
    + destruct (u_host (c_uri q)) as [h|] eqn:EH; [|discriminate]. destruct (u_port (c_uri q)) as [p|] eqn:EP; [|discriminate].
      intros [= <-]. now apply tg_connect.
    + intros H. inversion H as [h p _ EH EP| |]; subst; [now rewrite EH, EP|congruence|congruence].
  - split.
    + destruct (u_query (c_uri q)) as [x|] eqn:EQ; intros [= <-]; [now apply tg_query|rewrite app_nil_r; now apply tg_path].
    + intros H. inversion H as [| ? EQ|x ? EQ]; subst; [congruence|rewrite EQ; now rewrite app_nil_r|now rewrite EQ].
Qed.
Lemma host_get q : hm_wf (c_hdrs q) -> hm_get h_host (c_hdrs q) = hd_error (values (B "host") (hm_iter (c_hdrs q))).
Proof. intros W. rewrite values_get_all by exact W. unfold hm_get. change (lower (B "host")) with h_host. now destruct (hm_get_all h_host (c_hdrs q)). Qed.
Lemma host_iff q hl : hm_wf (c_hdrs q) -> (c_host_line q = Some hl <-> exists hf, host_for q hf /\ hl = flat_map header_line hf).
Proof.
  intros W. unfold c_host_line. rewrite host_get by exact W. destruct (values (B "host") (hm_iter (c_hdrs q))) as [|v vs] eqn:EV; cbn [hd_error].
  - destruct (u_host (c_uri q)) as [h|] eqn:EH.
    + destruct (u_port (c_uri q)) as [p|] eqn:EP; split.
      * intros [= <-]. exists [(B "host", h ++ B ":" ++ p)]. split; [now apply hf_port|]. cbn [flat_map authority header_line fst snd]. now rewrite app_nil_r.
      * intros (hf & H & ->). inversion H as [|? ? ? ?|h0 p0 ? E1 E2]; subst; try congruence. rewrite EH in E1. rewrite EP in E2. injection E1 as <-. injection E2 as <-.
        cbn [flat_map authority header_line fst snd]. now rewrite app_nil_r.
      * intros [= <-]. exists [(B "host", h)]. split; [now apply hf_uri|]. unfold authority. cbn [flat_map header_line fst snd]. now rewrite !app_nil_r.
      * intros (hf & H & ->). inversion H as [|h0 ? E1 E2|? ? ? ? ?]; subst; try congruence. rewrite EH in E1. injection E1 as <-.
        unfold authority. cbn [flat_map header_line fst snd]. now rewrite !app_nil_r.
    + split; [discriminate|]. intros (hf & H & _). inversion H; subst; congruence.
  - split.
    + intros [= <-]. exists []. split; [apply hf_caller; congruence|reflexivity].
    + intros (hf & H & ->). inversion H; subst; try congruence. reflexivity.
Qed.

Lemma visible_not_cr l : visible l -> ~ In CR l.
Proof. intros F I. unfold visible in F. rewrite Forall_forall in F. apply F in I. vm_compute in I. destruct I as [I _]. now elim I. Qed.
Lemma part_host q h : creq_wf q -> u_host (c_uri q) = Some h -> visible h.
Proof. intros (_ & _ & _ & H & _) E. now rewrite E in H. Qed.
Lemma part_port q h : creq_wf q -> u_port (c_uri q) = Some h -> visible h.
Proof. intros (_ & _ & _ & _ & H & _) E. now rewrite E in H. Qed.
Lemma part_query q h : creq_wf q -> u_query (c_uri q) = Some h -> visible h.
Proof. intros (_ & _ & H & _) E. now rewrite E in H. Qed.
Lemma visible_app a b : visible a -> visible b -> visible (a ++ b).
Proof. intros H1 H2. apply Forall_app. auto. Qed.
Lemma colon_visible : visible (B ":").
Proof. repeat constructor; vm_compute; discriminate. Qed.
Lemma qm_visible : visible (B "?").
Proof. repeat constructor; vm_compute; discriminate. Qed.
Lemma target_visible q t : creq_wf q -> target_for q t -> visible t.
Proof.
  intros W H. pose proof W as (_ & HP & _). inversion H; subst.
  - apply visible_app; [eapply part_host; eauto|]. apply visible_app; [apply colon_visible|]. eapply part_port; eauto.
  - exact HP.
  - apply visible_app; [exact HP|]. apply visible_app; [apply qm_visible|]. eapply part_query; eauto.
Qed.
Lemma host_visible q hf nv : creq_wf q -> host_for q hf -> In nv hf -> fst nv = B "host" /\ visible (snd nv).
Proof.
  intros W H I. inversion H; subst; [destruct I| |]; destruct I as [<-|[]]; (split; [reflexivity|]); cbn [snd].
  - eapply part_host; eauto.
  - apply visible_app; [eapply part_host; eauto|]. apply visible_app; [apply colon_visible|]. eapply part_port; eauto.
Qed.

(** The fields of a request as a list. *)
Definition creq_fields (q : crequest) (hf : list (bytes * bytes)) (n : N) : list (bytes * bytes) :=
  hf ++ (if is_connect q then [(B "proxy-connection", B "keep-alive")] else []) ++ (B "content-length", to_dec n) :: hm_iter (c_hdrs q).
Lemma fields_for_ok q hf n : host_for q hf -> fields_for q n (creq_fields q hf n).
Proof.
  intros H. exists hf, (if is_connect q then [(B "proxy-connection", B "keep-alive")] else []), (to_dec n). ands; auto.
  - apply to_dec_numeral.
  - destruct (connect_dec q) as [[-> E]|[-> E]]; auto.
Qed.
Lemma creq_fields_ok q hf n : creq_wf q -> host_for q hf -> Forall line_ok (creq_fields q hf n).
Proof.
  intros W H. unfold creq_fields. apply Forall_app. split; [|apply Forall_app; split].
  - apply Forall_forall. intros nv I. destruct (host_visible q hf nv W H I) as [E V]. unfold line_ok. rewrite E.
    split; [notin|]. split; [notin|now apply visible_not_cr].
  - destruct (is_connect q); constructor; [|constructor]. unfold line_ok. cbn [fst snd]. split; [notin|]. split; notin.
  - constructor.
    + unfold line_ok. cbn [fst snd]. split; [notin|]. split; [notin|apply to_dec_no_cr].
    + apply Forall_forall. intros [k v] I. destruct W as (_ & _ & _ & _ & _ & W). destruct (hm_iter_in _ _ _ W I) as [Hn Hv].
      unfold line_ok. cbn [fst snd]. destruct (name_ok_line k Hn). auto using value_no_cr.
Qed.

Lemma encode_text q h : hm_wf (c_hdrs q) -> c_encode q = CHead h -> exists t hf n, target_for q t /\ host_for q hf /\ b_len (c_body q) = Some n /\
  h = (c_meth q ++ B " " ++ t ++ B " HTTP/1.1") ++ CRLF ++ flat_map header_line (creq_fields q hf n) ++ CRLF.
Proof.
  intros W. unfold c_encode. destruct (c_target q) as [t|] eqn:ET; [|discriminate]. destruct (c_host_line q) as [hl|] eqn:EH; [|discriminate].
  destruct (b_len (c_body q)) as [n|] eqn:EN; [|discriminate]. intros [= <-]. apply target_iff in ET. apply (host_iff q hl W) in EH as (hf & HF & ->).
  exists t, hf, n. ands; auto. unfold creq_fields. rewrite !flat_map_app. cbn [flat_map]. unfold c_header_lines.
  change (fun nv : bytes * bytes => fst nv ++ B ": " ++ snd nv ++ CRLF) with header_line.
  assert (E1 : header_line (B "content-length", to_dec n) = B "content-length: " ++ to_dec n ++ CRLF) by reflexivity. rewrite E1.
  assert (E2 : header_line (B "proxy-connection", B "keep-alive") = B "proxy-connection: keep-alive" ++ CRLF) by reflexivity.
  change (c_meth q ++ [SP] ++ t) with (c_meth q ++ B " " ++ t).
  destruct (is_connect q); cbn [flat_map]; rewrite ?E2, <- ?app_assoc, ?app_nil_r; reflexivity.
Qed.
Lemma encode_reads q h : creq_wf q -> c_encode q = CHead h -> creq_head q h.
Proof.
  intros W H. destruct (encode_text q h (proj2 (proj2 (proj2 (proj2 (proj2 W))))) H) as (t & hf & n & HT & HH & HN & ->).
  exists t, n, (creq_fields q hf n). split; [exact HT|]. split; [exact HN|]. split; [now apply fields_for_ok|]. intros rest.
  rewrite <- !app_assoc. unfold read_head.
  replace (c_meth q ++ B " " ++ t ++ B " HTTP/1.1" ++ CRLF ++ flat_map header_line (creq_fields q hf n) ++ CRLF ++ rest)
    with ((c_meth q ++ B " " ++ t ++ B " HTTP/1.1") ++ CRLF ++ flat_map header_line (creq_fields q hf n) ++ CRLF ++ rest) by now rewrite <- !app_assoc.
  rewrite cut_line_app.
  2:{ intros I. apply in_app_or in I as [I|I].
      - destruct W as ((_ & F) & _). rewrite Forall_forall in F. apply F in I. discriminate.
      - apply in_app_or in I as [I|I]; [revert I; notin|]. apply in_app_or in I as [I|I]; [|revert I; notin].
        revert I. apply visible_not_cr. eapply target_visible; eauto. }
  rewrite read_fields_app; [reflexivity|now apply creq_fields_ok|].
  pose proof (flat_map_line_len (creq_fields q hf n)). rewrite !app_length. lia.
Qed.
Lemma encode_defined q n : hm_wf (c_hdrs q) -> addressed q -> b_len (c_body q) = Some n -> exists h, c_encode q = CHead h.
Proof.
  intros W ((t & HT) & (hf & HH)) HN. unfold c_encode. apply target_iff in HT as ->.
  assert (E : c_host_line q = Some (flat_map header_line hf)) by (apply host_iff; eauto). rewrite E, HN. eauto.
Qed.
Lemma encode_refuses q : hm_wf (c_hdrs q) -> ~ addressed q -> c_encode q = CEncode.
Proof.
  intros W NA. unfold c_encode. destruct (c_target q) as [t|] eqn:ET; [|reflexivity]. destruct (c_host_line q) as [hl|] eqn:EH; [|reflexivity].
  elim NA. apply target_iff in ET. apply (host_iff q hl W) in EH as (hf & HF & _). split; eauto.
Qed.

(** ** Writing it *)
Lemma cenced_sends ev q h w : (0 < e_bufcap ev)%nat -> wf_src (b_src (c_body q)) ->
  exists F w' r p, (forall fuel, (F <= fuel)%nat -> copy_go (cenc_poll (e_bufcap ev)) fuel (mkCenc h (b_src (c_body q)) false) [] w 0 = (w', r)) /\
    w_out w' = w_out w ++ p /\ prefix p (h ++ src_data (b_src (c_body q))) /\
    ((clean (b_src (c_body q)) /\ r = ROk (N.of_nat (length (h ++ src_data (b_src (c_body q))))) /\ p = h ++ src_data (b_src (c_body q))) \/
     (r = RErr /\ ~ (clean (b_src (c_body q)) /\ accepting w))).
Proof.
  intros Hn W. destruct (cenc_run _ Hn _ (mkCenc h (b_src (c_body q)) false) eq_refl W (le_n _)) as (O & k & R & Q). cbn [ce_head ce_src] in Q.
  destruct (copy_run _ _ _ _ R w 0%N) as (F & w' & r & p & HF & HP & HO & HR). exists F, w', r, p. split; [exact HF|]. split; [exact HO|].
  destruct Q as [(-> & -> & C)|(-> & P & C)].
  - split; [exact HP|]. destruct HR as [[-> ->]|[-> NA]]; [left; auto|right; split; [reflexivity|intros [_ ?]; auto]].
  - split; [eapply prefix_trans; eauto|]. right. destruct HR as [[-> _]|[-> _]]; (split; [reflexivity|]); intros [? _]; auto.
Qed.
