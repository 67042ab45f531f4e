(** What the callers of [connect] can rely on. *)
From Verif Require Import Accept Client BodyRead SpecBody SpecChunked SpecHead SpecReq SpecResponse SpecServer SpecClient Lemmas Proofs_Copy Proofs_Dec Proofs_Accept Proofs_Request Proofs_Send
  Proofs_ServerEnc Proofs_BodyRead Proofs_Client Proofs_ClientDec Proofs_RoundTrip.

Lemma connect_written ev q n : (0 < e_bufcap ev)%nat -> creq_wf q -> addressed q -> b_len (c_body q) = Some n -> wf_src (b_src (c_body q)) ->
  exists h, creq_head q h /\ forall s w, exists w' p out, settles (fun fuel => connect ev fuel q s w) (w', out) /\ w_out w' = w_out w ++ p /\
    let m := h ++ src_data (b_src (c_body q)) in
    prefix p m /\ (p = m /\ clean (b_src (c_body q)) /\ out = snd (c_decode ev s) \/ out = CErr /\ ~ (clean (b_src (c_body q)) /\ accepting w)).
Proof.
  intros Hc W A HL HS. destruct (encode_defined q n) as [h E]; [apply W|assumption|assumption|]. exists h. split; [now apply encode_reads|].
  intros s w. destruct (cenced_sends ev q h w Hc HS) as (F & w' & r & p & HC & HO & HP & HR). unfold connect. rewrite E.
  destruct HR as [(C & -> & Ep)|[-> N]].
  - exists w', p, (snd (c_decode ev s)). split; [exists F; intros fuel L; now rewrite HC|]. split; [exact HO|]. split; [exact HP|]. left. auto.
  - exists w', p, CErr. split; [exists F; intros fuel L; now rewrite HC|]. auto.
Qed.
Lemma connect_mono ev fuel fuel' q s w w' out : (fuel <= fuel')%nat -> connect ev fuel q s w = (w', out) -> out <> CFuel -> connect ev fuel' q s w = (w', out).
Proof.
  intros L H N. unfold connect in *. destruct (c_encode q) as [h| |]; [|exact H|exact H].
  destruct (copy_go _ fuel _ _ _ _) as [w1 r] eqn:E.
  assert (X : r <> RFuel) by (intros ->; inversion H; subst; now elim N).
  erewrite copy_go_mono; [exact H| |exact L|exact E|exact X]. auto.
Qed.
Lemma connect_whole ev fuel q s w w' a : (0 < e_bufcap ev)%nat -> creq_wf q -> wf_src (b_src (c_body q)) ->
  connect ev fuel q s w = (w', COk a) ->
  exists h, creq_head q h /\ clean (b_src (c_body q)) /\ w_out w' = w_out w ++ h ++ src_data (b_src (c_body q)) /\ snd (c_decode ev s) = COk a.
Proof.
  intros Hc W HS H. destruct (c_encode q) as [h| |] eqn:E; [|unfold connect in H; rewrite E in H; discriminate H..].
  exists h. split; [now apply encode_reads|]. destruct (cenced_sends ev q h w Hc HS) as (F & w2 & r & p & HC & HO & _ & HR).
  pose proof (connect_mono ev fuel (Nat.max fuel F) q s w w' _ (Nat.le_max_l _ _) H ltac:(discriminate)) as H2.
  unfold connect in H2. rewrite E, HC in H2 by apply Nat.le_max_r.
  destruct HR as [(C & -> & ->)|[-> N]]; [|discriminate H2]. injection H2 as <- D. now rewrite HO.
Qed.
Lemma connect_unaddressed ev fuel q s w : creq_wf q -> ~ addressed q -> connect ev fuel q s w = (w, CErr).
Proof. intros W N. unfold connect. rewrite encode_refuses; [reflexivity|apply W|exact N]. Qed.
Lemma connect_panics ev fuel q s w : creq_wf q -> addressed q -> b_len (c_body q) = None -> connect ev fuel q s w = (w, CPanic).
Proof.
  intros W A N. set (q2 := mkCreq (c_meth q) (c_uri q) (c_hdrs q) (mkBody (Some 0%N) (b_src (c_body q)))).
  destruct (encode_defined q2 0) as [h E]; [apply W| |reflexivity|].
  - destruct A as [[t T] [hf H]]. split.
    + exists t. inversion T; subst; [now refine (tg_connect q2 _ _ _ _ _)|now refine (tg_path q2 _ _)|now refine (tg_query q2 _ _ _)].
    + exists hf. inversion H; subst; [now refine (hf_caller q2 _)|now refine (hf_uri q2 _ _ _ _)|now refine (hf_port q2 _ _ _ _ _)].
  - unfold connect, c_encode in *. change (c_target q2) with (c_target q) in E.
    change (c_host_line q2) with (c_host_line q) in E.
    destruct (c_target q); [|discriminate]. destruct (c_host_line q); [|discriminate]. now rewrite N.
Qed.
Lemma connect_returns ev q s w : env_wf ev -> (0 < e_bufcap ev)%nat -> creq_wf q -> wf_src (b_src (c_body q)) -> wf_src s -> b_len (c_body q) <> None ->
  exists w' out, settles (fun fuel => connect ev fuel q s w) (w', out) /\ (out = CErr \/ exists a, out = COk a).
Proof.
  intros He Hc W HS Ws HL. destruct (b_len (c_body q)) as [n|] eqn:EL; [clear HL|now elim HL].
  unfold connect. destruct (c_encode q) as [h| |] eqn:E.
  - destruct (cenced_sends ev q h w Hc HS) as (F & w' & r & p & HC & _ & _ & HR).
    destruct HR as [(C & -> & Ep)|[-> N]]; eexists w', _; (split; [exists F; intros fuel L; now rewrite HC|]); [|now left].
    now apply decode_ends.
  - exists w, CErr. split; [exists 0%nat; reflexivity|now left].
  - unfold c_encode in E. rewrite EL in E. destruct (c_target q); [|discriminate]. destruct (c_host_line q); discriminate.
Qed.

(** A connection that delivers one line without an end. *)
Lemma decode_swallows ev (l : bytes) : (0 < e_bufcap ev)%nat -> ~ In LF l -> l <> [] ->
  c_decode ev (mkSrc [Data l] Eof) = (mkBrd (e_bufcap ev) [] (mkSrc [] Eof), CErr).
Proof.
  intros Hc N Hl. unfold c_decode, c_head. set (b := br_new (e_bufcap ev) (mkSrc [Data l] Eof)).
  assert (R : read_until false b = (mkBrd (e_bufcap ev) [] (mkSrc [] Eof), ROk l)).
  { unfold read_until. rewrite (until_swallows _ l b []); try assumption; try reflexivity.
    - unfold b, br_size, br_new, src_size, evs_size. cbn. lia.
    - destruct l; [now elim Hl|reflexivity]. }
  destruct (br_size b) as [|f] eqn:EB.
  { exfalso. unfold b, br_size, br_new in EB. cbn in EB. destruct l; [now elim Hl|]. cbn in EB. lia. }
  cbn [c_head_go]. rewrite R. destruct l as [|c l]; [now elim Hl|]. cbn [app]. destruct (c_max_head <=? _)%N; [reflexivity|].
  assert (X : resp_endb (c :: l) = false).
  { destruct (resp_endb (c :: l)) eqn:E; [|reflexivity]. exfalso. apply resp_end_iff, resp_end_lf in E as [p E]. apply N. rewrite E. apply in_or_app. right. now left. }
  unfold resp_endb in X. rewrite X. reflexivity.
Qed.
Lemma decode_unbounded ev : (0 < e_bufcap ev)%nat -> forall bound, exists s x, wf_src s /\ took s (fst (c_decode ev s)) x /\ (bound < length x)%nat.
Proof.
  intros Hc bound. set (l := repeat "a"%char (S bound)).
  assert (N : ~ In LF l) by (intros I; apply repeat_spec in I; discriminate). assert (Z : l <> []) by discriminate.
  exists (mkSrc [Data l] Eof), l. split; [repeat constructor; intros [= E]|]. split; [|unfold l; rewrite repeat_length; lia].
  rewrite decode_swallows by assumption. unfold took. cbn. reflexivity.
Qed.

(** The verdict, on any connection that delivers a head block. *)
Lemma decode_verdict ev s w rest v : env_wf ev -> (0 < e_bufcap ev)%nat -> delivers s w rest -> cjudge (e_trim ev) w v ->
  exists b, canswers ev v b (snd (c_decode ev s)).
Proof.
  intros He Hc D J. destruct (N.ltb_spec (N.of_nat (length w)) 8192) as [HL|HL].
  - destruct (decode_short ev He Hc s w rest D HL) as (b & _ & _ & Q). exists b. now apply Q.
  - rewrite (decode_long ev Hc s w rest D HL). exists (br_new 0 s).
    assert (v = CvReject) as ->; [|reflexivity]. inversion J; subst; unfold bytes, byte in *; try reflexivity; lia.
Qed.
Lemma reject_both ev s w rest code hs : env_wf ev -> (0 < e_bufcap ev)%nat -> delivers s w rest -> resp_grammatical (e_trim ev) 1 code hs w ->
  values (B "content-length") hs <> [] -> values (B "transfer-encoding") hs <> [] -> snd (c_decode ev s) = CErr.
Proof. intros He Hc D G H1 H2. destruct (decode_verdict ev s w rest CvReject He Hc D (cj_both _ _ _ _ G H1 H2)) as [b X]. exact X. Qed.
Lemma status_kept ev s w rest code hs a : env_wf ev -> (0 < e_bufcap ev)%nat -> delivers s w rest -> resp_grammatical (e_trim ev) 1 code hs w -> ~ says_chunked hs ->
  snd (c_decode ev s) = COk a -> a_status a = code /\ holds (a_hdrs a) (dated (e_date ev) hs).
Proof.
  intros He Hc D G N E. destruct (judge_total (e_trim ev) w) as [v J]. destruct (decode_verdict ev s w rest v He Hc D J) as [b X]. rewrite E in X.
  inversion J; subst; cbn in X; try discriminate;
    match goal with H : resp_grammatical _ 1 _ _ _ |- _ => destruct (resp_fun _ _ _ _ _ _ _ _ G H) as (_ & <- & <-) end.
  - now elim N.
  - destruct X as (m & HM & [= ->]). now split.
  - destruct X as (m & HM & [= ->]). now split.
Qed.
