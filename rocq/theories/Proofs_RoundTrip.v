(** Proofs: the client's requests at the server, the server's responses at the client. *)
From Verif Require Import Client Accept SpecBody SpecChunked SpecHead SpecReq SpecResponse SpecServer SpecClient Lemmas Proofs_Copy Proofs_Parse Proofs_Buf Proofs_Head Proofs_Map
  Proofs_Dec Proofs_DecMsg Proofs_DecReads Proofs_ReqHead Proofs_ReqParse Proofs_ServerDec Proofs_ServerEnc Proofs_Send Proofs_Accept Proofs_Request Proofs_Body Proofs_BodyRead Proofs_Client Proofs_ClientDec Proofs_Text.

Lemma visible_plain v : visible v -> plain_value v.
Proof.
  intros F. unfold visible in F. rewrite Forall_forall in F. split; intros c r ->; intros [->| ->]; [specialize (F SP (or_introl eq_refl))|specialize (F HT (or_introl eq_refl))| |].
  1,2: vm_compute in F; destruct F as [F _]; now elim F.
  - specialize (F SP ltac:(apply in_or_app; right; now left)). vm_compute in F; destruct F as [F _]; now elim F.
  - specialize (F HT ltac:(apply in_or_app; right; now left)). vm_compute in F; destruct F as [F _]; now elim F.
Qed.
Lemma visible_bytes v : visible v -> forallb is_value_byte v = true.
Proof. intros F. apply forallb_forall. intros c I. unfold visible in F. rewrite Forall_forall in F. apply value_byte_iff. left. apply F in I. lia. Qed.
Lemma to_dec_visible n : visible (to_dec n).
Proof.
  destruct (decimal_val _ _ (to_dec_decimal n)) as (_ & F & _). eapply Forall_impl; [|exact F]. intros c (d & Hd & ->). rewrite digitc_bv by lia.
  destruct (N.ltb_spec d 10); lia.
Qed.

(** Lines as the two encoders write them are strict field lines. *)
Definition tidy (nv : bytes * bytes) : Prop := name_ok (fst nv) = true /\ forallb is_value_byte (snd nv) = true /\ plain_value (snd nv).
Lemma name_ok_field n : name_ok n = true -> field_name n.
Proof.
  intros H. unfold name_ok in H. destruct (header_name n) as [n'|] eqn:E; [|discriminate]. unfold header_name in E.
  destruct n as [|c n]; [discriminate|]. destruct (forallb is_tchar (c :: n) && (N.of_nat (length (c :: n)) <=? max_name_len)%N) eqn:G; [|discriminate E].
  apply andb_true_iff in G as [G1 G2]. unfold max_name_len in G2. split; [discriminate|]. split; [now apply Forall_forall, forallb_forall|lia].
Qed.
Lemma tidy_fields fs : Forall tidy fs -> fields fs (flat_map header_line fs).
Proof.
  induction 1 as [|[n v] fs (H1 & H2 & H3) _ IH]; cbn [flat_map]; [constructor|]. constructor; [|exact IH]. cbn [fst snd] in *.
  exists [SP]. split; [now apply name_ok_field|]. split.
  - split; [|exact H3]. apply Forall_forall. intros c I. apply value_byte_iff. eapply forallb_forall; eauto.
  - split; [constructor; [now left|constructor]|reflexivity].
Qed.
Lemma avail_prefix tmo l : prefix (fst (avail tmo l)) (evs_data l).
Proof.
  induction l as [|[d|f|] l IH].
  - exists []. reflexivity.
  - rewrite avail_data. destruct IH as [x E]. exists x. cbn [fst evs_data]. now rewrite E, app_assoc.
  - cbn [avail evs_data]. destruct (tmo && f); [eexists; reflexivity|exact IH].
  - eexists; reflexivity.
Qed.

(** ** Requests *)
Lemma parse_query_plain x : Forall (fun c => is_query_char c = true) x -> parse_query x = Some x.
Proof.
  induction 1 as [|c x H _ IH]; [reflexivity|]. cbn [parse_query]. rewrite H, IH. destruct (Ascii.eqb_spec c HASH) as [->|_]; [discriminate H|reflexivity].
Qed.
Lemma parse_pq_plain p o : Forall (fun c => is_path_char c = true) p -> (forall x, o = Some x -> Forall (fun c => is_query_char c = true) x) ->
  parse_pq (p ++ match o with Some x => [QM] ++ x | None => [] end) = Some (p, o).
Proof.
  intros F HO. set (suf := match o with Some x => [QM] ++ x | None => [] end). induction F as [|c p H _ IH]; cbn [app parse_pq].
  - unfold suf. destruct o as [x|]; [|reflexivity]. cbn [app parse_pq]. rewrite parse_query_plain by auto. reflexivity.
  - rewrite IH, H. destruct (Ascii.eqb_spec c QM) as [->|_]; [discriminate H|]. destruct (Ascii.eqb_spec c HASH) as [->|_]; [discriminate H|reflexivity].
Qed.
Lemma path_target c : is_path_char c = true -> target_char c.
Proof. unfold is_path_char, target_char. lia. Qed.
Lemma query_target c : is_query_char c = true -> target_char c.
Proof. unfold is_query_char, target_char. lia. Qed.

Section Request.
  Variable q : crequest.
  Hypothesis W : creq_wf q.
  Hypothesis HO : ordinary q.
  Let u := c_uri q.
  Let t := u_path u ++ match u_query u with Some x => [QM] ++ x | None => [] end.
  Let n := N.of_nat (length (src_data (b_src (c_body q)))).

  Lemma ord_target t' : target_for q t' -> t' = t.
  Proof. destruct HO as (NC & _). intros H. inversion H; subst; try congruence; unfold t, u; rewrite H1; cbn [app]; [now rewrite app_nil_r|reflexivity]. Qed.
  Lemma ord_target_ok : target_for q t.
  Proof. destruct HO as (NC & _). unfold t, u. destruct (u_query (c_uri q)) as [x|] eqn:E; [now apply (tg_query q x)|]. rewrite app_nil_r. now apply tg_path. Qed.
  Lemma ord_uri other : parse_uri other t = Some (mkUri None None (u_path u) (u_query u)).
  Proof.
    pose proof ord_target_ok as HT. destruct HO as (NC & (r & EP) & F1 & F2 & LT & _). specialize (LT _ HT). unfold parse_uri.
    assert (X : exists y, t = "/"%char :: y) by (unfold t, u; rewrite EP; eexists; reflexivity). destruct X as (y & ET). rewrite ET in *.
    replace (max_uri_len <? N.of_nat (length ("/"%char :: y)))%N with false by (unfold max_uri_len; lia).
    change (Ascii.eqb "/"%char (ascii_of_N 47)) with true. cbn [fst snd]. rewrite <- ET. unfold t, u. now rewrite parse_pq_plain.
  Qed.
  Lemma ord_chars : Forall target_char t.
  Proof.
    destruct HO as (NC & _ & F1 & F2 & _). unfold t, u. apply Forall_app. split; [eapply Forall_impl; [|exact F1]; exact path_target|].
    destruct (u_query (c_uri q)) as [x|]; [|constructor]. constructor; [vm_compute; intuition discriminate|]. eapply Forall_impl; [|apply F2; reflexivity]. exact query_target.
  Qed.
  Lemma ord_tidy hf : host_for q hf -> Forall tidy (creq_fields q hf n).
  Proof.
    intros HH. unfold creq_fields. destruct (connect_dec q) as [[_ E]|[-> _]]; [destruct HO as (NC & _); congruence|]. apply Forall_app. split; [|constructor].
    - apply Forall_forall. intros nv I. destruct (host_visible q hf nv W HH I) as [E V]. unfold tidy. rewrite E. split; [reflexivity|]. split; [now apply visible_bytes|now apply visible_plain].
    - split; [reflexivity|]. cbn [snd]. split; [apply visible_bytes, to_dec_visible|apply visible_plain, to_dec_visible].
    - apply Forall_forall. intros [k v] I. destruct HO as (_ & _ & _ & _ & _ & HP & _). destruct (HP k v I) as (P & _). pose proof W as (_ & _ & _ & _ & _ & WM).
      destruct (hm_iter_in _ _ _ WM I) as [Hn Hv]. split; [exact Hn|]. split; [exact Hv|exact P].
  Qed.
  Lemma ord_values hf x : host_for q hf -> lower x = x ->
    values x (creq_fields q hf n) = (if beq (B "host") x then values (B "host") hf else []) ++ (if beq (B "content-length") x then [to_dec n] else []) ++ values x (hm_iter (c_hdrs q)).
  Proof.
    intros HH L. unfold creq_fields. destruct (connect_dec q) as [[_ E]|[-> _]]; [destruct HO as (NC & _); congruence|]. cbn [app]. rewrite values_app. f_equal.
    - assert (X : hf = [] \/ exists h, hf = [(B "host", h)]) by (inversion HH; eauto). destruct X as [->|(h & ->)]; [now destruct (beq (B "host") x)|].
      destruct (beq_spec (B "host") x) as [<-|N]; [reflexivity|]. unfold values; plain. cbn [filter fst]. unfold eq_ic. rewrite L. destruct (beq_spec (lower (B "host")) x) as [E|_]; [now elim N|reflexivity].
    - unfold values at 1; plain. cbn [filter fst]. unfold eq_ic at 1. rewrite L. destruct (beq_spec (lower (B "content-length")) x) as [<-|N]; [reflexivity|].
      destruct (beq_spec (B "content-length") x) as [E|_]; [now elim N|reflexivity].
  Qed.
  Lemma ord_none x : x = B "content-length" \/ x = B "transfer-encoding" -> values x (hm_iter (c_hdrs q)) = [].
  Proof.
    intros HX. destruct HO as (_ & _ & _ & _ & _ & HP & _). pose proof W as (_ & _ & _ & _ & _ & WM).
    apply values_nil_iter; [now destruct HX as [->| ->]|exact WM|]. destruct (hm_contains x (c_hdrs q)) eqn:E; [|reflexivity]. apply hm_contains_in in E.
    exfalso. apply in_map_iff in E as ([k vs] & EK & I). cbn in EK. subst k. destruct WM as [_ F]. rewrite Forall_forall in F. destruct (F _ I) as (_ & NE & _). cbn [snd] in NE.
    destruct vs as [|v vs]; [easy|]. destruct (HP x v) as (_ & N1 & N2).
    - unfold hm_iter. apply in_flat_map. exists (x, v :: vs). split; [exact I|now left].
    - now destruct HX.
  Qed.
  Lemma ord_faultless hf : host_for q hf -> faultless (creq_fields q hf n).
  Proof.
    intros HH x g I FX. pose proof (ord_tidy hf HH) as TD. rewrite Forall_forall in TD. destruct (TD x I) as (NO & _ & _). apply name_ok_field in NO as (_ & _ & NL).
    assert (VI : forall y, lower (fst x) = y -> lower y = y -> In (snd x) (values y (creq_fields q hf n))).
    { intros y E L. unfold values; plain. apply in_map_iff. exists x. split; [reflexivity|]. apply filter_In. split; [exact I|]. unfold eq_ic. rewrite L, E. apply beq_refl. }
    destruct HO as (_ & _ & _ & _ & _ & _ & _ & _ & _ & _ & HN). fold n in HN.
    inversion FX as [a v NI NC|a v NI C1 C2|a v N1 N2 L]; subst.
    - specialize (VI _ NI eq_refl). rewrite (ord_values hf _ HH eq_refl), (ord_none _ (or_introl eq_refl)) in VI. cbn in VI. destruct VI as [<-|[]].
      apply (NC n). split; [|exact HN]. exists (to_dec n). split; [now left|apply to_dec_decimal].
    - specialize (VI _ NI eq_refl). rewrite (ord_values hf _ HH eq_refl), (ord_none _ (or_intror eq_refl)) in VI. cbn in VI. destruct VI.
    - cbn [fst] in NL. lia.
  Qed.
  Lemma ord_framing hf : host_for q hf -> framing (creq_fields q hf n) (Some n).
  Proof.
    intros HH. apply (fr_length _ (to_dec n)).
    - intros (v & E & _). rewrite (ord_values hf _ HH eq_refl), (ord_none _ (or_intror eq_refl)) in E. discriminate.
    - rewrite (ord_values hf _ HH eq_refl), (ord_none _ (or_introl eq_refl)). reflexivity.
    - split; [exists (to_dec n); split; [now left|apply to_dec_decimal]|]. apply HO.
  Qed.
  Lemma ord_host hf : host_for q hf -> values (B "host") (creq_fields q hf n) <> [].
  Proof.
    intros HH. rewrite (ord_values hf _ HH eq_refl). inversion HH; subst; cbn; try discriminate. assumption.
  Qed.
End Request.


Lemma has_continue hs : exists c, continues hs c.
Proof.
  unfold continues, wants_continue. destruct (values (B "expect") hs) as [|x l]; [exists false; intros [r X]; discriminate|].
  destruct (beq_spec x (B "100-continue")) as [->|N]; [exists true; eauto|exists false; intros [r [= E _]]; now elim N].
Qed.
Lemma request_told sev q : creq_wf q -> addressed q -> ordinary q -> let n := N.of_nat (length (src_data (b_src (c_body q)))) in
  let u := mkUri None None (u_path (c_uri q)) (u_query (c_uri q)) in
  exists h hf, c_encode q = CHead h /\ host_for q hf /\ head_block h /\
    (forall c, continues (creq_fields q hf n) c -> judged sev h c (Accept (c_meth q) u (creq_fields q hf n) (Some n))) /\
    (forall q', presents q' (c_meth q) u (creq_fields q hf n) (Some n) -> arrived q q').
Proof.
  intros W HA HO n u. pose proof HO as (NC & _ & _ & _ & _ & _ & HK & WB & CB & HL & HN). fold n in HL, HN.
  pose proof W as (Tm & _ & _ & _ & _ & WM). destruct (encode_defined q n WM HA HL) as (h & EH).
  destruct (encode_text q h WM EH) as (t & hf & n' & HT & HH & HN' & Eh). assert (n' = n) as -> by congruence. apply ord_target in HT; [|exact HO]. subst t.
  assert (R : request_head (c_meth q) (u_path (c_uri q) ++ match u_query (c_uri q) with Some x => [QM] ++ x | None => [] end) 1 (creq_fields q hf n) h).
  { exists (B "HTTP/1.1"), (flat_map header_line (creq_fields q hf n)). split.
    - rewrite Eh. change (B " HTTP/1.1") with ([SP] ++ B "HTTP/1.1"). change (B " ") with [SP]. rewrite <- !app_assoc. reflexivity.
    - split; [exact Tm|]. split; [now apply ord_chars|]. split; [now left|]. apply tidy_fields. now apply ord_tidy. }
  assert (L16 : (length (creq_fields q hf n) <= 16)%nat).
  { unfold creq_fields. destruct (connect_dec q) as [[_ E]|[-> _]]; [congruence|]. rewrite !app_length. cbn [length].
    assert (length hf <= 1)%nat by (inversion HH; cbn; lia). lia. }
  exists h, hf. split; [exact EH|]. split; [exact HH|]. split; [eapply strict_block, R|]. split.
  - intros c HC. eapply (j_accept _ _ _ (mkRline (c_meth q) _ 1)); [eapply strict_grammatical; [exact R|exact L16]|reflexivity|now apply ord_faultless|exact HC|now apply ord_host| |now apply ord_framing].
    cbn [l_target]. now apply ord_uri.
  - intros q' (P1 & P2 & P3 & P4 & P5). unfold arrived. rewrite P1, P2. ands; try reflexivity; [congruence|exact P4| | |].
    + intros x N1 N2. rewrite P5. transitivity (values (lower x) (creq_fields q hf n)).
      { unfold values; plain; unfold eq_ic. now rewrite lower_lower. }
      rewrite ord_values by (auto; apply lower_lower). destruct (beq_spec (B "host") (lower x)) as [E|_]; [now elim N1|].
      destruct (beq_spec (B "content-length") (lower x)) as [E|_]; [now elim N2|]. cbn [app]. rewrite values_get_all by exact WM. now rewrite lower_lower.
    + exists hf. split; [exact HH|]. change (B "host") with (lower (B "host")) at 1. rewrite P5. rewrite ord_values by (auto; reflexivity). rewrite values_app. reflexivity.
    + exists n, (to_dec n). split; [exact HL|]. split; [apply to_dec_numeral|]. change (B "content-length") with (lower (B "content-length")) at 1. rewrite P5.
      rewrite ord_values by (auto; reflexivity). rewrite ord_none by auto. reflexivity.
Qed.
Lemma request_written ev q h : (0 < e_bufcap ev)%nat -> c_encode q = CHead h -> wf_src (b_src (c_body q)) -> clean (b_src (c_body q)) ->
  forall w, accepting w -> exists F w', w_out w' = w_out w ++ h ++ src_data (b_src (c_body q)) /\
    forall s fuel, (F <= fuel)%nat -> connect ev fuel q s w = (w', snd (c_decode ev s)).
Proof.
  intros Hc EH WB CB w Aw. destruct (cenced_sends ev q h w Hc WB) as (F & w' & r & p & HF & HOut & _ & [(_ & Er & Ep)|(_ & X)]); [|elim X; auto].
  exists F, w'. split; [now rewrite <- Ep|]. intros s fuel Hf. unfold connect. rewrite EH, HF, Er by assumption. reflexivity.
Qed.
Lemma request_trip ev sev q : (0 < e_bufcap ev)%nat -> env_ok sev -> creq_wf q -> addressed q -> ordinary q ->
  exists m, (forall w s, accepting w -> exists F w', w_out w' = w_out w ++ m /\ forall fuel, (F <= fuel)%nat -> fst (connect ev fuel q s w) = w') /\
  forall tmo s extra wt, wf_src s -> fst (avail tmo (s_evs s)) = m ++ extra -> accepting wt -> prompt tmo wt ->
  exists s' wt' q' b, decode sev tmo s wt = (s', wt', OReq q' b) /\ arrived q q' /\
    forall sz, (forall i, 0 < sz i)%nat -> settles (fun fuel => into_bytes sev fuel sz (msg_body (q_len q') b)) (ROk (src_data (b_src (c_body q)))).
Proof.
  intros Hc He W HA HO. pose proof HO as (_ & _ & _ & _ & _ & _ & _ & WB & CB & HL & HN). set (n := N.of_nat (length (src_data (b_src (c_body q))))) in *.
  destruct (request_told sev q W HA HO) as (h & hf & EH & HH & HB & J & AR). fold n in J, AR.
  exists (h ++ src_data (b_src (c_body q))). split.
  - intros w s Aw. destruct (request_written ev q h Hc EH WB CB w Aw) as (F & w' & O & K). exists F, w'. split; [exact O|]. intros fuel Hf. now rewrite K.
  - intros tmo s extra wt Ws A Ha Hp. rewrite <- app_assoc in A. assert (OF : offers tmo s h) by (split; [exact Ws|]; split; [exact HB|eauto]).
    destruct (has_continue (creq_fields q hf n)) as (c & HC). specialize (J c HC).
    destruct (accept_decode sev tmo s h c _ _ _ _ He OF J wt Ha Hp) as (s' & wt' & q' & b & D & PR & _). pose proof PR as (_ & _ & P3 & _).
    exists s', wt', q', b. split; [exact D|]. split; [now apply AR|].
    intros sz Hz. destruct (request_fixed sev tmo s wt s' wt' q' b n sz Hz (ok_cap sev He) Ws D P3) as (w & rest & OF' & ED & H & _).
    rewrite <- (offers_unique tmo s h w OF OF') in ED. destruct (avail_prefix tmo (s_evs s)) as (y & EY). rewrite A in EY. unfold src_data in ED at 1. rewrite EY, <- !app_assoc in ED.
    apply app_inv_head in ED. destruct H as (H & _); [left; rewrite <- ED, app_length; unfold n; lia|].
    assert (EX : firstn (N.to_nat n) rest = src_data (b_src (c_body q))).
    { rewrite <- ED. unfold n. rewrite Nat2N.id, firstn_app, Nat.sub_diag, firstn_all. cbn [firstn]. apply app_nil_r. }
    now rewrite EX in H.
Qed.

(** ** Responses *)
Lemma lines_resp ls : ls <> [] -> Forall (fun l => l <> [] /\ ~ In LF l) ls -> resp_block (flat_lines ls ++ CRLF).
Proof.
  intros N F. destruct (lines_block ls N F) as [[p E] H]. split; [exists p; now left|].
  assert (F2 : Forall (fun l => ~ In LF l) ls) by (eapply Forall_impl; [|exact F]; cbn; tauto).
  intros a b Eab Hb (x & [-> | ->]); [now apply (H _ b Eab Hb); exists x|].
  change [LF; LF] with ([LF] ++ [LF]) in Eab. rewrite app_assoc, <- app_assoc in Eab. cbn [app] in Eab.
  destruct (lf_prefix ls (x ++ [LF]) b F2 Eab Hb) as (l1 & l & l2 & _ & EE). rewrite app_assoc in EE. change CRLF with ([CR] ++ [LF]) in EE. rewrite app_assoc in EE.
  apply app_inj_tail in EE as [EE _]. apply app_inj_tail in EE as [_ EE]. discriminate.
Qed.
Lemma three_digits_ok n : (100 <= n < 1000)%N -> three_digits n (to_dec n).
Proof.
  intros H. split; [apply to_dec_decimal|].
  assert (X : forallb (fun k => (length (to_dec (N.of_nat k)) =? 3)%nat) (seq 100 900) = true) by (vm_compute; reflexivity).
  rewrite forallb_forall in X. specialize (X (N.to_nat n)). rewrite N2Nat.id in X. apply Nat.eqb_eq, X, in_seq. lia.
Qed.
Lemma reason_charb_ok l : forallb (fun c => (32 <=? bv c)%N && negb (bv c =? 127)%N) l = true -> Forall reason_char l.
Proof. intros H. apply Forall_forall. intros c I. eapply forallb_forall in H; [|exact I]. left. lia. Qed.
Lemma reason_ok n : Forall reason_char (match canonical_reason n with Some r => r | None => B "<unknown status code>" end).
Proof.
  destruct (canonical_reason n) as [x|] eqn:E; [|apply reason_charb_ok; vm_compute; reflexivity]. revert E. unfold canonical_reason.
  repeat match goal with |- context [match ?p with _ => _ end] => destruct p end; intros E; try discriminate E; injection E as <-; apply reason_charb_ok; vm_compute; reflexivity.
Qed.
Lemma sent_ok ev r : resp_wf r -> env_wf ev -> sent_fields (e_date ev) r (head_fields ev r).
Proof.
  intros Wr We. destruct (head_response ev r Wr We) as (sl & fs & R & _ & H1 & H2 & H3 & H4). pose proof (head_read ev r Wr We []) as R2. rewrite R in R2. injection R2 as _ ->.
  unfold sent_fields. auto.
Qed.
Lemma octet_tidy : tidy (h_content_type, B "application/octet-stream").
Proof.
  split; [reflexivity|]. split; [reflexivity|]. apply visible_plain. apply Forall_forall. intros c I. 
  assert (X : forallb (fun c => ((33 <=? bv c) && (bv c <=? 126))%N) (B "application/octet-stream") = true) by reflexivity.
  rewrite forallb_forall in X. apply X in I. lia.
Qed.
Lemma chunked_plain : plain_value (B "chunked").
Proof. apply visible_plain. repeat constructor; vm_compute; discriminate. Qed.
Lemma head_tidy ev r : resp_wf r -> env_wf ev -> plain_value (e_date ev) -> (forall n v, In (n, v) (hm_iter (r_headers r)) -> plain_value v) -> Forall tidy (head_fields ev r).
Proof.
  intros Wr [We _] HD HP. unfold head_fields. constructor; [|apply Forall_app; split].
  - unfold framing_field. destruct (b_len (r_body r)) as [n|].
    + split; [reflexivity|]. cbn [snd]. split; [apply visible_bytes, to_dec_visible|apply visible_plain, to_dec_visible].
    + split; [reflexivity|]. split; [reflexivity|apply chunked_plain].
  - unfold date_field. destruct (hm_contains h_date (r_headers r)); [constructor|]. constructor; [|constructor]. split; [reflexivity|]. split; [exact We|exact HD].
  - apply Forall_forall. intros [k v] I. destruct (shown_in r Wr k v I) as [H1 H2]. split; [exact H1|]. split; [exact H2|]. cbn [snd].
    destruct (shown_app r) as (ct & E & Ec). rewrite E in I. apply in_app_or in I as [I|I]; [apply filter_In in I as [I _]; eauto|].
    rewrite Ec in I. destruct (hm_contains h_content_type (r_headers r)); [destruct I|]. destruct (b_len (r_body r)) as [[|?]|]; [destruct I| |]; destruct I as [[= <- <-]|[]]; apply octet_tidy.
Qed.
Lemma filter_le {A} (f : A -> bool) l : (length (filter f l) <= length l)%nat.
Proof. induction l as [|x l IH]; cbn; [lia|]. destruct (f x); cbn; lia. Qed.
Lemma head_count ev r : (length (hm_iter (r_headers r)) <= 125)%nat -> (length (head_fields ev r) <= 128)%nat.
Proof.
  intros L. unfold head_fields. cbn [length]. rewrite app_length. destruct (shown_app r) as (ct & -> & Ec). rewrite app_length.
  match goal with |- context [filter ?f ?l] => pose proof (filter_le f l) as X end.
  assert (length ct <= 1)%nat by (rewrite Ec; destruct (hm_contains _ _); [cbn; lia|]; destruct (b_len (r_body r)) as [[|?]|]; cbn; lia).
  assert (length (date_field ev r) <= 1)%nat by (unfold date_field; destruct (hm_contains h_date (r_headers r)); cbn [length]; auto).
  assert (A : forall a b c d, (a <= 125 -> b <= a -> c <= 1 -> d <= 1 -> S (d + (b + c)) <= 128)%nat) by (intros; lia). eapply A; eassumption.
Qed.
Lemma head_lresp trim ev r : resp_wf r -> env_wf ev -> plain_value (e_date ev) -> returnable r -> lresp trim 1 (r_status r) (head_fields ev r) (head_text ev r).
Proof.
  intros Wr We HD (HV & HS & HL & HP). rewrite head_text_fields. unfold status_line_text, status_text. rewrite HV.
  exists [], (B "HTTP/1.1"), (to_dec (r_status r)), (SP :: match canonical_reason (r_status r) with Some x => x | None => B "<unknown status code>" end), CRLF, (flat_map header_line (head_fields ev r)), CRLF.
  split; [cbn [version_text]; rewrite <- !app_assoc; reflexivity|]. split; [constructor|]. split; [now left|]. split; [now apply three_digits_ok|].
  split; [right; eexists; split; [reflexivity|apply reason_ok]|]. split; [now left|]. split; [|now left]. apply fields_lfields, tidy_fields. now apply head_tidy.
Qed.
Lemma head_resp_block ev r : resp_wf r -> env_wf ev -> plain_value (e_date ev) -> returnable r -> resp_block (head_text ev r).
Proof.
  intros Wr We HD (HV & HS & HL & HP). rewrite head_text_fields. destruct (fields_lines _ _ (tidy_fields _ (head_tidy ev r Wr We HD HP))) as (ls & -> & FL).
  assert (E : status_line_text r ++ CRLF ++ flat_lines ls ++ CRLF = flat_lines (status_line_text r :: ls) ++ CRLF).
  { unfold flat_lines. cbn [map concat]. now rewrite <- !app_assoc. }
  rewrite E. apply lines_resp; [discriminate|]. constructor; [|exact FL]. unfold status_line_text, status_text. rewrite HV. split; [discriminate|]. intros I.
  apply in_app_or in I as [I|I]; [revert I; notin|]. apply in_app_or in I as [[I|[]]|I]; [discriminate|]. apply in_app_or in I as [I|I].
  - pose proof (to_dec_visible (r_status r)) as V. unfold visible in V. rewrite Forall_forall in V. apply V in I. vm_compute in I. destruct I as [I _]. now elim I.
  - apply in_app_or in I as [[I|[]]|I]; [discriminate|]. pose proof (reason_ok (r_status r)) as V. rewrite Forall_forall in V. destruct (V _ I) as [[X _]|X]; [vm_compute in X; now elim X|discriminate].
Qed.
Lemma date_there ev r : resp_wf r -> env_wf ev -> dated (e_date ev) (head_fields ev r) = head_fields ev r /\ forall d, dated d (head_fields ev r) = head_fields ev r.
Proof.
  intros Wr We. destruct (sent_ok ev r Wr We) as (_ & H & _). unfold date_fields in H.
  assert (X : values (B "date") (head_fields ev r) <> []) by (rewrite H; destruct (values (B "date") (hm_iter (r_headers r))); discriminate).
  unfold dated. destruct (values (B "date") (head_fields ev r)); [easy|auto].
Qed.

Lemma response_trip_text sev cev r n : env_wf sev -> plain_value (e_date sev) -> (1 <= e_bufcap sev)%nat -> env_wf cev -> (0 < e_bufcap cev)%nat ->
  resp_wf r -> returnable r -> b_len (r_body r) = Some n -> wf_src (b_src (r_body r)) -> (n + N.of_nat (e_bufcap sev) < two64)%N ->
  (n <= N.of_nat (length (src_data (b_src (r_body r)))))%N -> (n = 0%N -> clean (b_src (r_body r))) ->
  let m := head_text sev r ++ firstn (N.to_nat n) (src_data (b_src (r_body r))) in
  (forall w, accepting w -> exists F w', w_out w' = w_out w ++ m /\ forall fuel, (F <= fuel)%nat -> send fuel sev r w = (w', ROk (N.of_nat (length m)))) /\
  ((N.of_nat (length m) < 8192 + n)%N -> forall s extra, wf_src s -> fst (avail false (s_evs s)) = m ++ extra ->
    exists b a fs, c_decode cev s = (b, COk a) /\ a_status a = r_status r /\ sent_fields (e_date sev) r fs /\ holds (a_hdrs a) fs /\ f_len (a_body a) = Some n /\
    forall sz, (forall i, 0 < sz i)%nat -> settles (fun fuel => into_bytes cev fuel sz (a_body a)) (ROk (firstn (N.to_nat n) (src_data (b_src (r_body r)))))).
Proof.
  intros We HD Hs Wc Hc Wr HR HB Ws Hsz Hle Hz. set (s0 := b_src (r_body r)) in *. set (p := firstn (N.to_nat n) (src_data s0)).
  assert (LP : N.of_nat (length p) = n) by (unfold p; rewrite firstn_length; lia).
  cbv zeta. split.
  - intros w Aw. destruct (fixed_send_run sev r n Hs HB Hsz Ws (S (src_size s0)) ltac:(unfold s0; lia)) as (O & k & R & P & Q). fold s0 in Q.
    assert (k = KOk) as ->.
    { destruct k; auto; exfalso; [destruct Q as [Q1 [Q2|Q2]]; [lia|auto]|exact Q|destruct Q; lia]. }
    destruct Q as [-> Q]. destruct (send_of_run sev r _ _ _ R ltac:(discriminate) w) as (F & w' & x & p' & S1 & S2 & S3 & S4 & S5).
    destruct S5 as [[-> ->]|[_ S5]]; [|now elim S5]. exists F, w'. split; [exact S4|]. intros fuel HF. rewrite (S1 fuel HF). cbn [kres].
    reflexivity.
  - intros HM s extra Wf A. rewrite app_length in HM. assert (HL : (N.of_nat (length (head_text sev r)) < 8192)%N) by lia. rewrite <- app_assoc in A.
    assert (D : delivers s (head_text sev r) (p ++ extra)) by (split; [exact Wf|]; split; [now apply head_resp_block|exact A]).
    destruct (decode_short cev Wc Hc _ _ _ D HL) as (b & (B1 & B2 & B3 & B4 & _) & ED & HJ). pose proof (sent_ok sev r Wr We) as SF. pose proof SF as (FF & _).
    unfold framing_fields in FF. rewrite HB in FF. destruct FF as (v & V1 & V2 & V3).
    assert (CL : cl_value v n). { split; [exists v; split; [now left|apply V2]|lia]. }
    pose proof HR as (_ & HSt & HC & _).
    assert (J : cjudge (e_trim cev) (head_text sev r) (CvLength (r_status r) (head_fields sev r) n)).
    { eapply cj_length; try eassumption; [|lia]. exists (head_text sev r), []. rewrite app_nil_r. split; [reflexivity|]. split; [now apply head_lresp|now apply head_count]. }
    apply HJ in J. cbn [canswers] in J. destruct J as (m & HH & EO). rewrite (proj2 (date_there sev r Wr We)) in HH.
    exists b, (mkCresp (r_status r) m (msg_body (Some n) (RFixed n b))), (head_fields sev r). split; [destruct (c_decode cev s); cbn [fst snd] in ED, EO; now rewrite ED, EO|].
    cbn [a_status a_hdrs a_body]. ands; auto. intros sz Hsz2. destruct (fixed_settles cev sz n b Hsz2 B1) as (rem & b2 & x & S & Hx).
    apply (bytes_settle cev sz (msg_body (Some n) (RFixed n b))) in S. destruct (avail_prefix false (s_evs s)) as (y & EY). rewrite A in EY. unfold src_data in B3 at 1. rewrite EY, <- !app_assoc in B3.
    apply app_inv_head in B3. destruct Hx as [[-> _]|(-> & X & _)]; [|exfalso; rewrite <- B3, app_length in X; lia].
    assert (EX : firstn (N.to_nat n) (br_data b) = p).
    { rewrite <- B3, firstn_app. rewrite (firstn_all2 p) by lia. replace (N.to_nat n - length p)%nat with 0%nat by lia. apply app_nil_r. }
    now rewrite EX in S.
Qed.

Lemma response_trip sev cev r n : env_wf sev -> plain_value (e_date sev) -> (1 <= e_bufcap sev)%nat -> env_wf cev -> (0 < e_bufcap cev)%nat ->
  resp_wf r -> returnable r -> b_len (r_body r) = Some n -> wf_src (b_src (r_body r)) -> (n + N.of_nat (e_bufcap sev) < two64)%N ->
  (n <= N.of_nat (length (src_data (b_src (r_body r)))))%N -> (n = 0%N -> clean (b_src (r_body r))) ->
  exists m, (forall w, accepting w -> exists F w', w_out w' = w_out w ++ m /\ forall fuel, (F <= fuel)%nat -> send fuel sev r w = (w', ROk (N.of_nat (length m)))) /\
  ((N.of_nat (length m) < 8192 + n)%N -> forall s extra, wf_src s -> fst (avail false (s_evs s)) = m ++ extra ->
    exists b a fs, c_decode cev s = (b, COk a) /\ a_status a = r_status r /\ sent_fields (e_date sev) r fs /\ holds (a_hdrs a) fs /\ f_len (a_body a) = Some n /\
    forall sz, (forall i, 0 < sz i)%nat -> settles (fun fuel => into_bytes cev fuel sz (a_body a)) (ROk (firstn (N.to_nat n) (src_data (b_src (r_body r)))))).
Proof. intros H1 H2 H3 H4 H5 H6 H7 H8 H9 H10 H11 H12. eexists. now apply (response_trip_text sev cev r n). Qed.

(** ** Bodies of responses *)
Lemma judge_short trim w v : cjudge trim w v -> v <> CvReject -> (N.of_nat (length w) < 8192)%N.
Proof. intros J N. inversion J; subst; try (now elim N); assumption. Qed.
Lemma chunked_response ev s w rest : env_ok ev -> delivers s w rest -> cjudge (e_trim ev) w CvChunked ->
  exists b f, c_decode ev s = (b, COk (mkCresp 200 [] f)) /\ f_len f = None /\
  forall p tr wire extra, src_data s = w ++ wire ++ extra -> fitting (e_deccap ev) p tr wire ->
    forall sz, (forall i, 0 < sz i)%nat -> settles (fun fuel => into_bytes ev fuel sz f) (ROk p) /\
      exists h, hm_wf h /\ (forall x, values x (hm_iter h) = values x tr) /\ settles (fun fuel => into_bytes_with_trailer ev fuel sz f) (TOk p (Some h)).
Proof.
  intros He D J. pose proof He as (We & _ & _ & _ & G). destruct (decode_short ev We (ok_cap ev He) _ _ _ D (judge_short _ _ _ J ltac:(discriminate))) as (b & (B1 & B2 & B3 & B4 & _) & ED & HJ).
  apply HJ in J. cbn [canswers] in J. exists b. set (f := msg_body None (RChunked [] (dec_new ev b))) in *. exists f. split; [destruct (c_decode ev s); cbn [fst snd] in ED, J; now rewrite ED, J|].
  split; [reflexivity|]. intros p tr wire extra ES (cw & n & z & tw & F1 & F2 & F3 & F4 & F5 & ->) sz P. rewrite B3 in ES. apply app_inv_head in ES.
  destruct (chunked_settles ev sz b P (ok_cap ev He) G) as (ns & d' & out & k & FN & E & K & S).
  assert (SB := bytes_settle ev sz f _ _ S). assert (ST := trailer_settle ev sz f _ _ S).
  pose proof (fresh_load ev b p tr cw n z tw extra ns d' out k G F1 F2 F3 F4 F5 B1 ES FN E) as Q. destruct K as [->| ->]; [|contradiction].
  destruct Q as (-> & (h & HCh & Wh & Vh) & _ & _). split; [exact SB|]. exists h. split; [exact Wh|]. split; [exact Vh|].
  assert (RV : recv_trailers false (RMsg (RChunked [] d')) = Got h) by (unfold recv_trailers, channel, body_trailers; now rewrite HCh).
  unfold with_trailer in ST. cbn [end_res fst snd f_own f msg_body] in ST. now rewrite RV in ST.
Qed.
(** A chunked response of the server, as the client returns it. *)
Lemma chunked_trip sev cev r bt : env_wf sev -> plain_value (e_date sev) -> env_ok cev -> resp_wf r -> returnable r -> b_len (r_body r) = None ->
  (N.of_nat (length (head_text sev r)) < 8192)%N -> forall p, fitting (e_deccap cev) p [] bt ->
  forall s extra, wf_src s -> fst (avail false (s_evs s)) = head_text sev r ++ bt ++ extra ->
  exists b f, c_decode cev s = (b, COk (mkCresp 200 [] f)) /\ f_len f = None /\
    forall sz, (forall i, 0 < sz i)%nat -> settles (fun fuel => into_bytes cev fuel sz f) (ROk p).
Proof.
  intros We HD Hc Wr HR HB HL p HF s extra Wf A.
  assert (D : delivers s (head_text sev r) (bt ++ extra)) by (split; [exact Wf|]; split; [now apply head_resp_block|exact A]).
  pose proof (sent_ok sev r Wr We) as (FF & _). unfold framing_fields in FF. rewrite HB in FF. destruct FF as (F1 & F2).
  pose proof HR as (_ & HSt & HC & _).
  assert (J : cjudge (e_trim cev) (head_text sev r) CvChunked).
  { apply (cj_chunked _ _ (r_status r) (head_fields sev r)); auto; [|eexists; exact F2].
    exists (head_text sev r), []. rewrite app_nil_r. split; [reflexivity|]. split; [now apply head_lresp|now apply head_count]. }
  destruct (chunked_response cev s _ _ Hc D J) as (b & f & E & L & K). exists b, f. split; [exact E|]. split; [exact L|]. intros sz P.
  destruct (avail_prefix false (s_evs s)) as (y & EY). rewrite A in EY.
  apply (K p [] bt (extra ++ y)); auto. unfold src_data. rewrite EY. now rewrite <- !app_assoc.
Qed.
Lemma length_response ev s w rest code hs n : env_wf ev -> (0 < e_bufcap ev)%nat -> delivers s w rest -> cjudge (e_trim ev) w (CvLength code hs n) ->
  exists b m f after, c_decode ev s = (b, COk (mkCresp code m f)) /\ holds m (dated (e_date ev) hs) /\ f_len f = Some n /\ src_data s = w ++ after /\
  forall sz, (forall i, 0 < sz i)%nat ->
    ((n <= N.of_nat (length after))%N \/ clean s -> settles (fun fuel => into_bytes ev fuel sz f) (ROk (firstn (N.to_nat n) after))) /\
    ((N.of_nat (length after) < n)%N -> ~ clean s -> settles (fun fuel => into_bytes ev fuel sz f) RErr).
Proof.
  intros We Hc D J. destruct (decode_short ev We Hc _ _ _ D (judge_short _ _ _ J ltac:(discriminate))) as (b & (B1 & B2 & B3 & B4 & _) & ED & HJ).
  apply HJ in J. cbn [canswers] in J. destruct J as (m & HH & EO). exists b, m, (msg_body (Some n) (RFixed n b)), (br_data b).
  split; [destruct (c_decode ev s); cbn [fst snd] in ED, EO; now rewrite ED, EO|]. ands; auto. intros sz P.
  destruct (fixed_settles ev sz n b P B1) as (rem & b2 & x & S & Hx). apply (bytes_settle ev sz (msg_body (Some n) (RFixed n b))) in S.
  split; intros C.
  - destruct Hx as [[-> _]|(-> & L & X)]; [exact S|]. destruct C as [C|C]; [lia|]. elim X. now apply B4.
  - intros NC. destruct Hx as [[-> X]|(-> & L & X)]; [|exact S]. elim NC. apply B4, X, C.
Qed.
Lemma bare_response ev s w rest code hs : env_wf ev -> (0 < e_bufcap ev)%nat -> delivers s w rest -> cjudge (e_trim ev) w (CvNone code hs) ->
  exists b m f, c_decode ev s = (b, COk (mkCresp code m f)) /\ holds m (dated (e_date ev) hs) /\ 
  forall sz, (forall i, 0 < sz i)%nat -> settles (fun fuel => into_bytes ev fuel sz f) (ROk []).
Proof.
  intros We Hc D J. destruct (decode_short ev We Hc _ _ _ D (judge_short _ _ _ J ltac:(discriminate))) as (b & (B1 & B2 & B3 & B4 & _) & ED & HJ).
  apply HJ in J. cbn [canswers] in J. destruct J as (m & HH & EO). exists b, m, (BodyRead.full body_empty).
  split; [destruct (c_decode ev s); cbn [fst snd] in ED, EO; now rewrite ED, EO|]. split; [exact HH|]. intros sz P.
  destruct (source_settles ev sz (b_src body_empty) P) as (s' & x & S & [[-> _]|[_ X]]); [constructor| |elim X; split; [constructor|reflexivity]].
  exact (bytes_settle ev sz (BodyRead.full body_empty) _ _ S).
Qed.
