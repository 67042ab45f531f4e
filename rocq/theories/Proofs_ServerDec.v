(** What [decode] makes of a request head, against SpecReq.v. *)
From Verif Require Import ServerDec SpecChunked SpecHead SpecReq Lemmas Proofs_Copy Proofs_Buf Proofs_Head Proofs_Map Proofs_Parse
  Proofs_ReqHead Proofs_ReqParse Proofs_Text.

(** ** Content-length values *)
Lemma decdig_iff c v : decdig c v <-> (v < 10)%nat /\ c = digitc (N.of_nat v).
Proof.
  split.
  - intros H. assert (Hv : (v < 10)%nat).
    { assert (v < length (B "0123456789"))%nat by (apply nth_error_Some; unfold decdig in H; congruence). exact H0. }
    split; [assumption|]. pose proof (decdig_digitc (N.of_nat v) ltac:(lia)) as D. rewrite Nat2N.id in D.
    unfold decdig in *. congruence.
  - intros [H ->]. rewrite <- (Nat2N.id v) at 2. apply decdig_digitc. lia.
Qed.
Lemma decimal_val d n : decimal d n ->
  d <> [] /\ Forall (fun c => exists d, (d < 10)%N /\ c = digitc d) d /\ base_val digit_num 10 d = n.
Proof.
  induction 1 as [c v H|l n c v _ (Hne & F & E) H]; apply decdig_iff in H as [Hv ->].
  - ands; [discriminate| |].
    + constructor; [|constructor]. exists (N.of_nat v). split; [lia|reflexivity].
    + unfold base_val. cbn [fold_left]. rewrite digit_num_digitc by lia. lia.
  - ands.
    + destruct l; discriminate.
    + apply Forall_app. split; [assumption|]. constructor; [|constructor]. exists (N.of_nat v). split; [lia|reflexivity].
    + rewrite base_val_snoc, E, digit_num_digitc by lia. reflexivity.
Qed.
Lemma dec_val_digit c k : dec_val c = Some k -> (k < 10)%N /\ c = digitc k.
Proof.
  unfold dec_val, is_digit, in_range. destruct ((48 <=? bv c)%N && (bv c <=? 57)%N) eqn:E; [|discriminate]. intros [= <-].
  split; [lia|]. apply bv_inj. rewrite digitc_bv by lia. destruct (bv c - 48 <? 10)%N eqn:E2; lia.
Qed.
Lemma parse_digits_inv l : forall acc n, parse_digits l acc = Some n -> (acc < two64)%N ->
  Forall (fun c => exists d, (d < 10)%N /\ c = digitc d) l /\
  fold_left (fun a c => a * 10 + digit_num c)%N l acc = n /\ (n < two64)%N.
Proof.
  induction l as [|c l IH]; intros acc n; cbn [parse_digits fold_left].
  - intros [= <-]. auto.
  - destruct (dec_val c) as [k|] eqn:EC; [|discriminate]. apply dec_val_digit in EC as [Hk ->].
    destruct (two64 <=? acc * 10 + k)%N eqn:E2; [discriminate|]. intros H Ha.
    apply IH in H as (F & E & L); [|lia]. rewrite digit_num_digitc by lia. ands; auto. constructor; [eauto|assumption].
Qed.
Lemma decimal_parse d n : decimal d n -> (n < two64)%N -> parse_digits d 0 = Some n.
Proof.
  intros D L. destruct (decimal_val _ _ D) as (_ & F & E). unfold base_val in E.
  rewrite parse_digits_gen; [now rewrite E|assumption|now rewrite E].
Qed.
Lemma parse_decimal d n : d <> [] -> parse_digits d 0 = Some n -> decimal d n /\ (n < two64)%N.
Proof.
  intros Hne H. apply parse_digits_inv in H as (F & E & L); [|reflexivity]. split; [|assumption].
  pose proof (digits_decimal d Hne F) as D. unfold base_val in D. now rewrite E in D.
Qed.
Lemma digit_not_plus d : (d < 10)%N -> Ascii.eqb (digitc d) (ascii_of_N 43) = false.
Proof. intros H. rewrite ascii_eqb_bv, digitc_bv, (bv_of_N 43) by lia. destruct (d <? 10)%N eqn:E; lia. Qed.
Lemma cl_value_iff v n : parse_usize v = Some n <-> cl_value v n.
Proof.
  unfold parse_usize, cl_value. split.
  - destruct v as [|c r]; [discriminate|]. destruct (Ascii.eqb_spec c (ascii_of_N 43)) as [->|N].
    + destruct r as [|c r]; [discriminate|]. intros H. apply parse_decimal in H as [D L]; [|discriminate]. split; [|assumption]. eauto.
    + intros H. apply parse_decimal in H as [D L]; [|discriminate]. split; [|assumption]. eauto.
  - intros [(d & [->| ->] & D) L].
    + destruct (decimal_val _ _ D) as (Hne & F & _). destruct d as [|c r]; [easy|]. inversion F as [|? ? (k & Hk & ->) _]; subst.
      rewrite digit_not_plus by assumption. now apply decimal_parse.
    + destruct (decimal_val _ _ D) as (Hne & _). rewrite Ascii.eqb_refl. destruct d as [|c r]; [easy|]. now apply decimal_parse.
Qed.
Lemma cl_value_fun v n m : cl_value v n -> cl_value v m -> n = m.
Proof. intros H1 H2. apply cl_value_iff in H1, H2. congruence. Qed.

(** ** Transfer-encoding values *)
Lemma lower_lit_not_ws v s : lower v = B s -> forallb (fun c => negb (is_trim_ws c)) (B s) = true -> Forall (fun c => is_trim_ws c = false) v.
Proof.
  intros E H. rewrite <- E in H. clear E. unfold lower in H. induction v as [|c v IH]; constructor; cbn [map forallb] in H;
    apply andb_true_iff in H as [H1 H2]; [|auto].
  assert (K : forall c, implb (negb (is_trim_ws (lowerc c))) (negb (is_trim_ws c)) = true) by (apply byte_forall; vm_compute; reflexivity).
  specialize (K c). rewrite H1 in K. cbn in K. now destruct (is_trim_ws c).
Qed.
Lemma ltrim_id v : Forall (fun c => is_trim_ws c = false) v -> ltrim v = v.
Proof. intros F. destruct v as [|c v]; [reflexivity|]. inversion F; subst. cbn. now rewrite H1. Qed.
Lemma trim_id v : Forall (fun c => is_trim_ws c = false) v -> trim v = v.
Proof. intros F. unfold trim. rewrite (ltrim_id v F). etransitivity; [apply f_equal, ltrim_id; now apply Forall_rev|apply rev_involutive]. Qed.
Lemma te_trim_chunked v : te_chunked v -> eq_ic (trim v) (B "chunked") = true.
Proof.
  unfold te_chunked, te_identity; plain. intros H. rewrite trim_id; [unfold eq_ic; rewrite H; reflexivity|]. eapply lower_lit_not_ws; [exact H|reflexivity].
Qed.
Lemma te_trim_identity v : te_identity v -> eq_ic (trim v) (B "chunked") = false.
Proof.
  unfold te_chunked, te_identity; plain. intros H. rewrite trim_id; [unfold eq_ic; rewrite H; reflexivity|]. eapply lower_lit_not_ws; [exact H|reflexivity].
Qed.

(** ** One header *)
Definition fail_of (f : fault) : fail :=
  match f with BadLength => FInvalidCL | BadEncoding => FUnsupportedTE | LongName => FHeaderName end.
Definition wf_field (nv : bytes * bytes) : Prop := token (fst nv) /\ Forall value_char (snd nv).

Lemma eq_ic_name n x : lower x = x -> (eq_ic n x = true <-> name_is n x).
Proof. intros L. unfold eq_ic, name_is; plain. rewrite L. apply beq_eq. Qed.

Definition scan_one (nv : bytes * bytes) (a : hscan) : fail + hscan :=
  match scan_special nv a with inl f => inl f | inr a' => scan_append nv a' end.
Lemma scan_cons nv r a : scan_headers (nv :: r) a =
  match scan_one nv a with inl f => inl f | inr a' => scan_headers r a' end.
Proof. unfold scan_one. cbn [scan_headers]. destruct (scan_special nv a); reflexivity. Qed.
Lemma scan_app h1 h2 : forall a, scan_headers (h1 ++ h2) a =
  match scan_headers h1 a with inl f => inl f | inr a' => scan_headers h2 a' end.
Proof.
  induction h1 as [|nv h1 IH]; intros a; [reflexivity|]. cbn [app]. rewrite !scan_cons. destruct (scan_one nv a); [reflexivity|apply IH].
Qed.

Lemma token_header_name n : token n -> header_name n = if (N.of_nat (length n) <=? 65535)%N then Some (lower n) else None.
Proof.
  intros [Hn F]. unfold header_name. destruct n as [|c n]; [easy|]. set (l := c :: n) in *.
  assert (E : forallb is_tchar l = true) by (apply forallb_forall; rewrite Forall_forall in F; exact F). now rewrite E.
Qed.
Lemma values_header_value v : Forall value_char v -> header_value v = Some v.
Proof.
  intros F. unfold header_value. assert (E : forallb is_value_byte v = true); [|now rewrite E].
  apply forallb_forall. rewrite Forall_forall in F. intros c I. apply value_char_iff. now apply F.
Qed.
Lemma lower_len n x : name_is n x -> length n = length x.
Proof. intros <-. now rewrite lower_length. Qed.

Definition upd_cl (nv : bytes * bytes) (o : option N) : option N :=
  if eq_ic (fst nv) (B "content-length") then parse_usize (snd nv) else o.
Definition upd_te (nv : bytes * bytes) (o : bool) : bool :=
  if eq_ic (fst nv) (B "transfer-encoding") then eq_ic (snd nv) (B "chunked") else o.
Definition upd_host (nv : bytes * bytes) (o : bool) : bool := eq_ic (fst nv) (B "host") || o.

(** A field without fault. *)
Lemma scan_good nv a : wf_field nv -> (forall f, ~ faulty nv f) ->
  exists te, scan_one nv a =
    inr (mkScan (upd_cl nv (h_cl a)) (upd_host nv (h_hashost a)) te (if te then upd_te nv (h_chunked a) else h_chunked a)
                (hm_append (lower (fst nv)) (snd nv) (h_map a))) /\
    te = (eq_ic (fst nv) (B "transfer-encoding") || h_te a).
Proof.
  destruct nv as [n v]. intros [Tn Fv] HF. unfold scan_one, scan_special, scan_append, upd_cl, upd_te, upd_host.
  cbn [fst snd] in *. rewrite (token_header_name n Tn), (values_header_value v Fv).
  change h_content_length with (B "content-length"). change h_transfer_encoding with (B "transfer-encoding"). change h_host with (B "host").
  destruct (eq_ic n (B "content-length")) eqn:E1.
  { apply eq_ic_name in E1; [|reflexivity]. unfold name_is in E1; plain.
    assert (Q2 : eq_ic n (B "transfer-encoding") = false) by (unfold eq_ic; rewrite E1; reflexivity).
    assert (Q3 : eq_ic n (B "host") = false) by (unfold eq_ic; rewrite E1; reflexivity). rewrite Q2, Q3.
    destruct (parse_usize v) as [k|] eqn:EP.
    - pose proof (lower_len _ _ E1) as LL. rewrite LL. cbn [length]. cbn -[lower hm_append]. exists (h_te a). split; [|reflexivity].
      destruct (h_te a); reflexivity.
    - exfalso. apply (HF BadLength). constructor; [assumption|]. intros k X. apply cl_value_iff in X. congruence. }
  destruct (eq_ic n (B "transfer-encoding")) eqn:E2.
  { apply eq_ic_name in E2; [|reflexivity]. unfold name_is in E2; plain.
    assert (Q3 : eq_ic n (B "host") = false) by (unfold eq_ic; rewrite E2; reflexivity). rewrite Q3.
    pose proof (lower_len _ _ E2) as LL. rewrite LL.
    destruct (beq_spec (lower v) (B "chunked")) as [C|C].
    - cbn -[lower hm_append eq_ic trim B]. rewrite (te_trim_chunked v C). exists true. split; [|reflexivity].
      unfold eq_ic at 1. rewrite C. reflexivity.
    - destruct (beq_spec (lower v) (B "identity")) as [I|I].
      + cbn -[lower hm_append eq_ic trim B]. rewrite (te_trim_identity v I). exists true. split; [|reflexivity].
        unfold eq_ic at 1. rewrite I. reflexivity.
      + exfalso. apply (HF BadEncoding). constructor; assumption. }
  assert (LN : (N.of_nat (length n) <=? 65535)%N = true).
  { destruct (N.of_nat (length n) <=? 65535)%N eqn:L; [reflexivity|]. exfalso. apply (HF LongName). constructor; [| |lia].
    - intros X. apply eq_ic_name in X; [congruence|reflexivity].
    - intros X. apply eq_ic_name in X; [congruence|reflexivity]. }
  rewrite LN. exists (h_te a). split; [|reflexivity].
  destruct (eq_ic n (B "host")); destruct (h_te a); reflexivity.
Qed.

(** A faulty one. *)
Lemma scan_bad nv a f : wf_field nv -> faulty nv f -> scan_one nv a = inl (fail_of f).
Proof.
  intros [Tn Fv] HF. unfold scan_one, scan_special, scan_append.
  change h_content_length with (B "content-length"). change h_transfer_encoding with (B "transfer-encoding"). change h_host with (B "host").
  inversion HF as [n v H1 H2|n v H1 H2 H3|n v H1 H2 H3]; subst; cbn [fst snd fail_of] in *; unfold name_is in *; plain.
  - rewrite (proj2 (eq_ic_name n _ eq_refl) H1). destruct (parse_usize v) as [k|] eqn:E; [|reflexivity].
    exfalso. apply (H2 k). now apply cl_value_iff.
  - assert (Q : eq_ic n (B "content-length") = false) by (unfold eq_ic; rewrite H1; reflexivity).
    rewrite Q, (proj2 (eq_ic_name n _ eq_refl) H1). apply beq_neq in H2, H3. cbv zeta. unfold te_chunked, te_identity in *; plain. now rewrite H2, H3.
  - destruct (eq_ic n (B "content-length")) eqn:Q1; [now apply eq_ic_name in Q1|].
    destruct (eq_ic n (B "transfer-encoding")) eqn:Q2; [now apply eq_ic_name in Q2|].
    rewrite (token_header_name n Tn). destruct (N.of_nat (length n) <=? 65535)%N eqn:L; [lia|].
    destruct (eq_ic n (B "host")); reflexivity.
Qed.

(** ** All headers *)
Lemma last_opt_snoc {A} (l : list A) x : last_opt (l ++ [x]) = Some x.
Proof. induction l as [|y l IH]; [reflexivity|]. cbn. destruct (l ++ [x]) eqn:E; [now destruct l|exact IH]. Qed.
Lemma values_snoc n hs nv : values n (hs ++ [nv]) = values n hs ++ (if eq_ic (fst nv) n then [snd nv] else []).
Proof. rewrite values_app. unfold values at 2; plain. cbn [filter]. now destruct (eq_ic (fst nv) n). Qed.

Definition is_some {A} (o : option A) : bool := match o with Some _ => true | None => false end.

Lemma scan_all hs : Forall wf_field hs -> faultless hs -> exists a, scan_headers hs scan0 = inr a /\
  h_cl a = match last_opt (values (B "content-length") hs) with Some v => parse_usize v | None => None end /\
  (forall v, In v (values (B "content-length") hs) -> exists n, cl_value v n) /\
  h_hashost a = is_some (last_opt (values (B "host") hs)) /\
  h_te a = is_some (last_opt (values (B "transfer-encoding") hs)) /\
  h_chunked a = match last_opt (values (B "transfer-encoding") hs) with Some v => eq_ic v (B "chunked") | None => false end /\
  hm_wf (h_map a) /\ (forall n, hm_get_all (lower n) (h_map a) = values n hs).
Proof.
  induction hs as [|nv hs IH] using rev_ind; intros F NF.
  - exists scan0. ands; try reflexivity. { intros v []. } apply hm_empty_wf.
  - apply Forall_app in F as [F1 F2]. inversion F2 as [|? ? Wn _]; subst.
    destruct IH as (a & E & C & CV & HO & TE & CH & W & G); [assumption|intros x g I; apply NF, in_or_app; now left|].
    destruct (scan_good nv a Wn) as (te & E1 & Ete); [intros f; apply NF, in_or_app; right; now left|].
    rewrite scan_app, E, scan_cons, E1. cbn [scan_headers]. eexists. split; [reflexivity|]. cbn [h_cl h_hashost h_te h_chunked h_map].
    rewrite !values_snoc. unfold upd_cl, upd_te, upd_host. ands.
    + destruct (eq_ic (fst nv) (B "content-length")); [now rewrite last_opt_snoc|now rewrite app_nil_r].
    + intros v I. apply in_app_or in I as [I|I]; [now apply CV|].
      destruct (eq_ic (fst nv) (B "content-length")) eqn:EN; [|easy]. destruct I as [<-|[]].
      destruct (parse_usize (snd nv)) as [k|] eqn:EP; [exists k; now apply cl_value_iff|].
      exfalso. apply (NF nv BadLength); [apply in_or_app; right; now left|]. destruct nv as [n v]. constructor.
      * now apply eq_ic_name in EN.
      * intros k X. apply cl_value_iff in X. cbn in EP. congruence.
    + destruct (eq_ic (fst nv) (B "host")); [now rewrite last_opt_snoc|now rewrite app_nil_r].
    + rewrite Ete. destruct (eq_ic (fst nv) (B "transfer-encoding")); [now rewrite last_opt_snoc|now rewrite app_nil_r].
    + rewrite Ete. destruct (eq_ic (fst nv) (B "transfer-encoding")); [now rewrite last_opt_snoc|].
      rewrite app_nil_r. cbn [orb]. rewrite <- CH. now destruct (h_te a).
    + destruct nv as [n v]. destruct Wn as [Tn Fv]. cbn [fst snd] in *. apply hm_append_wf; [assumption| |].
      * pose proof (token_header_name n Tn) as HN. destruct (N.of_nat (length n) <=? 65535)%N eqn:L.
        { apply header_name_ok in HN. tauto. }
        exfalso. assert (Hl : forall x, name_is n x -> (N.of_nat (length x) < 65536)%N -> False) by (intros x X; apply lower_len in X; lia).
        apply (NF (n, v) LongName); [apply in_or_app; right; now left|]. constructor; [| |lia]; intros X; apply (Hl _ X); reflexivity.
      * rewrite forallb_forall. rewrite Forall_forall in Fv. intros c I. now apply value_char_iff, Fv.
    + intros x. rewrite get_all_append, G, values_snoc. reflexivity.
Qed.

Lemma scan_fault hs f : Forall wf_field hs -> first_fault hs f -> scan_headers hs scan0 = inl (fail_of f).
Proof.
  intros F (a & nv & b & -> & HA & HF). apply Forall_app in F as [F1 F2]. inversion F2 as [|? ? Wn _]; subst.
  destruct (scan_all a F1 HA) as (x & E & _). rewrite scan_app, E, scan_cons, (scan_bad nv x f Wn HF). reflexivity.
Qed.

(** ** Fields of a head *)
Lemma lfields_wf trim hs w : lfields trim hs w -> Forall wf_field hs.
Proof.
  induction 1 as [|n v l hs w (ws & raw & ws2 & nl & _ & Tn & _ & FV & _ & _ & E & _) _ IH]; constructor; [|assumption].
  split; [exact Tn|]. cbn [snd]. rewrite E in FV. now apply Forall_app in FV.
Qed.
Lemma lhead_wf trim rl hs w : lhead trim rl hs w -> Forall wf_field hs.
Proof. intros (bl & ver & nl & fw & nl2 & _ & _ & _ & _ & _ & _ & L & _). eapply lfields_wf, L. Qed.

Lemma grammatical_parse trim rl hs w : grammatical trim rl hs w <->
  exists q, parse_request trim 16 w = HDone q /\ rl = mkRline (q_method q) (q_path q) (q_version q) /\ hs = q_headers q.
Proof.
  split.
  - intros (x & y & -> & L & Hk). exists (mkHreq (l_method rl) (l_target rl) (l_minor rl) hs y). split; [|destruct rl; auto].
    apply parse_request_iff. exists x. cbn. destruct rl. auto.
  - intros (q & P & -> & ->). apply parse_request_iff in P as (x & -> & L & Hk). exists x, (q_rest q). auto.
Qed.
Lemma grammatical_fun trim rl hs rl' hs' w : grammatical trim rl hs w -> grammatical trim rl' hs' w -> rl = rl' /\ hs = hs'.
Proof.
  rewrite !grammatical_parse. intros (q & P & -> & ->) (q' & P' & -> & ->). rewrite P in P'. injection P' as <-. auto.
Qed.

Lemma version_cases trim rl hs w : lhead trim rl hs w -> l_minor rl = 1%N \/ l_minor rl = 0%N.
Proof. intros (bl & ver & nl & fw & nl2 & _ & _ & _ & _ & [[-> _]|[-> _]] & _); auto. Qed.
Lemma token_method m : token m -> method_of m = Some m.
Proof.
  intros [Hn F]. unfold method_of. destruct m as [|c m]; [easy|].
  assert (E : forallb is_tchar (c :: m) = true) by (apply forallb_forall; rewrite Forall_forall in F; exact F). now rewrite E.
Qed.

(** ** [parse_head] *)
Lemma parse_head_bad ev w : (forall rl hs, ~ grammatical (e_trim ev) rl hs w) ->
  parse_head ev w = inl FHeadParse \/ parse_head ev w = inl FMalformedHead.
Proof.
  intros H. unfold parse_head. destruct (parse_request (e_trim ev) 16 w) as [q| |] eqn:E; auto.
  exfalso. apply (H (mkRline (q_method q) (q_path q) (q_version q)) (q_headers q)). apply grammatical_parse. eauto.
Qed.
Lemma parse_head_good ev w rl hs : grammatical (e_trim ev) rl hs w ->
  parse_head ev w =
    if (l_minor rl =? 1)%N then
      match scan_headers hs scan0 with inl f => inl f | inr a => inr (l_method rl, l_target rl, a) end
    else inl FHttp10.
Proof.
  intros G. assert (Tm : token (l_method rl)).
  { destruct G as (x & y & _ & (bl & ver & nl & fw & nl2 & _ & _ & Tm & _) & _). exact Tm. }
  apply grammatical_parse in G as (q & P & -> & ->). unfold parse_head. rewrite P. cbn [l_minor l_method l_target] in *.
  now rewrite token_method.
Qed.

(** ** Writing *)
Definition wsuf (w w' : wtr) : Prop := exists pre, w_evs w = pre ++ w_evs w'.
Lemma wsuf_refl w : wsuf w w. Proof. now exists []. Qed.
Lemma wsuf_trans a b c : wsuf a b -> wsuf b c -> wsuf a c.
Proof. intros [x Hx] [y Hy]. exists (x ++ y). now rewrite Hx, Hy, app_assoc. Qed.
Lemma wsuf_forall P a b : wsuf a b -> Forall P (w_evs a) -> Forall P (w_evs b).
Proof. intros [x ->] F. now apply Forall_app in F. Qed.
Lemma w_write_suf d w w' r : w_write d w = (w', r) -> wsuf w w'.
Proof. unfold w_write, wsuf. destruct (w_evs w) as [|[k|f|] l]; intros [= <- <-]; cbn; [exists []|exists [WAcc k]|exists [WPend f]|exists [WFail]]; reflexivity. Qed.
Lemma w_flush_suf w w' r : w_flush w = (w', r) -> wsuf w w'.
Proof.
  unfold w_flush, wsuf. destruct (w_evs w) as [|[k|f|] l] eqn:E; intros [= <- <-]; cbn; rewrite ?E; 
  [exists []|exists []|exists [WPend f]|exists [WFail]]; reflexivity.
Qed.

Lemma write_go tmo : forall fuel d w w' r, write_all_go fuel tmo d w = (w', r) -> (length d + length (w_evs w) < fuel)%nat ->
  wsuf w w' /\ exists p, prefix p d /\ w_out w' = w_out w ++ p /\
  ((r = ROk tt /\ p = d) \/ (r = RErr /\ ~ accepting w) \/ (r = RTimeout /\ ~ prompt tmo w)).
Proof.
  induction fuel as [|fuel IH]; intros d w w' r; [lia|]. cbn [write_all_go].
  destruct d as [|c d]. { intros [= <- <-] _. split; [apply wsuf_refl|]. exists []. rewrite app_nil_r. ands; auto. now exists []. }
  set (D := c :: d) in *. unfold w_write. destruct (w_evs w) as [|[k|f|] l] eqn:E; cbn [length]; intros H L.
  - change (length D) with (S (length d)) in H. 
    assert (Y : skipn (S (length d)) D = []) by (apply skipn_all2; subst D; cbn; lia). rewrite Y in H.
    destruct fuel; cbn in H; injection H as <- <-; (split; [exists []; now rewrite E|]; exists D; ands; [apply prefix_refl|reflexivity|auto]).
  - destruct (Nat.min k (length D)) as [|j] eqn:EK.
    + injection H as <- <-. split; [exists [WAcc k]; exact E|]. exists []. cbn. rewrite app_nil_r. ands; [now exists D|reflexivity|].
      right; left. split; [reflexivity|]. unfold accepting. rewrite E. intros A. inversion A; subst. cbn in *. lia.
    + apply IH in H as ([pre S1] & p & P1 & P2 & P3).
      2:{ cbn [w_evs]. rewrite skipn_length. lia. }
      cbn [w_evs w_out] in *. split; [exists (WAcc k :: pre); rewrite E, S1; reflexivity|].
      exists (firstn (S j) D ++ p). rewrite P2, app_assoc. ands; [|reflexivity|].
      * destruct P1 as [q P1]. exists q. rewrite <- app_assoc, <- P1. symmetry. apply firstn_skipn.
      * destruct P3 as [[-> ->]|[[-> N]|[-> N]]]; [left; split; [reflexivity|apply firstn_skipn]|right; left|right; right]; (split; [reflexivity|]); intros A; apply N.
        -- unfold accepting in *. rewrite E in A. now inversion A.
        -- intros T. specialize (A T). rewrite E in A. now inversion A.
  - destruct (tmo && f)%bool eqn:TF.
    + injection H as <- <-. split; [exists [WPend f]; exact E|]. exists []. cbn. rewrite app_nil_r. ands; [now exists D|reflexivity|].
      right; right. split; [reflexivity|]. apply andb_true_iff in TF as [-> ->]. intros A. specialize (A eq_refl). rewrite E in A. inversion A; congruence.
    + apply IH in H as ([pre S1] & p & P1 & P2 & P3).
      2:{ cbn [w_evs]. lia. }
      cbn [w_evs w_out] in *. split; [exists (WPend f :: pre); rewrite E, S1; reflexivity|].
      exists p. ands; auto. destruct P3 as [P3|[[-> N]|[-> N]]]; [now left|right; left|right; right]; (split; [reflexivity|]); intros A; apply N.
      * unfold accepting in *. rewrite E in A. now inversion A.
      * intros T. specialize (A T). rewrite E in A. now inversion A.
  - injection H as <- <-. split; [exists [WFail]; exact E|]. exists []. cbn. rewrite app_nil_r. ands; [now exists D|reflexivity|].
    right; left. split; [reflexivity|]. unfold accepting. rewrite E. intros A. inversion A; subst. assumption.
Qed.
Lemma write_all_spec tmo d w w' r : write_all tmo d w = (w', r) ->
  wsuf w w' /\ exists p, prefix p d /\ w_out w' = w_out w ++ p /\
  ((r = ROk tt /\ p = d) \/ (r = RErr /\ ~ accepting w) \/ (r = RTimeout /\ ~ prompt tmo w)).
Proof. intros H. eapply write_go; [exact H|lia]. Qed.

(** ** [decode] *)
Definition interim (c : bool) (tmo : bool) (w : wtr) : wtr * rres unit :=
  if c then write_all tmo continue_text w else (w, ROk tt).
Definition body_reader (ev : env) (len : option N) (b : brd) : rbody :=
  match len with None => RChunked [] (dec_new ev b) | Some n => RFixed n b end.
Definition answers (ev : env) (v : verdict) (b : brd) (o : outcome) : Prop :=
  match v with
  | Refuse code => exists f, o = OFail f /\ fail_response f = Some (plain_response code) /\ fail_is_fatal f = (code =? 501)%N
  | Accept m u hs len => exists h, o = OReq (mkRhead m u h len) (body_reader ev len b) /\ hm_wf h /\
      forall n, hm_get_all (lower n) h = values n hs
  end.
Definition after_interim (r : rres unit) (o : outcome) : outcome :=
  match r with ROk _ => o | RErr => OFail FConnLost | RTimeout => OTimeout | RPanic | RFuel => OFuel end.

Lemma last_opt_none {A} (l : list A) : last_opt l = None <-> l = [].
Proof. split; [|now intros ->]. destruct l as [|x l] using rev_ind; [reflexivity|]. now rewrite last_opt_snoc. Qed.
Lemma last_opt_in {A} (l : list A) x : last_opt l = Some x -> In x l.
Proof. destruct l as [|y l] using rev_ind; [discriminate|]. rewrite last_opt_snoc. intros [= <-]. apply in_or_app. right. now left. Qed.

Lemma get_first n h hs : (forall n, hm_get_all (lower n) h = values n hs) -> hm_get (lower n) h = hd_error (values n hs).
Proof. intros G. rewrite <- G. reflexivity. Qed.

Lemma judge_parse ev w c v : judge (e_trim ev) (parse_uri (e_uri ev)) w c v ->
  match parse_head ev w with
  | inl f => c = false /\ exists code, v = Refuse code /\ fail_response f = Some (plain_response code) /\ fail_is_fatal f = (code =? 501)%N
  | inr (m, path, a) => expects_continue a = c /\ forall b, answers ev v b (build_req ev m path a b)
  end.
Proof.
  assert (EC : forall rl hs a c, grammatical (e_trim ev) rl hs w -> faultless hs -> scan_headers hs scan0 = inr a ->
            (forall n, hm_get_all (lower n) (h_map a) = values n hs) -> continues hs c -> expects_continue a = c).
  { intros rl hs a c0 _ _ _ G C. unfold expects_continue. change h_expect with (lower (B "expect")). rewrite (get_first _ _ _ G).
    unfold continues, wants_continue in C. destruct (values (B "expect") hs) as [|x l]; cbn [hd_error].
    - destruct c0; [destruct C as [r C]; discriminate|reflexivity].
    - destruct (beq_spec x (B "100-continue")) as [->|N]; destruct c0; auto.
      + exfalso. apply C. now exists l.
      + destruct C as [r C]. congruence. }
  intros J. inversion J as [H|rl hs G M|rl hs G M F|rl hs f G M F N|rl hs c0 G M F C H|rl hs c0 G M F C H U|rl hs c0 u len G M F C H U FR]; subst.
  - destruct (parse_head_bad ev w H) as [->| ->]; (split; [reflexivity|]; exists 400%N; auto).
  - rewrite (parse_head_good _ _ _ _ G), M. cbn. split; [reflexivity|]. exists 505%N; auto.
  - rewrite (parse_head_good _ _ _ _ G), M. cbn [N.eqb Pos.eqb]. destruct G as (x & y & _ & L & _). rewrite (scan_fault hs _ (lhead_wf _ _ _ _ L) F).
    split; [reflexivity|]. exists 501%N; auto.
  - rewrite (parse_head_good _ _ _ _ G), M. cbn [N.eqb Pos.eqb]. destruct G as (x & y & _ & L & _). rewrite (scan_fault hs _ (lhead_wf _ _ _ _ L) F).
    split; [reflexivity|]. exists 400%N; destruct f; auto; congruence.
  - rewrite (parse_head_good _ _ _ _ G), M. cbn [N.eqb Pos.eqb]. pose proof G as (x & y & _ & L & _).
    destruct (scan_all hs (lhead_wf _ _ _ _ L) F) as (a & S & _ & _ & HO & _ & _ & _ & GA). rewrite S.
    split; [eapply EC; eauto|]. intros b. unfold build_req. rewrite HO, H. cbn. exists FNoHost. auto.
  - rewrite (parse_head_good _ _ _ _ G), M. cbn [N.eqb Pos.eqb]. pose proof G as (x & y & _ & L & _).
    destruct (scan_all hs (lhead_wf _ _ _ _ L) F) as (a & S & _ & _ & HO & _ & _ & _ & GA). rewrite S.
    split; [eapply EC; eauto|]. intros b. unfold build_req. rewrite HO, U.
    destruct (last_opt (values (B "host") hs)) eqn:LO; [|now apply last_opt_none in LO]. cbn. exists FBuild. auto.
  - rewrite (parse_head_good _ _ _ _ G), M. cbn [N.eqb Pos.eqb]. pose proof G as (x & y & _ & L & _).
    destruct (scan_all hs (lhead_wf _ _ _ _ L) F) as (a & S & CL & CV & HO & TE & CH & W & GA). rewrite S.
    split; [eapply EC; eauto|]. intros b. unfold build_req. rewrite HO, U.
    destruct (last_opt (values (B "host") hs)) eqn:LO; [|now apply last_opt_none in LO]. cbn [is_some negb].
    assert (Q : (h_te a && h_chunked a)%bool = true <-> last_te_chunked hs).
    { rewrite TE, CH. unfold last_te_chunked. destruct (last_opt (values (B "transfer-encoding") hs)) as [v0|]; cbn.
      - rewrite eq_ic_name by reflexivity. unfold name_is, te_chunked; plain. split; [eauto|]. intros (v' & [= <-] & E). exact E.
      - split; [discriminate|]. intros (v' & E & _). discriminate. }
    assert (R : (if h_te a && h_chunked a then None else Some match h_cl a with Some n => n | None => 0%N end) = len /\
                (if h_te a && h_chunked a then RChunked [] (dec_new ev b) else RFixed match h_cl a with Some n => n | None => 0%N end b)
                 = body_reader ev len b).
    { inversion FR as [T|v0 n T V N|T V]; subst.
      - rewrite (proj2 Q T). auto.
      - destruct (h_te a && h_chunked a)%bool; [now elim T; apply Q|]. rewrite CL, V, (proj2 (cl_value_iff _ _) N). auto.
      - destruct (h_te a && h_chunked a)%bool; [now elim T; apply Q|]. rewrite CL, V. cbn. auto. }
    destruct R as [-> ->]. cbn [answers]. exists (h_map a). auto.
Qed.

Lemma decode_block ev tmo l1 l2 s w rest : (0 < e_bufcap ev)%nat -> wf_src s -> s_evs s = l1 ++ l2 ->
  fst (avail tmo l1) = w ++ rest -> head_block w ->
  exists b, wf_brd b /\ win tmo l2 b rest (snd (avail tmo l1)) /\ src_data s = w ++ br_data b /\ br_cap b = e_bufcap ev /\
    s_tail (br_src b) = s_tail s /\ (br_size b <= src_size s)%nat /\
    forall c v, judge (e_trim ev) (parse_uri (e_uri ev)) w c v -> exists o, answers ev v b o /\
    forall wt, decode ev tmo s wt = (br_src b, fst (interim c tmo wt), after_interim (snd (interim c tmo wt)) o).
Proof.
  intros Hc Ws E A Hb. destruct (req_head tmo (br_new (e_bufcap ev) s)) as [b r] eqn:RH.
  destruct (req_head_done tmo l1 l2 _ s w rest b r Hc Ws E A Hb RH) as (-> & W1 & W2 & W3 & W4 & W5 & W6).
  exists b. ands; auto. intros c v J. apply judge_parse in J. unfold decode. rewrite RH. destruct (parse_head ev w) as [f|[[m path] a]].
  - destruct J as (-> & code & -> & J1 & J2). exists (OFail f). split; [exists f; auto|]. reflexivity.
  - destruct J as (<- & J). exists (build_req ev m path a b). split; [apply J|]. intros wt. unfold interim. destruct (expects_continue a); [|reflexivity].
    destruct (write_all tmo continue_text wt) as [w' [u| | | |]]; reflexivity.
Qed.

(** ** Every head block has exactly one verdict *)
Lemma faulty_dec nv : (exists f, faulty nv f) \/ forall f, ~ faulty nv f.
Proof.
  destruct nv as [n v]. destruct (beq_spec (lower n) (B "content-length")) as [E|E].
  - destruct (parse_usize v) as [k|] eqn:P.
    + right. intros f H. inversion H as [? ? H1 H2|? ? H1 H2 H3|? ? H1 H2 H3]; subst.
      * apply (H2 k). now apply cl_value_iff.
      * unfold name_is in *; plain. rewrite E in H1. discriminate.
      * now apply H1.
    + left. exists BadLength. constructor; [assumption|]. intros k X. apply cl_value_iff in X. congruence.
  - destruct (beq_spec (lower n) (B "transfer-encoding")) as [T|T].
    + destruct (beq_spec (lower v) (B "chunked")) as [C|C]; [|destruct (beq_spec (lower v) (B "identity")) as [I|I]].
      * right. intros f H. inversion H; subst; unfold name_is, te_chunked, te_identity in *; plain; congruence.
      * right. intros f H. inversion H; subst; unfold name_is, te_chunked, te_identity in *; plain; congruence.
      * left. exists BadEncoding. now constructor.
    + destruct (65535 <? N.of_nat (length n))%N eqn:L.
      * left. exists LongName. constructor; [assumption|assumption|lia].
      * right. intros f H. inversion H; subst; unfold name_is in *; plain; try congruence. lia.
Qed.
Lemma fault_cases hs : faultless hs \/ exists f, first_fault hs f.
Proof.
  induction hs as [|nv hs IH]; [left; intros x g []|]. destruct (faulty_dec nv) as [[f H]|H].
  - right. exists f, [], nv, hs. split; [reflexivity|]. split; [intros x g []|assumption].
  - destruct IH as [F|(f & a & x & b & E & HA & HF)].
    + left. intros x g [<-|I]; [apply H|now apply F].
    + right. exists f, (nv :: a), x, b. split; [now rewrite E|]. split; [|assumption]. intros y g [<-|I]; eauto.
Qed.
Lemma framing_total hs : faultless hs -> exists len, framing hs len.
Proof.
  intros F. assert (D : last_te_chunked hs \/ ~ last_te_chunked hs).
  { unfold last_te_chunked. destruct (last_opt (values (B "transfer-encoding") hs)) as [v|].
    - destruct (beq_spec (lower v) (B "chunked")) as [C|C]; [left; eauto|right]. intros (v' & [= <-] & X). now apply C.
    - right. intros (v' & X & _). discriminate. }
  destruct D as [D|D]; [exists None; now constructor|].
  destruct (last_opt (values (B "content-length") hs)) as [v|] eqn:L.
  - apply last_opt_in in L as I. unfold values in I; plain. apply in_map_iff in I as ([n v'] & <- & I). apply filter_In in I as [I NM].
    cbn [fst snd] in *. apply eq_ic_name in NM; [|reflexivity].
    destruct (parse_usize v') as [k|] eqn:P; [exists (Some k); eapply fr_length; eauto; now apply cl_value_iff|].
    exfalso. apply (F _ BadLength I). constructor; [assumption|]. intros k X. apply cl_value_iff in X. congruence.
  - exists (Some 0%N). apply fr_none; [assumption|]. now apply last_opt_none.
Qed.
Lemma framing_fun hs l1 l2 : framing hs l1 -> framing hs l2 -> l1 = l2.
Proof.
  intros H1 H2. inversion H1; inversion H2; subst; try contradiction; try reflexivity.
  - rewrite H0 in *. f_equal. eapply cl_value_fun; [eassumption|]. congruence.
  - rewrite H6 in H0. discriminate.
  - rewrite H0 in *. discriminate.
Qed.
Lemma judge_total trim uri_of w : exists c v, judge trim uri_of w c v.
Proof.
  destruct (parse_request trim 16 w) as [q| |] eqn:P.
  2,3: exists false, (Refuse 400); apply j_syntax; intros rl hs G; apply grammatical_parse in G as (q & P' & _); congruence.
  set (rl := mkRline (q_method q) (q_path q) (q_version q)). set (hs := q_headers q).
  assert (G : grammatical trim rl hs w) by (apply grammatical_parse; eauto).
  assert (M : l_minor rl = 1%N \/ l_minor rl = 0%N) by (destruct G as (x & y & _ & L & _); eapply version_cases, L).
  destruct M as [M|M]; [|exists false, (Refuse 505); eapply j_version; eauto].
  destruct (fault_cases hs) as [F|[f F]].
  2:{ destruct f; [exists false, (Refuse 400); eapply j_field; eauto; discriminate|exists false, (Refuse 501); eapply j_encoding; eauto|
        exists false, (Refuse 400); eapply j_field; eauto; discriminate]. }
  assert (C : exists c, continues hs c).
  { unfold continues, wants_continue. destruct (values (B "expect") hs) as [|x l]; [exists false; intros [r X]; discriminate|].
    destruct (beq_spec x (B "100-continue")) as [->|N]; [exists true; eauto|exists false]. intros [r X]. congruence. }
  destruct C as [c C]. exists c.
  destruct (values (B "host") hs) eqn:H; [exists (Refuse 400); eapply j_host; eauto|].
  assert (HN : values (B "host") hs <> []) by congruence.
  destruct (uri_of (l_target rl)) as [u|] eqn:U; [|exists (Refuse 400); eapply j_target; eauto].
  destruct (framing_total hs F) as [len FR]. exists (Accept (l_method rl) u hs len). now apply j_accept.
Qed.

Lemma fault_fun nv f g : faulty nv f -> faulty nv g -> f = g.
Proof.
  intros H1 H2. inversion H1; inversion H2; subst; try reflexivity; unfold name_is in *; plain;
  match goal with E : (_, _) = (_, _) |- _ => injection E as -> -> | _ => idtac end; try congruence;
  match goal with A : lower ?n = B "content-length", C : lower ?n = B "transfer-encoding" |- _ => rewrite A in C; discriminate | _ => congruence end.
Qed.
Lemma app_inj_len {A} (a b c d : list A) : a ++ b = c ++ d -> length a = length c -> a = c /\ b = d.
Proof.
  revert c. induction a as [|x a IH]; intros [|y c]; cbn; intros E L; try discriminate; auto.
  injection E as -> E. injection L as L. destruct (IH c E L). subst. auto.
Qed.
Lemma first_fault_fun hs f g : first_fault hs f -> first_fault hs g -> f = g.
Proof.
  intros (a & x & b & -> & HA & HF) (a' & x' & b' & E & HA' & HF').
  assert (L : length a = length a').
  { destruct (Nat.lt_trichotomy (length a) (length a')) as [L|[L|L]]; [exfalso|assumption|exfalso].
    - apply (HA' x f); [|assumption]. assert (N : nth_error (a ++ x :: b) (length a) = nth_error (a' ++ x' :: b') (length a)) by now rewrite E.
      rewrite nth_error_app2, Nat.sub_diag, nth_error_app1 in N by lia. cbn in N. symmetry in N. now apply nth_error_In in N.
    - apply (HA x' g); [|assumption]. assert (N : nth_error (a ++ x :: b) (length a') = nth_error (a' ++ x' :: b') (length a')) by now rewrite E.
      rewrite nth_error_app1, nth_error_app2, Nat.sub_diag in N by lia. cbn in N. now apply nth_error_In in N. }
  apply app_inj_len in E as [-> E]; [|assumption]. injection E as <- <-. eapply fault_fun; eauto.
Qed.
Lemma first_fault_faultless hs f : first_fault hs f -> faultless hs -> False.
Proof. intros (a & x & b & -> & _ & HF) F. apply (F x f); [|assumption]. apply in_or_app. right. now left. Qed.
Lemma judge_fun trim uri_of w c v c' v' : judge trim uri_of w c v -> judge trim uri_of w c' v' -> c = c' /\ v = v'.
Proof.
  assert (CF : forall hs c c', continues hs c -> continues hs c' -> c = c') by (intros hs [|] [|]; cbn; tauto).
  intros J1 J2. destruct J1; inversion J2; subst;
  repeat match goal with
  | A : grammatical _ ?rl ?hs _, C : grammatical _ ?rl' ?hs' _ |- _ =>
      tryif (first [constr_eq rl rl'; constr_eq hs hs']) then fail else (destruct (grammatical_fun _ _ _ _ _ _ A C); subst; clear C)
  | A : forall rl hs, ~ grammatical _ _ _ _, C : grammatical _ _ _ _ |- _ => elim (A _ _ C)
  end; auto; try congruence;
  try match goal with A : first_fault ?h ?f, C : first_fault ?h ?g |- _ => pose proof (first_fault_fun _ _ _ A C); congruence end;
  try match goal with A : first_fault ?h ?f, C : faultless ?h |- _ => elim (first_fault_faultless _ _ A C) end;
  try match goal with A : framing ?h ?f, C : framing ?h ?g |- _ => rewrite (framing_fun _ _ _ A C) end;
  try match goal with A : continues ?h ?f, C : continues ?h ?g |- _ => rewrite (CF _ _ _ A C) end; try (split; congruence).
Qed.
