(** The head of a response reads back as specified. *)
From Verif Require Import ServerEnc SpecHead SpecResponse Lemmas Proofs_Text.

(** ** Reading lines *)
Lemma cut_line_app a rest : ~ In CR a -> cut_line (a ++ CRLF ++ rest) = Some (a, rest).
Proof.
  induction a as [|c a IH]; intros H; [reflexivity|].
  assert (Hc : Ascii.eqb c CR = false).
  { apply Ascii.eqb_neq. intros ->. apply H. now left. }
  assert (Ha : ~ In CR a) by (intros X; apply H; now right).
  specialize (IH Ha). cbn [app cut_line].
  destruct (a ++ CRLF ++ rest) as [|d r] eqn:E; [destruct a; discriminate|].
  rewrite Hc. cbn [andb]. now rewrite IH.
Qed.

Lemma read_field_app n v : ~ In COLON n -> read_field (n ++ B ": " ++ v) = Some (n, v).
Proof.
  induction n as [|c n IH]; intros H; [reflexivity|].
  cbn [app read_field]. replace (Ascii.eqb c COLON) with false.
  - rewrite IH; [reflexivity|]. intros X; apply H; now right.
  - symmetry. apply Ascii.eqb_neq. intros ->. apply H. now left.
Qed.

Definition line_ok (nv : bytes * bytes) : Prop :=
  ~ In COLON (fst nv) /\ ~ In CR (fst nv) /\ ~ In CR (snd nv) .

Lemma read_fields_app fs rest fuel :
  Forall line_ok fs -> (length fs < fuel)%nat ->
  read_fields fuel (flat_map header_line fs ++ CRLF ++ rest) = Some (fs, rest).
Proof.
  intros H. revert fuel. induction H as [|[n v] fs Hl Hf IH]; intros fuel Hfuel; (destruct fuel as [|fuel]; [cbn in Hfuel; lia|]).
  - reflexivity.
  - destruct Hl as (Hc & Hn & Hv). cbn [fst snd] in *.
    cbn [flat_map read_fields]. unfold header_line at 1. cbn [fst snd].
    rewrite <- !app_assoc.
    replace (n ++ B ": " ++ v ++ CRLF ++ flat_map header_line fs ++ CRLF ++ rest)
      with ((n ++ B ": " ++ v) ++ CRLF ++ (flat_map header_line fs ++ CRLF ++ rest)) by now rewrite <- !app_assoc.
    rewrite cut_line_app.
    2: { intros X. apply in_app_or in X. destruct X as [X|X]; [auto|]. apply in_app_or in X. destruct X as [X|X]; [|auto].
         cbn in X. destruct X as [X|[X|[]]]; discriminate. }
    destruct (n ++ B ": " ++ v) as [|x y] eqn:E; [destruct n; discriminate|]. rewrite <- E.
    rewrite read_field_app by assumption. rewrite IH by (cbn in Hfuel; lia). reflexivity.
Qed.

(** ** Facts about names and values *)
Lemma tchar_not c : is_tchar c = true -> c <> CR /\ c <> COLON /\ c <> LF.
Proof.
  intros H.
  assert (K : (is_tchar c && (Ascii.eqb c CR || Ascii.eqb c COLON || Ascii.eqb c LF)) = false).
  { rewrite <- negb_true_iff. revert c H. intros c _. revert c. apply byte_forall. vm_compute. reflexivity. }
  rewrite H in K. cbn [andb] in K. apply orb_false_iff in K. destruct K as [K K3]. apply orb_false_iff in K. destruct K as [K1 K2].
  apply Ascii.eqb_neq in K1, K2, K3. auto.
Qed.

Lemma value_byte_not c : is_value_byte c = true -> c <> CR /\ c <> LF.
Proof.
  intros H. split; intros ->; vm_compute in H; discriminate.
Qed.

Lemma forallb_not_in (p : byte -> bool) (x : byte) l : p x = false -> forallb p l = true -> ~ In x l.
Proof. intros Hx H I. rewrite forallb_forall in H. specialize (H x I). congruence. Qed.

Lemma value_no_cr v : forallb is_value_byte v = true -> ~ In CR v.
Proof. apply forallb_not_in. reflexivity. Qed.

Lemma name_ok_tchar n : name_ok n = true -> n <> [] /\ forallb is_tchar n = true /\ lower n = n.
Proof.
  unfold name_ok, header_name. destruct n as [|c n]; [discriminate|].
  destruct (forallb is_tchar (c :: n) && _) eqn:E; [|discriminate].
  intros H. apply beq_eq in H. apply andb_true_iff in E. destruct E as [E _].
  split; [discriminate|]. split; [assumption|now symmetry].
Qed.

Lemma name_ok_line n : name_ok n = true -> ~ In COLON n /\ ~ In CR n.
Proof.
  intros H. destruct (name_ok_tchar n H) as (_ & T & _).
  split; (eapply forallb_not_in; [|exact T]); reflexivity.
Qed.

Lemma eq_ic_beq a b : lower a = a -> lower b = b -> eq_ic a b = beq a b.
Proof. intros Ha Hb. unfold eq_ic. now rewrite Ha, Hb. Qed.

Lemma hm_iter_in m n v : hm_wf m -> In (n, v) (hm_iter m) ->
  name_ok n = true /\ forallb is_value_byte v = true.
Proof.
  intros [_ W] I. unfold hm_iter in I. apply in_flat_map in I. destruct I as ([k vs] & I1 & I2).
  apply in_map_iff in I2. destruct I2 as (v' & E & I2). injection E as <- <-.
  rewrite Forall_forall in W. specialize (W _ I1). cbn in W. destruct W as (W1 & _ & W2).
  split; [assumption|]. rewrite Forall_forall in W2. auto.
Qed.

(** ** [hmap] operations *)
Lemma hm_contains_in n m : hm_contains n m = true <-> In n (map fst m).
Proof.
  induction m as [|[k vs] m IH]; cbn; [split; [discriminate|tauto]|].
  rewrite orb_true_iff, IH, beq_eq. tauto.
Qed.

Lemma hm_insert_new n v m : hm_contains n m = false -> hm_insert n v m = m ++ [(n, [v])].
Proof.
  induction m as [|[k vs] m IH]; cbn; [reflexivity|]. intros H.
  apply orb_false_iff in H. destruct H as [H1 H2]. rewrite H1, (IH H2). reflexivity.
Qed.

Lemma hm_iter_app a b : hm_iter (a ++ b) = hm_iter a ++ hm_iter b.
Proof. unfold hm_iter. apply flat_map_app. Qed.

Lemma values_app n a b : values n (a ++ b) = values n a ++ values n b.
Proof. unfold values; plain. now rewrite filter_app, map_app. Qed.

Lemma values_nil_iter n m : lower n = n -> hm_wf m -> (values n (hm_iter m) = [] <-> hm_contains n m = false).
Proof.
  intros Hn [ND W]. clear ND. induction W as [|[k vs] m (Wk & Wv & _) W IH]; cbn [hm_contains].
  - cbn. tauto.
  - change (hm_iter ((k, vs) :: m)) with (map (fun v => (k, v)) vs ++ hm_iter m). rewrite values_app.
    destruct (name_ok_tchar k Wk) as (_ & _ & Lk).
    destruct (beq k n) eqn:E.
    + cbn. split; [|discriminate]. intros X. exfalso. apply app_eq_nil in X. destruct X as [X _].
      cbn [snd] in Wv. destruct vs as [|v vs]; [congruence|]. unfold values in X. cbn [map filter fst] in X.
      rewrite eq_ic_beq, E in X by assumption. discriminate.
    + cbn [orb]. rewrite <- IH. split.
      * intros X. apply app_eq_nil in X. tauto.
      * intros ->. rewrite app_nil_r. unfold values; plain. clear - Hn Lk E.
        induction vs as [|v vs IH]; [reflexivity|]. cbn [map filter fst].
        rewrite eq_ic_beq, E by assumption. exact IH.
Qed.

(** ** Numerals *)
Lemma decdig_digitc d : (d < 10)%N -> decdig (digitc d) (N.to_nat d).
Proof.
  intros H. unfold decdig.
  assert (K : forallb (fun d => match nth_error (B "0123456789") (N.to_nat d) with
                                | Some c => Ascii.eqb c (digitc d) | None => false end)
                      (map N.of_nat (seq 0 10)) = true) by reflexivity.
  rewrite forallb_forall in K.
  assert (I : In d (map N.of_nat (seq 0 10))).
  { apply in_map_iff. exists (N.to_nat d). split; [lia|]. apply in_seq. lia. }
  specialize (K d I). destruct (nth_error _ _) as [c|]; [|discriminate].
  apply Ascii.eqb_eq in K. now subst.
Qed.

Lemma digits_decimal l : l <> [] -> Forall (fun c => exists d, (d < 10)%N /\ c = digitc d) l ->
  decimal l (base_val digit_num 10 l).
Proof.
  intros Hne HF. induction l as [|c l IH] using rev_ind; [congruence|].
  apply Forall_app in HF. destruct HF as [HF1 HF2]. inversion HF2 as [|x y (d & Hd & ->) _]; subst.
  destruct l as [|c0 l0].
  - cbn [app]. unfold base_val. cbn [fold_left]. rewrite digit_num_digitc by lia.
    replace (0 * 10 + d)%N with (N.of_nat (N.to_nat d)) by lia. apply dec_one. now apply decdig_digitc.
  - rewrite base_val_snoc, digit_num_digitc by lia.
    replace d with (N.of_nat (N.to_nat d)) at 2 by lia.
    apply dec_snoc; [|now apply decdig_digitc]. apply IH; [discriminate|assumption].
Qed.

Lemma to_dec_decimal n : decimal (to_dec n) n.
Proof. rewrite <- (to_dec_val n) at 2. apply digits_decimal; [apply to_dec_nonempty|apply to_dec_digits]. Qed.

Lemma to_dec_head fuel : forall n, (0 < n)%N -> (n < 2 ^ N.of_nat fuel)%N -> exists d l, to_base (S fuel) 10 n [] = digitc d :: l /\ (0 < d < 10)%N.
Proof.
  induction fuel as [|f IH]; intros n H0 Hn; [change (2 ^ N.of_nat 0)%N with 1%N in Hn; lia|].
  remember (S f) as sf. cbn [to_base]. destruct (n / 10 =? 0)%N eqn:E.
  - apply N.eqb_eq in E. exists (n mod 10)%N, []. split; [reflexivity|]. pose proof (N.div_mod n 10 ltac:(lia)). pose proof (N.mod_lt n 10 ltac:(lia)). lia.
  - apply N.eqb_neq in E. rewrite to_base_acc. subst sf. destruct (IH (n / 10)%N ltac:(lia)) as (d & l & Q & D).
    { rewrite Nat2N.inj_succ, N.pow_succ_r' in Hn. apply N.div_lt_upper_bound; [lia|nia]. }
    rewrite Q. exists d, (l ++ [digitc (n mod 10)]). split; [reflexivity|exact D].
Qed.
Lemma digitc_zero d : (d < 10)%N -> digitc d = "0"%char -> d = 0%N.
Proof. intros H E. apply (f_equal bv) in E. rewrite digitc_bv in E by lia. change (bv "0"%char) with 48%N in E. destruct (N.ltb_spec d 10); lia. Qed.
Lemma to_dec_numeral n : numeral (to_dec n) n.
Proof.
  split; [apply to_dec_decimal|]. intros r E. destruct (N.eq_dec n 0) as [->|NZ]; [now injection E as <-|].
  destruct (to_dec_head (N.size_nat n) n ltac:(lia) (size_nat_lt n)) as (d & l & Q & D). unfold to_dec in E. rewrite Q in E. injection E as E _.
  apply digitc_zero in E; lia.
Qed.
Lemma decdig_fun c d v : decdig c v -> decdig d v -> c = d.
Proof. unfold decdig. congruence. Qed.
Lemma decdig_lt c v : decdig c v -> (v < 10)%nat.
Proof. unfold decdig. intros H. change 10%nat with (length (B "0123456789")). apply nth_error_Some. congruence. Qed.
Lemma decimal_cons d n : decimal d n -> exists c r, d = c :: r.
Proof. intros [c v _|l m c v H _]; [eauto|]. destruct l; cbn; eauto. Qed.
Lemma decimal_pos d n : decimal d n -> (forall r, d <> "0"%char :: r) -> (1 <= n)%N.
Proof.
  induction 1 as [c v H|l n c v H IH D]; intros N0.
  - destruct v; [|lia]. exfalso. unfold decdig in H. injection H as <-. now apply (N0 []).
  - assert (1 <= n)%N; [|lia]. apply IH. intros r ->. now apply (N0 (r ++ [c])).
Qed.
Lemma decimal_long_pos l n c v : decimal l n -> numeral (l ++ [c]) v -> (1 <= n)%N.
Proof.
  intros H [_ N0]. apply (decimal_pos l n H). intros r ->. cbn [app] in N0. specialize (N0 _ eq_refl). now destruct r.
Qed.
Lemma numeral_unique d1 n : decimal d1 n -> (forall r, d1 = "0"%char :: r -> r = []) -> forall d2, numeral d2 n -> d1 = d2.
Proof.
  induction 1 as [c v H|l n c v H IH D]; intros N1 d2 N2.
  - destruct N2 as [D2 N2]. inversion D2 as [c' v' H' Q1 Q2|l' n' c' v' H' D' Q1 Q2]; subst.
    + apply Nat2N.inj in Q2. subst. f_equal. eauto using decdig_fun.
    + apply decdig_lt in H. pose proof (decimal_long_pos l' n' c' _ H' (conj D2 N2)). lia.
  - assert (P : (1 <= n)%N) by (apply (decimal_long_pos l n c _ H (conj (dec_snoc _ _ _ _ H D) N1))).
    destruct N2 as [D2 N2]. inversion D2 as [c' v' H' Q1 Q2|l' n' c' v' H' D' Q1 Q2]; subst.
    + apply decdig_lt in H'. lia.
    + apply decdig_lt in D as L1. apply decdig_lt in D' as L2. assert (n' = n /\ v' = v) as [-> ->] by lia. f_equal; [|f_equal; eauto using decdig_fun].
      apply IH.
      * intros r ->. specialize (N1 (r ++ [c]) eq_refl). now destruct r.
      * split; [exact H'|]. intros r ->. specialize (N2 (r ++ [c']) eq_refl). now destruct r.
Qed.
Lemma numeral_text d n : numeral d n -> d = to_dec n.
Proof. intros [D N0]. apply (numeral_unique d n D N0). apply to_dec_numeral. Qed.

Lemma digitc_not_cr d : (d < 16)%N -> digitc d <> CR.
Proof.
  intros H E. assert (bv (digitc d) = bv CR) by now rewrite E. rewrite digitc_bv in H0 by assumption.
  change (bv CR) with 13%N in H0. destruct (d <? 10)%N; lia.
Qed.

Lemma to_dec_no_cr n : ~ In CR (to_dec n).
Proof.
  intros I. pose proof (to_dec_digits n) as F. rewrite Forall_forall in F.
  destruct (F _ I) as (d & Hd & E). symmetry in E. revert E. apply digitc_not_cr. lia.
Qed.

(** ** The status line *)
Definition status_line_text (r : response) : bytes :=
  version_text (r_version r) ++ [SP] ++ status_text (r_status r).

Ltac notin := intros X; vm_compute in X; repeat (destruct X as [X|X]; [discriminate X|]); exact X.

Lemma reason_no_cr n x : canonical_reason n = Some x -> ~ In CR x.
Proof.
  unfold canonical_reason.
  repeat match goal with |- context [match ?p with _ => _ end] => destruct p end;
  intros H; try discriminate; injection H as <-; notin.
Qed.

Lemma reason_known n : reason_for n (match canonical_reason n with Some x => x | None => B "<unknown status code>" end).
Proof.
  destruct (canonical_reason n) as [x|] eqn:E.
  - left. revert E. unfold canonical_reason.
    repeat match goal with |- context [match ?p with _ => _ end] => destruct p end; intros E; try discriminate E; apply (f_equal (fun o => match o with Some y => y | None => [] end)) in E; subst x;
      (eexists; split; [|apply f_equal; reflexivity]; cbn; tauto).
  - right. split; [|reflexivity]. intros p I.
    assert (K : forallb (fun cp => match canonical_reason (fst cp) with Some _ => true | None => false end) phrases = true) by (vm_compute; reflexivity).
    rewrite forallb_forall in K. specialize (K _ I). cbn [fst] in K. now rewrite E in K.
Qed.

Lemma reason_text n x : reason_for n x -> x = match canonical_reason n with Some x => x | None => B "<unknown status code>" end.
Proof.
  intros [(p & I & ->)|[N ->]].
  - assert (K : forallb (fun cp => match canonical_reason (fst cp) with Some x => beq x (B (snd cp)) | None => false end) phrases = true) by (vm_compute; reflexivity).
    rewrite forallb_forall in K. specialize (K _ I). cbn [fst snd] in K. destruct (canonical_reason n); [now apply beq_eq in K|discriminate].
  - destruct (canonical_reason n) as [y|] eqn:E; [|reflexivity]. destruct (reason_known n) as [(p & I & _)|[_ X]]; [now elim (N p)|]. rewrite E in X. congruence.
Qed.

Lemma first_line_text v n sl : first_line v n sl -> sl = version_text v ++ [SP] ++ status_text n.
Proof. intros (code & reason & HC & HR & ->). rewrite (numeral_text _ _ HC), (reason_text _ _ HR). now destruct v. Qed.

Lemma status_line_no_cr r : ~ In CR (status_line_text r).
Proof.
  unfold status_line_text, status_text. intros I.
  apply in_app_or in I. destruct I as [I|I].
  { destruct (r_version r); revert I; notin. }
  apply in_app_or in I. destruct I as [I|I]; [revert I; notin|].
  apply in_app_or in I. destruct I as [I|I]; [now apply to_dec_no_cr in I|].
  apply in_app_or in I. destruct I as [I|I]; [revert I; notin|].
  destruct (canonical_reason (r_status r)) eqn:E.
  - now apply reason_no_cr in E.
  - revert I; notin.
Qed.

(** ** The fields *)
Definition shown (r : response) : list (bytes * bytes) :=
  filter (fun nv => negb (beq (fst nv) h_transfer_encoding))
    (filter (fun nv => negb (beq (fst nv) h_content_length)) (hm_iter (with_default_ct r))).
Definition framing_field (r : response) : bytes * bytes :=
  match b_len (r_body r) with
  | Some n => (h_content_length, to_dec n)
  | None => (h_transfer_encoding, B "chunked")
  end.
Definition date_field (ev : env) (r : response) : list (bytes * bytes) :=
  if hm_contains h_date (r_headers r) then [] else [(h_date, e_date ev)].
Definition head_fields (ev : env) (r : response) : list (bytes * bytes) :=
  framing_field r :: date_field ev r ++ shown r.

Lemma head_text_fields ev r :
  head_text ev r = status_line_text r ++ CRLF ++ flat_map header_line (head_fields ev r) ++ CRLF.
Proof.
  unfold head_text, head_fields, status_line_text, shown, date_field, framing_field. cbv zeta.
  rewrite <- !app_assoc. do 4 f_equal.
  cbn [flat_map]. rewrite flat_map_app.
  destruct (b_len (r_body r)); unfold header_line at 2; cbn [fst snd]; rewrite <- !app_assoc; cbn [app];
  destruct (hm_contains h_date (r_headers r)); cbn [flat_map app]; unfold header_line; cbn [fst snd];
  rewrite <- ?app_assoc; reflexivity.
Qed.

Lemma with_default_ct_iter r :
  exists ct, hm_iter (with_default_ct r) = hm_iter (r_headers r) ++ ct /\
    ct = (if hm_contains h_content_type (r_headers r) then [] else
          match b_len (r_body r) with Some 0%N => [] | _ => [(h_content_type, B "application/octet-stream")] end).
Proof.
  eexists. split; [|reflexivity]. unfold with_default_ct. cbv zeta.
  destruct (hm_contains h_content_type (r_headers r)) eqn:E.
  - rewrite andb_false_r. now rewrite app_nil_r.
  - rewrite andb_true_r. destruct (b_len (r_body r)) as [[|p]|]; cbn [N.ltb N.compare].
    + now rewrite app_nil_r.
    + now rewrite hm_insert_new, hm_iter_app by assumption.
    + now rewrite hm_insert_new, hm_iter_app by assumption.
Qed.

Definition okname (fs : list (bytes * bytes)) : Prop := Forall (fun nv => lower (fst nv) = fst nv) fs.

Lemma filter_filter {A} (p q : A -> bool) l : filter p (filter q l) = filter (fun x => q x && p x) l.
Proof.
  induction l as [|x l IH]; [reflexivity|]. cbn. destruct (q x); cbn; [destruct (p x); now rewrite IH|assumption].
Qed.

Lemma filter_ext_in' {A} (p q : A -> bool) l : (forall x, In x l -> p x = q x) -> filter p l = filter q l.
Proof. apply filter_ext_in. Qed.

Lemma values_filter_other n (p : bytes -> bool) fs :
  (forall k, In k (map fst fs) -> eq_ic k n = true -> p k = true) ->
  values n (filter (fun nv => p (fst nv)) fs) = values n fs.
Proof.
  intros H. unfold values; plain. f_equal. rewrite filter_filter. apply filter_ext_in.
  intros [k v] I. cbn [fst]. destruct (eq_ic k n) eqn:E; [|now rewrite andb_false_r].
  rewrite H; [reflexivity| |assumption]. apply in_map_iff. exists (k, v). auto.
Qed.

Lemma values_filter_none n (p : bytes -> bool) fs :
  (forall k, In k (map fst fs) -> eq_ic k n = true -> p k = false) ->
  values n (filter (fun nv => p (fst nv)) fs) = [].
Proof.
  intros H. unfold values; plain. rewrite filter_filter.
  replace (filter _ fs) with (@nil (bytes * bytes)); [reflexivity|]. symmetry.
  induction fs as [|[k v] fs IH]; [reflexivity|]. cbn [filter fst].
  destruct (eq_ic k n) eqn:E.
  - rewrite H; [|now left|assumption]. cbn. apply IH. intros k' I. apply H. now right.
  - rewrite andb_false_r. apply IH. intros k' I. apply H. now right.
Qed.

Lemma eq_ic_same_false n m k : lower n = n -> lower m = m -> n <> m -> lower k = k -> eq_ic k n = true -> beq k m = false.
Proof.
  intros Hn Hm D Hk H. rewrite eq_ic_beq in H by assumption. apply beq_eq in H. subst k. now apply beq_neq.
Qed.

Lemma wf_names m : hm_wf m -> forall k, In k (map fst (hm_iter m)) -> lower k = k.
Proof.
  intros W k I. apply in_map_iff in I. destruct I as ([k' v] & <- & I).
  destruct (hm_iter_in _ _ _ W I) as [H _]. now destruct (name_ok_tchar _ H) as (_ & _ & L).
Qed.

Section Head.
  Variables (ev : env) (r : response).
  Hypothesis W : resp_wf r.
  Hypothesis E : env_wf ev.

  Lemma shown_in n v : In (n, v) (shown r) -> name_ok n = true /\ forallb is_value_byte v = true.
  Proof.
    unfold shown. intros I. apply filter_In in I. destruct I as [I _]. apply filter_In in I. destruct I as [I _].
    destruct (with_default_ct_iter r) as (ct & Ei & Ec). rewrite Ei in I. apply in_app_or in I.
    destruct I as [I|I]; [eapply hm_iter_in; eauto|].
    assert (ct = [] \/ ct = [(h_content_type, B "application/octet-stream")]) as [X|X].
    { rewrite Ec. destruct (hm_contains _ _); [auto|]. destruct (b_len (r_body r)) as [[|]|]; auto. }
    - rewrite X in I. destruct I.
    - rewrite X in I. destruct I as [I|[]]. injection I as <- <-. split; vm_compute; reflexivity.
  Qed.

  Lemma head_fields_ok : Forall line_ok (head_fields ev r).
  Proof.
    unfold head_fields. constructor.
    - unfold framing_field, line_ok. destruct (b_len (r_body r)); cbn [fst snd].
      + split; [notin|]. split; [notin|apply to_dec_no_cr].
      + split; [notin|]. split; notin.
    - apply Forall_app. split.
      + unfold date_field. destruct (hm_contains _ _); constructor; [|constructor]. unfold line_ok. cbn [fst snd].
        split; [notin|]. split; [notin|]. apply value_no_cr. apply E.
      + apply Forall_forall. intros [n v] I. destruct (shown_in n v I) as [Hn Hv]. unfold line_ok. cbn [fst snd].
        destruct (name_ok_line n Hn). auto using value_no_cr.
  Qed.

  Lemma flat_map_line_len fs : (length fs <= length (flat_map header_line fs))%nat.
  Proof.
    induction fs as [|f fs IH]; cbn [flat_map length]; [lia|]. rewrite app_length.
    unfold header_line at 1. rewrite !app_length. cbn [B list_ascii_of_string length]. lia.
  Qed.

  Lemma head_read rest : read_head (head_text ev r ++ rest) = Some (status_line_text r, head_fields ev r, rest).
  Proof.
    rewrite head_text_fields. rewrite <- !app_assoc. unfold read_head.
    rewrite cut_line_app by apply status_line_no_cr.
    rewrite read_fields_app; [reflexivity|apply head_fields_ok|].
    pose proof (flat_map_line_len (head_fields ev r)). rewrite !app_length. lia.
  Qed.

  Lemma shown_app : exists ct, shown r =
     filter (fun nv => negb (beq (fst nv) h_content_length) && negb (beq (fst nv) h_transfer_encoding)) (hm_iter (r_headers r)) ++ ct
     /\ ct = (if hm_contains h_content_type (r_headers r) then [] else
          match b_len (r_body r) with Some 0%N => [] | _ => [(h_content_type, B "application/octet-stream")] end).
  Proof.
    destruct (with_default_ct_iter r) as (ct & Ei & Ec). exists ct. split; [|assumption].
    unfold shown. rewrite filter_filter, Ei, filter_app. f_equal.
    rewrite Ec. destruct (hm_contains _ _); [reflexivity|]. destruct (b_len (r_body r)) as [[|]|]; reflexivity.
  Qed.

  Lemma values_shown n : lower n = n -> n <> h_content_length -> n <> h_transfer_encoding -> n <> h_content_type ->
    values n (shown r) = values n (hm_iter (r_headers r)).
  Proof.
    intros Ln N1 N2 N3. destruct shown_app as (ct & -> & Ec). rewrite values_app.
    assert (values n ct = []) as ->.
    { rewrite Ec. destruct (hm_contains _ _); [reflexivity|].
      destruct (b_len (r_body r)) as [[|]|]; try reflexivity; unfold values; plain; cbn [filter fst];
      (rewrite eq_ic_beq by (auto; reflexivity)); (replace (beq h_content_type n) with false; [reflexivity|]);
      symmetry; apply beq_neq; congruence. }
    rewrite app_nil_r.
    rewrite (values_filter_other n (fun k => negb (beq k h_content_length) && negb (beq k h_transfer_encoding))); [reflexivity|].
    intros k I H. pose proof (wf_names _ W k I) as Lk.
    rewrite (eq_ic_same_false n h_content_length k), (eq_ic_same_false n h_transfer_encoding k); auto.
  Qed.

  Lemma values_shown_framing n : n = h_content_length \/ n = h_transfer_encoding -> values n (shown r) = [].
  Proof.
    intros Hn. assert (Ln : lower n = n) by (destruct Hn as [-> | ->]; reflexivity).
    destruct shown_app as (ct & -> & Ec). rewrite values_app.
    assert (values n ct = []) as ->.
    { rewrite Ec. destruct (hm_contains _ _); [reflexivity|].
      destruct (b_len (r_body r)) as [[|]|]; destruct Hn as [-> | ->]; reflexivity. }
    rewrite app_nil_r.
    apply (values_filter_none n (fun k => negb (beq k h_content_length) && negb (beq k h_transfer_encoding))).
    intros k I H. pose proof (wf_names _ W k I) as Lk. rewrite eq_ic_beq in H by assumption. apply beq_eq in H. subst k.
    destruct Hn as [-> | ->]; reflexivity.
  Qed.

  Lemma head_response : response_head (e_date ev) r (head_text ev r).
  Proof.
    exists (status_line_text r), (head_fields ev r). split; [exact head_read|].
    split; [|split; [|split; [|split]]].
    - exists (to_dec (r_status r)), (match canonical_reason (r_status r) with Some x => x | None => B "<unknown status code>" end).
      split; [apply to_dec_numeral|]. split; [apply reason_known|]. unfold status_line_text. now destruct (r_version r).
    - unfold framing_fields, head_fields, framing_field, date_field.
      change (B "content-length") with h_content_length. change (B "transfer-encoding") with h_transfer_encoding.
      assert (D : forall n, n = h_content_length \/ n = h_transfer_encoding ->
                  values n ((if hm_contains h_date (r_headers r) then [] else [(h_date, e_date ev)]) ++ shown r) = []).
      { intros n Hn. rewrite values_app, values_shown_framing by assumption. rewrite app_nil_r.
        destruct (hm_contains _ _); [reflexivity|]. destruct Hn as [-> | ->]; reflexivity. }
      destruct (b_len (r_body r)) as [n|].
      + exists (to_dec n). split; [|split; [apply to_dec_numeral|]].
        * change (values h_content_length ([(h_content_length, to_dec n)] ++ (if hm_contains h_date (r_headers r) then [] else [(h_date, e_date ev)]) ++ shown r) = [to_dec n]).
          rewrite values_app, D by auto. reflexivity.
        * change (values h_transfer_encoding ([(h_content_length, to_dec n)] ++ (if hm_contains h_date (r_headers r) then [] else [(h_date, e_date ev)]) ++ shown r) = []).
          rewrite values_app, D by auto. reflexivity.
      + split.
        * change (values h_content_length ([(h_transfer_encoding, B "chunked")] ++ (if hm_contains h_date (r_headers r) then [] else [(h_date, e_date ev)]) ++ shown r) = []).
          rewrite values_app, D by auto. reflexivity.
        * change (values h_transfer_encoding ([(h_transfer_encoding, B "chunked")] ++ (if hm_contains h_date (r_headers r) then [] else [(h_date, e_date ev)]) ++ shown r) = [B "chunked"]).
          rewrite values_app, D by auto. reflexivity.
    - unfold date_fields, head_fields. change (B "date") with h_date.
      change (values h_date ([framing_field r] ++ date_field ev r ++ shown r) = match values h_date (hm_iter (r_headers r)) with [] => [e_date ev] | l => l end).
      rewrite !values_app, values_shown by (try reflexivity; discriminate).
      assert (values h_date [framing_field r] = []) as -> by (unfold framing_field; destruct (b_len (r_body r)); reflexivity).
      cbn [app]. unfold date_field. pose proof (values_nil_iter h_date _ eq_refl W) as V.
      destruct (values h_date (hm_iter (r_headers r))) as [|x l].
      + replace (hm_contains h_date (r_headers r)) with false by (symmetry; now apply V). reflexivity.
      + destruct (hm_contains h_date (r_headers r)); [reflexivity|]. exfalso. assert (x :: l = []) by now apply V. discriminate.
    - unfold type_fields, head_fields. change (B "content-type") with h_content_type.
      change (values h_content_type ([framing_field r] ++ date_field ev r ++ shown r) =
        match values h_content_type (hm_iter (r_headers r)), b_len (r_body r) with
        | [], Some 0%N => [] | [], _ => [B "application/octet-stream"] | l, _ => l end).
      rewrite !values_app.
      assert (values h_content_type [framing_field r] = []) as -> by (unfold framing_field; destruct (b_len (r_body r)); reflexivity).
      assert (values h_content_type (date_field ev r) = []) as -> by (unfold date_field; destruct (hm_contains h_date (r_headers r)); reflexivity).
      cbn [app]. destruct shown_app as (ct & -> & Ec). rewrite values_app.
      rewrite (values_filter_other h_content_type (fun k => negb (beq k h_content_length) && negb (beq k h_transfer_encoding))).
      2: { intros k I H. pose proof (wf_names _ W k I) as Lk.
           rewrite (eq_ic_same_false h_content_type h_content_length k), (eq_ic_same_false h_content_type h_transfer_encoding k); auto; discriminate. }
      pose proof (values_nil_iter h_content_type _ eq_refl W) as V.
      destruct (values h_content_type (hm_iter (r_headers r))) as [|x l].
      + replace (hm_contains h_content_type (r_headers r)) with false in Ec by (symmetry; now apply V). rewrite Ec.
        destruct (b_len (r_body r)) as [[|]|]; reflexivity.
      + destruct (hm_contains h_content_type (r_headers r)).
        * rewrite Ec. cbn. now rewrite app_nil_r.
        * exfalso. assert (x :: l = []) by now apply V. discriminate.
    - unfold other_fields, head_fields. destruct shown_app as (ct & -> & Ec).
      change (filter (fun nv => negb (special (fst nv))) ([framing_field r] ++ date_field ev r ++
         filter (fun nv => negb (beq (fst nv) h_content_length) && negb (beq (fst nv) h_transfer_encoding)) (hm_iter (r_headers r)) ++ ct)
         = filter (fun nv => negb (special (fst nv))) (hm_iter (r_headers r))).
      rewrite !filter_app.
      assert (filter (fun nv => negb (special (fst nv))) [framing_field r] = []) as -> by (unfold framing_field; destruct (b_len (r_body r)); reflexivity).
      assert (filter (fun nv => negb (special (fst nv))) (date_field ev r) = []) as -> by (unfold date_field; destruct (hm_contains h_date (r_headers r)); reflexivity).
      assert (filter (fun nv => negb (special (fst nv))) ct = []) as ->.
      { rewrite Ec. destruct (hm_contains _ _); [reflexivity|]. destruct (b_len (r_body r)) as [[|]|]; reflexivity. }
      cbn [app]. rewrite app_nil_r, filter_filter. apply filter_ext_in. intros [k v] I. cbn [fst].
      destruct (special k) eqn:S; [now rewrite andb_false_r|]. rewrite andb_true_r.
      unfold special in S. apply orb_false_iff in S. destruct S as [S _]. apply orb_false_iff in S. destruct S as [S _].
      apply orb_false_iff in S. destruct S as [S1 S2].
      assert (Lk : lower k = k) by (eapply wf_names; [exact W|apply in_map_iff; exists (k, v); eauto]).
      rewrite eq_ic_beq in S1, S2 by (auto; reflexivity).
      change (B "content-length") with h_content_length in S1. change (B "transfer-encoding") with h_transfer_encoding in S2.
      now rewrite S1, S2.
  Qed.
End Head.
