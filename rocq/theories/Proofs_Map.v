(** Header maps against lists of fields. *)
From Verif Require Import ChunkedDec SpecHead SpecChunked Lemmas Proofs_Head Proofs_Text.

Lemma lowerc_lowerc c : lowerc (lowerc c) = lowerc c.
Proof.
  assert (H : forallb (fun c => Ascii.eqb (lowerc (lowerc c)) (lowerc c)) all_bytes = true) by (vm_compute; reflexivity).
  pose proof (byte_forall _ H c) as X. now apply Ascii.eqb_eq in X.
Qed.

Lemma lower_lower l : lower (lower l) = lower l.
Proof. unfold lower. rewrite map_map. apply map_ext. apply lowerc_lowerc. Qed.

Lemma lower_length l : length (lower l) = length l.
Proof. unfold lower. apply map_length. Qed.

Lemma tchar_lowerc c : is_tchar c = true -> is_tchar (lowerc c) = true.
Proof.
  assert (H : forallb (fun c => implb (is_tchar c) (is_tchar (lowerc c))) all_bytes = true) by (vm_compute; reflexivity).
  pose proof (byte_forall _ H c) as X. cbn in X. destruct (is_tchar c); [intros _; exact X|discriminate].
Qed.

Lemma tchar_lower l : forallb is_tchar l = true -> forallb is_tchar (lower l) = true.
Proof.
  induction l as [|c l IH]; [auto|]. cbn [lower map forallb]. intros H. apply andb_prop in H as [H1 H2].
  change (map lowerc l) with (lower l). now rewrite tchar_lowerc, IH.
Qed.

Lemma header_name_ok n n' : header_name n = Some n' -> n' = lower n /\ name_ok n' = true.
Proof.
  unfold header_name. destruct n as [|c n]; [discriminate|]. remember (c :: n) as l eqn:Hl.
  destruct (forallb is_tchar l && _)%bool eqn:E; [|discriminate].
  intros H; injection H as <-. split; [reflexivity|]. apply andb_prop in E as [E1 E2].
  unfold name_ok. assert (HN : header_name (lower l) = Some (lower l)).
  { unfold header_name. rewrite tchar_lower, lower_length, E2, lower_lower by assumption.
    rewrite Hl. reflexivity. }
  now rewrite HN, beq_refl.
Qed.

Lemma get_all_append x k v m : hm_get_all x (hm_append k v m) = hm_get_all x m ++ (if beq k x then [v] else []).
Proof.
  induction m as [|[k0 vs] m IH]; cbn [hm_append hm_get_all].
  - destruct (beq k x); reflexivity.
  - destruct (beq_spec k0 k) as [->|E]; cbn [hm_get_all].
    + destruct (beq k x); [reflexivity|now rewrite app_nil_r].
    + destruct (beq_spec k0 x) as [->|E2]; [|exact IH].
      destruct (beq_spec k x); [congruence|now rewrite app_nil_r].
Qed.

Lemma get_all_insert x k v m : hm_get_all x (hm_insert k v m) = if beq k x then [v] else hm_get_all x m.
Proof.
  induction m as [|[k0 vs] m IH]; cbn [hm_insert hm_get_all]; [reflexivity|].
  destruct (beq_spec k0 k) as [->|E]; cbn [hm_get_all].
  - destruct (beq k x); reflexivity.
  - rewrite IH. destruct (beq_spec k0 x) as [->|]; [|reflexivity]. destruct (beq_spec k x); [congruence|reflexivity].
Qed.

Lemma in_append x k v m : In x (map fst (hm_append k v m)) -> x = k \/ In x (map fst m).
Proof.
  induction m as [|[k0 vs] m IH]; cbn [hm_append map fst].
  - cbn. intuition.
  - destruct (beq k0 k); cbn [map fst In]; [tauto|]. intros [?|H]; [auto|]. destruct (IH H); auto.
Qed.

Lemma hm_append_wf k v m : hm_wf m -> name_ok k = true -> forallb is_value_byte v = true -> hm_wf (hm_append k v m).
Proof.
  intros [ND W] Hk Hv. induction W as [|[k0 vs] m W0 W IH].
  - cbn. split; [constructor; [tauto|constructor]|]. constructor; [|constructor]. cbn. repeat split; auto. discriminate.
  - cbn [map fst] in ND. inversion ND; subst. specialize (IH H2). cbn [hm_append]. destruct W0 as (W1 & W2 & W3). cbn [fst snd] in *.
    destruct (beq_spec k0 k) as [->|E].
    + split; [exact ND|]. constructor; [|exact W]. cbn. repeat split; auto.
      * destruct vs; discriminate.
      * apply Forall_app. split; auto.
    + destruct IH as [IH1 IH2]. split.
      * cbn [map fst]. constructor; [|exact IH1]. intros X. apply in_append in X as [X|X]; congruence || contradiction.
      * constructor; [|exact IH2]. cbn. auto.
Qed.

Lemma in_insert x k v m : In x (map fst (hm_insert k v m)) -> x = k \/ In x (map fst m).
Proof.
  induction m as [|[k0 vs] m IH]; cbn [hm_insert map fst].
  - cbn. intuition.
  - destruct (beq k0 k); cbn [map fst In]; [tauto|]. intros [?|H]; [auto|]. destruct (IH H); auto.
Qed.

Lemma hm_insert_wf k v m : hm_wf m -> name_ok k = true -> forallb is_value_byte v = true -> hm_wf (hm_insert k v m).
Proof.
  intros [ND W] Hk Hv. induction W as [|[k0 vs] m W0 W IH].
  - cbn. split; [constructor; [tauto|constructor]|]. constructor; [|constructor]. cbn. repeat split; auto. discriminate.
  - cbn [map fst] in ND. inversion ND; subst. specialize (IH H2). cbn [hm_insert]. destruct W0 as (W1 & W2 & W3). cbn [fst snd] in *.
    destruct (beq_spec k0 k) as [->|E].
    + split; [exact ND|]. constructor; [|exact W]. cbn. repeat split; auto. discriminate.
    + destruct IH as [IH1 IH2]. split.
      * cbn [map fst]. constructor; [|exact IH1]. intros X. apply in_insert in X as [X|X]; congruence || contradiction.
      * constructor; [|exact IH2]. cbn. auto.
Qed.

Lemma hm_empty_wf : hm_wf [].
Proof. split; constructor. Qed.

Lemma hm_app_wf a b : hm_wf a -> hm_wf b -> (forall k, In k (map fst a) -> In k (map fst b) -> False) -> hm_wf (a ++ b).
Proof.
  intros [NA WA] [NB WB] D. split; [|apply Forall_app; split; assumption].
  rewrite map_app. induction (map fst a) as [|x l IH]; [exact NB|]. cbn. inversion NA; subst. constructor.
  - rewrite in_app_iff. intros [X|X]; [contradiction|]. eapply D; [left; reflexivity|exact X].
  - apply IH; [assumption|]. intros k I. apply D. now right.
Qed.

Lemma values_get_all n m : hm_wf m -> values n (hm_iter m) = hm_get_all (lower n) m.
Proof.
  intros [ND W]. induction W as [|[k vs] m (Wk & Wv & _) W IH]; [reflexivity|].
  cbn [map fst] in ND. inversion ND as [|? ? NI ND']; subst.
  change (hm_iter ((k, vs) :: m)) with (map (fun v => (k, v)) vs ++ hm_iter m). rewrite values_app.
  destruct (name_ok_tchar k Wk) as (_ & _ & Lk). cbn [fst] in *. cbn [hm_get_all].
  rewrite IH by assumption.
  assert (V : values n (map (fun v => (k, v)) vs) = if beq k (lower n) then vs else []).
  { unfold values; plain. clear - Lk. induction vs as [|v vs IH]; [destruct (beq _ _); reflexivity|]. cbn [map filter fst].
    unfold eq_ic at 1. rewrite Lk. destruct (beq k (lower n)) eqn:E; cbn [map snd]; now rewrite IH. }
  rewrite V. destruct (beq_spec k (lower n)) as [->|E]; [|reflexivity].
  assert (hm_get_all (lower n) m = []); [|rewrite H; apply app_nil_r].
  clear - NI. induction m as [|[k vs] m IH]; [reflexivity|]. cbn [hm_get_all]. cbn [map fst In] in NI.
  destruct (beq_spec k (lower n)) as [->|]; [tauto|]. apply IH. tauto.
Qed.

(** The map holds exactly these fields. *)
Lemma append_trailers_holds fs : forall m m', append_trailers fs m = Some m' -> hm_wf m ->
  hm_wf m' /\ forall n, hm_get_all (lower n) m' = hm_get_all (lower n) m ++ values n fs.
Proof.
  induction fs as [|[k v] fs IH]; intros m m' H W; cbn [append_trailers] in H.
  - inversion H; subst. split; [assumption|]. intros n. now rewrite app_nil_r.
  - destruct (header_name k) as [k'|] eqn:EK; [|discriminate]. destruct (header_value v) as [v'|] eqn:EV; [|discriminate].
    apply header_name_ok in EK as [-> NK]. unfold header_value in EV. destruct (forallb is_value_byte v) eqn:EB; inversion EV; subst v'.
    destruct (IH _ _ H (hm_append_wf _ _ _ W NK EB)) as [W' HV]. split; [assumption|]. intros n. rewrite HV, get_all_append, <- app_assoc.
    f_equal. unfold values; plain. cbn [filter fst]. unfold eq_ic at 2. destruct (beq (lower k) (lower n)); reflexivity.
Qed.

Lemma value_byte_iff c : is_value_byte c = true <-> (32 <= bv c /\ bv c <> 127)%N \/ c = HT.
Proof.
  unfold is_value_byte. split.
  - intros H. apply orb_prop in H as [H|H]; [left|right; apply bv_inj; change (bv HT) with 9%N; lia].
    apply andb_prop in H as [H1 H2]. lia.
  - intros [H| ->]; [|reflexivity]. apply orb_true_iff. left. apply andb_true_iff. lia.
Qed.

Lemma field_name_header n : field_name n -> header_name n = Some (lower n).
Proof.
  intros (H1 & H2 & H3). unfold header_name. destruct n as [|c n]; [congruence|]. set (l := c :: n) in *.
  assert (forallb is_tchar l = true) by (apply forallb_forall; rewrite Forall_forall in H2; exact H2).
  rewrite H. unfold max_name_len. destruct (N.of_nat (length l) <=? 65535)%N eqn:E; [reflexivity|lia].
Qed.

Lemma field_value_header v : field_value v -> header_value v = Some v.
Proof.
  intros (H & _). unfold header_value.
  assert (E : forallb is_value_byte v = true); [|now rewrite E].
  apply forallb_forall. rewrite Forall_forall in H. intros c I. apply value_byte_iff. now apply H.
Qed.

Lemma fields_append fs w : fields fs w -> forall m, exists m', append_trailers fs m = Some m'.
Proof.
  induction 1 as [|n v l hs w (ws & Hn & Hv & _) _ IH]; intros m; cbn [append_trailers]; [eauto|].
  rewrite (field_name_header _ Hn), (field_value_header _ Hv). apply IH.
Qed.

Lemma fields_holds fs w : fields fs w -> exists m, append_trailers fs [] = Some m /\ hm_wf m /\
  forall n, values n (hm_iter m) = values n fs.
Proof.
  intros F. destruct (fields_append _ _ F []) as (m & E). exists m. split; [exact E|].
  destruct (append_trailers_holds _ _ _ E hm_empty_wf) as [W H]. split; [exact W|]. intros n.
  rewrite (values_get_all n m W), H. reflexivity.
Qed.
