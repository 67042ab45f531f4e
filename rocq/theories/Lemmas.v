(** General lemmas: numbers as text, readers, buffered readers. *)
From Verif Require Export Io SpecIo.
From Coq Require Export ZifyBool ZifyNat ZifyN.

(** Split a conjunction into its parts, without unfolding definitions. *)
Ltac ands := repeat match goal with |- _ /\ _ => split end.

(** ** Lists *)
Lemma skipn_nil_iff {A} n (l : list A) : skipn n l = [] <-> (length l <= n)%nat.
Proof.
  split; intros H.
  - assert (E := skipn_length n l). rewrite H in E. cbn in E. lia.
  - apply skipn_all2. lia.
Qed.

Lemma firstn_skipn_app {A} n (l : list A) : l = firstn n l ++ skipn n l.
Proof. symmetry; apply firstn_skipn. Qed.

Lemma length_firstn_le {A} n (l : list A) : (length (firstn n l) <= n)%nat.
Proof. rewrite firstn_length. lia. Qed.

Lemma firstn_length_eq {A} n (l : list A) : (n <= length l)%nat -> length (firstn n l) = n.
Proof. intros. rewrite firstn_length. lia. Qed.

Lemma firstn_app_l {A} n (a b : list A) : (n <= length a)%nat -> firstn n (a ++ b) = firstn n a.
Proof. intros. rewrite firstn_app. replace (n - length a)%nat with 0%nat by lia. cbn. now rewrite app_nil_r. Qed.

Lemma firstn_app_r {A} n (a b : list A) :
  (length a <= n)%nat -> firstn n (a ++ b) = a ++ firstn (n - length a) b.
Proof. intros. rewrite firstn_app, (firstn_all2 a) by lia. reflexivity. Qed.

Lemma skipn_app_l {A} n (a b : list A) : (n <= length a)%nat -> skipn n (a ++ b) = skipn n a ++ b.
Proof. intros. rewrite skipn_app. replace (n - length a)%nat with 0%nat by lia. reflexivity. Qed.

Lemma skipn_app_r {A} n (a b : list A) :
  (length a <= n)%nat -> skipn n (a ++ b) = skipn (n - length a) b.
Proof. intros. rewrite skipn_app, (skipn_all2 a) by lia. reflexivity. Qed.

Lemma skipn_skipn' {A} i j (l : list A) : skipn i (skipn j l) = skipn (j + i) l.
Proof.
  revert l; induction j as [|j IH]; intros l; [reflexivity|].
  destruct l; [now rewrite !skipn_nil|]. cbn. apply IH.
Qed.

Lemma prefix_nil {A} (l : list A) : prefix [] l.
Proof. now exists l. Qed.
Lemma prefix_refl {A} (l : list A) : prefix l l.
Proof. exists []. now rewrite app_nil_r. Qed.
Lemma prefix_app {A} (p q l : list A) : prefix q l -> prefix (p ++ q) (p ++ l).
Proof. intros [x ->]. exists x. now rewrite app_assoc. Qed.
Lemma prefix_trans {A} (p q l : list A) : prefix p q -> prefix q l -> prefix p l.
Proof. intros [x ->] [y ->]. exists (x ++ y). now rewrite app_assoc. Qed.
Lemma prefix_app_r {A} (p q : list A) : prefix p (p ++ q).
Proof. now exists q. Qed.
Lemma prefix_length {A} (p q : list A) : prefix p q -> (length p <= length q)%nat.
Proof. intros [x ->]. rewrite app_length. lia. Qed.
Lemma prefix_firstn {A} n (l : list A) : prefix (firstn n l) l.
Proof. exists (skipn n l). apply firstn_skipn_app. Qed.

(** ** Characters *)
Lemma bv_lt c : (bv c < 256)%N.
Proof. unfold bv. apply N_ascii_bounded. Qed.

Lemma bv_inj c d : bv c = bv d -> c = d.
Proof.
  unfold bv. intros H.
  rewrite <- (ascii_N_embedding c), <- (ascii_N_embedding d). now f_equal.
Qed.

Lemma bv_of_N n : (n < 256)%N -> bv (ascii_of_N n) = n.
Proof. intros. unfold bv. now apply N_ascii_embedding. Qed.

Lemma ascii_eqb_bv c d : Ascii.eqb c d = (bv c =? bv d)%N.
Proof.
  destruct (Ascii.eqb_spec c d) as [->|H]; [now rewrite N.eqb_refl|].
  symmetry. apply N.eqb_neq. intros E. apply H. now apply bv_inj.
Qed.

(** Decide a statement about one byte by enumerating all 256. *)
Definition all_bytes : list byte := map ascii_of_nat (seq 0 256).
Lemma all_bytes_in c : In c all_bytes.
Proof.
  unfold all_bytes. apply in_map_iff. exists (nat_of_ascii c).
  split; [apply ascii_nat_embedding|]. apply in_seq. pose proof (nat_ascii_bounded c). lia.
Qed.
Lemma byte_forall (P : byte -> bool) : forallb P all_bytes = true -> forall c, P c = true.
Proof. intros H c. rewrite forallb_forall in H. apply H, all_bytes_in. Qed.

(** ** Numbers as text *)
Lemma digitc_bv d : (d < 16)%N -> bv (digitc d) = (if (d <? 10)%N then 48 + d else 55 + d)%N.
Proof. intros. unfold digitc. destruct (d <? 10)%N eqn:E; apply bv_of_N; lia. Qed.

Lemma to_base_acc fuel b n acc : to_base fuel b n acc = to_base fuel b n [] ++ acc.
Proof.
  revert n acc; induction fuel as [|f IH]; intros n acc; cbn; [reflexivity|].
  destruct (n / b =? 0)%N; [reflexivity|].
  rewrite IH, (IH (n / b)%N [_]), <- app_assoc. reflexivity.
Qed.

(** value of a digit string in base [b], most significant first *)
Definition base_val (dv : byte -> N) (b : N) (l : bytes) : N :=
  fold_left (fun a c => a * b + dv c)%N l 0%N.

Lemma size_nat_lt n : (n < 2 ^ N.of_nat (N.size_nat n))%N.
Proof.
  destruct n as [|p]; [cbn; lia|].
  cbn [N.size_nat]. induction p as [p IH|p IH|]; cbn [Pos.size_nat].
  - rewrite Nat2N.inj_succ, N.pow_succ_r'. lia.
  - rewrite Nat2N.inj_succ, N.pow_succ_r'. lia.
  - cbn. lia.
Qed.

Definition digit_num (c : byte) : N := if (bv c <? 65)%N then (bv c - 48)%N else (bv c - 55)%N.
Lemma digit_num_digitc d : (d < 16)%N -> digit_num (digitc d) = d.
Proof.
  intros. unfold digit_num. rewrite digitc_bv by lia.
  destruct (d <? 10)%N eqn:E; match goal with |- context [(?x <? 65)%N] => destruct (x <? 65)%N eqn:E2 end; lia.
Qed.

Lemma fold_base_shift (dv : byte -> N) b l a :
  fold_left (fun a c => a * b + dv c)%N l a
  = (a * b ^ N.of_nat (length l) + fold_left (fun a c => a * b + dv c)%N l 0)%N.
Proof.
  revert a; induction l as [|c l IH]; intros a; cbn [fold_left length].
  - cbn. lia.
  - rewrite IH, (IH (0 * b + dv c)%N), Nat2N.inj_succ, N.pow_succ_r'. nia.
Qed.

Lemma base_val_snoc dv b l c : base_val dv b (l ++ [c]) = (base_val dv b l * b + dv c)%N.
Proof. unfold base_val. now rewrite fold_left_app. Qed.

Lemma base_val_app dv b l m :
  base_val dv b (l ++ m) = (base_val dv b l * b ^ N.of_nat (length m) + base_val dv b m)%N.
Proof. unfold base_val. rewrite fold_left_app. apply fold_base_shift. Qed.

Section Base.
  Variable b : N.
  Hypothesis b_lo : (2 <= b)%N.
  Hypothesis b_hi : (b <= 16)%N.

  Lemma to_base_val fuel n :
    (n < 2 ^ N.of_nat fuel)%N -> base_val digit_num b (to_base (S fuel) b n []) = n.
  Proof.
    revert n; induction fuel as [|f IH]; intros n Hn.
    - cbn [to_base]. change (2 ^ N.of_nat 0)%N with 1%N in Hn. assert (n = 0)%N by lia. subst.
      rewrite N.div_0_l by lia. cbn -[N.modulo digitc]. rewrite N.mod_0_l by lia. reflexivity.
    - remember (S f) as sf. cbn [to_base]. 
      assert (Hm : (n mod b < b)%N) by (apply N.mod_lt; lia).
      destruct (n / b =? 0)%N eqn:E.
      + cbn [base_val fold_left]. unfold base_val. cbn [fold_left]. rewrite digit_num_digitc by lia.
        apply N.eqb_eq in E. pose proof (N.div_mod n b ltac:(lia)). lia.
      + rewrite to_base_acc, base_val_snoc, digit_num_digitc by lia.
        subst sf. rewrite IH.
        * pose proof (N.div_mod n b ltac:(lia)). lia.
        * rewrite Nat2N.inj_succ, N.pow_succ_r' in Hn.
          apply N.div_lt_upper_bound; [lia|]. nia.
  Qed.

  Lemma to_base_digits fuel n :
    Forall (fun c => exists d, (d < b)%N /\ c = digitc d) (to_base fuel b n []).
  Proof.
    revert n; induction fuel as [|f IH]; intros n; cbn [to_base]; [constructor|].
    assert (Hm : (n mod b < b)%N) by (apply N.mod_lt; lia).
    destruct (n / b =? 0)%N.
    - constructor; [now exists (n mod b)%N|constructor].
    - rewrite to_base_acc. apply Forall_app. split; [apply IH|].
      constructor; [now exists (n mod b)%N|constructor].
  Qed.

  Lemma to_base_nonempty fuel n acc : to_base (S fuel) b n acc <> [].
  Proof.
    cbn [to_base]. destruct (n / b =? 0)%N; [discriminate|].
    rewrite to_base_acc. intros E. apply app_eq_nil in E. destruct E. discriminate.
  Qed.

  (** No leading zero, unless the number is zero. *)
  Lemma to_base_len_lo fuel n :
    (0 < n)%N -> (n < 2 ^ N.of_nat fuel)%N ->
    (b ^ N.of_nat (pred (length (to_base (S fuel) b n []))) <= n)%N.
  Proof.
    revert n; induction fuel as [|f IH]; intros n Hp Hn.
    - cbn in Hn. lia.
    - remember (S f) as sf. cbn [to_base].
      assert (Hm : (n mod b < b)%N) by (apply N.mod_lt; lia).
      destruct (n / b =? 0)%N eqn:E; [cbn; lia|].
      rewrite to_base_acc, app_length. cbn [length]. subst sf.
      apply N.eqb_neq in E.
      assert (Hlt : (n / b < 2 ^ N.of_nat f)%N).
      { rewrite Nat2N.inj_succ, N.pow_succ_r' in Hn. apply N.div_lt_upper_bound; [lia|nia]. }
      specialize (IH (n / b)%N (proj1 (N.neq_0_lt_0 _) E) Hlt).
      pose proof (to_base_nonempty f (n / b)%N []) as Hne.
      destruct (to_base (S f) b (n / b) []) as [|x l] eqn:El; [congruence|].
      cbn [length pred] in *. rewrite Nat.add_1_r. cbn [pred]. rewrite Nat2N.inj_succ, N.pow_succ_r'.
      pose proof (N.mul_div_le n b ltac:(lia)). nia.
  Qed.

  Lemma to_base_len_hi fuel n :
    (n < 2 ^ N.of_nat fuel)%N -> (n < b ^ N.of_nat (length (to_base (S fuel) b n [])))%N.
  Proof.
    revert n; induction fuel as [|f IH]; intros n Hn.
    - change (2 ^ N.of_nat 0)%N with 1%N in Hn. assert (n = 0)%N by lia. subst.
      cbn [to_base]. rewrite N.div_0_l by lia. cbn [N.eqb length]. change (N.of_nat 1) with 1%N. rewrite N.pow_1_r. lia.
    - remember (S f) as sf. cbn [to_base].
      assert (Hm : (n mod b < b)%N) by (apply N.mod_lt; lia).
      destruct (n / b =? 0)%N eqn:E.
      + cbn [length]. change (N.of_nat 1) with 1%N. rewrite N.pow_1_r. apply N.eqb_eq in E. pose proof (N.div_mod n b ltac:(lia)). lia.
      + rewrite to_base_acc, app_length. cbn [length]. subst sf.
        assert (Hlt : (n / b < 2 ^ N.of_nat f)%N).
        { rewrite Nat2N.inj_succ, N.pow_succ_r' in Hn. apply N.div_lt_upper_bound; [lia|nia]. }
        specialize (IH (n / b)%N Hlt).
        rewrite Nat.add_1_r, Nat2N.inj_succ, N.pow_succ_r'.
        pose proof (N.div_mod n b ltac:(lia)). nia.
  Qed.
End Base.

Lemma to_hex_mono m n : (m <= n)%N -> (length (to_hex m) <= length (to_hex n))%nat.
Proof.
  intros H. unfold to_hex.
  destruct (N.eq_dec m 0) as [->|Hm].
  { cbn [N.size_nat]. change (length (to_base 1 16 0 [])) with 1%nat.
    pose proof (to_base_nonempty 16 (N.size_nat n) n []) as Hne.
    destruct (to_base (S (N.size_nat n)) 16 n []); [congruence|cbn; lia]. }
  pose proof (to_base_len_lo 16 ltac:(lia) ltac:(lia) (N.size_nat m) m ltac:(lia) (size_nat_lt m)) as L.
  pose proof (to_base_len_hi 16 ltac:(lia) ltac:(lia) (N.size_nat n) n (size_nat_lt n)) as U.
  set (lm := length (to_base (S (N.size_nat m)) 16 m [])) in *.
  set (ln := length (to_base (S (N.size_nat n)) 16 n [])) in *.
  assert (16 ^ N.of_nat (pred lm) < 16 ^ N.of_nat ln)%N by lia.
  apply N.pow_lt_mono_r_iff in H0; lia.
Qed.

Lemma to_dec_val n : base_val digit_num 10 (to_dec n) = n.
Proof. apply to_base_val; [lia|lia|apply size_nat_lt]. Qed.
Lemma to_hex_val n : base_val digit_num 16 (to_hex n) = n.
Proof. apply to_base_val; [lia|lia|apply size_nat_lt]. Qed.
Lemma to_dec_nonempty n : to_dec n <> [].
Proof. apply to_base_nonempty. Qed.
Lemma to_hex_nonempty n : to_hex n <> [].
Proof. apply to_base_nonempty. Qed.
Lemma to_dec_digits n : Forall (fun c => exists d, (d < 10)%N /\ c = digitc d) (to_dec n).
Proof. apply to_base_digits; lia. Qed.
Lemma to_hex_digits n : Forall (fun c => exists d, (d < 16)%N /\ c = digitc d) (to_hex n).
Proof. apply to_base_digits; lia. Qed.

Lemma is_digit_digitc d : (d < 10)%N -> is_digit (digitc d) = true.
Proof.
  intros. unfold is_digit, in_range. rewrite digitc_bv by lia.
  destruct (d <? 10)%N eqn:E; lia.
Qed.

Lemma parse_digits_gen l acc :
  Forall (fun c => exists d, (d < 10)%N /\ c = digitc d) l ->
  (fold_left (fun a c => a * 10 + digit_num c)%N l acc < two64)%N ->
  parse_digits l acc = Some (fold_left (fun a c => a * 10 + digit_num c)%N l acc).
Proof.
  revert acc; induction l as [|c l IH]; intros acc HF Hlt; cbn [parse_digits fold_left] in *; [reflexivity|].
  inversion HF as [|x y (d & Hd & ->) HF']; subst.
  unfold dec_val. rewrite is_digit_digitc by lia.
  assert (E : (bv (digitc d) - 48 = digit_num (digitc d))%N).
  { rewrite digit_num_digitc, digitc_bv by lia. destruct (d <? 10)%N eqn:E; lia. }
  rewrite E.
  assert (Hle : (acc * 10 + digit_num (digitc d) <= fold_left (fun a c => a * 10 + digit_num c) l (acc * 10 + digit_num (digitc d)))%N).
  { rewrite fold_base_shift.
    assert (1 <= 10 ^ N.of_nat (length l))%N by (pose proof (N.pow_nonzero 10 (N.of_nat (length l)) ltac:(lia)); lia).
    nia. }
  destruct (two64 <=? acc * 10 + digit_num (digitc d))%N eqn:E2; [lia|].
  apply IH; auto.
Qed.

Lemma parse_usize_to_dec n : (n < two64)%N -> parse_usize (to_dec n) = Some n.
Proof.
  intros H. pose proof (to_dec_digits n) as HD. pose proof (to_dec_val n) as HV.
  unfold base_val in HV.
  assert (P : parse_digits (to_dec n) 0 = Some n) by (rewrite parse_digits_gen; [now rewrite HV|assumption|now rewrite HV]).
  unfold parse_usize. destruct (to_dec n) as [|c r] eqn:E; [now pose proof (to_dec_nonempty n)|].
  inversion HD as [|x y (d & Hd & ->) HF']; subst.
  rewrite ascii_eqb_bv, digitc_bv, (bv_of_N 43) by lia.
  destruct (d <? 10)%N eqn:E1; [|lia].
  destruct (48 + d =? 43)%N eqn:E2; [lia|]. exact P.
Qed.

Ltac tl_case :=
  repeat match goal with
  | H : match s_tail ?s with Eof => _ | FailForever => _ end = _ |- _ =>
      let T := fresh "T" in destruct (s_tail s) eqn:T; try discriminate H; try (inversion H; subst; clear H)
  end.
(** ** Readers *)
Lemma wf_skip n d r : Forall wf_ev r -> Forall wf_ev (match skipn n d with [] => r | d' => Data d' :: r end).
Proof. intros. destruct (skipn n d) eqn:E; [assumption|]. constructor; [intros X; discriminate|assumption]. Qed.

Lemma src_read_wf n s s' r : src_read n s = (s', r) -> wf_src s -> wf_src s'.
Proof.
  unfold src_read, wf_src. destruct (s_evs s) as [|[d|f|] l] eqn:E; intros H W; inversion H; subst; cbn [s_evs].
  - now rewrite E.
  - inversion W; subst. now apply wf_skip.
  - now inversion W.
  - now inversion W.
Qed.

Lemma clean_skip n d r : clean_evs r -> clean_evs (match skipn n d with [] => r | d' => Data d' :: r end).
Proof. intros. destruct (skipn n d); [assumption|]. constructor; [discriminate|assumption]. Qed.

Lemma src_read_clean n s s' r : src_read n s = (s', r) -> clean s -> clean s' /\ r <> PErr.
Proof.
  unfold src_read, clean. destruct (s_evs s) as [|[d|f|] l] eqn:E; intros H [C T]; inversion H; subst; cbn [s_evs s_tail].
  - rewrite E, T. now repeat split.
  - inversion C; subst. split; [split; [now apply clean_skip|assumption]|discriminate].
  - inversion C; subst. now repeat split.
  - inversion C; congruence.
Qed.

Lemma evs_data_skip n d r :
  evs_data (match skipn n d with [] => r | d' => Data d' :: r end) = skipn n d ++ evs_data r.
Proof. destruct (skipn n d); reflexivity. Qed.

Lemma src_read_data n s s' d :
  src_read n s = (s', POk d) -> src_data s = d ++ src_data s'.
Proof.
  unfold src_read, src_data. destruct (s_evs s) as [|[x|f|] l] eqn:E; intros H; inversion H; subst; cbn [s_evs].
  - tl_case. now rewrite E.
  - cbn [evs_data]. rewrite evs_data_skip, app_assoc, firstn_skipn. reflexivity.
Qed.

Lemma src_read_pend_data n s s' f : src_read n s = (s', PPend f) -> src_data s' = src_data s.
Proof.
  unfold src_read, src_data. destruct (s_evs s) as [|[x|f'|] l] eqn:E; intros H; inversion H; subst; cbn [s_evs evs_data]; auto.
  tl_case.
Qed.

Lemma src_read_len n s s' d : src_read n s = (s', POk d) -> (length d <= n)%nat.
Proof.
  unfold src_read. destruct (s_evs s) as [|[x|f'|] l]; intros H; inversion H; subst.
  - tl_case; cbn; lia.
  - apply length_firstn_le.
Qed.

Lemma evs_size_skip n d r :
  (evs_size (match skipn n d with [] => r | d' => Data d' :: r end) <= S (length (skipn n d) + evs_size r))%nat.
Proof. destruct (skipn n d); cbn; lia. Qed.

Lemma src_read_nil n s s' :
  (0 < n)%nat -> wf_src s -> src_read n s = (s', POk []) -> s_evs s = [] /\ s_tail s = Eof /\ s' = s.
Proof.
  intros Hn W. unfold src_read. destruct (s_evs s) as [|[x|f'|] l] eqn:E; intros H; inversion H; subst.
  - tl_case. auto.
  - exfalso. unfold wf_src in W. rewrite E in W. inversion W; subst. unfold wf_ev in *.
    destruct x; [congruence|]. destruct n; [lia|]. discriminate.
Qed.

Lemma src_read_size n s s' r :
  src_read n s = (s', r) ->
  (src_size s' < src_size s \/ s' = s \/ (exists d, r = POk d /\ d = []))%nat.
Proof.
  unfold src_read, src_size. destruct (s_evs s) as [|[x|f'|] l] eqn:E; intros H; inversion H; subst; cbn [s_evs evs_size]; auto; try lia.
  destruct (firstn n x) eqn:F; [right; right; eauto|].
  left. pose proof (evs_size_skip n x l). rewrite skipn_length in H0.
  assert (length (firstn n x) = S (length l0)) by now rewrite F.
  rewrite firstn_length in H1. lia.
Qed.

Lemma src_read_ok_size n s s' d :
  src_read n s = (s', POk d) -> d <> [] -> (src_size s' + length d <= src_size s)%nat.
Proof.
  unfold src_read, src_size. destruct (s_evs s) as [|[x|f'|] l] eqn:E; intros H Hd; inversion H; subst; cbn [s_evs evs_size].
  - tl_case; congruence.
  - pose proof (evs_size_skip n x l). rewrite skipn_length in H0. rewrite firstn_length. lia.
Qed.

Lemma src_read_pend_size n s s' f :
  src_read n s = (s', PPend f) -> (src_size s' < src_size s)%nat.
Proof.
  unfold src_read, src_size. destruct (s_evs s) as [|[x|f'|] l] eqn:E; intros H; inversion H; subst; cbn [s_evs evs_size]; try lia.
  tl_case.
Qed.

Lemma src_read_never n s s' r : src_read n s = (s', r) -> r <> PPanic /\ r <> PFuel.
Proof.
  unfold src_read. destruct (s_evs s) as [|[x|f'|] l]; intros H; inversion H; subst; split; try discriminate;
  destruct (s_tail s'); discriminate.
Qed.

(** [src_fill] and [src_consume] *)
Lemma src_fill_ok s s' d : src_fill s = (s', POk d) -> s' = s /\ prefix d (src_data s).
Proof.
  unfold src_fill, src_data. destruct (s_evs s) as [|[x|f'|] l] eqn:E; intros H; inversion H; subst.
  - tl_case. split; auto. apply prefix_nil.
  - split; auto. cbn. apply prefix_app_r.
Qed.

Lemma src_fill_nil s s' : wf_src s -> src_fill s = (s', POk []) -> s' = s /\ s_evs s = [] /\ s_tail s = Eof.
Proof.
  unfold src_fill, wf_src. destruct (s_evs s) as [|[x|f'|] l] eqn:E; intros W H; inversion H; subst; auto.
  - tl_case. auto.
  - inversion W; subst. now unfold wf_ev in *.
Qed.

Lemma src_fill_cons s s' c d :
  src_fill s = (s', POk (c :: d)) -> s' = s /\ exists l, s_evs s = Data (c :: d) :: l.
Proof.
  unfold src_fill. destruct (s_evs s) as [|[x|f'|] l] eqn:E; intros H; inversion H; subst; auto.
  - tl_case.
  - eauto.
Qed.

Lemma src_consume_wf k s : wf_src s -> wf_src (src_consume k s).
Proof.
  unfold src_consume, wf_src. destruct (s_evs s) as [|[x|f'|] l] eqn:E; intros W; auto; try (now rewrite E).
  inversion W; subst. cbn. now apply wf_skip.
Qed.

Lemma src_consume_clean k s : clean s -> clean (src_consume k s).
Proof.
  unfold src_consume, clean. destruct (s_evs s) as [|[x|f'|] l] eqn:E; intros [C T]; cbn; rewrite ?E; auto.
  inversion C; subst. split; auto. now apply clean_skip.
Qed.

Lemma src_consume_data k s d l :
  s_evs s = Data d :: l -> src_data s = firstn k d ++ src_data (src_consume k s).
Proof.
  intros E. unfold src_data, src_consume. rewrite E. cbn [s_evs evs_data].
  rewrite evs_data_skip, app_assoc, firstn_skipn. reflexivity.
Qed.

Lemma src_consume_size k s d l :
  s_evs s = Data d :: l -> (0 < k)%nat -> d <> [] -> (src_size (src_consume k s) < src_size s)%nat.
Proof.
  intros E Hk Hd. unfold src_size, src_consume. rewrite E. cbn [s_evs evs_size].
  pose proof (evs_size_skip k d l). rewrite skipn_length in H. destruct d; [congruence|]. cbn [length] in *. lia.
Qed.
