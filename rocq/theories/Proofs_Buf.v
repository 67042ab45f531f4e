(** futures-lite [BufReader]: what [br_read] delivers. *)
From Verif Require Import Io Lemmas.

Ltac br_cases H :=
  unfold br_read, br_fill, br_consume in H;
  repeat match type of H with
  | context [match br_buf ?b with _ => _ end] => destruct (br_buf b) as [|?x ?xs] eqn:?EB
  | context [(br_cap ?b <=? ?n)%nat] => destruct (br_cap b <=? n)%nat eqn:?EC
  | context [src_read ?n ?s] => destruct (src_read n s) as [?s1 [?d1|?f1| | |]] eqn:?ES
  end; cbn [br_cap br_buf br_src] in H; inversion H; subst; clear H.

Lemma take_skip {A} n (l : list A) : l = firstn n l ++ skipn (length (firstn n l)) l.
Proof.
  rewrite firstn_length. destruct (Nat.min_spec n (length l)) as [[H ->]|[H ->]].
  - symmetry. apply firstn_skipn.
  - rewrite firstn_all2, skipn_all, app_nil_r by lia. reflexivity.
Qed.

Lemma br_read_data n b b' d : br_read n b = (b', POk d) -> br_data b = d ++ br_data b'.
Proof.
  intros H. br_cases H; unfold br_data; cbn [br_buf br_src]; rewrite ?EB, ?app_nil_l.
  - now apply src_read_data in ES.
  - apply src_read_data in ES. rewrite ES, app_assoc. f_equal. apply take_skip.
  - rewrite app_assoc. f_equal. apply take_skip.
Qed.

Lemma br_read_pend_data n b b' f : br_read n b = (b', PPend f) -> br_data b' = br_data b.
Proof.
  intros H. br_cases H; unfold br_data; cbn [br_buf br_src]; rewrite ?EB, ?app_nil_l; now apply src_read_pend_data in ES.
Qed.

Lemma br_read_len n b b' d : br_read n b = (b', POk d) -> (length d <= n)%nat.
Proof.
  intros H. br_cases H; try apply length_firstn_le. now apply src_read_len in ES.
Qed.

Lemma br_read_err n b b' : br_read n b = (b', PErr) -> br_data b = [].
Proof.
  intros H. br_cases H; unfold br_data; rewrite EB; cbn [app];
  unfold src_read, src_data in *; destruct (s_evs (br_src b)) as [|[?|?|] ?]; inversion ES; reflexivity.
Qed.

Lemma br_read_nil n b b' : (0 < n)%nat -> wf_brd b -> br_read n b = (b', POk []) ->
  br_data b = [] /\ br_data b' = [].
Proof.
  intros Hn [W C] H. pose proof (br_read_data _ _ _ _ H) as HD. cbn [app] in HD.
  assert (br_data b = []); [|split; congruence].
  br_cases H; unfold br_data; rewrite EB; cbn [app].
  - apply src_read_nil in ES as (E & _ & _); [|assumption|assumption]. unfold src_data. now rewrite E.
  - destruct d1; [|destruct n; [lia|discriminate]].
    apply src_read_nil in ES as (E & _ & _); [|assumption|assumption]. unfold src_data. now rewrite E.
  - destruct n; [lia|discriminate].
Qed.

Lemma src_read_ok_size' n s s' d : src_read n s = (s', POk d) -> (src_size s' + length d <= src_size s)%nat.
Proof.
  intros H. destruct d as [|x d]; [|eapply src_read_ok_size; [eassumption|discriminate]].
  revert H. unfold src_read, src_size. destruct (s_evs s) as [|[x|f'|] l] eqn:E; intros H; inversion H; subst; cbn [s_evs evs_size length].
  - rewrite E. cbn. lia.
  - pose proof (evs_size_skip n x l). rewrite skipn_length in H0. rewrite firstn_length. lia.
Qed.

Lemma br_read_size n b b' d : br_read n b = (b', POk d) -> (br_size b' + length d <= br_size b)%nat.
Proof.
  intros H. br_cases H; unfold br_size; cbn [br_buf br_src]; rewrite ?EB.
  - apply src_read_ok_size' in ES. cbn [length]. lia.
  - apply src_read_ok_size' in ES. rewrite skipn_length, firstn_length. cbn [length]. lia.
  - rewrite skipn_length, firstn_length. cbn [length]. lia.
Qed.

Lemma br_read_pend_size n b b' f : br_read n b = (b', PPend f) -> (br_size b' < br_size b)%nat.
Proof.
  intros H. br_cases H; unfold br_size; cbn [br_buf br_src]; rewrite ?EB; apply src_read_pend_size in ES; cbn [length]; lia.
Qed.

Lemma br_read_err_size n b b' : br_read n b = (b', PErr) -> (br_size b' <= br_size b)%nat.
Proof.
  intros H. br_cases H; unfold br_size; cbn [br_buf br_src]; rewrite ?EB; cbn [length];
  unfold src_read, src_size in *; destruct (s_evs (br_src b)) as [|[?|?|] ?] eqn:E; inversion ES; subst; cbn [s_evs evs_size]; try rewrite E; cbn; lia.
Qed.

Lemma br_read_never n b b' r : br_read n b = (b', r) -> r <> PPanic /\ r <> PFuel.
Proof.
  intros H. br_cases H; split; try discriminate; apply src_read_never in ES; destruct ES; congruence.
Qed.

Lemma br_read_wf n b b' r : br_read n b = (b', r) -> wf_brd b -> wf_brd b'.
Proof.
  intros H [W C]. br_cases H; split; cbn [br_src br_cap]; try assumption; eapply src_read_wf; eassumption.
Qed.

Lemma br_read_clean n b b' r : br_read n b = (b', r) -> clean (br_src b) -> clean (br_src b') /\ r <> PErr.
Proof.
  intros H C. br_cases H; cbn [br_src]; try (split; [assumption|discriminate]);
  destruct (src_read_clean _ _ _ _ ES C); split; try assumption; congruence.
Qed.
