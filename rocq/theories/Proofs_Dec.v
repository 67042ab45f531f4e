(** The chunked decoder: every poll ends, and nothing panics before the first error. *)
From Verif Require Import ChunkedDec SpecChunked Lemmas Proofs_Parse Proofs_Buf.
From Verif Require Export SpecEnv.

(** A chunk being read is not finished. *)
Definition st_ok (s : dst) : Prop := match s with DChunk cur len => (cur < len)%N | _ => True end.

Definition rank (s : dst) : nat := match s with DTrailerDone _ => 4 | DTrailerSending _ => 2 | _ => 0 end.
Definition mu (nr : bool) (d : dec) (b : blk) : nat :=
  16 * br_size (d_in d) + 8 * length (k_data b) + rank (d_st d) + (if nr then 0 else 1).

Lemma skip_len {A} (u r : list A) : (length (u ++ r) - length r)%nat = length u.
Proof. rewrite app_length. lia. Qed.

Lemma blk_skip_used u r b : k_data b = u ++ r ->
  blk_skip (length (k_data b) - length r) b = mkBlk (k_start b + length u) r (k_len b) (k_cap b).
Proof.
  intros E. unfold blk_skip. rewrite E, skip_len. f_equal.
  rewrite skipn_app_r by lia. now rewrite Nat.sub_diag.
Qed.

(** ** Progress *)
Lemma chunk_progress i b n cur len i' r :
  (0 < n)%nat -> (cur < len)%N -> poll_read_chunk i b n cur len = (i', r) ->
  match r with
  | DSome read (Some st) b' pend =>
      st_ok st /\ (st = DDone \/ read <> [] \/ pend <> None) /\
      (br_size i' <= br_size i)%nat
  | DSome _ None _ _ => False
  | DNone => False
  | _ => (br_size i' <= br_size i)%nat
  end.
Proof.
  intros Hn Hc H. unfold poll_read_chunk in H.
  destruct (len <? cur)%N eqn:E0; [lia|].
  set (tr := N.to_nat (N.min (len - cur) (N.of_nat n))) in *.
  assert (Ht : (0 < tr)%nat) by (subst tr; lia).
  assert (Ht2 : (N.of_nat tr <= len - cur)%N) by (subst tr; lia).
  clearbody tr.
  destruct (k_data b) as [|x xs] eqn:ED.
  - destruct (br_read tr i) as [i1 [d|f| | |]] eqn:EB; inversion H; subst; clear H.
    + pose proof (br_read_size _ _ _ _ EB). pose proof (br_read_len _ _ _ _ EB).
      destruct (cur + N.of_nat (length d) =? len)%N eqn:E.
      * repeat split; [|lia]. destruct d; [cbn in E; lia|right; left; discriminate].
      * destruct d as [|y d]; [repeat split; auto; lia|].
        repeat split; [|right; left; discriminate|lia]. cbn [st_ok length] in *. lia.
    + pose proof (br_read_pend_size _ _ _ _ EB).
      repeat split; [assumption|right; right; discriminate|lia].
    + apply (br_read_err_size _ _ _ EB).
    + now apply br_read_never in EB.
    + now apply br_read_never in EB.
  - set (k := Nat.min tr (length (x :: xs))) in *.
    assert (Hk : (0 < k)%nat) by (subst k; cbn [length]; lia).
    destruct (k_len b <? k_start b + k)%nat; inversion H; subst; [lia|].
    repeat split; [|right; left|lia].
    + destruct (cur + N.of_nat k =? len)%N eqn:E; [exact I|]. cbn [st_ok]. subst k. lia.
    + destruct k; [lia|]. discriminate.
Qed.

Lemma init_some b read st b' pend :
  decode_init b = DSome read st b' pend ->
  read = [] /\ pend = None /\
  exists u r sz, k_data b = u ++ r /\ u <> [] /\ parse_chunk_size (k_data b) = HDone (sz, r) /\
    st = Some (if (sz =? 0)%N then DTrailer else DChunk 0 sz) /\
    b' = mkBlk (k_start b + length u) r (k_len b) (k_cap b).
Proof.
  unfold decode_init, sliced. destruct (k_len b <? k_end b)%nat; [discriminate|].
  destruct (parse_chunk_size (k_data b)) as [[sz r]| |] eqn:E; try discriminate.
  intros H; inversion H; subst. repeat split.
  destruct (chunk_size_consumes _ _ _ _ _ _ E) as (u & Hu & EU).
  exists u, r, sz. repeat split; auto. now apply blk_skip_used.
Qed.

Lemma end_some b read st b' pend :
  decode_chunk_end b = DSome read st b' pend ->
  read = [] /\ pend = None /\ st = Some DInit /\
  exists r, k_data b = CRLF ++ r /\ b' = mkBlk (k_start b + 2) r (k_len b) (k_cap b).
Proof.
  unfold decode_chunk_end. destruct (length (k_data b) <? 2)%nat eqn:E; [discriminate|].
  destruct (k_len b <? k_start b + 2)%nat; [discriminate|].
  destruct (beq (firstn 2 (k_data b)) CRLF) eqn:E2; [|discriminate].
  intros H; inversion H; subst. repeat split. apply beq_eq in E2.
  exists (skipn 2 (k_data b)). split; [|reflexivity].
  rewrite <- E2. symmetry. apply firstn_skipn.
Qed.

Lemma trailer_some ev b read st b' pend :
  decode_trailer ev b = DSome read st b' pend ->
  read = [] /\ pend = None /\
  exists u r hs m, k_data b = u ++ r /\ u <> [] /\
    hp_headers (e_trim ev) 16 (k_data b) = HDone (hs, r) /\ append_trailers hs [] = Some m /\
    st = Some (DTrailerDone m) /\ b' = mkBlk (k_start b + length u) r (k_len b) (k_cap b).
Proof.
  unfold decode_trailer, sliced. destruct (k_len b <? k_end b)%nat; [discriminate|].
  destruct (hp_headers (e_trim ev) 16 (k_data b)) as [[hs r]| |] eqn:E; try discriminate.
  destruct (append_trailers hs []) as [m|] eqn:EA; [|discriminate].
  intros H; inversion H; subst. repeat split.
  destruct (hp_headers_consumes _ _ _ _ _ E) as (u & Hu & EU).
  exists u, r, hs, m. repeat split; auto. now apply blk_skip_used.
Qed.

(** What one call of [poll_read_inner] does, for the measure. *)
Lemma inner_progress ev d b n d' r :
  (0 < n)%nat -> st_ok (d_st d) -> poll_read_inner ev d b n = (d', r) ->
  st_ok (d_st d') /\ (br_size (d_in d') <= br_size (d_in d))%nat /\
  match r with
  | DSome read st b' pend =>
      let s' := match st with Some s => s | None => d_st d' end in
      st_ok s' /\
      (s' = DDone \/ read <> [] \/ pend <> None \/
       (8 * length (k_data b') + rank s' + 2 <= 8 * length (k_data b) + rank (d_st d))%nat)
  | DNone => d' = d
  | _ => True
  end.
Proof.
  intros Hn Hs H. unfold poll_read_inner in H. destruct (d_st d) as [|cur len| | |h|h|] eqn:ES.
  - inversion H; subst. rewrite ES. split; [exact I|]. split; [lia|].
    destruct (decode_init b) as [read st b' pend| | |] eqn:E; try exact I; try reflexivity.
    apply init_some in E as (-> & -> & u & r & sz & ED & Hu & _ & -> & ->).
    cbv zeta. split; [destruct (sz =? 0)%N eqn:Z; [exact I|cbn; lia]|].
    right; right; right. cbn [k_data]. rewrite ED, app_length. destruct u as [|x u]; [congruence|].
    cbn [length]. destruct (sz =? 0)%N; cbn [rank]; lia.
  - destruct (poll_read_chunk (d_in d) b n cur len) as [i' r'] eqn:E. inversion H; subst; clear H.
    cbn [d_st d_in]. pose proof (chunk_progress _ _ _ _ _ _ _ Hn Hs E) as P. split; [now rewrite ?ES|].
    destruct r as [read [st|] b' pend| | |]; try contradiction; try (split; [assumption|exact I]).
    destruct P as (P1 & P2 & P3). split; [assumption|]. cbv zeta. split; [assumption|]. tauto.
  - inversion H; subst. rewrite ES. split; [exact I|]. split; [lia|].
    destruct (decode_chunk_end b) as [read st b' pend| | |] eqn:E; try exact I; try reflexivity.
    apply end_some in E as (-> & -> & -> & r & ED & ->).
    cbv zeta. split; [exact I|]. right; right; right. cbn [k_data]. rewrite ED. cbn [CRLF app length rank]. lia.
  - inversion H; subst. rewrite ES. split; [exact I|]. split; [lia|].
    destruct (decode_trailer ev b) as [read st b' pend| | |] eqn:E; try exact I; try reflexivity.
    apply trailer_some in E as (-> & -> & u & r & hs & m & ED & Hu & _ & _ & -> & ->).
    cbv zeta. split; [exact I|]. right; right; right. cbn [k_data]. rewrite ED, app_length.
    destruct u as [|x u]; [congruence|]. cbn [length rank]. lia.
  - destruct (d_sender d); inversion H; subst; cbn [d_st d_in].
    + split; [exact I|]. split; [lia|]. cbv zeta. split; [exact I|]. right; right; right. cbn [rank]. lia.
    + rewrite ES. split; [exact I|]. split; [lia|exact I].
  - destruct (d_chan d); inversion H; subst; cbn [d_st d_in]; rewrite ?ES; (split; [exact I|]); (split; [lia|]); cbv zeta; (split; [exact I|]).
    + now left.
    + right; right; left. discriminate.
  - inversion H; subst. rewrite ES. split; [exact I|]. split; [lia|]. cbv zeta. split; [exact I|]. now left.
Qed.

Lemma is_done_spec s : is_done s = true <-> s = DDone.
Proof. destruct s; cbn; split; congruence. Qed.

Lemma set_st_opt_st st d : d_st (set_st_opt st d) = match st with Some s => s | None => d_st d end.
Proof. destruct st; reflexivity. Qed.
Lemma set_st_opt_in st d : d_in (set_st_opt st d) = d_in d.
Proof. destruct st; reflexivity. Qed.
Lemma set_st_opt_chan st d : d_chan (set_st_opt st d) = d_chan d.
Proof. destruct st; reflexivity. Qed.
Lemma set_st_opt_sender st d : d_sender (set_st_opt st d) = d_sender d.
Proof. destruct st; reflexivity. Qed.
Lemma set_st_opt_init st d : d_init (set_st_opt st d) = d_init d.
Proof. destruct st; reflexivity. Qed.

Lemma decode_mu ev n kept d b :
  (0 < n)%nat -> st_ok (d_st d) ->
  match dec_decode ev n kept d b with
  | Ret d' r => st_ok (d_st d') /\ r <> PFuel
  | Again nr' _ d' b' => st_ok (d_st d') /\ (br_size (d_in d') <= br_size (d_in d))%nat /\
      (if nr' then d_in d' = d_in d /\ d_st d' = d_st d /\ b' = b
       else (mu nr' d' b' < mu true d b)%nat)
  end.
Proof.
  intros Hn Hs. unfold dec_decode. destruct (poll_read_inner ev d b n) as [d' r] eqn:E.
  destruct (inner_progress _ _ _ _ _ _ Hn Hs E) as (H1 & H2 & H3).
  destruct r as [read st b' pend| | |].
  - cbv zeta. rewrite set_st_opt_st. cbn [set_init d_st].
    cbv zeta in H3. set (s' := match st with Some s => s | None => d_st d' end) in *. destruct H3 as (H3 & H4).
    assert (HS : d_st (set_st_opt st (set_init true d')) = s') by (rewrite set_st_opt_st; reflexivity).
    destruct (is_done s') eqn:ED; [cbn [set_blk d_st]; rewrite HS; split; [assumption|discriminate]|].
    destruct (0 <? length read)%nat eqn:ER; [cbn [set_blk d_st]; rewrite HS; split; [assumption|discriminate]|].
    destruct pend as [f|]; [cbn [set_blk d_st]; rewrite HS; split; [assumption|discriminate]|].
    rewrite HS, set_st_opt_in. cbn [set_init d_in]. split; [assumption|]. split; [assumption|].
    unfold mu. rewrite HS, set_st_opt_in. cbn [set_init d_in].
    destruct H4 as [H4|[H4|[H4|H4]]].
    + rewrite H4 in ED. discriminate.
    + destruct read; [congruence|]. discriminate.
    + congruence.
    + lia.
  - subst d'. destruct (Nat.eqb (k_start b) 0 && Nat.eqb (k_end b) 0)%bool.
    + cbn [set_blk set_init d_st]. split; [assumption|discriminate].
    + split; [assumption|]. split; [lia|]. repeat split.
  - cbn [set_blk d_st]. split; [assumption|discriminate].
  - split; [assumption|discriminate].
Qed.

Lemma grow_data ev b b' : grow ev b = Some b' -> k_data b' = k_data b /\ k_start b' = k_start b.
Proof.
  unfold grow. destruct (k_cap b <=? length (k_data b))%nat; [|intros H; inversion H; auto].
  destruct (N.of_nat (k_cap b) + 1024 <=? max_capacity)%N; [|discriminate].
  intros H; inversion H; auto.
Qed.

Lemma turn_mu ev n nr kept d b :
  (0 < n)%nat -> st_ok (d_st d) ->
  match dec_turn ev n nr kept d b with
  | Ret d' r => st_ok (d_st d') /\ r <> PFuel
  | Again nr' _ d' b' => st_ok (d_st d') /\ (mu nr' d' b' < mu nr d b)%nat
  end.
Proof.
  intros Hn Hs. unfold dec_turn. destruct (grow ev b) as [b1|] eqn:EG.
  2:{ cbn [set_blk d_st]. split; [assumption|discriminate]. }
  destruct (grow_data _ _ _ EG) as [GD GS].
  destruct nr.
  - destruct (k_len b1 <? k_end b1)%nat; [split; [assumption|discriminate]|].
    destruct (br_read (k_len b1 - k_end b1) (d_in d)) as [i' [x|f| | |]] eqn:EB;
      try (cbn [set_blk set_init set_in d_st]; split; [assumption|discriminate]).
    pose proof (br_read_size _ _ _ _ EB) as HB.
    set (d1 := match x with [] => set_st DDone (set_in i' d) | _ => set_in i' d end).
    assert (Hs1 : st_ok (d_st d1)) by (subst d1; destruct x; [exact I|assumption]).
    assert (Hi1 : d_in d1 = i') by (subst d1; destruct x; reflexivity).
    set (bb := mkBlk (k_start b1) (k_data b1 ++ x) (k_len b1) (k_cap b1)).
    pose proof (decode_mu ev n kept d1 bb Hn Hs1) as P. cbv zeta.
    destruct (dec_decode ev n kept d1 bb) as [d' r|nr' kept' d' b'] eqn:ED; [assumption|].
    destruct P as (P1 & P2 & P3). split; [assumption|].
    assert (M : (mu true d1 bb <= mu true d b)%nat /\ (x <> [] -> mu true d1 bb < mu true d b)%nat).
    { unfold mu. subst bb. cbn [k_data]. rewrite app_length, GD, Hi1.
      destruct x as [|y x]; subst d1; cbn [set_st set_in d_st rank length] in *; split; intros; try congruence; lia. }
    destruct nr'.
    + destruct P3 as (Q1 & Q2 & ->). unfold mu at 1. rewrite Q1, Q2.
      destruct x as [|y x].
      { exfalso. subst d1. unfold dec_decode, poll_read_inner in ED. cbn in ED. discriminate. }
      destruct M as [_ M]. specialize (M ltac:(discriminate)). unfold mu in M at 1. lia.
    + lia.
  - pose proof (decode_mu ev n kept d b1 Hn Hs) as P.
    destruct (dec_decode ev n kept d b1) as [d' r|nr' kept' d' b'] eqn:ED; [assumption|].
    destruct P as (P1 & P2 & P3). split; [assumption|].
    destruct nr'.
    + destruct P3 as (Q1 & Q2 & ->). unfold mu. rewrite Q1, Q2, GD. lia.
    + unfold mu in *. rewrite GD in P3. lia.
Qed.

Lemma loop_mu ev n fuel : forall nr kept d b,
  (0 < n)%nat -> st_ok (d_st d) -> (mu nr d b < fuel)%nat ->
  st_ok (d_st (fst (dec_loop fuel ev n nr kept d b))) /\
  snd (dec_loop fuel ev n nr kept d b) <> PFuel /\
  (forall fuel', (fuel <= fuel')%nat -> dec_loop fuel' ev n nr kept d b = dec_loop fuel ev n nr kept d b).
Proof.
  induction fuel as [|f IH]; intros nr kept d b Hn Hs Hm; [lia|].
  cbn [dec_loop]. pose proof (turn_mu ev n nr kept d b Hn Hs) as P.
  destruct (dec_turn ev n nr kept d b) as [d' r|nr' kept' d' b'] eqn:E.
  - cbn [fst snd]. destruct P. repeat split; auto. intros [|f'] Hf; [lia|]. cbn [dec_loop]. now rewrite E.
  - destruct P as [P1 P2]. destruct (IH nr' kept' d' b' Hn P1 ltac:(lia)) as (Q1 & Q2 & Q3).
    repeat split; auto. intros [|f'] Hf; [lia|]. cbn [dec_loop]. rewrite E. apply Q3. lia.
Qed.

Lemma poll_mu ev n d :
  (0 < n)%nat -> st_ok (d_st d) ->
  st_ok (d_st (fst (dec_read ev n d))) /\ snd (dec_read ev n d) <> PFuel /\
  (forall fuel, (dec_fuel d <= fuel)%nat -> dec_poll fuel ev n d = dec_read ev n d).
Proof.
  intros Hn Hs. unfold dec_read, dec_poll. cbn [set_blk d_st d_init].
  set (d0 := mkDec (d_in d) (blk_fresh ev) (d_init d) (d_st d) (d_sender d) (d_chan d)).
  change (set_blk (blk_fresh ev) d) with d0.
  assert (R : (rank (d_st d) <= 4)%nat) by (destruct (d_st d); cbn; lia).
  destruct ((0 <? length (k_data (d_blk d)))%nat && d_init d)%bool eqn:E0.
  - destruct (poll_read_inner ev d0 (d_blk d) n) as [d' r] eqn:E.
    destruct (inner_progress ev d0 _ _ _ _ Hn Hs E) as (H1 & H2 & H3). cbn [d0 d_in d_st] in H2, H3.
    destruct r as [read st b' pend| | |].
    + cbv zeta in H3. cbv zeta. rewrite set_st_opt_st.
      set (s' := match st with Some s => s | None => d_st d' end) in *.
      assert (HS : d_st (set_st_opt st d') = s') by apply set_st_opt_st. destruct H3 as [H3 H4].
      destruct pend as [f|]; [cbn [fst snd set_blk d_st]; rewrite HS; repeat split; auto; discriminate|].
      destruct (is_done s') eqn:ED; [cbn [fst snd set_blk d_st]; rewrite HS; repeat split; auto; discriminate|].
      destruct (0 <? length read)%nat eqn:ER; [cbn [fst snd set_blk d_st]; rewrite HS; repeat split; auto; discriminate|].
      destruct H4 as [H4|[H4|[H4|H4]]].
      * rewrite H4 in ED. discriminate.
      * destruct read; [congruence|discriminate].
      * congruence.
      * apply loop_mu; [assumption|now rewrite HS|]. unfold mu, dec_fuel. rewrite HS, set_st_opt_in. cbn [set_blk d_in]. lia.
    + subst d'. apply loop_mu; [assumption|assumption|]. unfold mu, dec_fuel. cbn [d0 d_in d_st].
      destruct (is_chunk (d_st d)); cbn [negb]; lia.
    + cbn [fst snd set_blk d_st]. repeat split; auto; discriminate.
    + cbn [fst snd set_blk d_st]. repeat split; auto; discriminate.
  - apply loop_mu; [assumption|assumption|]. unfold mu, dec_fuel. cbn [d0 d_in d_st].
    destruct (is_chunk (d_st d)); cbn [negb]; lia.
Qed.

(** ** No panic *)
(** The trailer sender is there as long as it may be needed. *)
Definition sender_ok (d : dec) : Prop :=
  match d_st d with DTrailerSending _ | DDone => True | _ => d_sender d = true end.

Definition blk_ok (b : blk) : Prop := (k_end b <= k_len b)%nat /\ (k_len b <= k_cap b)%nat.

Definition np (d : dec) (b : blk) : Prop := blk_ok b /\ st_ok (d_st d) /\ sender_ok d.

Lemma inner_np ev d b n d' r :
  np d b -> poll_read_inner ev d b n = (d', r) ->
  match r with
  | DSome read st b' pend => np (set_st_opt st d') b' /\ k_len b' = k_len b /\ k_cap b' = k_cap b /\
                             (length read <= n)%nat
  | DNone => d' = d
  | DErr => np d' b
  | DPanic => False
  end.
Proof.
  intros ((B1 & B2) & Hs & HS) H. unfold poll_read_inner in H. unfold sender_ok in HS.
  assert (B1' : (k_len b <? k_end b)%nat = false) by (apply Nat.ltb_ge; exact B1).
  unfold np, blk_ok, sender_ok.
  destruct (d_st d) as [|cur len| | |h|h|] eqn:ES.
  - inversion H; subst. destruct (decode_init b) as [read st b' pend| | |] eqn:E.
    + apply init_some in E as (-> & -> & u & r & sz & ED & Hu & _ & -> & ->).
      cbn [set_st_opt set_st d_st d_sender k_len k_cap k_end k_start k_data length]. unfold k_end in *. rewrite ED, app_length in B1.
      cbn [k_start k_data]. repeat split; try lia; destruct (sz =? 0)%N eqn:Z; auto; try exact I; cbn; lia.
    + reflexivity.
    + rewrite ?ES. auto.
    + unfold decode_init, sliced in E. rewrite B1' in E. destruct (parse_chunk_size (k_data b)) as [[? ?]| |]; discriminate.
  - cbn [st_ok] in Hs. destruct (poll_read_chunk (d_in d) b n cur len) as [i' r'] eqn:E. inversion H; subst; clear H.
    unfold poll_read_chunk in E. destruct (len <? cur)%N eqn:E0; [lia|].
    set (tr := N.to_nat (N.min (len - cur) (N.of_nat n))) in *.
    assert (Ht2 : (N.of_nat tr <= len - cur)%N) by (subst tr; lia).
    assert (Ht3 : (tr <= n)%nat) by (subst tr; lia).
    clearbody tr.
    destruct (k_data b) as [|x xs] eqn:ED.
    + destruct (br_read tr (d_in d)) as [i1 [x|f| | |]] eqn:EB; inversion E; subst; clear E.
      * pose proof (br_read_len _ _ _ _ EB). cbn [set_st_opt set_st d_st d_sender].
        repeat split; try lia.
        -- destruct (cur + N.of_nat (length x) =? len)%N eqn:E; [exact I|]. destruct x; [exact I|]. cbn [st_ok length] in *. lia.
        -- destruct (cur + N.of_nat (length x) =? len)%N; [assumption|]. destruct x; auto; exact I.
      * cbn [set_st_opt set_st d_st d_sender]. repeat split; try assumption; cbn; lia.
      * cbn [d_st d_sender]. rewrite ?ES. repeat split; auto.
      * now apply br_read_never in EB.
      * now apply br_read_never in EB.
    + set (k := Nat.min tr (length (x :: xs))) in *.
      unfold k_end in B1. rewrite ED in B1.
      assert (Hk : (k <= length (x :: xs))%nat) by (subst k; lia).
      assert (Hk2 : (k <= tr)%nat) by (subst k; lia).
      set (b1 := if Nat.eqb k (length (x :: xs)) then mkBlk 0 [] (k_len b) (k_cap b) else blk_skip k b) in *.
      assert (BK : (k_end b1 <= k_len b)%nat /\ k_len b1 = k_len b /\ k_cap b1 = k_cap b).
      { subst b1. destruct (Nat.eqb k (length (x :: xs))); unfold k_end; cbn [k_start k_data blk_skip length k_len k_cap]; repeat split; [lia|]. rewrite skipn_length, ED. lia. }
      clearbody b1. destruct BK as (BK & BL & BC).
      destruct (k_len b <? k_start b + k)%nat eqn:EL; [lia|]. inversion E; subst.
      cbn [set_st_opt set_st d_st d_sender].
      repeat split; auto.
      * lia.
      * lia.
      * destruct (cur + N.of_nat k =? len)%N eqn:Z; [exact I|]. cbn [st_ok]. lia.
      * destruct (cur + N.of_nat k =? len)%N; assumption.
      * rewrite firstn_length. lia.
  - inversion H; subst. destruct (decode_chunk_end b) as [read st b' pend| | |] eqn:E.
    + apply end_some in E as (-> & -> & -> & r & ED & ->).
      cbn [set_st_opt set_st d_st d_sender k_len k_cap k_start k_data length]. unfold k_end in *. rewrite ED in B1.
      cbn [CRLF app length k_start k_data k_len] in *. repeat split; try lia; auto.
    + reflexivity.
    + rewrite ?ES; auto.
    + unfold decode_chunk_end in E. unfold k_end in *.
      destruct (length (k_data b) <? 2)%nat eqn:E1; [discriminate|].
      destruct (k_len b <? k_start b + 2)%nat eqn:E2; [lia|].
      destruct (beq (firstn 2 (k_data b)) CRLF); discriminate.
  - inversion H; subst. destruct (decode_trailer ev b) as [read st b' pend| | |] eqn:E.
    + apply trailer_some in E as (-> & -> & u & r & hs & m & ED & Hu & _ & _ & -> & ->).
      cbn [set_st_opt set_st d_st d_sender k_len k_cap k_start k_data length]. unfold k_end in *. rewrite ED, app_length in B1.
      cbn [k_start k_data k_len] in *. repeat split; try lia; auto.
    + reflexivity.
    + rewrite ?ES; auto.
    + unfold decode_trailer, sliced in E. rewrite B1' in E.
      destruct (hp_headers (e_trim ev) 16 (k_data b)) as [[hs ?]| |]; try discriminate.
      destruct (append_trailers hs []); discriminate.
  - rewrite HS in H. inversion H; subst. cbn. repeat split; auto; lia.
  - destruct (d_chan d); inversion H; subst; cbn [set_st_opt set_st d_st d_sender length]; rewrite ?ES; cbn [st_ok]; repeat split; auto; lia.
  - inversion H; subst. cbn [set_st_opt set_st d_st d_sender length]. repeat split; auto; lia.
Qed.

Lemma grow_blk ev b b' : grow_ok ev -> blk_ok b -> grow ev b = Some b' -> blk_ok b'.
Proof.
  intros G [B1 B2]. unfold grow. destruct (k_cap b <=? length (k_data b))%nat; [|intros H; inversion H; subst; now split].
  destruct (N.of_nat (k_cap b) + 1024 <=? max_capacity)%N; [|discriminate].
  intros H; inversion H; subst. unfold blk_ok, k_end in *. cbn [k_start k_data k_len k_cap]. split; [lia|apply G].
Qed.

(** What a poll leaves behind unless it fails. *)
Definition ret_np (n : nat) (d' : dec) (r : pres bytes) : Prop :=
  match r with
  | POk out => np d' (d_blk d') /\ (length out <= n)%nat
  | PPend _ => np d' (d_blk d')
  | PPanic => False
  | PErr | PFuel => True
  end.

Lemma decode_np ev n kept d b : np d b ->
  match dec_decode ev n kept d b with
  | Ret d' r => ret_np n d' r
  | Again _ _ d' b' => np d' b'
  end.
Proof.
  intros Hnp. unfold dec_decode. destruct (poll_read_inner ev d b n) as [d' r] eqn:E.
  pose proof (inner_np _ _ _ _ _ _ Hnp E) as P.
  destruct r as [read st b' pend| | |]; cbv zeta.
  - destruct P as (P & PL & PC & PR).
    assert (P' : np (set_st_opt st (set_init true d')) b') by (destruct st; exact P).
    destruct (is_done _); [split; assumption|].
    destruct (0 <? length read)%nat; [split; assumption|].
    destruct pend; assumption.
  - subst d'. destruct (_ && _)%bool; [split; [exact Hnp|cbn; lia]|exact Hnp].
  - exact I.
  - contradiction.
Qed.

Lemma turn_np ev n nr kept d b : grow_ok ev -> np d b ->
  match dec_turn ev n nr kept d b with
  | Ret d' r => ret_np n d' r
  | Again _ _ d' b' => np d' b'
  end.
Proof.
  intros G Hnp. unfold dec_turn. destruct (grow ev b) as [b1|] eqn:EG; [|exact I].
  assert (Hnp1 : np d b1) by (destruct Hnp as (? & ? & ?); split; [eapply grow_blk; eauto|now split]).
  destruct nr; [|now apply decode_np].
  destruct (k_len b1 <? k_end b1)%nat eqn:EL.
  { destruct Hnp1 as ((X & _) & _). lia. }
  destruct (br_read (k_len b1 - k_end b1) (d_in d)) as [i' [x|f| | |]] eqn:EB.
  - cbv zeta. apply decode_np. destruct Hnp1 as ((X1 & X2) & X3 & X4).
    pose proof (br_read_len _ _ _ _ EB). unfold np, blk_ok, k_end, sender_ok in *. cbn [k_start k_data k_len k_cap]. rewrite app_length.
    repeat split; try lia; destruct x; cbn [set_st set_in d_st d_sender]; auto; exact I.
  - exact Hnp1.
  - exact I.
  - now apply br_read_never in EB.
  - now apply br_read_never in EB.
Qed.

Lemma loop_np ev n fuel : grow_ok ev -> forall nr kept d b, np d b ->
  ret_np n (fst (dec_loop fuel ev n nr kept d b)) (snd (dec_loop fuel ev n nr kept d b)).
Proof.
  intros G. induction fuel as [|f IH]; intros nr kept d b Hnp; [exact I|]. cbn [dec_loop].
  pose proof (turn_np ev n nr kept d b G Hnp) as P.
  destruct (dec_turn ev n nr kept d b) as [d' r|nr' kept' d' b']; [exact P|now apply IH].
Qed.

Lemma poll_np ev n d fuel : grow_ok ev -> np d (d_blk d) ->
  ret_np n (fst (dec_poll fuel ev n d)) (snd (dec_poll fuel ev n d)).
Proof.
  intros G Hnp. unfold dec_poll. cbv zeta.
  assert (H0 : np (set_blk (blk_fresh ev) d) (d_blk d)) by exact Hnp.
  destruct (_ && _)%bool; [|now apply loop_np].
  destruct (poll_read_inner ev (set_blk (blk_fresh ev) d) (d_blk d) n) as [d' r] eqn:E.
  pose proof (inner_np _ _ _ _ _ _ H0 E) as P.
  destruct r as [read st b' pend| | |].
  - destruct P as (P & PL & PC & PR). destruct pend; [destruct st; exact P|].
    destruct (is_done _); [split; [destruct st; exact P|exact PR]|].
    destruct (0 <? length read)%nat; [split; [destruct st; exact P|exact PR]|].
    apply loop_np; assumption.
  - subst d'. now apply loop_np.
  - exact I.
  - contradiction.
Qed.

Lemma new_np ev r : np (dec_new ev r) (d_blk (dec_new ev r)).
Proof. unfold np, blk_ok, k_end. cbn. repeat split; lia. Qed.

(** ** Amount of input left *)
Definition tot (d : dec) (b : blk) : nat := (br_size (d_in d) + length (k_data b))%nat.

(** The channel is empty until the decoder is done. *)
Definition ch_ok (d : dec) : Prop := match d_st d with DDone => True | _ => d_chan d = [] end.

Lemma inner_tot ev d b n d' r :
  ch_ok d -> poll_read_inner ev d b n = (d', r) ->
  match r with
  | DSome read st b' None => (tot d' b' + length read <= tot d b)%nat
  | DSome read st b' (Some _) => (tot d' b' < tot d b)%nat /\ read = []
  | DNone => d' = d
  | _ => True
  end.
Proof.
  intros HC H. unfold ch_ok in HC. unfold poll_read_inner in H. unfold tot. destruct (d_st d) as [|cur len| | |h|h|] eqn:ES.
  - inversion H; subst. destruct (decode_init b) as [read st b' pend| | |] eqn:E; auto.
    apply init_some in E as (-> & -> & u & r & sz & ED & _ & _ & -> & ->). cbn [k_data]. rewrite ED, app_length. cbn [length]. lia.
  - destruct (poll_read_chunk (d_in d) b n cur len) as [i' r'] eqn:E. inversion H; subst; clear H. cbn [d_in].
    unfold poll_read_chunk in E. destruct (len <? cur)%N; [inversion E; subst; exact I|].
    set (t := N.to_nat (N.min (len - cur) (N.of_nat n))) in *. clearbody t.
    destruct (k_data b) as [|x xs] eqn:ED.
    + destruct (br_read t (d_in d)) as [i1 [y|f| | |]] eqn:EB; inversion E; subst; auto; rewrite ED; cbn [length].
      * apply br_read_size in EB. lia.
      * apply br_read_pend_size in EB. split; [lia|reflexivity].
    + set (k := Nat.min t (length (x :: xs))) in *.
      assert (Hk : (k <= length (x :: xs))%nat) by (subst k; lia). clearbody k. cbv zeta in E.
      set (l := x :: xs) in *. clearbody l.
      destruct (k_len b <? k_start b + k)%nat; inversion E; auto.
      rewrite firstn_length. destruct (Nat.eqb k (length l)) eqn:EQ; cbn [k_data length blk_skip].
      * lia.
      * rewrite ED, skipn_length. lia.
  - inversion H; subst. destruct (decode_chunk_end b) as [read st b' pend| | |] eqn:E; auto.
    apply end_some in E as (-> & -> & -> & r & ED & ->). cbn [k_data length]. rewrite ED. cbn [CRLF app length]. lia.
  - inversion H; subst. destruct (decode_trailer ev b) as [read st b' pend| | |] eqn:E; auto.
    apply trailer_some in E as (-> & -> & u & r & hs & m & ED & _ & _ & _ & -> & ->). cbn [k_data length]. rewrite ED, app_length. lia.
  - destruct (d_sender d); inversion H; subst; cbn [d_in length]; auto. lia.
  - rewrite HC in H. inversion H; subst; cbn [d_in length]; auto. lia.
  - inversion H; subst; cbn [length]. lia.
Qed.

Lemma inner_ch ev d b n d' r :
  ch_ok d -> poll_read_inner ev d b n = (d', r) ->
  match r with
  | DSome read st b' _ => ch_ok (set_st_opt st d')
  | _ => ch_ok d'
  end.
Proof.
  unfold ch_ok. intros HC H. unfold poll_read_inner in H. destruct (d_st d) as [|cur len| | |h|h|] eqn:ES.
  - inversion H; subst. destruct (decode_init b) as [read [st|] b' pend| | |] eqn:E; cbn [set_st_opt set_st d_st d_chan]; rewrite ?ES; auto.
    destruct st; auto.
  - destruct (poll_read_chunk (d_in d) b n cur len) as [i' r'] eqn:E. inversion H; subst; clear H.
    destruct r as [read [st|] b' pend| | |]; cbn [set_st_opt set_st d_st d_chan]; rewrite ?ES; auto. destruct st; auto.
  - inversion H; subst. destruct (decode_chunk_end b) as [read [st|] b' pend| | |] eqn:E; cbn [set_st_opt set_st d_st d_chan]; rewrite ?ES; auto.
    destruct st; auto.
  - inversion H; subst. destruct (decode_trailer ev b) as [read [st|] b' pend| | |] eqn:E; cbn [set_st_opt set_st d_st d_chan]; rewrite ?ES; auto.
    destruct st; auto.
  - destruct (d_sender d); inversion H; subst; cbn [set_st_opt set_st d_st d_chan]; rewrite ?ES; auto.
  - rewrite HC in H. inversion H; subst; exact I.
  - inversion H; subst; exact I.
Qed.

Definition ret_tot (t : nat) (d' : dec) (r : pres bytes) : Prop :=
  ch_ok d' /\
  match r with
  | POk out => (tot d' (d_blk d') + length out <= t)%nat
  | PPend _ => (tot d' (d_blk d') < t)%nat
  | _ => True
  end.

Lemma decode_tot ev n kept d b : ch_ok d ->
  match dec_decode ev n kept d b with
  | Ret d' r => ret_tot (tot d b) d' r
  | Again _ _ d' b' => (tot d' b' <= tot d b)%nat /\ ch_ok d'
  end.
Proof.
  intros HC.
  unfold dec_decode. destruct (poll_read_inner ev d b n) as [d' r] eqn:E.
  pose proof (inner_tot _ _ _ _ _ _ HC E) as P. pose proof (inner_ch _ _ _ _ _ _ HC E) as PC.
  destruct r as [read st b' pend| | |]; cbv zeta; try (split; [exact PC|exact I]).
  - assert (Hi : d_in (set_st_opt st (set_init true d')) = d_in d') by (destruct st; reflexivity).
    assert (Hc : ch_ok (set_st_opt st (set_init true d'))) by (destruct st; exact PC).
    unfold tot in *. destruct (is_done _); [|destruct (0 <? length read)%nat].
    + split; [exact Hc|]. unfold tot. cbn [set_blk d_in d_blk]. rewrite Hi. destruct pend; [destruct P as [P ->]; cbn [length]; lia|lia].
    + split; [exact Hc|]. unfold tot. cbn [set_blk d_in d_blk]. rewrite Hi. destruct pend; [destruct P as [P ->]; cbn [length]; lia|lia].
    + destruct pend; [split; [exact Hc|]; unfold tot; cbn [set_blk d_in d_blk]|split; [|exact Hc]]; rewrite Hi; [destruct P as [P ->]|]; lia.
  - subst d'. destruct (_ && _)%bool; [split; [exact PC|]; unfold tot; cbn [set_blk set_init d_in d_blk length]; lia|split; [lia|exact PC]].
Qed.

Lemma turn_tot ev n nr kept d b : ch_ok d ->
  match dec_turn ev n nr kept d b with
  | Ret d' r => ret_tot (tot d b) d' r
  | Again _ _ d' b' => (tot d' b' <= tot d b)%nat /\ ch_ok d'
  end.
Proof.
  intros HC. unfold dec_turn. destruct (grow ev b) as [b1|] eqn:EG; [|split; [exact HC|exact I]].
  destruct (grow_data _ _ _ EG) as [GD GS].
  assert (HT : tot d b1 = tot d b) by (unfold tot; now rewrite GD).
  destruct nr.
  - destruct (k_len b1 <? k_end b1)%nat; [split; [exact HC|exact I]|].
    destruct (br_read (k_len b1 - k_end b1) (d_in d)) as [i' [x|f| | |]] eqn:EB; try (split; [exact HC|exact I]).
    + cbv zeta. pose proof (br_read_size _ _ _ _ EB) as HB.
      set (d1 := match x with [] => set_st DDone (set_in i' d) | _ => set_in i' d end).
      assert (Hi1 : d_in d1 = i') by (subst d1; destruct x; reflexivity).
      set (bb := mkBlk (k_start b1) (k_data b1 ++ x) (k_len b1) (k_cap b1)).
      assert (HT1 : (tot d1 bb <= tot d b)%nat).
      { rewrite <- HT. unfold tot. rewrite Hi1. subst bb. cbn [k_data]. rewrite app_length. lia. }
      assert (HC1 : ch_ok d1) by (subst d1; destruct x; [exact I|exact HC]).
      pose proof (decode_tot ev n kept d1 bb HC1) as P.
      destruct (dec_decode ev n kept d1 bb) as [d' r|nr' kept' d' b'] eqn:ED; [|destruct P; split; [lia|assumption]].
      destruct P as [PC P]. split; [exact PC|]. destruct r; auto; lia.
    + apply br_read_pend_size in EB. split; [exact HC|]. rewrite <- HT. unfold tot. cbn [set_blk set_init set_in d_in d_blk]. lia.
  - pose proof (decode_tot ev n kept d b1 HC) as P. rewrite HT in P.
    destruct (dec_decode ev n kept d b1); exact P.
Qed.

Lemma loop_tot ev n fuel : forall nr kept d b t, ch_ok d -> (tot d b <= t)%nat ->
  ret_tot t (fst (dec_loop fuel ev n nr kept d b)) (snd (dec_loop fuel ev n nr kept d b)).
Proof.
  induction fuel as [|f IH]; intros nr kept d b t HC Ht; [split; [exact HC|exact I]|]. cbn [dec_loop].
  pose proof (turn_tot ev n nr kept d b HC) as P.
  destruct (dec_turn ev n nr kept d b) as [d' r|nr' kept' d' b'].
  - cbn [fst snd]. destruct P as [PC P]. split; [exact PC|]. destruct r; auto; lia.
  - destruct P. apply IH; [assumption|lia].
Qed.

Lemma poll_tot ev n d fuel : ch_ok d ->
  ret_tot (tot d (d_blk d)) (fst (dec_poll fuel ev n d)) (snd (dec_poll fuel ev n d)).
Proof.
  intros HC. unfold dec_poll. cbv zeta. set (d0 := set_blk (blk_fresh ev) d).
  assert (H0 : tot d0 (d_blk d) = tot d (d_blk d)) by reflexivity.
  destruct (_ && _)%bool; [|apply loop_tot; [exact HC|lia]].
  destruct (poll_read_inner ev d0 (d_blk d) n) as [d' r] eqn:E.
  assert (HC0 : ch_ok d0) by exact HC.
  pose proof (inner_tot _ _ _ _ _ _ HC0 E) as P. rewrite H0 in P. pose proof (inner_ch _ _ _ _ _ _ HC0 E) as PC.
  destruct r as [read st b' pend| | |]; try (split; [exact PC|exact I]).
  - assert (Hi : d_in (set_st_opt st d') = d_in d') by (destruct st; reflexivity).
    assert (HT : tot (set_st_opt st d') b' = tot d' b') by (unfold tot; now rewrite Hi).
    assert (HT' : tot (set_blk b' (set_st_opt st d')) b' = tot d' b') by (unfold tot; cbn [set_blk d_in]; now rewrite Hi).
    destruct pend as [f|].
    { destruct P as [P _]. split; [exact PC|]. cbn [fst snd]. change (d_blk (set_blk b' (set_st_opt st d'))) with b'. lia. }
    destruct (is_done _); [|destruct (0 <? length read)%nat].
    + split; [exact PC|]. cbn [fst snd]. change (d_blk (set_blk b' (set_st_opt st d'))) with b'. lia.
    + split; [exact PC|]. cbn [fst snd]. change (d_blk (set_blk b' (set_st_opt st d'))) with b'. lia.
    + apply loop_tot; [exact PC|lia].
  - subst d'. apply loop_tot; [exact HC|lia].
Qed.

(** ** Once done, nothing more is delivered *)
Lemma done_poll ev n d fuel d' r : d_st d = DDone -> np d (d_blk d) -> dec_poll fuel ev n d = (d', r) ->
  match r with
  | POk out => out = [] /\ d_st d' = DDone /\ d_chan d' = d_chan d
  | PPend _ => d_st d' = DDone /\ d_chan d' = d_chan d
  | PPanic => False
  | _ => d_st d' = DDone /\ d_chan d' = d_chan d
  end.
Proof.
  intros ES (HB & _ & HS) H. unfold dec_poll in H. cbv zeta in H.
  assert (EI : forall dd b, d_st dd = DDone -> poll_read_inner ev dd b n = (dd, DSome [] (Some DDone) b None)).
  { intros dd b E. unfold poll_read_inner. now rewrite E. }
  rewrite ES in H. cbn [is_chunk negb] in H.
  set (d0 := set_blk (blk_fresh ev) d) in *.
  assert (E0 : d_st d0 = DDone) by exact ES.
  destruct (_ && _)%bool.
  { rewrite (EI _ _ E0) in H. cbn [set_st_opt set_st d_st is_done] in H. inversion H; subst. auto. }
  destruct fuel as [|f]; cbn [dec_loop] in H; [inversion H; subst; auto|].
  unfold dec_turn in H. destruct (grow ev (d_blk d)) as [b1|] eqn:EG; [|inversion H; subst; auto].
  assert (HB1 : (k_end b1 <= k_len b1)%nat).
  { destruct HB as [HB HB2]. unfold grow in EG. destruct (k_cap (d_blk d) <=? length (k_data (d_blk d)))%nat; [|inversion EG; subst; exact HB].
    destruct (_ <=? _)%N; inversion EG; subst. unfold k_end in *. cbn. lia. }
  destruct (k_len b1 <? k_end b1)%nat eqn:EL; [lia|].
  destruct (br_read (k_len b1 - k_end b1) (d_in d0)) as [i' [x|ff| | |]] eqn:EB.
  - unfold dec_decode in H. rewrite EI in H by (destruct x; exact E0 || reflexivity). cbn [set_st_opt set_init set_st d_st is_done] in H.
    destruct x; inversion H; subst; auto.
  - inversion H; subst. auto.
  - inversion H; subst. auto.
  - now apply br_read_never in EB.
  - now apply br_read_never in EB.
Qed.
