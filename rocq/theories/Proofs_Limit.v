(** The memory the chunked decoder takes (C94). *)
From Verif Require Import ChunkedDec Reads SpecChunked SpecHead Lemmas Proofs_Parse Proofs_Buf Proofs_Dec Proofs_DecMsg Proofs_DecReads.

(** ** The bound *)
Section Bound.
  Variable ev : env.
  Hypothesis Hcap : (N.of_nat (e_deccap ev) <= 536870912)%N.

  Definition small (b : blk) : Prop :=
    (N.of_nat (k_len b) <= 536870912)%N /\ (N.of_nat (length (k_data b)) <= 536870912)%N.

  Lemma small_fresh : small (blk_fresh ev).
  Proof. split; cbn [blk_fresh k_len k_data length]; [assumption|lia]. Qed.
  Lemma small_skip k b : small b -> small (blk_skip k b).
  Proof. clear. intros [H1 H2]. split; cbn [blk_skip k_len k_data]; [assumption|]. rewrite skipn_length. lia. Qed.
  Lemma small_stale r : (N.of_nat (snd r) <= 536870912)%N -> small (blk_stale ev r).
  Proof. intros H. split; cbn [blk_stale k_len k_data]; [assumption|]. now rewrite map_length, seq_length. Qed.
  Lemma small_range b : small b -> (N.of_nat (snd (blk_range b)) <= 536870912)%N.
  Proof. clear. intros [_ H]. exact H. Qed.

  Lemma small_inner d b n d' read st b' pend : small b ->
    poll_read_inner ev d b n = (d', DSome read st b' pend) -> small b' /\ d_blk d' = d_blk d.
  Proof.
    clear. intros S H. unfold poll_read_inner in H.
    destruct (d_st d) as [|cur len| | |h|h|].
    - inversion H as [[H1 H2]]; subst d'. split; [|reflexivity].
      unfold decode_init, sliced in H2. destruct (_ <? _)%nat; [discriminate|].
      destruct (parse_chunk_size (k_data b)) as [[sz rest]| |]; inversion H2; subst. now apply small_skip.
    - destruct (poll_read_chunk (d_in d) b n cur len) as [i' r'] eqn:E. inversion H; subst; clear H. split; [|reflexivity].
      unfold poll_read_chunk in E. destruct (len <? cur)%N; [inversion E|]. cbv zeta in E.
      destruct (k_data b) as [|x xs] eqn:ED.
      + destruct (br_read _ (d_in d)) as [i1 [x|f| | |]]; inversion E; subst; assumption.
      + destruct (_ <? _)%nat; inversion E; subst.
        destruct (Nat.eqb _ _); [|now apply small_skip]. split; cbn [k_len k_data length]; [apply S|lia].
    - inversion H as [[H1 H2]]; subst d'. split; [|reflexivity]. unfold decode_chunk_end in H2.
      destruct (_ <? _)%nat; [discriminate|]. destruct (_ <? _)%nat; [discriminate|].
      destruct (beq _ _); inversion H2; subst. now apply small_skip.
    - inversion H as [[H1 H2]]; subst d'. split; [|reflexivity].
      unfold decode_trailer, sliced in H2. destruct (_ <? _)%nat; [discriminate|].
      destruct (hp_headers _ _ _) as [[hs rest]| |]; try discriminate.
      destruct (append_trailers hs []); inversion H2; subst. now apply small_skip.
    - destruct (d_sender d); inversion H; subst; auto.
    - destruct (d_chan d); inversion H; subst; auto.
    - inversion H; subst; auto.
  Qed.

  Lemma inner_blk d b n d' r : poll_read_inner ev d b n = (d', r) -> d_blk d' = d_blk d.
  Proof.
    clear. intros H. unfold poll_read_inner in H. destruct (d_st d) as [|cur len| | |h|h|].
    - now inversion H.
    - destruct (poll_read_chunk _ _ _ _ _). now inversion H.
    - now inversion H.
    - now inversion H.
    - destruct (d_sender d); now inversion H.
    - destruct (d_chan d); now inversion H.
    - now inversion H.
  Qed.

  Lemma small_grow b b' : small b -> grow ev b = Some b' -> small b'.
  Proof.
    clear. intros [S1 S2]. unfold grow. destruct (k_cap b <=? length (k_data b))%nat; [|intros H; inversion H; subst; now split].
    destruct (N.of_nat (k_cap b) + 1024 <=? max_capacity)%N eqn:E; [|discriminate].
    intros H; inversion H; subst. unfold max_capacity in E. split; cbn [k_len k_data]; [lia|assumption].
  Qed.

  Lemma small_st st d : d_blk (set_st_opt st d) = d_blk d.
  Proof. clear. destruct st; reflexivity. Qed.

  Lemma small_decode n kept d b : small b -> (N.of_nat (snd kept) <= 536870912)%N -> small (d_blk d) ->
    match dec_decode ev n kept d b with
    | Ret d' _ => small (d_blk d')
    | Again _ kept' d' b' => small b' /\ (N.of_nat (snd kept') <= 536870912)%N /\ small (d_blk d')
    end.
  Proof.
    intros S K SD. unfold dec_decode. destruct (poll_read_inner ev d b n) as [d' r] eqn:E.
    pose proof (inner_blk _ _ _ _ _ E) as EB.
    destruct r as [read st b' pend| | |]; cbv zeta.
    - destruct (small_inner _ _ _ _ _ _ _ _ S E) as [S' _].
      destruct (is_done _); [exact S'|]. destruct (_ <? _)%nat; [exact S'|]. destruct pend; [exact S'|].
      split; [exact S'|]. split; [now apply small_range|]. rewrite small_st. cbn [set_init d_blk]. now rewrite EB.
    - destruct (_ && _)%bool; [exact S|]. split; [exact S|]. split; [exact K|now rewrite EB].
    - cbn [set_blk d_blk]. now apply small_stale.
    - now rewrite EB.
  Qed.

  Lemma small_turn n nr kept d b : small b -> (N.of_nat (snd kept) <= 536870912)%N -> small (d_blk d) ->
    match dec_turn ev n nr kept d b with
    | Ret d' _ => small (d_blk d')
    | Again _ kept' d' b' => small b' /\ (N.of_nat (snd kept') <= 536870912)%N /\ small (d_blk d')
    end.
  Proof.
    intros S K SD. unfold dec_turn. destruct (grow ev b) as [b1|] eqn:EG; [|exact S].
    pose proof (small_grow _ _ S EG) as S1.
    destruct nr; [|now apply small_decode]. destruct (k_len b1 <? k_end b1)%nat eqn:EL; [exact SD|].
    destruct (br_read (k_len b1 - k_end b1) (d_in d)) as [i' [x|f| | |]] eqn:EB; cbv zeta.
    - apply small_decode; [|assumption|destruct x; exact SD].
      pose proof (br_read_len _ _ _ _ EB). destruct S1 as [S1 S2]. unfold k_end in *.
      split; cbn [k_len k_data]; [assumption|]. rewrite app_length. lia.
    - exact S1.
    - cbn [set_blk d_blk]. now apply small_stale.
    - exact SD.
    - exact SD.
  Qed.

  Lemma small_loop n fuel : forall nr kept d b, small b -> (N.of_nat (snd kept) <= 536870912)%N -> small (d_blk d) ->
    small (d_blk (fst (dec_loop fuel ev n nr kept d b))).
  Proof.
    induction fuel as [|f IH]; intros nr kept d b S K SD; [exact SD|]. cbn [dec_loop].
    pose proof (small_turn n nr kept d b S K SD) as P.
    destruct (dec_turn ev n nr kept d b) as [d' r|nr' kept' d' b']; [exact P|]. destruct P as (P1 & P2 & P3). now apply IH.
  Qed.

  Lemma small_read n d d' r : small (d_blk d) -> dec_read ev n d = (d', r) -> small (d_blk d').
  Proof.
    intros S H. unfold dec_read, dec_poll in H. cbv zeta in H.
    assert (L : forall nr, small (d_blk (fst (dec_loop (dec_fuel d) ev n nr (0, 0)%nat (set_blk (blk_fresh ev) d) (d_blk d))))).
    { intros nr. apply small_loop; [assumption|cbn [snd]; lia|exact small_fresh]. }
    destruct (_ && _)%bool; [|specialize (L (negb (is_chunk (d_st d)))); rewrite H in L; exact L].
    destruct (poll_read_inner ev (set_blk (blk_fresh ev) d) (d_blk d) n) as [d1 r1] eqn:E.
    pose proof (inner_blk _ _ _ _ _ E) as EB. cbn [set_blk d_blk] in EB.
    destruct r1 as [read st b' pend| | |].
    - destruct (small_inner _ _ _ _ _ _ _ _ S E) as [S' _]. destruct pend; [inversion H; subst; exact S'|].
      destruct (is_done _); [inversion H; subst; exact S'|]. destruct (_ <? _)%nat; [inversion H; subst; exact S'|].
      change d' with (fst (d', r)). rewrite <- H. apply small_loop; [assumption|now apply small_range|].
      rewrite small_st, EB. exact small_fresh.
    - change d' with (fst (d', r)). rewrite <- H. apply small_loop; [assumption|cbn [snd]; lia|rewrite EB; exact small_fresh].
    - inversion H; subst. exact small_fresh.
    - inversion H; subst. rewrite EB. exact small_fresh.
  Qed.

  Lemma small_reads : forall ns d d' out k, small (d_blk d) ->
    reads_through (dec_read ev) ns d = (d', out, k) -> small (d_blk d').
  Proof.
    induction ns as [|n ns IH]; intros d d' out k S H; cbn [reads_through] in H; [inversion H; subst; assumption|].
    destruct (dec_read ev n d) as [d1 r] eqn:E. pose proof (small_read _ _ _ _ S E) as S1.
    destruct r as [x|f| | |]; try (inversion H; subst; assumption); try (eapply IH; eassumption).
    destruct (reads_through (dec_read ev) ns d1) as [[d2 o2] k2] eqn:E2. inversion H; subst. eapply IH; eassumption.
  Qed.
End Bound.

(** ** A size line that does not end *)
Lemma unfinished_part u v w : unfinished_line u -> u = v ++ w -> parse_chunk_size v = HPart.
Proof.
  intros (ds & t & HD & HL & HT & ->) E. unfold parse_chunk_size.
  apply app_eq_app in E. destruct E as (l & [[E1 E2]|[E1 E2]]).
  - (* within the digits *)
    subst ds. apply Forall_app in HD. destruct HD as [HD _]. rewrite app_length in HL.
    rewrite <- (app_nil_r v). destruct (digits_skip v HD 0 0%N []) as [s' E]; [unfold bytes, byte in *; lia|]. etransitivity; [exact E|reflexivity].
  - subst v. destruct (digits_skip ds HD 0 0%N l) as [s' E]; [unfold bytes, byte in *; lia|]. etransitivity; [exact E|]. clear E.
    destruct l as [|c l]; [reflexivity|]. injection E2 as <- ->. cbn [chunk_size_go].
    change (hex_val (ascii_of_N 59)) with (@None N). cbn match.
    change (Ascii.eqb (ascii_of_N 59) CR) with false. change (Ascii.eqb (ascii_of_N 59) (ascii_of_N 59)) with true. cbn match.
    rewrite <- (app_nil_r l), ext_skip; [reflexivity|]. intros H. apply HT, in_or_app. now left.
Qed.

Lemma unfinished_init ev d u v w n : unfinished_line u -> u = v ++ w -> d_st d = DInit ->
  forall b, k_data b = v -> (k_end b <= k_len b)%nat -> poll_read_inner ev d b n = (d, DNone).
Proof.
  intros U E ES b EB HL. unfold poll_read_inner. rewrite ES. unfold decode_init, sliced.
  destruct (k_len b <? k_end b)%nat eqn:EL; [lia|]. now rewrite EB, (unfinished_part u v w U E).
Qed.

Section Line.
  Variable ev : env.
  Variables u extra : bytes.
  Hypothesis U : unfinished_line u.

  (** The line so far is in the block, the rest of it still to be read. *)
  Definition in_line (d : dec) (b : blk) : Prop :=
    d_st d = DInit /\ k_start b = 0%nat /\ (length (k_data b) <= k_len b)%nat /\ (length (k_data b) <= length u)%nat /\
    k_data b ++ br_data (d_in d) = u ++ extra /\ wf_brd (d_in d).

  Lemma line_part d b : in_line d b -> exists w, u = k_data b ++ w /\ br_data (d_in d) = w ++ extra.
  Proof.
    intros (_ & _ & _ & HL & E & _). apply app_eq_app in E. destruct E as (l & [[E1 E2]|[E1 E2]]).
    - assert (l = []) as -> by (apply (f_equal (@length _)) in E1; rewrite app_length in E1; destruct l; [reflexivity|cbn in E1; lia]).
      exists []. rewrite app_nil_r in *. cbn [app] in *. now rewrite E1, E2.
    - now exists l.
  Qed.

  (** Reading on in the line, with room for it. *)
  Lemma line_turn n kept d b : in_line d b -> (length (k_data b) < k_len b)%nat -> (k_len b <= length u)%nat ->
    grow ev b = Some b ->
    (exists d' f, dec_turn ev n true kept d b = Ret d' (PPend f) /\ in_line d' b /\ d_blk d' = b /\ (br_size (d_in d') < br_size (d_in d))%nat /\
      d_chan d' = d_chan d /\ (clean (br_src (d_in d)) -> clean (br_src (d_in d')))) \/
    (exists d' b', dec_turn ev n true kept d b = Again true kept d' b' /\ in_line d' b' /\
      (length (k_data b) < length (k_data b'))%nat /\ k_len b' = k_len b /\ k_cap b' = k_cap b /\
      (br_size (d_in d') < br_size (d_in d))%nat /\
      d_chan d' = d_chan d /\ (clean (br_src (d_in d)) -> clean (br_src (d_in d')))).
  Proof.
    intros HI HL HU HG. destruct (line_part _ _ HI) as (w & EU & EW). destruct HI as (ES & K0 & _ & HLU & ED & HW).
    unfold dec_turn. rewrite HG. unfold k_end. rewrite K0. cbn [Nat.add].
    destruct (k_len b <? length (k_data b))%nat eqn:EL; [lia|].
    destruct (br_read (k_len b - length (k_data b)) (d_in d)) as [i' r] eqn:EB.
    pose proof (br_read_wf _ _ _ _ EB HW) as HW'. pose proof (fun C => proj1 (br_read_clean _ _ _ _ EB C)) as HC'.
    assert (W0 : w <> []) by (intros ->; rewrite app_nil_r in EU; apply (f_equal (@length _)) in EU; lia).
    assert (B0 : br_data (d_in d) <> []) by (rewrite EW; destruct w; [congruence|discriminate]).
    destruct r as [x|f| | |].
    - right. pose proof (br_read_data _ _ _ _ EB) as D1. pose proof (br_read_len _ _ _ _ EB) as D2.
      pose proof (br_read_size _ _ _ _ EB) as D3.
      destruct x as [|c x].
      { assert (P : (0 < k_len b - length (k_data b))%nat) by lia. destruct (br_read_nil _ _ _ P HW EB) as [N1 _]. congruence. }
      cbv zeta. set (b1 := mkBlk 0 (k_data b ++ c :: x) (k_len b) (k_cap b)).
      assert (I1 : in_line (set_in i' d) b1).
      { unfold in_line. subst b1. cbn [set_in d_st d_in k_start k_data k_len]. rewrite app_length, <- app_assoc, <- D1.
        repeat split; auto; try lia; try apply HW'. }
      destruct (line_part _ _ I1) as (w1 & EU1 & _).
      unfold dec_decode. rewrite (unfinished_init ev (set_in i' d) u (k_data b1) w1 n U EU1 ES b1 eq_refl).
      2:{ subst b1. unfold k_end. cbn [k_start k_data k_len]. rewrite app_length. cbn [length] in *. lia. }
      replace (Nat.eqb (k_start b1) 0 && Nat.eqb (k_end b1) 0)%bool with false.
      2:{ subst b1. unfold k_end. cbn [k_start k_data]. rewrite app_length. cbn [length Nat.add]. rewrite Nat.add_succ_r. reflexivity. }
      exists (set_in i' d), b1. split; [reflexivity|]. split; [exact I1|]. subst b1. cbn [k_data k_len k_cap set_in d_in]. rewrite app_length.
      cbn [length] in *. unfold bytes, byte in *. split; [lia|]. split; [reflexivity|]. split; [reflexivity|]. split; [lia|]. split; [reflexivity|exact HC'].
    - left. pose proof (br_read_pend_data _ _ _ _ EB) as D1. pose proof (br_read_pend_size _ _ _ _ EB) as D3.
      exists (set_blk b (set_init false (set_in i' d))), f.
      split; [reflexivity|]. unfold in_line. cbn [set_blk set_init set_in d_st d_in d_blk]. rewrite D1.
      split; [repeat split; auto; try lia; apply HW'|]. split; [reflexivity|]. split; [exact D3|]. split; [reflexivity|exact HC'].
    - apply br_read_err in EB. congruence.
    - now apply br_read_never in EB.
    - now apply br_read_never in EB.
  Qed.

  Lemma line_poll n d : in_line d (d_blk d) -> exists nr,
    dec_read ev n d = dec_loop (dec_fuel d) ev n nr (0, 0)%nat (set_blk (blk_fresh ev) d) (d_blk d) /\ nr = true.
  Proof.
    intros HI. destruct (line_part _ _ HI) as (w & EU & EW). destruct HI as (ES & K0 & HL & HLU & ED & HW).
    exists true. split; [|reflexivity]. unfold dec_read, dec_poll. cbv zeta. rewrite ES. cbn [is_chunk negb].
    destruct (_ && _)%bool; [|reflexivity].
    rewrite (unfinished_init ev (set_blk (blk_fresh ev) d) u (k_data (d_blk d)) w n U EU ES (d_blk d) eq_refl); [reflexivity|].
    unfold k_end. rewrite K0. exact HL.
  Qed.

  Lemma turn_grow n kept d b b1 : grow ev b = Some b1 -> grow ev b1 = Some b1 ->
    dec_turn ev n true kept d b = dec_turn ev n true kept d b1.
  Proof. clear. intros H1 H2. unfold dec_turn. now rewrite H1, H2. Qed.

  Lemma line_grown d b c1 c2 : in_line d b -> (k_len b <= c1)%nat -> in_line d (mkBlk (k_start b) (k_data b) c1 c2).
  Proof. clear. intros (H1 & H2 & H3 & H4 & H5 & H6) HL. unfold in_line. cbn [k_start k_data k_len]. intuition lia. Qed.

  Lemma grow_room b : (length (k_data b) < k_cap b)%nat -> grow ev b = Some b.
  Proof. clear. intros H. unfold grow. destruct (k_cap b <=? length (k_data b))%nat eqn:E; [lia|reflexivity]. Qed.

  (** *** Growth by what is asked for: the limit is reported *)
  Section Exact.
    Hypothesis Hg : forall c, e_grow ev c = (c + N.to_nat 1024)%nat.
    Hypothesis Hu : (536870912 <= N.of_nat (length u))%N.

    Definition lim (d : dec) (b : blk) : Prop :=
      in_line d b /\ k_cap b = k_len b /\ (N.of_nat (k_len b) <= 536870912)%N.

    (** The line up to [taken] has been read, no byte after it. *)
    Definition refused (d : dec) : Prop :=
      exists taken w, u = taken ++ w /\ br_data (d_in d) = w ++ extra /\
        (536870912 - 1024 < N.of_nat (length taken) <= 536870912)%N.

    Lemma lim_loop n : forall fuel kept d b, lim d b ->
      match dec_loop fuel ev n true kept d b with
      | (d', PPend _) => lim d' (d_blk d') /\ (br_size (d_in d') < br_size (d_in d))%nat
      | (d', PErr) => refused d'
      | (_, PFuel) => True
      | _ => False
      end.
    Proof.
      induction fuel as [|f IH]; intros kept d b (HI & HC & HM); [exact I|]. cbn [dec_loop].
      assert (S : forall b1, in_line d b1 -> k_cap b1 = k_len b1 -> (N.of_nat (k_len b1) <= 536870912)%N ->
                (length (k_data b1) < k_len b1)%nat ->
        match match dec_turn ev n true kept d b1 with Ret d' r => (d', r) | Again nr kept d' b' => dec_loop f ev n nr kept d' b' end with
        | (d', PPend _) => lim d' (d_blk d') /\ (br_size (d_in d') < br_size (d_in d))%nat
        | (d', PErr) => refused d'
        | (_, PFuel) => True
        | _ => False
        end).
      { intros b1 I1 C1 M1 L1. assert (LU : (k_len b1 <= length u)%nat) by lia.
        destruct (line_turn n kept d b1 I1 L1 LU (grow_room b1 ltac:(rewrite C1; exact L1)))
          as [(d' & f' & -> & I2 & E2 & Z & _)|(d' & b' & -> & I2 & _ & E2 & E3 & Z & _)].
        - rewrite E2. split; [|exact Z]. split; [exact I2|]. now split.
        - assert (LB : lim d' b') by (split; [exact I2|]; split; congruence).
          specialize (IH kept d' b' LB). destruct (dec_loop f ev n true kept d' b') as [d2 [ | | | |]]; try exact IH.
          destruct IH as [IH1 IH2]. split; [exact IH1|lia]. }
      destruct (Nat.lt_ge_cases (length (k_data b)) (k_len b)) as [L|L]; [now apply S|].
      destruct (grow ev b) as [b1|] eqn:EG.
      - unfold grow in EG. destruct (k_cap b <=? length (k_data b))%nat eqn:EC; [|lia].
        destruct (N.of_nat (k_cap b) + 1024 <=? max_capacity)%N eqn:EM; [|discriminate]. unfold max_capacity in EM.
        assert (E1 : b1 = mkBlk (k_start b) (k_data b) (k_cap b + N.to_nat 1024) (k_cap b + N.to_nat 1024)) by (rewrite <- Hg; congruence).
        assert (R : (length (k_data b1) < k_len b1)%nat).
        { rewrite E1. cbn [k_data k_len]. destruct HI as (_ & _ & X & _). lia. }
        assert (C : k_cap b1 = k_len b1) by now rewrite E1.
        rewrite (turn_grow n kept d b b1).
        + apply S; [rewrite E1; apply line_grown; [exact HI|lia]|exact C|rewrite E1; cbn [k_len]; lia|exact R].
        + unfold grow. rewrite EC. destruct (N.of_nat (k_cap b) + 1024 <=? max_capacity)%N eqn:EM2; [exact EG|unfold max_capacity in EM2; lia].
        + apply grow_room. now rewrite C.
      - destruct (line_part _ _ HI) as (w & EU & EW). unfold dec_turn. rewrite EG.
        unfold grow in EG. destruct (k_cap b <=? length (k_data b))%nat eqn:EC; [|discriminate].
        destruct (N.of_nat (k_cap b) + 1024 <=? max_capacity)%N eqn:EM; [discriminate|]. unfold max_capacity in EM.
        exists (k_data b), w. split; [exact EU|]. split; [exact EW|]. destruct HI as (_ & _ & X & _). lia.
    Qed.

    Lemma lim_reads : forall ns d d' out k, lim d (d_blk d) -> Forall (fun n => 0 < n)%nat ns ->
      reads (dec_read ev) ns d = (d', out, k) ->
      out = [] /\
      match k with
      | Going => (length ns <= br_size (d_in d))%nat
      | Failed => refused d'
      | _ => False
      end.
    Proof.
      induction ns as [|n ns IH]; intros d d' out k HL HF H; cbn [reads] in H; [inversion H; cbn; split; [reflexivity|lia]|].
      inversion HF; subst. destruct (dec_read ev n d) as [d1 r] eqn:E.
      destruct (line_poll n d (proj1 HL)) as (nr & E' & ->). rewrite E in E'.
      pose proof (lim_loop n (dec_fuel d) (0, 0)%nat (set_blk (blk_fresh ev) d) (d_blk d) HL) as P. rewrite <- E' in P.
      destruct r as [x|f| | |]; try contradiction.
      - destruct P as [P1 P2]. destruct (IH _ _ _ _ P1 H3 H) as [Q1 Q2]. split; [exact Q1|].
        destruct k; try exact Q2. cbn [length set_blk d_in] in *. lia.
      - inversion H; subst. now split.
      - destruct HL as ((ES & _) & _). pose proof (poll_mu ev n d H2) as Q. rewrite ES in Q.
        destruct (Q I) as (_ & Q2 & _). rewrite E in Q2. now elim Q2.
    Qed.
  End Exact.

  (** *** Growth beyond what is asked for: the line reads as the end of the body *)
  Section Amortised.
    Hypothesis Hg : (e_deccap ev + N.to_nat 1024 < e_grow ev (e_deccap ev))%nat.
    Hypothesis Hcap : (N.of_nat (e_deccap ev) + 1024 <= 536870912)%N.
    Hypothesis Hu : (e_deccap ev + N.to_nat 1024 <= length u)%nat.

    Definition amo (d : dec) (b : blk) : Prop :=
      in_line d b /\ clean (br_src (d_in d)) /\ d_chan d = [] /\
      ((k_len b = e_deccap ev /\ k_cap b = e_deccap ev) \/
       (k_len b = (e_deccap ev + N.to_nat 1024)%nat /\ k_len b < k_cap b)%nat).

    (** The block is full, but its capacity is not used up: an empty read ends the body. *)
    Lemma amo_full n kept d b : amo d b -> length (k_data b) = k_len b -> (k_len b < k_cap b)%nat ->
      (exists d' f, dec_turn ev n true kept d b = Ret d' (PPend f) /\ amo d' (d_blk d') /\ (br_size (d_in d') < br_size (d_in d))%nat) \/
      (exists d', dec_turn ev n true kept d b = Ret d' (POk []) /\ d_chan d' = []).
    Proof.
      intros (HI & HC & HD & HS) HF HR. destruct HI as (ES & K0 & _ & HLU & ED & HW).
      unfold dec_turn. rewrite (grow_room b) by lia. unfold k_end. rewrite K0, HF. cbn [Nat.add].
      rewrite Nat.ltb_irrefl, Nat.sub_diag.
      destruct (br_read 0 (d_in d)) as [i' r] eqn:EB.
      pose proof (br_read_wf _ _ _ _ EB HW) as HW'. pose proof (br_read_clean _ _ _ _ EB HC) as [HC' HE].
      destruct r as [x|f| | |]; [| |congruence|now apply br_read_never in EB|now apply br_read_never in EB].
      - right. pose proof (br_read_len _ _ _ _ EB) as D2. destruct x; [|cbn in D2; lia]. cbv zeta.
        unfold dec_decode, poll_read_inner. cbn [set_st d_st]. cbv zeta. cbn [set_st_opt set_st set_init d_st is_done].
        eexists. split; [reflexivity|]. exact HD.
      - left. pose proof (br_read_pend_data _ _ _ _ EB) as D1. pose proof (br_read_pend_size _ _ _ _ EB) as D3.
        exists (set_blk b (set_init false (set_in i' d))), f.
        split; [reflexivity|]. unfold amo, in_line. cbn [set_blk set_init set_in d_st d_in d_blk d_chan]. rewrite D1.
        split; [|exact D3]. split; [repeat split; auto; try lia; apply HW'|]. split; [exact HC'|]. split; [exact HD|exact HS].
    Qed.

    Lemma amo_loop n : forall fuel kept d b, amo d b ->
      match dec_loop fuel ev n true kept d b with
      | (d', PPend _) => amo d' (d_blk d') /\ (br_size (d_in d') < br_size (d_in d))%nat
      | (d', POk x) => x = [] /\ d_chan d' = []
      | (_, PFuel) => True
      | _ => False
      end.
    Proof.
      induction fuel as [|f IH]; intros kept d b HA; [exact I|]. cbn [dec_loop].
      assert (S : forall b1, amo d b1 -> (length (k_data b1) < k_len b1)%nat ->
        match match dec_turn ev n true kept d b1 with Ret d' r => (d', r) | Again nr kept d' b' => dec_loop f ev n nr kept d' b' end with
        | (d', PPend _) => amo d' (d_blk d') /\ (br_size (d_in d') < br_size (d_in d))%nat
        | (d', POk x) => x = [] /\ d_chan d' = []
        | (_, PFuel) => True
        | _ => False
        end).
      { intros b1 (I1 & C1 & D1 & S1) L1. assert (LU : (k_len b1 <= length u)%nat) by lia.
        assert (LC : (length (k_data b1) < k_cap b1)%nat) by lia.
        destruct (line_turn n kept d b1 I1 L1 LU (grow_room b1 LC))
          as [(d' & f' & -> & I2 & E2 & Z & ED & EC)|(d' & b' & -> & I2 & _ & E2 & E3 & Z & ED & EC)].
        - rewrite E2. split; [|exact Z]. split; [exact I2|]. split; [now apply EC|]. split; [congruence|exact S1].
        - assert (LB : amo d' b').
          { split; [exact I2|]. split; [now apply EC|]. split; [congruence|]. rewrite E2, E3. exact S1. }
          specialize (IH kept d' b' LB). destruct (dec_loop f ev n true kept d' b') as [d2 [ | | | |]]; try exact IH.
          destruct IH as [IH1 IH2]. split; [exact IH1|lia]. }
      destruct (Nat.lt_ge_cases (length (k_data b)) (k_len b)) as [L|L]; [now apply S|].
      pose proof HA as (HI & HC & HD & HS). pose proof HI as (_ & _ & HL & _).
      destruct HS as [[S1 S2]|[S1 S2]].
      - assert (EG : grow ev b = Some (mkBlk (k_start b) (k_data b) (e_deccap ev + N.to_nat 1024) (e_grow ev (e_deccap ev)))).
        { unfold grow. destruct (k_cap b <=? length (k_data b))%nat eqn:EC; [|lia]. rewrite S2.
          destruct (N.of_nat (e_deccap ev) + 1024 <=? max_capacity)%N eqn:EM; [reflexivity|unfold max_capacity in EM; lia]. }
        set (b1 := mkBlk _ _ _ _) in EG.
        rewrite (turn_grow n kept d b b1 EG) by (apply grow_room; subst b1; cbn [k_data k_cap]; lia).
        apply S; [|subst b1; cbn [k_data k_len]; lia].
        split; [apply line_grown; [exact HI|lia]|]. split; [exact HC|]. split; [exact HD|]. right. subst b1. cbn [k_len k_cap]. lia.
      - destruct (amo_full n kept d b HA ltac:(lia) S2) as [(d' & f' & -> & P1 & P2)|(d' & -> & P1)]; auto.
    Qed.

    Lemma amo_reads : forall ns d d' out k, amo d (d_blk d) -> Forall (fun n => 0 < n)%nat ns ->
      reads (dec_read ev) ns d = (d', out, k) ->
      out = [] /\
      match k with
      | Going => (length ns <= br_size (d_in d))%nat
      | Ended => d_chan d' = []
      | _ => False
      end.
    Proof.
      induction ns as [|n ns IH]; intros d d' out k HL HF H; cbn [reads] in H; [inversion H; cbn; split; [reflexivity|lia]|].
      inversion HF; subst. destruct (dec_read ev n d) as [d1 r] eqn:E.
      destruct (line_poll n d (proj1 HL)) as (nr & E' & ->). rewrite E in E'.
      pose proof (amo_loop n (dec_fuel d) (0, 0)%nat (set_blk (blk_fresh ev) d) (d_blk d) HL) as P. rewrite <- E' in P.
      destruct r as [x|f| | |]; try contradiction.
      - destruct P as [-> P]. inversion H; subst. now split.
      - destruct P as [P1 P2]. destruct (IH _ _ _ _ P1 H3 H) as [Q1 Q2]. split; [exact Q1|].
        destruct k; try exact Q2. cbn [length set_blk d_in] in *. lia.
      - destruct HL as ((ES & _) & _). pose proof (poll_mu ev n d H2) as Q. rewrite ES in Q.
        destruct (Q I) as (_ & Q2 & _). rewrite E in Q2. now elim Q2.
    Qed.
  End Amortised.
End Line.

Lemma fresh_line ev br u extra : wf_brd br -> br_data br = u ++ extra -> in_line u extra (dec_new ev br) (d_blk (dec_new ev br)).
Proof. intros HW HB. unfold in_line. cbn [dec_new d_st d_blk blk_fresh k_start k_data k_len d_in length app]. repeat split; auto; try lia; apply HW. Qed.
