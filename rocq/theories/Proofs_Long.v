(** Well-formed chunked messages of any size: no errors. *)
From Verif Require Import ChunkedDec ServerDec BodyRead Reads SpecBody SpecServer SpecChunked SpecHead SpecReq SpecLax Lemmas Proofs_Text Proofs_Parse Proofs_Map Proofs_Buf Proofs_Dec
  Proofs_DecMsg Proofs_DecReads Proofs_ReqParse Proofs_BodyRead Proofs_Sound.

(** Where in the message a number of whole chunks ends. *)
Lemma position lim out u X p cw z Y : chunks size_line out u -> chunks (fun n l => size_line n l /\ (N.of_nat (length l) <= lim)%N) p cw -> size_line 0 z ->
  u ++ X = cw ++ z ++ Y -> exists p2 cw2, chunks (fun n l => size_line n l /\ (N.of_nat (length l) <= lim)%N) p2 cw2 /\ X = cw2 ++ z ++ Y.
Proof.
  intros H1 H2 Hz. revert p cw H2. induction H1 as [|d sl out u Hd Hs H1 IH]; intros p cw H2 E; [now exists p, cw|].
  destruct H2 as [|d' sl' p' w' Hd' [Hs' Hl'] H2].
  - exfalso. cbn [app] in E. rewrite <- !app_assoc in E. pose proof (size_line_parse _ _ Y Hz) as P1. rewrite <- E in P1.
    rewrite (size_line_parse _ _ _ Hs) in P1. injection P1 as E1 _. destruct d; [congruence|discriminate].
  - rewrite <- !app_assoc in E. assert (P1 := size_line_parse _ _ (d ++ CRLF ++ u ++ X) Hs). rewrite E, (size_line_parse _ _ _ Hs') in P1.
    assert (E1 : N.of_nat (length d') = N.of_nat (length d)) by congruence.
    assert (E2 : d' ++ CRLF ++ w' ++ z ++ Y = d ++ CRLF ++ u ++ X) by congruence. clear P1.
    assert (L : length d' = length d) by lia. assert (D : d' = d /\ CRLF ++ w' ++ z ++ Y = CRLF ++ u ++ X).
    { revert L E2. clear. revert d. induction d' as [|x d' IH]; intros [|y d] L E2; try discriminate; [auto|]. injection E2 as -> E2.
      destruct (IH d ltac:(cbn in L; lia) E2) as [-> ->]. auto. }
    destruct D as [-> D]. apply app_inv_head in D. exact (IH p' w' H2 (eq_sym D)).
Qed.

Lemma chunks_weaken lim p cw : chunks (fun n l => size_line n l /\ (N.of_nat (length l) <= lim)%N) p cw -> chunks size_line p cw.
Proof. induction 1 as [|d sl p w Hd [Hs _] H IH]; constructor; auto. Qed.

(** An unfinished element is shorter than the element. *)
Lemma part_short (data x u ex : bytes) : data ++ x = u ++ ex -> (length u <= length data)%nat -> exists r, data = u ++ r.
Proof.
  revert data. induction u as [|y u IH]; intros [|z data] E L; cbn in L; try lia; [now exists []|now exists (z :: data)|].
  injection E as -> E. destruct (IH data E ltac:(lia)) as (r & ->). now exists r.
Qed.

Section Long.
  Variable ev : env.
  Variables (p0 : bytes) (tr : list (bytes * bytes)) (wire : bytes) (h : hmap) (extra : bytes).
  Hypothesis Hgrow : grow_ok ev.
  Hypothesis HB : bounded line_limit p0 tr wire.
  Hypothesis Hh : append_trailers tr [] = Some h.
  Let Htr : (length tr <= 16)%nat.
  Proof. destruct HB as (? & ? & ? & ? & ? & ? & ? & ? & ? & ?). assumption. Qed.

  Notation Rr := (R ev tr h extra false EOk).
  Notation Lr := (L ev tr h extra false EOk).
  Notation Sr := (St ev tr h extra false EOk).
  Notation Inv := (inv ev (wire ++ extra)).

  Definition good (d : dec) (b : blk) : Prop :=
    clean (br_src (d_in d)) /\ (is_chunk (d_st d) = true -> k_start b = 0%nat -> k_data b = []).

  Lemma stuck_short out d b : Inv out d b -> stuck ev (d_st d) (k_data b) -> (N.of_nat (length (k_data b)) <= line_limit)%N.
  Proof.
    destruct HB as (cw & z & tw & H1 & H2 & H3 & H4 & H5 & H6 & EW). intros HI HS.
    destruct (N.leb_spec (N.of_nat (length (k_data b))) line_limit) as [L|L]; [exact L|exfalso].
    unfold inv in HI. destruct (d_st d) as [|cur len| | |m|m|]; cbn [stuck] in HS; try contradiction.
    - destruct HI as (_ & used & E & HC). rewrite EW, <- !app_assoc in E.
      destruct (position line_limit out used (k_data b ++ br_data (d_in d)) p0 cw z (tw ++ CRLF ++ extra) HC H1 H2) as (p2 & cw2 & Q1 & Q2); [now symmetry|].
      destruct Q1 as [|c sl p2 w2 Hc [Hs Hl] Q1].
      + cbn [app] in Q2. destruct (part_short _ _ _ _ Q2 ltac:(lia)) as (r & ER). rewrite ER, (size_line_parse _ _ _ H2) in HS. discriminate.
      + rewrite <- !app_assoc in Q2. destruct (part_short _ _ _ _ Q2 ltac:(lia)) as (r & ER). rewrite ER, (size_line_parse _ _ _ Hs) in HS. discriminate.
    - unfold line_limit in L. lia.
    - destruct HI as (_ & used & E & cw' & z' & HC & HZ & ->). rewrite EW, <- !app_assoc in E.
      destruct (position line_limit out cw' (z' ++ k_data b ++ br_data (d_in d)) p0 cw z (tw ++ CRLF ++ extra) HC H1 H2) as (p2 & cw2 & Q1 & Q2); [now symmetry|].
      pose proof (last_line_parse z' (k_data b ++ br_data (d_in d)) HZ) as PZ. rewrite Q2 in PZ.
      destruct Q1 as [|c sl p2 w2 Hc [Hs Hl] Q1].
      + cbn [app] in PZ. rewrite (size_line_parse _ _ _ H2) in PZ. assert (E2 : k_data b ++ br_data (d_in d) = (tw ++ CRLF) ++ extra) by (rewrite <- app_assoc; congruence).
        destruct (part_short _ _ _ _ E2 ltac:(lia)) as (r & ER). rewrite ER, <- app_assoc, (fields_parse _ _ _ _ _ H4 H5) in HS. discriminate.
      + rewrite <- !app_assoc, (size_line_parse _ _ _ Hs) in PZ. assert (E2 : N.of_nat (length c) = 0%N) by congruence. destruct c; [congruence|discriminate].
  Qed.

  Lemma grow_some nr d b p out : Lr nr d b p -> Inv out d b -> good d b -> grow ev b <> None.
  Proof.
    intros (HR & ND & HT & HF) HI (_ & HG) EG. unfold grow in EG. destruct (k_cap b <=? length (k_data b))%nat eqn:E1; [|discriminate].
    destruct (N.of_nat (k_cap b) + 1024 <=? max_capacity)%N eqn:E2; [discriminate|]. apply Nat.leb_le in E1. apply N.leb_gt in E2. unfold max_capacity in E2.
    destruct HR as (_ & ((B1 & B2) & _) & _). unfold k_end in B1.
    destruct nr.
    - pose proof (stuck_short out d b HI (HT eq_refl)) as Q. unfold line_limit in Q. lia.
    - destruct (HF eq_refl) as [Q|Q]; [|lia]. assert (Z : k_start b = 0%nat) by lia. rewrite (HG Q Z) in E1. cbn in E1. lia.
  Qed.

  Lemma inner_good d b n d' r p : Rr d b p -> d_st d <> DDone -> good d b -> poll_read_inner ev d b n = (d', r) ->
    match r with DSome _ st b' _ => good (set_st_opt st d') b' | DErr => False | _ => True end.
  Proof.
    intros HR ND (HC & HG) H. unfold poll_read_inner in H. destruct (d_st d) as [|cur len| | |m|m|] eqn:ES.
    - injection H as <- <-. destruct (decode_init b) as [read st b' pend| | |] eqn:ED; auto.
      + apply init_some in ED as (-> & -> & u & r & sz & E2 & Hu & P & -> & ->). split; [exact HC|]. cbn [k_start]. intros _ Z. destruct u; [congruence|cbn in Z; lia].
      + destruct (init_facts ev tr h extra Htr false EOk ltac:(discriminate) d b p HR ES) as [(P & _)|[(_ & P & _)|(u & r & sz & _ & _ & P & _)]]; [|discriminate|];
          unfold decode_init, sliced in ED; rewrite P in ED; destruct (k_len b <? k_end b)%nat; discriminate.
    - destruct (poll_read_chunk (d_in d) b n cur len) as [i' r'] eqn:E. injection H as <- <-. unfold poll_read_chunk in E. destruct (len <? cur)%N; [injection E as <- <-; exact I|].
      specialize (HG eq_refl). destruct (k_data b) as [|x xs] eqn:ED.
      + destruct (br_read _ (d_in d)) as [i1 [y|f| | |]] eqn:EB; injection E as <- <-; try exact I.
        * destruct (br_read_clean _ _ _ _ EB HC) as [C _]. split; [exact C|]. intros _ _. exact ED.
        * destruct (br_read_clean _ _ _ _ EB HC) as [C _]. split; [exact C|]. intros _ _. exact ED.
        * destruct (br_read_clean _ _ _ _ EB HC) as [_ C]. congruence.
      + set (data := x :: xs) in *. assert (DN : data <> []) by discriminate. clearbody data. cbv zeta in E.
        match type of E with context [if ?x then (_, DPanic) else _] => destruct x end; injection E as <- <-; [exact I|]. split; [exact HC|]. intros _.
        destruct (Nat.eqb _ (length data)); [reflexivity|]. unfold blk_skip. cbn [k_start k_data]. intros Z. exfalso. apply DN, HG. lia.
    - injection H as <- <-. destruct (decode_chunk_end b) as [read st b' pend| | |] eqn:ED; auto.
      + apply end_some in ED as (-> & -> & -> & r & E2 & ->). split; [exact HC|discriminate].
      + destruct (end_facts ev tr h extra Htr false EOk ltac:(discriminate) d b p HR ES) as [(P & _)|[(_ & _ & P & _)|(r & P & _)]]; [|discriminate|];
          unfold decode_chunk_end in ED.
        * apply Nat.ltb_lt in P. rewrite P in ED. discriminate.
        * rewrite P in ED. change (firstn 2 (CRLF ++ r)) with CRLF in ED. rewrite beq_refl in ED. destruct (length (CRLF ++ r) <? 2)%nat, (k_len b <? k_start b + 2)%nat; discriminate.
    - injection H as <- <-. destruct (decode_trailer ev b) as [read st b' pend| | |] eqn:ED; auto.
      + apply trailer_some in ED as (-> & -> & u & r & hs & m & E2 & _ & P & PA & -> & ->). split; [exact HC|discriminate].
      + destruct (trailer_facts ev tr h extra Htr false EOk ltac:(discriminate) d b p HR ES) as (_ & [(P & _)|[(_ & P)|(_ & r & P & _)]]); [|discriminate|];
          unfold decode_trailer, sliced in ED; rewrite P, ?Hh in ED; destruct (k_len b <? k_end b)%nat; discriminate.
    - destruct (d_sender d); injection H as <- <-; [|exact I]. split; [exact HC|discriminate].
    - destruct (d_chan d) as [|y ch]; injection H as <- <-; (split; [exact HC|]); [discriminate|]. cbn [set_st_opt]. rewrite ES. discriminate.
    - congruence.
  Qed.

  Lemma inner_last d b n d' read st b' pend : poll_read_inner ev d b n = (d', DSome read st b' pend) -> d_st (set_st_opt st d') = DDone -> read = [].
  Proof.
    intros H HD. unfold poll_read_inner in H. destruct (d_st d) as [|cur len| | |m|m|] eqn:ES.
    - injection H as _ H. now apply init_some in H as (-> & _).
    - destruct (poll_read_chunk (d_in d) b n cur len) as [i' r'] eqn:E. injection H as <- ->. unfold poll_read_chunk in E. destruct (len <? cur)%N; [discriminate|].
      destruct (k_data b).
      + destruct (br_read _ _) as [i1 [y|g| | |]]; try discriminate; injection E as _ <- <- _ _; [|reflexivity].
        cbn [set_st_opt set_st d_st] in HD. destruct (_ =? len)%N; [discriminate|]. destruct y; [reflexivity|discriminate].
      + cbv zeta in E. match type of E with context [if ?x then (_, DPanic) else _] => destruct x end; [discriminate|]. injection E as _ _ <- _ _.
        cbn [set_st_opt set_st d_st] in HD. destruct (_ =? len)%N; discriminate.
    - injection H as _ H. now apply end_some in H as (-> & _).
    - injection H as _ H. now apply trailer_some in H as (-> & _).
    - destruct (d_sender d); now inversion H.
    - destruct (d_chan d); now inversion H.
    - now inversion H.
  Qed.

  Definition fine (d' : dec) (r : pres bytes) : Prop := match r with
    | POk x => good d' (d_blk d') /\ (d_st d' = DDone -> x = [])
    | PPend _ => good d' (d_blk d')
    | PErr => False
    | _ => True
    end.

  Lemma decode_good n kept d b p : Rr d b p -> d_st d <> DDone -> good d b ->
    match dec_decode ev n kept d b with
    | Ret d' r => fine d' r
    | Again _ _ d' b' => good d' b'
    end.
  Proof.
    intros HR ND HG. unfold dec_decode. destruct (poll_read_inner ev d b n) as [d' r] eqn:E. pose proof (inner_good _ _ _ _ _ _ HR ND HG E) as P.
    destruct r as [read st b' pend| | |]; try exact I; try contradiction.
    - cbv zeta. assert (P2 : good (set_st_opt st (set_init true d')) b') by (destruct st; exact P).
      assert (P3 : d_st (set_st_opt st (set_init true d')) = DDone -> read = []).
      { intros HD. apply (inner_last _ _ _ _ _ _ _ _ E). now destruct st. }
      destruct (is_done _); [exact (conj P2 P3)|]. destruct (0 <? length read)%nat; [exact (conj P2 P3)|]. destruct pend; exact P2.
    - assert (d' = d) as -> .
      { clear - E. unfold poll_read_inner in E. destruct (d_st d) as [|cur len| | |m|m|]; try (now inversion E).
        - destruct (poll_read_chunk (d_in d) b n cur len) as [i' r'] eqn:E2. injection E as <- ->. exfalso. unfold poll_read_chunk in E2. destruct (len <? cur)%N; [discriminate|].
          destruct (k_data b); [|cbv zeta in E2; match type of E2 with context [if ?x then (_, DPanic) else _] => destruct x end; discriminate].
          destruct (br_read _ _) as [i1 [y|g| | |]]; discriminate.
        - destruct (d_sender d); now inversion E.
        - destruct (d_chan d); now inversion E. }
      destruct (_ && _)%bool; [split; [exact HG|reflexivity]|exact HG].
  Qed.

  Lemma done_inner b d n kept : d_st d = DDone -> good d b -> match dec_decode ev n kept d b with Ret d' r => fine d' r | Again _ _ _ _ => False end.
  Proof.
    intros E HG. unfold dec_decode, poll_read_inner. rewrite E. cbn [set_st_opt set_st set_init d_st is_done]. cbn [fine]. split; [split; [exact (proj1 HG)|discriminate]|reflexivity].
  Qed.

  Lemma turn_good n nr kept d b p out : Lr nr d b p -> Inv out d b -> good d b ->
    match dec_turn ev n nr kept d b with
    | Ret d' r => fine d' r
    | Again _ _ d' b' => good d' b'
    end.
  Proof.
    intros HL HI HG. pose proof (grow_some _ _ _ _ _ HL HI HG) as NG. pose proof HL as (HR & ND & HT & HF). unfold dec_turn.
    destruct (grow ev b) as [b1|] eqn:EG; [|congruence].
    pose proof (R_grow ev tr h extra Hgrow false EOk _ _ _ _ HR EG ltac:(discriminate)) as HR1.
    destruct (grow_data _ _ _ EG) as [GD GS].
    assert (HG1 : good d b1) by (unfold good in *; rewrite GD, GS; exact HG).
    destruct nr; [|exact (decode_good n kept d b1 p HR1 ND HG1)].
    destruct (k_len b1 <? k_end b1)%nat; [exact I|]. destruct HG1 as [HC1 HG1].
    assert (NCh : is_chunk (d_st d) = false) by (specialize (HT eq_refl); destruct (d_st d); try reflexivity; contradiction).
    destruct (br_read (k_len b1 - k_end b1) (d_in d)) as [i' [x|f| | |]] eqn:EB; destruct (br_read_clean _ _ _ _ EB HC1) as [C NE]; try exact I; try congruence.
    - cbv zeta. pose proof (br_read_data _ _ _ _ EB) as BD. pose proof (br_read_len _ _ _ _ EB) as BL. destruct x as [|x0 x].
      + pose proof (done_inner (mkBlk (k_start b1) (k_data b1 ++ []) (k_len b1) (k_cap b1)) (set_st DDone (set_in i' d)) n kept eq_refl) as Q.
        destruct (dec_decode ev n kept _ _); [apply Q; split; [exact C|discriminate]|]. exfalso. apply Q. split; [exact C|discriminate].
      + assert (P2 : Rr (set_in i' d) (mkBlk (k_start b1) (k_data b1 ++ x0 :: x) (k_len b1) (k_cap b1)) p).
        { destruct HR1 as (X1 & ((X2 & X2') & X3 & X4) & X5 & X6). split; [|split; [|split]].
          - unfold Rst in *. cbn [set_in d_st d_in k_data k_start d_chan].
            assert (EW : (k_data b1 ++ x0 :: x) ++ br_data i' = k_data b1 ++ br_data (d_in d)) by (rewrite BD, <- app_assoc; reflexivity).
            rewrite EW. specialize (HT eq_refl). destruct (d_st d); try contradiction; exact X1.
          - unfold np, blk_ok, k_end, sender_ok in *. cbn [k_start k_data k_len k_cap set_in d_st d_sender]. rewrite app_length. repeat split; auto; lia.
          - exact X5.
          - discriminate. }
        apply (decode_good n kept _ _ p P2); [exact ND|]. split; [exact C|]. cbn [set_in d_st]. rewrite NCh. discriminate.
    - split; [exact C|]. cbn [set_blk set_init set_in d_st]. rewrite NCh. discriminate.
  Qed.

  Lemma loop_good n fuel : forall nr kept d b p out, Lr nr d b p -> Inv out d b -> good d b ->
    fine (fst (dec_loop fuel ev n nr kept d b)) (snd (dec_loop fuel ev n nr kept d b)).
  Proof.
    induction fuel as [|f IH]; intros nr kept d b p out HL HI HG; [exact I|]. cbn [dec_loop].
    pose proof (turn_good n nr kept d b p out HL HI HG) as P.
    pose proof (turn_R ev tr h extra Htr Hh Hgrow false EOk ltac:(discriminate) n nr kept d b p HL ltac:(discriminate)) as Q.
    pose proof (turn_inv ev (wire ++ extra) n nr kept out d b HI) as V.
    destruct (dec_turn ev n nr kept d b) as [d' r|nr' kept' d' b']; [exact P|exact (IH _ _ _ _ _ _ Q V P)].
  Qed.

  Lemma poll_good n d fuel p out : Sr d p -> d_st d <> DDone -> Inv out d (d_blk d) -> good d (d_blk d) ->
    fine (fst (dec_poll fuel ev n d)) (snd (dec_poll fuel ev n d)).
  Proof.
    intros (HR & HI) ND HV HG. unfold dec_poll. cbv zeta.
    set (d0 := set_blk (blk_fresh ev) d). set (b := d_blk d) in *.
    assert (HR0 : Rr d0 b p) by (eapply R_ext; [| | | |exact HR]; reflexivity).
    assert (HV0 : Inv out d0 b) by exact HV. assert (HG0 : good d0 b) by exact HG.
    assert (ND0 : d_st d0 <> DDone) by exact ND.
    assert (HST : match d_st d0 with DTrailerDone _ | DTrailerSending _ | DDone => False | _ => True end).
    { subst d0. cbn [set_blk d_st]. destruct (d_st d); try exact I; try contradiction. }
    assert (HL : (length (k_data b) = 0)%nat \/ d_init d = false -> Lr (negb (is_chunk (d_st d))) d0 b p).
    { intros HX. split; [exact HR0|]. split; [exact ND0|].
      assert (HS : is_chunk (d_st d) = false -> stuck ev (d_st d) (k_data b)).
      { intros NC. destruct HX as [HX|HX].
        - apply length_zero_iff_nil in HX. pose proof (nil_stuck ev tr Htr d0 _ HX) as Q. change (d_st d0) with (d_st d) in *.
          destruct (d_st d); try discriminate; try contradiction; exact Q.
        - change (d_st d0) with (d_st d) in *. destruct (d_st d); try discriminate; try contradiction; now apply HI. }
      change (d_st d0) with (d_st d) in *. split; intros Z; [apply HS|left]; destruct (is_chunk (d_st d)); auto; discriminate. }
    destruct (_ && _)%bool eqn:EC.
    2:{ apply (loop_good n fuel _ _ _ _ p out); auto. apply HL. apply andb_false_iff in EC as [EC|EC]; [left; apply Nat.ltb_ge in EC; lia|right; exact EC]. }
    apply andb_prop in EC as [EC1 EC2]. apply Nat.ltb_lt in EC1.
    destruct (poll_read_inner ev d0 b n) as [d' r] eqn:E.
    pose proof (inner_good _ _ _ _ _ _ HR0 ND0 HG0 E) as G1. pose proof (inner_inv ev (wire ++ extra) _ _ _ _ _ _ HV0 E) as V1.
    pose proof (inner_R ev tr h extra Htr Hh false EOk ltac:(discriminate) _ _ _ _ _ _ HR0 ND0 ltac:(discriminate) E) as P.
    destruct r as [read st b' pend| | |]; cbv zeta in *.
    - destruct P as (p' & -> & PR & PI & PD & PN & PP & PC & PE). pose proof (inner_last _ _ _ _ _ _ _ _ E) as IL.
      destruct pend as [f|]; [exact G1|]. destruct (is_done _) eqn:EDn; [exact (conj G1 IL)|].
      assert (NDn : d_st (set_st_opt st d') <> DDone) by (intros Z; rewrite Z in EDn; discriminate).
      destruct (0 <? length read)%nat eqn:EL; [exact (conj G1 IL)|].
      assert (read = []) by (destruct read; [reflexivity|discriminate]). subst read. rewrite app_nil_r in V1.
      apply (loop_good n fuel _ _ _ _ p' out); auto. split; [exact PR|]. split; [exact NDn|]. split; [discriminate|]. intros _.
      destruct (PN eq_refl eq_refl) as [Q|[Q|((m & Q) & ->)]]; [left|right; exact Q|].
      + rewrite Q in PC. destruct PC as [PC|[PC|PC]]; [exact PC|exfalso; now apply (PE Q eq_refl)|congruence].
      + destruct Q as [Q|Q]; rewrite Q in HST; contradiction.
    - destruct P as (-> & HS). apply (loop_good n fuel _ _ _ _ p out); auto. split; [exact HR0|]. split; [exact ND0|].
      change (d_st d0) with (d_st d) in *. split; [auto|]. intros Z. destruct (d_st d); try discriminate; contradiction.
    - exact G1.
    - contradiction.
  Qed.

  Lemma reads_good ns : forall d p out d' o k, Sr d p -> d_st d <> DDone -> Inv out d (d_blk d) -> good d (d_blk d) ->
    reads (dec_read ev) ns d = (d', o, k) -> k <> Failed.
  Proof.
    induction ns as [|n ns IH]; intros d p out d' o k HS ND HV HG H; cbn [reads] in H; [inversion H; discriminate|].
    unfold dec_read at 1 in H. pose proof (poll_good n d (dec_fuel d) p out HS ND HV HG) as G1. pose proof (poll_inv ev (wire ++ extra) n (dec_fuel d) out d HV) as V1.
    pose proof (poll_R ev tr h extra Htr Hh Hgrow false EOk ltac:(discriminate) n d (dec_fuel d) p ltac:(discriminate) HS ND) as P.
    destruct (dec_poll (dec_fuel d) ev n d) as [d1 [x|f| | |]]; cbn [fst snd fine after ret_R] in *; try contradiction.
    - destruct P as (p' & -> & P1 & P2 & _). destruct x as [|c x]; [inversion H; discriminate|].
      destruct (reads (dec_read ev) ns d1) as [[d2 o2] k2] eqn:E2. injection H as <- <- <-. destruct G1 as [G1 G2].
      refine (IH _ _ _ _ _ _ P1 _ V1 G1 E2). intros Z. specialize (G2 Z). discriminate.
    - destruct P as [P1 P2]. exact (IH _ _ _ _ _ _ P1 P2 V1 G1 H).
    - inversion H; discriminate.
  Qed.
End Long.

Lemma bounded_message lim p tr wire : bounded lim p tr wire -> chunked_message p tr wire.
Proof. intros (cw & z & tw & H1 & H2 & _ & H3 & H4 & _ & ->). exists cw, z, tw. ands; auto. exact (chunks_weaken _ _ _ H1). Qed.

Lemma long_reads ev br p tr wire extra ns d' out k :
  grow_ok ev -> bounded line_limit p tr wire -> clean (br_src br) -> br_data br = wire ++ extra -> Forall (fun n => 0 < n)%nat ns ->
  reads (dec_read ev) ns (dec_new ev br) = (d', out, k) ->
  match k with
  | Going => prefix out p /\ (length ns <= br_size br)%nat
  | Ended => prefix out p /\ (d_chan d' = [] \/ out = p /\ exists h, d_chan d' = [h] /\ forall n, values n (hm_iter h) = values n tr)
  | _ => False
  end.
Proof.
  intros G HB HC ED HF H. pose proof (bounded_message _ _ _ _ HB) as HM.
  assert (NF : k <> Failed).
  { pose proof HM as (cw & z & tw & H1 & Hz & Ht & HL & EW). destruct (fields_holds _ _ Ht) as (h & Eh & _).
    assert (M : msg ev tr false EOk false 0 p (cw ++ z ++ tw ++ CRLF)).
    { rewrite <- (app_nil_r p). apply msg_any; [assumption|]. intros s. constructor; [assumption|]. constructor; auto; discriminate. }
    rewrite <- EW in M. destruct (St_new ev tr h extra EOk false br p _ M ED) as [HS HD]; [discriminate|].
    apply (reads_good ev p tr wire h extra G HB Eh ns (dec_new ev br) p [] d' out k); auto.
    - split; [reflexivity|]. exists []. split; [now rewrite <- ED|constructor].
    - split; [exact HC|discriminate]. }
  destruct (reads_end ev G ns _ _ _ _ (new_ok ev br) HF H) as (N1 & N2 & _ & N3).
  destruct (Proofs_Sound.reads_prefix _ _ _ _ _ _ H) as (ms & k' & H').
  destruct (fresh_prefix _ _ _ _ _ _ _ _ _ _ G HM ED H') as [_ HP].
  destruct k; try congruence.
  - split; [exact HP|]. destruct (N3 eq_refl) as [_ N4]. unfold tot, dec_new, blk_fresh in N4. cbn in N4. lia.
  - split; [exact HP|]. destruct (d_chan d') as [|h ch] eqn:EC; [now left|right].
    pose proof (fresh_fin _ _ _ _ _ _ H') as (x & y & E1 & F). rewrite EC in F. destruct F as [[F _]|(m & hs & F & F2 & F3)]; [discriminate|].
    injection F as -> ->. rewrite ED in E1. destruct (entire_unique _ _ _ _ _ _ _ _ _ F2 HM (eq_sym E1)) as (-> & -> & _). split; [reflexivity|].
    exists m. split; [reflexivity|]. exact (proj2 (append_values _ _ F3)).
Qed.

(** ** Through the [BufReader] of a message's body *)
Lemma long_body ev br p tr wire extra ms b' out k : (0 < e_bufcap ev)%nat ->
  grow_ok ev -> bounded line_limit p tr wire -> clean (br_src br) -> br_data br = wire ++ extra -> Forall (fun n => 0 < n)%nat ms ->
  reads (body_read ev) ms (RChunked [] (dec_new ev br)) = (b', out, k) ->
  match k with
  | Going => prefix out p /\ (length ms <= br_size br + length p)%nat
  | Ended => prefix out p /\ (body_trailers b' = [] \/ out = p /\ exists h, body_trailers b' = [h] /\ forall n, values n (hm_iter h) = values n tr)
  | _ => False
  end.
Proof.
  intros Hc G HB C ED F H. destruct (buffered_reads ev Hc ms [] _ _ _ _ F H) as (ns & d' & o & buf' & I1 & I2 & -> & I4 & I5 & I6).
  pose proof (long_reads ev br p tr wire extra ns d' o k G HB C ED I1 I2) as Q. cbn [app] in I4. subst o. destruct k; try contradiction.
  - destruct Q as [(y & EP) Q2]. split; [exists (buf' ++ y); now rewrite app_assoc|]. specialize (I6 eq_refl). rewrite EP, !app_length. lia.
  - rewrite (I5 ltac:(discriminate)), app_nil_r in Q. exact Q.
Qed.

Lemma long_whole ev sz br p tr wire extra : (forall i, 0 < sz i)%nat -> (0 < e_bufcap ev)%nat ->
  grow_ok ev -> bounded line_limit p tr wire -> clean (br_src br) -> br_data br = wire ++ extra ->
  let f := msg_body None (RChunked [] (dec_new ev br)) in
  exists l, prefix l p /\ settles (fun fuel => into_bytes ev fuel sz f) (ROk l) /\
    (settles (fun fuel => into_bytes_with_trailer ev fuel sz f) THangs \/
     l = p /\ exists h, settles (fun fuel => into_bytes_with_trailer ev fuel sz f) (TOk p (Some h)) /\ forall n, values n (hm_iter h) = values n tr).
Proof.
  intros P Hc G HB C ED f. destruct (chunked_settles ev sz br P Hc G) as (ns & d' & out & k & FN & E & K & S).
  assert (SB := bytes_settle ev sz f _ _ S). assert (ST := trailer_settle ev sz f _ _ S).
  pose proof (long_reads ev br p tr wire extra ns d' out k G HB C ED FN E) as Q. destruct K as [->| ->]; [|contradiction].
  destruct Q as [Q1 Q2]. exists out. split; [exact Q1|]. split; [exact SB|]. unfold with_trailer in ST. cbn [end_res fst snd f_own f msg_body] in ST.
  destruct Q2 as [Q2|(-> & h & Q2 & Q3)].
  - left. assert (HH : held (dec_new ev br)) by (right; reflexivity). pose proof (reads_held ev _ _ _ _ _ HH E ltac:(auto)) as [X|X]; [now elim X|].
    assert (RV : recv_trailers false (RMsg (RChunked [] d')) = Waits) by (unfold recv_trailers, channel, body_trailers, senders, dec_sender; now rewrite Q2, X).
    now rewrite RV in ST.
  - right. split; [reflexivity|]. exists h. split; [|exact Q3].
    assert (RV : recv_trailers false (RMsg (RChunked [] d')) = Got h) by (unfold recv_trailers, channel, body_trailers; now rewrite Q2).
    now rewrite RV in ST.
Qed.
