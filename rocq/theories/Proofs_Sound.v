(** The chunked decoder on arbitrary input: what it delivers is the chunk data of what came, and it
    sends trailers only after a complete message. *)
From Verif Require Import ChunkedDec ServerDec BodyRead Reads SpecChunked SpecHead SpecReq SpecLax Lemmas Proofs_Text Proofs_Parse Proofs_Map Proofs_Buf Proofs_Dec
  Proofs_DecReads Proofs_ReqParse Proofs_BodyRead.

(** ** Chunk-size lines *)
Lemma hex_val_dig c d : hex_val c = Some d -> exists v, hexdig c v /\ d = N.of_nat v.
Proof.
  unfold hexdig. destruct c as [[] [] [] [] [] [] [] []]; cbv; intros H; try discriminate; injection H as <-;
  (match goal with |- context [N.of_nat] => idtac | _ => idtac end);
  match goal with |- exists v, _ /\ ?d = _ => exists (N.to_nat d); split; [|reflexivity] end; vm_compute; auto.
Qed.

Lemma hexnum_cons c v l n : hexdig c v -> hexnum l n -> hexnum (c :: l) (N.of_nat v * 16 ^ N.of_nat (length l) + n).
Proof.
  intros Hc. induction 1 as [x w Hx|l n x w Hl IH Hx].
  - cbn [length]. change (N.of_nat 1) with 1%N. rewrite N.pow_1_r. apply (hex_snoc [c] _ x w); [now constructor|exact Hx].
  - rewrite app_length. cbn [length]. rewrite Nat.add_1_r, Nat2N.inj_succ, N.pow_succ_r'.
    replace (N.of_nat v * (16 * 16 ^ N.of_nat (length l)) + (n * 16 + N.of_nat w))%N
      with ((N.of_nat v * 16 ^ N.of_nat (length l) + n) * 16 + N.of_nat w)%N by lia.
    exact (hex_snoc (c :: l) _ x w IH Hx).
Qed.

Lemma go_ext l : forall c s n r, chunk_size_go CsExt c s l = HDone (n, r) -> n = s /\ exists t, ~ In CR t /\ l = t ++ CRLF ++ r.
Proof.
  induction l as [|x l IH]; intros c s n r H; [discriminate|]. cbn [chunk_size_go] in H.
  assert (H' : (if Ascii.eqb x CR then match l with [] => HPart | c' :: r' => if Ascii.eqb c' LF then HDone (s, r') else HErr end
                else chunk_size_go CsExt c s l) = HDone (n, r)) by (destruct (hex_val x); exact H). clear H.
  destruct (Ascii.eqb_spec x CR) as [->|NX].
  - destruct l as [|y l]; [discriminate|]. destruct (Ascii.eqb_spec y LF) as [->|]; [|discriminate]. injection H' as <- <-.
    split; [reflexivity|]. exists []. split; [intros []|reflexivity].
  - destruct (IH _ _ _ _ H') as (-> & t & Ht & ->). split; [reflexivity|]. exists (x :: t). split; [|reflexivity].
    intros [E|E]; [now apply NX|now apply Ht].
Qed.

Lemma go_ws l : forall m c s n r, m = CsWs \/ (m = CsSize /\ match l with x :: _ => hex_val x = None | [] => True end) ->
  chunk_size_go m c s l = HDone (n, r) -> n = s /\ exists x, chunk_ext x /\ l = x ++ CRLF ++ r.
Proof.
  induction l as [|x l IH]; intros m c s n r Hm H; [discriminate|]. cbn [chunk_size_go] in H.
  assert (H' : (if Ascii.eqb x CR then match l with [] => HPart | c' :: r' => if Ascii.eqb c' LF then HDone (s, r') else HErr end
                else if Ascii.eqb x (ascii_of_N 59) then chunk_size_go CsExt c s l else if is_ws x then chunk_size_go CsWs c s l else HErr) = HDone (n, r)).
  { destruct Hm as [->|[-> E]]; [destruct (hex_val x); exact H|rewrite E in H; exact H]. } clear H.
  destruct (Ascii.eqb_spec x CR) as [->|NX].
  - destruct l as [|y l]; [discriminate|]. destruct (Ascii.eqb_spec y LF) as [->|]; [|discriminate]. injection H' as <- <-.
    split; [reflexivity|]. exists []. split; [|reflexivity]. exists [], []. auto.
  - destruct (Ascii.eqb_spec x (ascii_of_N 59)) as [->|NS].
    + destruct (go_ext _ _ _ _ _ H') as (-> & t & Ht & ->). split; [reflexivity|]. exists (ascii_of_N 59 :: t). split; [|reflexivity].
      exists [], (ascii_of_N 59 :: t). repeat split; auto. right. eauto.
    + destruct (is_ws x) eqn:EW; [|discriminate]. destruct (IH CsWs _ _ _ _ (or_introl eq_refl) H') as (-> & y & (ws & e & -> & Hw & He) & ->).
      split; [reflexivity|]. exists (x :: ws ++ e). split; [|reflexivity]. exists (x :: ws), e. repeat split; auto. constructor; [|exact Hw].
      unfold is_ws in EW. apply orb_prop in EW as [EW|EW]; apply Ascii.eqb_eq in EW; auto.
Qed.

Lemma go_size l : forall c s n r, chunk_size_go CsSize c s l = HDone (n, r) -> (c <= 16)%nat ->
  exists ds x, l = ds ++ x ++ CRLF ++ r /\ chunk_ext x /\ (c + length ds <= 16)%nat /\
    ((ds = [] /\ n = s) \/ exists m, hexnum ds m /\ n = (s * 16 ^ N.of_nat (length ds) + m)%N).
Proof.
  induction l as [|y l IH]; intros c s n r H Hc; [discriminate|]. destruct (hex_val y) as [d|] eqn:EY.
  - cbn [chunk_size_go] in H. rewrite EY in H. destruct (15 <? c)%nat eqn:E; [discriminate|]. apply Nat.ltb_ge in E.
    destruct (hex_val_dig _ _ EY) as (v & Hv & ->).
    destruct (IH _ _ _ _ H ltac:(lia)) as (ds & x & -> & Hx & HL & HD). exists (y :: ds), x. split; [reflexivity|]. split; [exact Hx|].
    split; [cbn [length]; lia|]. right. destruct HD as [(-> & ->)|(m & Hm & ->)].
    + exists (N.of_nat v). split; [now constructor|]. cbn [length]. change (N.of_nat 1) with 1%N. now rewrite N.pow_1_r.
    + exists (N.of_nat v * 16 ^ N.of_nat (length ds) + m)%N. split; [now apply hexnum_cons|].
      cbn [length]. rewrite Nat2N.inj_succ, N.pow_succ_r'. lia.
  - destruct (go_ws (y :: l) CsSize c s n r (or_intror (conj eq_refl EY)) H) as (-> & x & Hx & ->).
    exists [], x. repeat split; auto. cbn [length]. lia.
Qed.

Lemma line_inv l n r : parse_chunk_size l = HDone (n, r) ->
  exists u, l = u ++ r /\ (n <> 0%N -> size_line n u) /\ (n = 0%N -> last_line u).
Proof.
  intros H. destruct (go_size _ _ _ _ _ H ltac:(lia)) as (ds & x & -> & Hx & HL & HD). exists (ds ++ x ++ CRLF).
  split; [now rewrite <- !app_assoc|].
  assert (S : forall m, hexnum ds m -> size_line m (ds ++ x ++ CRLF)) by (intros m Hm; exists ds, x; repeat split; auto; lia).
  destruct HD as [(-> & ->)|(m & Hm & ->)].
  - split; [congruence|]. intros _. right. exists x. auto.
  - cbn [N.mul]. rewrite N.add_0_l. split; [intros _; now apply S|]. intros ->. left. now apply S.
Qed.

Lemma last_line_parse z rest : last_line z -> parse_chunk_size (z ++ rest) = HDone (0%N, rest).
Proof.
  intros [H|(x & (ws & e & -> & HW & He) & ->)]; [now apply size_line_parse|]. rewrite <- !app_assoc.
  unfold parse_chunk_size. now rewrite chunk_ws_run.
Qed.

Lemma chunks_snoc SL p cw sl c : chunks SL p cw -> c <> [] -> SL (N.of_nat (length c)) sl -> chunks SL (p ++ c) (cw ++ sl ++ c ++ CRLF).
Proof.
  intros H Hc HS. induction H as [|d s p w Hd Hs H IH].
  - cbn [app]. rewrite <- (app_nil_r c) at 1. rewrite <- (app_nil_r CRLF). constructor; auto. constructor.
  - rewrite <- !app_assoc. constructor; auto.
Qed.

(** ** One message, read in any way *)
Section Sound.
  Variable ev : env.
  Variable whole : bytes.

  (** What may be said once the reading has stopped. *)
  Definition fin (out : bytes) (ch : list hmap) : Prop :=
    exists used rest, whole = used ++ rest /\
      ((ch = [] /\ begun out used) \/
       exists m hs, ch = [m] /\ entire (e_trim ev) out hs used /\ append_trailers hs [] = Some m).

  Definition inv (out : bytes) (d : dec) (b : blk) : Prop :=
    match d_st d with
    | DDone => fin out (d_chan d)
    | s => d_chan d = [] /\ exists used, whole = used ++ k_data b ++ br_data (d_in d) /\
        match s with
        | DInit => chunks size_line out used
        | DChunk cur len => exists p cw sl c, chunks size_line p cw /\ size_line len sl /\ len <> 0%N /\ N.of_nat (length c) = cur /\ (cur <= len)%N /\
            out = p ++ c /\ used = cw ++ sl ++ c
        | DChunkEnd => exists p cw sl c, chunks size_line p cw /\ size_line (N.of_nat (length c)) sl /\ c <> [] /\
            out = p ++ c /\ used = cw ++ sl ++ c
        | DTrailer => exists cw z, chunks size_line out cw /\ last_line z /\ used = cw ++ z
        | DTrailerDone m | DTrailerSending m => exists hs, entire (e_trim ev) out hs used /\ append_trailers hs [] = Some m
        | DDone => True
        end
    end.

  Lemma begun_chunks out cw : chunks size_line out cw -> begun out cw.
  Proof. intros H. exists out, cw. auto. Qed.

  Lemma begun_fin out used rest : whole = used ++ rest -> begun out used -> fin out [].
  Proof. intros E H. exists used, rest. auto. Qed.

  Lemma inv_fin out d b : inv out d b -> fin out (d_chan d).
  Proof.
    unfold inv. destruct (d_st d) as [|cur len| | |m|m|]; [| | | | | |auto].
    - intros (-> & used & E & H). exact (begun_fin _ _ _ E (begun_chunks _ _ H)).
    - intros (-> & used & E & p & cw & sl & c & H & Hs & Hn & Hc & HL & -> & ->). eapply begun_fin; [exact E|].
      exists p, cw. split; [exact H|]. right. exists len, sl, c. ands; auto. lia.
    - intros (-> & used & E & p & cw & sl & c & H & Hs & Hn & -> & ->). eapply begun_fin; [exact E|].
      exists p, cw. split; [exact H|]. right. exists (N.of_nat (length c)), sl, c. ands; auto; [destruct c; [congruence|cbn [length]; lia]|lia].
    - intros (-> & used & E & cw & z & H & _ & ->). rewrite <- app_assoc in E. exact (begun_fin _ _ _ E (begun_chunks _ _ H)).
    - intros (-> & used & E & hs & (cw & z & tw & nl & H & _ & _ & _ & _ & ->) & _). rewrite <- !app_assoc in E. exact (begun_fin _ _ _ E (begun_chunks _ _ H)).
    - intros (-> & used & E & hs & (cw & z & tw & nl & H & _ & _ & _ & _ & ->) & _). rewrite <- !app_assoc in E. exact (begun_fin _ _ _ E (begun_chunks _ _ H)).
  Qed.

  Lemma inv_ext out d d' b b' : d_st d' = d_st d -> d_chan d' = d_chan d -> br_data (d_in d') = br_data (d_in d) -> k_data b' = k_data b ->
    inv out d b -> inv out d' b'.
  Proof. unfold inv. intros -> -> -> ->. auto. Qed.

  Lemma inv_more out d b i' x b' : br_data (d_in d) = x ++ br_data i' -> k_data b' = k_data b ++ x -> inv out d b -> inv out (set_in i' d) b'.
  Proof.
    intros E1 E2 H. assert (E : k_data b' ++ br_data i' = k_data b ++ br_data (d_in d)) by (rewrite E1, E2; now rewrite <- app_assoc).
    unfold inv in *. cbn [set_in d_st d_chan d_in]. rewrite E. exact H.
  Qed.

  Lemma inv_done out d b b' d' : d_st d' = DDone -> d_chan d' = d_chan d -> inv out d b -> inv out d' b'.
  Proof. intros E1 E2 H. unfold inv. rewrite E1, E2. exact (inv_fin _ _ _ H). Qed.

  Lemma inner_inv out d b n d' r : inv out d b -> poll_read_inner ev d b n = (d', r) ->
    match r with
    | DSome read st b' _ => inv (out ++ read) (set_st_opt st d') b'
    | DNone => d' = d
    | _ => d_chan d' = d_chan d
    end.
  Proof.
    intros HI H. unfold poll_read_inner in H. unfold inv in HI. destruct (d_st d) as [|cur len| | |m|m|] eqn:ES.
    - injection H as <- <-. destruct HI as (HC & used & E & HI). destruct (decode_init b) as [read st b' pend| | |] eqn:ED; auto.
      apply init_some in ED as (-> & -> & u & r & sz & E2 & _ & P & -> & ->). rewrite app_nil_r. cbn [set_st_opt].
      destruct (line_inv _ _ _ P) as (u' & E3 & L1 & L2). assert (u' = u) by (rewrite E2 in E3; now apply app_inv_tail in E3). subst u'.
      assert (EW : whole = (used ++ u) ++ r ++ br_data (d_in d)) by (rewrite E, E2; now rewrite <- !app_assoc).
      destruct (sz =? 0)%N eqn:Z; unfold inv; cbn [set_st d_st d_chan d_in k_data]; (split; [exact HC|]); exists (used ++ u); (split; [exact EW|]).
      + exists used, u. apply N.eqb_eq in Z. auto.
      + apply N.eqb_neq in Z. exists out, used, u, []. rewrite !app_nil_r. cbn [length]. ands; auto. lia.
    - destruct (poll_read_chunk (d_in d) b n cur len) as [i' r'] eqn:E. injection H as <- <-.
      destruct HI as (HC & used & EW & p & cw & sl & c & H1 & H2 & H3 & H4 & H5 & -> & ->).
      unfold poll_read_chunk in E. destruct (len <? cur)%N eqn:E0; [injection E as <- <-; reflexivity|].
      set (q := N.to_nat (N.min (len - cur) (N.of_nat n))) in *. assert (Hq : (N.of_nat q + cur <= len)%N) by (subst q; lia). clearbody q.
      destruct (k_data b) as [|x xs] eqn:ED.
      + cbn [app] in EW. destruct (br_read q (d_in d)) as [i1 [y|f| | |]] eqn:EB; injection E as <- <-; try exact eq_refl.
        * pose proof (br_read_data _ _ _ _ EB) as BD. pose proof (br_read_len _ _ _ _ EB) as BL. cbn [set_st_opt].
          assert (W : whole = (cw ++ sl ++ c ++ y) ++ br_data i1) by (rewrite EW, BD; now rewrite <- !app_assoc).
          destruct (cur + N.of_nat (length y) =? len)%N eqn:EQ; [|destruct y as [|y0 y]].
          -- apply N.eqb_eq in EQ. unfold inv; cbn [set_st d_st d_chan d_in]. rewrite ED. split; [exact HC|]. exists (cw ++ sl ++ c ++ y). split; [exact W|].
             exists p, cw, sl, (c ++ y). rewrite app_length, Nat2N.inj_add, H4, EQ. ands; auto; [|now rewrite <- app_assoc].
             intros Z. apply app_eq_nil in Z as [-> ->]. cbn in *. lia.
          -- rewrite app_nil_r. unfold inv; cbn [set_st d_st d_chan]. rewrite HC. eapply begun_fin; [exact EW|].
             exists p, cw. split; [exact H1|]. right. exists len, sl, c. ands; auto. lia.
          -- set (y' := y0 :: y) in *. clearbody y'. unfold inv; cbn [set_st d_st d_chan d_in]. rewrite ED. split; [exact HC|]. exists (cw ++ sl ++ c ++ y'). split; [exact W|].
             exists p, cw, sl, (c ++ y'). rewrite app_length, Nat2N.inj_add, H4. ands; auto; [lia|now rewrite <- app_assoc].
        * pose proof (br_read_pend_data _ _ _ _ EB) as BD. rewrite app_nil_r. unfold inv; cbn [set_st_opt set_st d_st d_chan d_in]. rewrite ED, BD. split; [exact HC|].
          exists (cw ++ sl ++ c). split; [exact EW|]. exists p, cw, sl, c. ands; auto.
      + set (data := x :: xs) in *. set (k := Nat.min q (length data)) in *.
        assert (Hk : (k <= q)%nat /\ (k <= length data)%nat) by (subst k; lia). clearbody k data. destruct Hk as [Hk Hk2].
        destruct (k_len b <? k_start b + k)%nat; [injection E as <- <-; reflexivity|]. injection E as <- <-. cbn [set_st_opt].
        set (b1 := if Nat.eqb k (length data) then mkBlk 0 [] (k_len b) (k_cap b) else blk_skip k b).
        assert (B1 : k_data b1 = skipn k data).
        { subst b1. destruct (Nat.eqb k (length data)) eqn:EQ; [apply Nat.eqb_eq in EQ; subst k; now rewrite skipn_all|]. unfold blk_skip. cbn [k_data]. now rewrite ED. }
        clearbody b1.
        assert (W : whole = (cw ++ sl ++ c ++ firstn k data) ++ skipn k data ++ br_data (d_in d)).
        { rewrite EW. rewrite <- (firstn_skipn k data) at 1. now rewrite <- !app_assoc. }
        assert (LF : length (firstn k data) = k) by (rewrite firstn_length; lia).
        destruct (cur + N.of_nat k =? len)%N eqn:EQ; unfold inv; cbn [set_st d_st d_chan d_in]; rewrite B1; (split; [exact HC|]);
          exists (cw ++ sl ++ c ++ firstn k data); (split; [exact W|]); exists p, cw, sl, (c ++ firstn k data); rewrite app_length, LF, Nat2N.inj_add, H4.
        * apply N.eqb_eq in EQ. rewrite EQ. ands; auto; [|now rewrite <- app_assoc]. intros Z. apply app_eq_nil in Z as [-> Z]. rewrite Z in LF. cbn in *. lia.
        * ands; auto; [lia|now rewrite <- app_assoc].
    - injection H as <- <-. destruct HI as (HC & used & EW & p & cw & sl & c & H1 & H2 & H3 & -> & ->).
      destruct (decode_chunk_end b) as [read st b' pend| | |] eqn:ED; auto.
      apply end_some in ED as (-> & -> & -> & r & E2 & ->). rewrite app_nil_r. unfold inv; cbn [set_st_opt set_st d_st d_chan d_in k_data]. split; [exact HC|].
      exists (cw ++ sl ++ c ++ CRLF). split; [rewrite EW, E2; now rewrite <- !app_assoc|]. now apply chunks_snoc.
    - injection H as <- <-. destruct HI as (HC & used & EW & cw & z & H1 & H2 & ->).
      destruct (decode_trailer ev b) as [read st b' pend| | |] eqn:ED; auto.
      apply trailer_some in ED as (-> & -> & u & r & hs & m & E2 & _ & P & PA & -> & ->). rewrite app_nil_r. unfold inv; cbn [set_st_opt set_st d_st d_chan d_in k_data]. split; [exact HC|].
      apply hp_headers_iff in P as (fw & nl & E3 & L1 & L2 & L3). assert (u = fw ++ nl) by (rewrite E2, app_assoc in E3; now apply app_inv_tail in E3). subst u.
      exists (cw ++ z ++ fw ++ nl). split; [rewrite EW, E2; now rewrite <- !app_assoc|]. exists hs. split; [|exact PA]. exists cw, z, fw, nl. ands; auto.
    - destruct HI as (HC & used & EW & hs & H1 & H2). destruct (d_sender d); injection H as <- <-; [|reflexivity].
      rewrite app_nil_r. unfold inv; cbn [set_st_opt set_st d_st d_chan d_in]. split; [exact HC|]. exists used. split; [exact EW|]. eauto.
    - destruct HI as (HC & used & EW & hs & H1 & H2). rewrite HC in H. injection H as <- <-.
      rewrite app_nil_r. unfold inv; cbn [set_st_opt set_st d_st d_chan]. exists used, (k_data b ++ br_data (d_in d)). split; [exact EW|]. right. exists m, hs. auto.
    - injection H as <- <-. rewrite app_nil_r. unfold inv; cbn [set_st_opt set_st d_st d_chan]. exact HI.
  Qed.

  (** After one poll. *)
  Definition after (out : bytes) (d' : dec) (r : pres bytes) : Prop :=
    match r with
    | POk x => inv (out ++ x) d' (d_blk d')
    | PPend _ => inv out d' (d_blk d')
    | _ => fin out (d_chan d')
    end.

  Lemma decode_inv n kept out d b : inv out d b ->
    match dec_decode ev n kept d b with
    | Ret d' r => after out d' r
    | Again _ _ d' b' => inv out d' b'
    end.
  Proof.
    intros HI. unfold dec_decode. destruct (poll_read_inner ev d b n) as [d' r] eqn:E. pose proof (inner_inv _ _ _ _ _ _ HI E) as P.
    assert (HF := inv_fin _ _ _ HI). destruct r as [read st b' pend| | |].
    - assert (P2 : inv (out ++ read) (set_st_opt st (set_init true d')) b') by (eapply inv_ext; [| | | |exact P]; now destruct st).
      cbv zeta. destruct (is_done _); [exact P2|]. destruct (0 <? length read)%nat eqn:L; [exact P2|].
      assert (read = []) by (destruct read; [reflexivity|discriminate]). subst read. rewrite app_nil_r in P2. destruct pend; exact P2.
    - subst d'. destruct (_ && _)%bool; [|exact HI]. cbn [after]. rewrite app_nil_r. exact HI.
    - cbn [after set_blk d_chan]. now rewrite P.
    - cbn [after]. now rewrite P.
  Qed.

  Lemma turn_inv n nr kept out d b : inv out d b ->
    match dec_turn ev n nr kept d b with
    | Ret d' r => after out d' r
    | Again _ _ d' b' => inv out d' b'
    end.
  Proof.
    intros HI. assert (HF := inv_fin _ _ _ HI). unfold dec_turn. destruct (grow ev b) as [b1|] eqn:EG; [|exact HF].
    assert (GD : k_data b1 = k_data b).
    { unfold grow in EG. destruct (k_cap b <=? length (k_data b))%nat; [|now inversion EG].
      destruct (N.of_nat (k_cap b) + 1024 <=? max_capacity)%N; now inversion EG. }
    assert (HI1 : inv out d b1) by (eapply inv_ext; [| | | |exact HI]; auto).
    destruct nr; [|now apply decode_inv]. destruct (k_len b1 <? k_end b1)%nat; [exact HF|].
    destruct (br_read (k_len b1 - k_end b1) (d_in d)) as [i' [x|f| | |]] eqn:EB; try exact HF.
    - cbv zeta. pose proof (br_read_data _ _ _ _ EB) as BD. destruct x as [|x0 x].
      + apply decode_inv. eapply (inv_done _ _ _ _ (set_st DDone (set_in i' d))); [| |exact HI1]; reflexivity.
      + apply decode_inv. eapply inv_more; [exact BD| |exact HI1]. reflexivity.
    - cbn [after]. eapply inv_ext; [| | | |exact HI1]; try reflexivity. exact (br_read_pend_data _ _ _ _ EB).
  Qed.

  Lemma loop_inv n fuel : forall nr kept out d b, inv out d b ->
    after out (fst (dec_loop fuel ev n nr kept d b)) (snd (dec_loop fuel ev n nr kept d b)).
  Proof.
    induction fuel as [|f IH]; intros nr kept out d b HI; [exact (inv_fin _ _ _ HI)|]. cbn [dec_loop].
    pose proof (turn_inv n nr kept out d b HI) as P. destruct (dec_turn ev n nr kept d b) as [d' r|nr' kept' d' b']; [exact P|now apply IH].
  Qed.

  Lemma poll_inv n fuel out d : inv out d (d_blk d) -> after out (fst (dec_poll fuel ev n d)) (snd (dec_poll fuel ev n d)).
  Proof.
    intros HI. unfold dec_poll. cbv zeta. set (d0 := set_blk (blk_fresh ev) d). set (b := d_blk d) in *.
    assert (H0 : inv out d0 b) by exact HI. assert (HF := inv_fin _ _ _ H0).
    destruct (_ && _)%bool; [|now apply loop_inv].
    destruct (poll_read_inner ev d0 b n) as [d' r] eqn:E. pose proof (inner_inv _ _ _ _ _ _ H0 E) as P.
    destruct r as [read st b' pend| | |].
    - destruct pend as [f|].
      + cbn [fst snd after]. assert (R : read = []).
        { clear - E. unfold poll_read_inner in E. destruct (d_st d0) as [|cur len| | |m|m|]; try (unfold decode_init, decode_chunk_end, decode_trailer, sliced in E; fail).
          - exfalso. injection E as _ E. now apply init_some in E as (_ & ? & _).
          - destruct (poll_read_chunk (d_in d0) b n cur len) as [i' r'] eqn:E2. injection E as _ ->. unfold poll_read_chunk in E2. destruct (len <? cur)%N; [discriminate|].
            destruct (k_data b); [|cbv zeta in E2; match type of E2 with context [if ?x then (_, DPanic) else _] => destruct x end; discriminate].
            destruct (br_read _ _) as [i1 [y|g| | |]]; try discriminate. injection E2 as _ <- _ _ _. reflexivity.
          - exfalso. injection E as _ E. now apply end_some in E as (_ & ? & _).
          - exfalso. injection E as _ E. now apply trailer_some in E as (_ & ? & _).
          - destruct (d_sender d0); discriminate.
          - destruct (d_chan d0); inversion E; reflexivity.
          - discriminate. }
        subst read. rewrite app_nil_r in P. exact P.
      + destruct (is_done _); [exact P|]. destruct (0 <? length read)%nat eqn:L; [exact P|].
        assert (read = []) by (destruct read; [reflexivity|discriminate]). subst read. rewrite app_nil_r in P. now apply loop_inv.
    - subst d'. now apply loop_inv.
    - cbn [fst snd after set_blk d_chan]. now rewrite P.
    - cbn [fst snd after]. now rewrite P.
  Qed.

  Lemma reads_on_inv ns : forall out d d' o k, inv out d (d_blk d) -> reads_on (dec_read ev) ns d = (d', o, k) -> fin (out ++ o) (d_chan d').
  Proof.
    induction ns as [|n ns IH]; intros out d d' o k HI H; cbn [reads_on] in H.
    - injection H as <- <- <-. rewrite app_nil_r. exact (inv_fin _ _ _ HI).
    - pose proof (poll_inv n (dec_fuel d) out d HI) as P. fold (dec_read ev n d) in P. destruct (dec_read ev n d) as [d1 r]. cbn [fst snd] in P.
      destruct r as [x|f| | |]; cbn [after] in P.
      + destruct (reads_on (dec_read ev) ns d1) as [[d2 o2] k2] eqn:E. injection H as <- <- <-. rewrite app_assoc. exact (IH _ _ _ _ _ P E).
      + exact (IH _ _ _ _ _ P H).
      + injection H as <- <- <-. now rewrite app_nil_r.
      + injection H as <- <- <-. now rewrite app_nil_r.
      + injection H as <- <- <-. now rewrite app_nil_r.
  Qed.
End Sound.

Lemma fresh_fin ev br ns d' out k : reads_on (dec_read ev) ns (dec_new ev br) = (d', out, k) -> fin ev (br_data br) out (d_chan d').
Proof.
  intros H. apply (reads_on_inv ev (br_data br) ns [] (dec_new ev br) d' out k); [|exact H].
  split; [reflexivity|]. exists []. split; [reflexivity|]. constructor.
Qed.

(** [reads] stops where [reads_on] might go on. *)
Lemma reads_prefix {E} (rd : nat -> E -> E * pres bytes) ns : forall e e' o k, reads rd ns e = (e', o, k) ->
  exists ms k', reads_on rd ms e = (e', o, k').
Proof.
  induction ns as [|n ns IH]; intros e e' o k H; cbn [reads] in H.
  - injection H as <- <- <-. exists [], Going. reflexivity.
  - destruct (rd n e) as [e1 [x|f| | |]] eqn:E1.
    + destruct x as [|c x].
      * injection H as <- <- <-. exists [n], Going. cbn [reads_on]. now rewrite E1.
      * destruct (reads rd ns e1) as [[e2 o2] k2] eqn:E2. injection H as <- <- <-. destruct (IH _ _ _ _ E2) as (ms & k' & E3).
        exists (n :: ms), k'. cbn [reads_on]. now rewrite E1, E3.
    + destruct (IH _ _ _ _ H) as (ms & k' & E3). exists (n :: ms), k'. cbn [reads_on]. now rewrite E1.
    + injection H as <- <- <-. exists [n], Failed. cbn [reads_on]. now rewrite E1.
    + injection H as <- <- <-. exists [n], Panicked. cbn [reads_on]. now rewrite E1.
    + injection H as <- <- <-. exists [n], Hung. cbn [reads_on]. now rewrite E1.
Qed.

Lemma append_values hs m : append_trailers hs [] = Some m -> hm_wf m /\ forall x, values x (hm_iter m) = values x hs.
Proof.
  intros E. destruct (append_trailers_holds _ _ _ E hm_empty_wf) as [W H]. split; [exact W|]. intros n. rewrite (values_get_all n m W), H. reflexivity.
Qed.

(** A message that arrives can be read in one way only. *)
Lemma entire_unique trim out hs used p tr wire X Y : entire trim out hs used -> chunked_message p tr wire -> used ++ X = wire ++ Y ->
  out = p /\ hs = tr /\ used = wire.
Proof.
  intros (cw & z & tw & nl & H1 & H2 & H3 & H4 & H5 & ->) (cw' & z' & tw' & H1' & H2' & H3' & H4' & ->).
  revert p cw' H1'. induction H1 as [|d sl out cw Hd Hs H1 IH]; intros p cw' H1' E.
  - destruct H1' as [|d' sl' p' w' Hd' Hs' H1'].
    + cbn [app] in E. rewrite <- !app_assoc in E. pose proof (last_line_parse z (tw ++ nl ++ X) H2) as P1. rewrite E in P1.
      rewrite (size_line_parse _ _ _ H2') in P1. injection P1 as E1. change (CR :: LF :: Y) with (CRLF ++ Y) in E1.
      assert (P2 : hp_headers trim 16 (tw ++ nl ++ X) = HDone (hs, X)) by (apply hp_headers_iff; exists tw, nl; auto).
      rewrite <- E1, (fields_parse trim tr tw' _ 16 H3' H4') in P2. injection P2 as -> ->. ands; auto.
      rewrite <- E1 in E. assert (Ez : z = z') by now apply app_inv_tail in E. subst z'. f_equal. rewrite !app_assoc in E1. apply app_inv_tail in E1.
      rewrite E1. reflexivity.
    + exfalso. cbn [app] in E. rewrite <- !app_assoc in E. pose proof (last_line_parse z (tw ++ nl ++ X) H2) as P1. rewrite E in P1.
      rewrite (size_line_parse _ _ _ Hs') in P1. injection P1 as E1 _. destruct d'; [congruence|discriminate].
  - destruct H1' as [|d' sl' p' w' Hd' Hs' H1'].
    + exfalso. cbn [app] in E. rewrite <- !app_assoc in E. pose proof (size_line_parse _ _ (tw' ++ CRLF ++ Y) H2') as P1. rewrite <- E in P1.
      rewrite (size_line_parse _ _ _ Hs) in P1. injection P1 as E1 _. destruct d; [congruence|discriminate].
    + rewrite <- !app_assoc in E. assert (P1 := size_line_parse _ _ (d ++ CRLF ++ cw ++ z ++ tw ++ nl ++ X) Hs). rewrite E, (size_line_parse _ _ _ Hs') in P1.
      assert (E1 : N.of_nat (length d') = N.of_nat (length d)) by congruence.
      assert (E2 : d' ++ CRLF ++ w' ++ z' ++ tw' ++ CRLF ++ Y = d ++ CRLF ++ cw ++ z ++ tw ++ nl ++ X) by congruence. clear P1. rewrite <- E2 in E. assert (sl = sl') by now apply app_inv_tail in E. subst sl'.
      assert (L : length d' = length d) by lia. assert (D : d' = d /\ CRLF ++ w' ++ z' ++ tw' ++ CRLF ++ Y = CRLF ++ cw ++ z ++ tw ++ nl ++ X).
      { revert L E2. clear. revert d. induction d' as [|x d' IH]; intros [|y d] L E2; try discriminate; [auto|]. injection E2 as -> E2.
        destruct (IH d ltac:(cbn in L; lia) E2) as [-> ->]. auto. }
      destruct D as [-> D]. apply app_inv_head in D. destruct (IH p' w' H1') as (-> & -> & E3); [rewrite <- !app_assoc; now symmetry|].
      ands; auto. rewrite <- !app_assoc. do 3 f_equal. exact E3.
Qed.

(** ** Through the [BufReader] of a message's body *)
Lemma buffered_fin ev br ms b' out k : (0 < e_bufcap ev)%nat -> Forall (fun n => 0 < n)%nat ms ->
  reads (body_read ev) ms (RChunked [] (dec_new ev br)) = (b', out, k) ->
  exists more, (k <> Going -> more = []) /\ fin ev (br_data br) (out ++ more) (body_trailers b').
Proof.
  intros Hc F H. destruct (buffered_reads ev Hc ms [] _ _ _ _ F H) as (ns & d' & o & buf' & I1 & I2 & -> & I4 & I5 & _).
  exists buf'. split; [exact I5|]. cbn [app] in I4. rewrite <- I4. cbn [body_trailers].
  destruct (reads_prefix _ _ _ _ _ _ I2) as (ms2 & k2 & I3). exact (fresh_fin _ _ _ _ _ _ I3).
Qed.

(** ** The sender of the trailers is kept until they are sent *)
Definition sends (d : dec) : Prop := d_sender d = true \/ d_chan d <> [].
Definition sending (d : dec) : Prop := exists m, d_st d = DTrailerSending m.

Lemma inner_sends ev d b n d' r : sends d \/ sending d -> poll_read_inner ev d b n = (d', r) ->
  match r with
  | DSome read st _ pend => let d1 := set_st_opt st d' in sends d1 \/ (sending d1 /\ read = [] /\ pend = None)
  | DNone => d' = d /\ ~ sending d
  | _ => True
  end.
Proof.
  intros HS H. unfold poll_read_inner in H. destruct (d_st d) as [|cur len| | |m|m|] eqn:ES.
  all: assert (HS' : sends d \/ exists m, d_st d = DTrailerSending m) by exact HS; rewrite ES in HS'.
  - injection H as <- <-. destruct HS' as [HS'|(m & HS')]; [|discriminate].
    destruct (decode_init b) as [read st b' pend| | |] eqn:ED; auto; [left; now destruct st|]. split; [reflexivity|]. intros [m Z]. congruence.
  - destruct HS' as [HS'|(m & HS')]; [|discriminate]. destruct (poll_read_chunk (d_in d) b n cur len) as [i' r'] eqn:E. injection H as <- <-.
    destruct r' as [read st b' pend| | |]; auto; [left; now destruct st|]. exfalso. unfold poll_read_chunk in E. destruct (len <? cur)%N; [discriminate|].
    destruct (k_data b); [|cbv zeta in E; match type of E with context [if ?x then (_, DPanic) else _] => destruct x end; discriminate].
    destruct (br_read _ _) as [i1 [y|g| | |]]; discriminate.
  - injection H as <- <-. destruct HS' as [HS'|(m & HS')]; [|discriminate].
    destruct (decode_chunk_end b) as [read st b' pend| | |] eqn:ED; auto; [left; now destruct st|]. split; [reflexivity|]. intros [m Z]. congruence.
  - injection H as <- <-. destruct HS' as [HS'|(m & HS')]; [|discriminate].
    destruct (decode_trailer ev b) as [read st b' pend| | |] eqn:ED; auto; [left; now destruct st|]. split; [reflexivity|]. intros [m Z]. congruence.
  - destruct (d_sender d); injection H as <- <-; [|exact I]. right. split; [now exists m|auto].
  - destruct (d_chan d) as [|x ch] eqn:EC; injection H as <- <-; left; right; cbn [set_st_opt set_st d_chan]; [discriminate|rewrite EC; discriminate].
  - injection H as <- <-. destruct HS' as [HS'|(m & HS')]; [|discriminate]. left. exact HS'.
Qed.

Lemma sends_ext d d' : d_sender d' = d_sender d -> d_chan d' = d_chan d -> sends d -> sends d'.
Proof. unfold sends. now intros -> ->. Qed.

Definition sret (d' : dec) (r : pres bytes) : Prop := match r with POk _ | PPend _ => sends d' | _ => True end.

Lemma decode_sends ev n kept d b : sends d \/ sending d ->
  match dec_decode ev n kept d b with
  | Ret d' r => sret d' r
  | Again nr _ d' b' => sends d' \/ (nr = false /\ sending d')
  end.
Proof.
  intros HS. unfold dec_decode. destruct (poll_read_inner ev d b n) as [d' r] eqn:E. pose proof (inner_sends _ _ _ _ _ _ HS E) as P.
  destruct r as [read st b' pend| | |]; [|destruct P as [-> P]|exact I|exact I].
  - cbv zeta in P |- *. set (d1 := set_st_opt st d') in *. set (d2 := set_st_opt st (set_init true d')).
    assert (E1 : d_sender d2 = d_sender d1 /\ d_chan d2 = d_chan d1 /\ d_st d2 = d_st d1) by (subst d1 d2; now destruct st). clearbody d1 d2.
    destruct E1 as (E1 & E2 & E3). destruct P as [P|((m & P) & -> & ->)].
    + assert (P2 : sends d2) by exact (sends_ext _ _ E1 E2 P). destruct (is_done _); [exact P2|]. destruct (0 <? length read)%nat; [exact P2|]. destruct pend; [exact P2|now left].
    + rewrite E3, P. cbn [is_done length Nat.ltb Nat.leb]. right. split; [reflexivity|]. exists m. now rewrite E3.
  - destruct HS as [HS|HS]; [|contradiction]. destruct (_ && _)%bool; [exact HS|now left].
Qed.

Lemma turn_sends ev n nr kept d b : sends d \/ (nr = false /\ sending d) ->
  match dec_turn ev n nr kept d b with
  | Ret d' r => sret d' r
  | Again nr _ d' b' => sends d' \/ (nr = false /\ sending d')
  end.
Proof.
  intros HS. unfold dec_turn. destruct (grow ev b) as [b1|]; [|exact I]. destruct nr.
  - destruct HS as [HS|[? _]]; [|discriminate]. destruct (k_len b1 <? k_end b1)%nat; [exact I|].
    destruct (br_read (k_len b1 - k_end b1) (d_in d)) as [i' [x|f| | |]]; try exact I.
    + cbv zeta. destruct x; apply decode_sends; left; exact HS.
    + exact HS.
  - apply decode_sends. destruct HS as [HS|[_ HS]]; auto.
Qed.

Lemma loop_sends ev n fuel : forall nr kept d b, sends d \/ (nr = false /\ sending d) ->
  sret (fst (dec_loop fuel ev n nr kept d b)) (snd (dec_loop fuel ev n nr kept d b)).
Proof.
  induction fuel as [|f IH]; intros nr kept d b HS; [exact I|]. cbn [dec_loop].
  pose proof (turn_sends ev n nr kept d b HS) as P. destruct (dec_turn ev n nr kept d b) as [d' r|nr' kept' d' b']; [exact P|now apply IH].
Qed.

Lemma poll_sends ev n fuel d : sends d -> sret (fst (dec_poll fuel ev n d)) (snd (dec_poll fuel ev n d)).
Proof.
  intros HS. unfold dec_poll. cbv zeta. set (d0 := set_blk (blk_fresh ev) d). set (b := d_blk d).
  assert (H0 : sends d0) by exact HS. destruct (_ && _)%bool; [|apply loop_sends; now left].
  destruct (poll_read_inner ev d0 b n) as [d' r] eqn:E. pose proof (inner_sends _ _ _ _ _ _ (or_introl H0) E) as P.
  destruct r as [read st b' pend| | |]; [|destruct P as [-> P]|exact I|exact I].
  - cbv zeta in P. set (d1 := set_st_opt st d') in *. clearbody d1. destruct P as [P|((m & P) & -> & ->)].
    + destruct pend; [exact P|]. destruct (is_done _); [exact P|]. destruct (0 <? length read)%nat; [exact P|]. apply loop_sends. now left.
    + rewrite P. cbn [is_done length Nat.ltb Nat.leb]. apply loop_sends. right. split; [reflexivity|]. now exists m.
  - apply loop_sends. now left.
Qed.

Lemma reads_sends ev ns : forall d d' o, sends d -> reads (dec_read ev) ns d = (d', o, Ended) -> sends d'.
Proof.
  induction ns as [|n ns IH]; intros d d' o HS H; cbn [reads] in H; [discriminate|].
  pose proof (poll_sends ev n (dec_fuel d) d HS) as P. fold (dec_read ev n d) in P. destruct (dec_read ev n d) as [d1 r]. cbn [fst snd] in P.
  destruct r as [x|f| | |]; cbn [sret] in P; try discriminate.
  - destruct x as [|c x]; [injection H as <- <-; exact P|]. destruct (reads (dec_read ev) ns d1) as [[d2 o2] k2] eqn:E. injection H as <- <- ->. exact (IH _ _ _ P E).
  - exact (IH _ _ _ P H).
Qed.

(** ** Reading a received body together with its trailers *)
Lemma reads_msg ev ns : forall b r' o k, reads (rdr_poll ev) ns (RMsg b) = (r', o, k) -> exists b', r' = RMsg b' /\ reads (body_read ev) ns b = (b', o, k).
Proof.
  induction ns as [|n ns IH]; intros b r' o k H; cbn [reads] in *; [injection H as <- <- <-; eauto|].
  cbn [rdr_poll] in H. destruct (body_read ev n b) as [b1 [x|f| | |]].
  - destruct x as [|c x]; [injection H as <- <- <-; eauto|]. destruct (reads (rdr_poll ev) ns (RMsg b1)) as [[r2 o2] k2] eqn:E. injection H as <- <- <-.
    destruct (IH _ _ _ _ E) as (b' & -> & ->). eauto.
  - exact (IH _ _ _ _ H).
  - injection H as <- <- <-; eauto.
  - injection H as <- <- <-; eauto.
  - injection H as <- <- <-; eauto.
Qed.

Lemma trailer_cert ev br fuel sz l t : (0 < e_bufcap ev)%nat -> (forall i, 0 < sz i)%nat ->
  with_trailer false (read_to_end ev fuel sz (RMsg (RChunked [] (dec_new ev br)))) = TOk l t ->
  exists h hs x y, t = Some h /\ br_data br = x ++ y /\ entire (e_trim ev) l hs x /\ hm_wf h /\ forall n, values n (hm_iter h) = values n hs.
Proof.
  intros Hc P H. unfold read_to_end in H. destruct (reads (rdr_poll ev) (map sz (seq 0 fuel)) (RMsg (RChunked [] (dec_new ev br)))) as [[r' o] k] eqn:E.
  destruct (reads_msg _ _ _ _ _ _ E) as (b' & -> & E2). assert (F : Forall (fun n => 0 < n)%nat (map sz (seq 0 fuel))) by (apply Forall_forall; intros n Hn; apply in_map_iff in Hn as (i & <- & _); apply P).
  unfold with_trailer in H. destruct k; try discriminate. cbn [fst snd] in H.
  destruct (buffered_fin ev br _ b' o Ended Hc F E2) as (more & M1 & (x & y & EW & FN)). rewrite (M1 ltac:(discriminate)), app_nil_r in FN.
  destruct (buffered_reads ev Hc _ [] _ _ _ _ F E2) as (ns & d' & o2 & buf' & I1 & I2 & -> & I4 & I5 & _).
  assert (HS : sends d') by (eapply reads_sends; [|exact I2]; left; reflexivity).
  unfold recv_trailers in H. cbn [channel body_trailers senders] in *. destruct FN as [(EC & _)|(m & hs & EC & HE & HA)]; rewrite EC in H.
  - exfalso. destruct HS as [HS|HS]; [|congruence]. unfold senders, dec_sender in H. rewrite HS in H. discriminate.
  - injection H as <- <-. destruct (append_values _ _ HA) as [W V]. exists m, hs, x, y. auto.
Qed.

Lemma fixed_cert ev rem b fuel sz l t : with_trailer true (read_to_end ev fuel sz (RMsg (RFixed rem b))) <> TOk l t.
Proof.
  intros H. unfold read_to_end in H. destruct (reads (rdr_poll ev) (map sz (seq 0 fuel)) (RMsg (RFixed rem b))) as [[r' o] k] eqn:E.
  destruct (reads_msg _ _ _ _ _ _ E) as (b' & -> & E2).
  assert (C : body_trailers b' = []).
  { clear - E2. revert rem b b' o k E2. generalize (map sz (seq 0 fuel)). intros ns. induction ns as [|n ns IH]; intros rem b b' o k H; cbn [reads] in H; [injection H as <- <- <-; reflexivity|].
    cbn [body_read] in H. unfold take_read in H. destruct (rem =? 0)%N; [injection H as <- <- <-; reflexivity|].
    destruct (br_read _ b) as [b1 [x|f| | |]].
    - destruct x as [|c x]; [injection H as <- <- <-; reflexivity|]. destruct (reads (body_read ev) ns _) as [[r2 o2] k2] eqn:E. injection H as <- <- <-. exact (IH _ _ _ _ _ E).
    - exact (IH _ _ _ _ _ H).
    - injection H as <- <- <-; reflexivity.
    - injection H as <- <- <-; reflexivity.
    - injection H as <- <- <-; reflexivity. }
  unfold with_trailer in H. destruct k; cbn [snd fst] in H; try discriminate. unfold recv_trailers in H. cbn [channel senders orb] in H. rewrite C in H. discriminate.
Qed.

Lemma string_bytes ev fuel sz f l t : into_string_with_trailer ev fuel sz f = TOk l t -> into_bytes_with_trailer ev fuel sz f = TOk l t.
Proof.
  unfold into_string_with_trailer, into_bytes_with_trailer. destruct (too_long f); [discriminate|]. destruct (read_to_end ev fuel sz (f_rdr f)) as [r [x| | | |]]; cbn [to_string]; auto.
  destruct (utf8_valid x); [auto|discriminate].
Qed.
