(** Whether the timer of the connection has fired makes no difference to the reader of a body. *)
From Verif Require Import Relay Accept Reads SpecChunked SpecHead SpecResponse SpecReq SpecServer Lemmas Proofs_Copy Proofs_ServerEnc Proofs_Hand Proofs_Body Proofs_Send Proofs_ServerDec Proofs_Accept Proofs_Request.

Definition u_ev (e : ev) : ev := match e with Pend _ => Pend false | e => e end.
Definition u_src (s : src) : src := mkSrc (map u_ev (s_evs s)) (s_tail s).
Definition u_brd (b : brd) : brd := mkBrd (br_cap b) (br_buf b) (u_src (br_src b)).
Definition u_dec (d : dec) : dec := set_in (u_brd (d_in d)) d.
Definition u_body (b : rbody) : rbody := match b with RFixed n b => RFixed n (u_brd b) | RChunked buf d => RChunked buf (u_dec d) end.
Definition u_rdr (r : reader) : reader := match r with RMsg b => RMsg (u_body b) | RSrc s => RSrc (u_src s) end.
Definition u_p {A} (r : pres A) : pres A := match r with PPend _ => PPend false | r => r end.
Definition u_dres (r : dres) : dres := match r with DSome x st b (Some _) => DSome x st b (Some false) | r => r end.
Definition u_turn (t : dturn) : dturn := match t with Ret d r => Ret (u_dec d) (u_p r) | Again nr k d b => Again nr k (u_dec d) b end.

Lemma same_u s1 s2 : same_but_timer s1 s2 <-> u_src s1 = u_src s2.
Proof.
  destruct s1 as [l1 t1], s2 as [l2 t2]. unfold same_but_timer, u_src. cbn [s_evs s_tail]. split.
  - intros [H <-]. f_equal. induction H as [|a b l l' E _ IH]; [reflexivity|]. cbn [map]. rewrite IH. assert (EU : u_ev a = u_ev b) by (destruct a, b; cbn in E |- *; congruence). now rewrite EU.
  - intros [= H <-]. split; [|reflexivity]. revert l2 H. induction l1 as [|a l IH]; intros [|b l2] H; try discriminate; [constructor|].
    injection H as E H. constructor; [|now apply IH]. destruct a, b; cbn in E |- *; congruence || exact I.
Qed.

Lemma u_evs_size l : evs_size (map u_ev l) = evs_size l.
Proof. induction l as [|[d|f|] l IH]; cbn; lia. Qed.
Lemma u_br_size b : br_size (u_brd b) = br_size b.
Proof. unfold br_size, u_brd, src_size. cbn. now rewrite u_evs_size. Qed.

Ltac pairs H := let a := fresh "a" in let r := fresh "r" in destruct H as [a r].

Lemma u_src_read n s : src_read n (u_src s) = (u_src (fst (src_read n s)), u_p (snd (src_read n s))).
Proof.
  destruct s as [[|[d|f|] l] t]; unfold src_read, u_src; cbn; try reflexivity.
  - now destruct t.
  - destruct (skipn n d); reflexivity.
Qed.
Lemma u_fill b : br_fill (u_brd b) = (u_brd (fst (br_fill b)), u_p (snd (br_fill b))).
Proof.
  unfold br_fill. cbn [u_brd br_buf br_cap br_src]. destruct (br_buf b) as [|c l] eqn:E; [|cbn; unfold u_brd; now rewrite E].
  rewrite u_src_read. destruct (src_read (br_cap b) (br_src b)) as [s' [x|f| | |]]; reflexivity.
Qed.
Lemma u_read n b : br_read n (u_brd b) = (u_brd (fst (br_read n b)), u_p (snd (br_read n b))).
Proof.
  unfold br_read. cbn [u_brd br_buf br_cap br_src]. destruct (br_buf b) as [|c l] eqn:E.
  - destruct (br_cap b <=? n)%nat.
    + rewrite u_src_read. destruct (src_read n (br_src b)); reflexivity.
    + change (mkBrd (br_cap b) [] (u_src (br_src b))) with (mkBrd (br_cap b) (br_buf (mkBrd (br_cap b) [] (br_src b))) (u_src (br_src b))). fold (u_brd b).
      replace (mkBrd (br_cap b) [] (u_src (br_src b))) with (u_brd b) by (unfold u_brd; now rewrite E).
      rewrite u_fill. destruct (br_fill b) as [b' [x|f| | |]]; reflexivity.
  - replace (mkBrd (br_cap b) (c :: l) (u_src (br_src b))) with (u_brd b) by (unfold u_brd; now rewrite E).
    rewrite u_fill. destruct (br_fill b) as [b' [x|f| | |]]; reflexivity.
Qed.

Lemma u_inner ev d b n : poll_read_inner ev (u_dec d) b n = (u_dec (fst (poll_read_inner ev d b n)), u_dres (snd (poll_read_inner ev d b n))).
Proof.
  unfold poll_read_inner. change (d_st (u_dec d)) with (d_st d). destruct (d_st d) eqn:ES; cbn [fst snd].
  - unfold decode_init, sliced. destruct (_ <? _)%nat; [reflexivity|]. destruct (parse_chunk_size _) as [[sz rest]| |]; reflexivity.
  - change (d_in (u_dec d)) with (u_brd (d_in d)). unfold poll_read_chunk. destruct (_ <? _)%N; [reflexivity|]. destruct (k_data b).
    + rewrite u_read. destruct (br_read _ (d_in d)) as [i' [x|f| | |]]; reflexivity.
    + destruct (_ <? _)%nat; reflexivity.
  - unfold decode_chunk_end. destruct (_ <? _)%nat; [reflexivity|]. destruct (_ <? _)%nat; [reflexivity|]. destruct (beq _ _); reflexivity.
  - unfold decode_trailer, sliced. destruct (_ <? _)%nat; [reflexivity|]. destruct (hp_headers _ _ _) as [[hs rest]| |]; try reflexivity. destruct (append_trailers _ _); reflexivity.
  - change (d_sender (u_dec d)) with (d_sender d). destruct (d_sender d); reflexivity.
  - change (d_chan (u_dec d)) with (d_chan d). destruct (d_chan d); reflexivity.
  - reflexivity.
Qed.
Lemma u_set st d : u_dec (set_st_opt st d) = set_st_opt st (u_dec d).
Proof. now destruct st. Qed.
Lemma u_decode ev n kept d b : dec_decode ev n kept (u_dec d) b = u_turn (dec_decode ev n kept d b).
Proof.
  unfold dec_decode. rewrite u_inner. destruct (poll_read_inner ev d b n) as [d1 [read st b' pend| | |]]; cbn [fst snd u_dres].
  - assert (DE : set_st_opt st (set_init true (u_dec d1)) = u_dec (set_st_opt st (set_init true d1))) by now destruct st.
    assert (K : u_dres (DSome read st b' pend) = DSome read st b' (match pend with Some _ => Some false | None => None end)) by now destruct pend.
    cbn [u_dres] in K. rewrite K. rewrite DE. change (d_st (u_dec ?y)) with (d_st y).
    destruct (is_done _); [reflexivity|]. destruct (_ <? _)%nat; [reflexivity|]. destruct pend; reflexivity.
  - destruct (_ && _)%bool; reflexivity.
  - reflexivity.
  - reflexivity.
Qed.
Lemma u_dturn ev n nr kept d b : dec_turn ev n nr kept (u_dec d) b = u_turn (dec_turn ev n nr kept d b).
Proof.
  unfold dec_turn. destruct (grow ev b) as [b1|]; [|reflexivity]. destruct nr; [|apply u_decode]. destruct (_ <? _)%nat; [reflexivity|].
  change (d_in (u_dec d)) with (u_brd (d_in d)). rewrite u_read. destruct (br_read _ (d_in d)) as [i' [x|f| | |]]; try reflexivity.
  cbn [fst snd u_p]. rewrite <- u_decode. f_equal. now destruct x.
Qed.
Lemma u_loop ev n : forall fuel nr kept d b, dec_loop fuel ev n nr kept (u_dec d) b = (u_dec (fst (dec_loop fuel ev n nr kept d b)), u_p (snd (dec_loop fuel ev n nr kept d b))).
Proof.
  induction fuel as [|f IH]; intros nr kept d b; cbn [dec_loop]; [reflexivity|]. rewrite u_dturn.
  destruct (dec_turn ev n nr kept d b) as [d1 r|nr1 k1 d1 b1]; cbn [u_turn]; [reflexivity|apply IH].
Qed.
Lemma u_dec_read ev n d : dec_read ev n (u_dec d) = (u_dec (fst (dec_read ev n d)), u_p (snd (dec_read ev n d))).
Proof.
  unfold dec_read. replace (dec_fuel (u_dec d)) with (dec_fuel d) by (unfold dec_fuel; cbn [u_dec set_in d_in d_blk]; now rewrite u_br_size).
  generalize (dec_fuel d). intros fuel. unfold dec_poll. change (d_blk (u_dec d)) with (d_blk d). change (d_st (u_dec d)) with (d_st d).
  change (set_blk (blk_fresh ev) (u_dec d)) with (u_dec (set_blk (blk_fresh ev) d)). set (d0 := set_blk (blk_fresh ev) d). clearbody d0.
  change (d_init (u_dec d0)) with (d_init d0). cbv zeta. destruct (_ && _)%bool; [|apply u_loop].
  rewrite u_inner. destruct (poll_read_inner ev d0 (d_blk d) n) as [d1 [read st b' pend| | |]]; cbn [fst snd u_dres]; [|apply u_loop|reflexivity|reflexivity].
  assert (K : u_dres (DSome read st b' pend) = DSome read st b' (match pend with Some _ => Some false | None => None end)) by now destruct pend.
  cbn [u_dres] in K. rewrite K. rewrite <- u_set. change (d_st (u_dec ?y)) with (d_st y). destruct pend; [reflexivity|].
  destruct (is_done _); [reflexivity|]. destruct (_ <? _)%nat; [reflexivity|]. apply u_loop.
Qed.
Lemma u_body_read ev n b : body_read ev n (u_body b) = (u_body (fst (body_read ev n b)), u_p (snd (body_read ev n b))).
Proof.
  destruct b as [rem b|buf d]; cbn [u_body body_read].
  - unfold take_read. destruct (rem =? 0)%N; [reflexivity|]. rewrite u_read. destruct (br_read _ b) as [b' [x|f| | |]]; reflexivity.
  - unfold bufdec_read. destruct buf; [|reflexivity]. destruct (_ <=? n)%nat; rewrite u_dec_read.
    + destruct (dec_read ev n d); reflexivity.
    + destruct (dec_read ev (e_bufcap ev) d) as [d' [x|f| | |]]; reflexivity.
Qed.
Lemma u_rdr_poll ev n r : rdr_poll ev n (u_rdr r) = (u_rdr (fst (rdr_poll ev n r)), u_p (snd (rdr_poll ev n r))).
Proof.
  destruct r as [s|b]; cbn [u_rdr rdr_poll]; [rewrite u_src_read; destruct (src_read n s); reflexivity|].
  rewrite u_body_read. destruct (body_read ev n b); reflexivity.
Qed.
Lemma u_rdr_fill ev r : rdr_fill ev (u_rdr r) = (u_rdr (fst (rdr_fill ev r)), u_p (snd (rdr_fill ev r))).
Proof.
  destruct r as [s|[rem b|buf d]]; cbn [u_rdr u_body rdr_fill].
  - destruct s as [[|[d|f|] l] t]; unfold src_fill, u_src; cbn; try reflexivity. now destruct t.
  - unfold take_fill. destruct (rem =? 0)%N; [reflexivity|]. rewrite u_fill. destruct (br_fill b) as [b' [x|f| | |]]; reflexivity.
  - unfold bufdec_fill. destruct buf; [|reflexivity]. rewrite u_dec_read. destruct (dec_read ev (e_bufcap ev) d) as [d' [x|f| | |]]; reflexivity.
Qed.
Lemma u_rdr_consume k r : rdr_consume k (u_rdr r) = u_rdr (rdr_consume k r).
Proof.
  destruct r as [s|[rem b|buf d]]; cbn; try reflexivity. destruct s as [[|[d|f|] l] t]; unfold src_consume, u_src; cbn; try reflexivity.
  destruct (skipn k d); reflexivity.
Qed.

(** ** The encoder of a response with that body *)
Definition u_enc (e : renc) : renc := mkRenc (y_with (rn_resp e) (u_rdr (y_rdr (rn_resp e)))) (rn_state e) (rn_head e) (rn_headread e) (rn_bodyread e) (rn_chunked e).
Definition u_out (x : renc * pres bytes) : renc * pres bytes := (u_enc (fst x), u_p (snd x)).
Lemma u_rchunks ev dbg st r n : rcenc_chunks ev dbg st (u_rdr r) n =
  (fst (fst (rcenc_chunks ev dbg st r n)), u_rdr (snd (fst (rcenc_chunks ev dbg st r n))), u_p (snd (rcenc_chunks ev dbg st r n))).
Proof.
  unfold rcenc_chunks. rewrite u_rdr_fill. destruct (rdr_fill ev r) as [r1 [[|c d]|f| | |]]; cbn [fst snd u_p]; try reflexivity.
  - destruct (cset dbg st CEndOfChunks) as [st1|]; [|reflexivity]. destruct (cenc_chunks_eos dbg st1 n) as [st2 x] eqn:E. cbn [fst snd].
    assert (K : u_p x = x).
    { revert E. unfold cenc_chunks_eos, cenc_receive, cenc_trailers, cenc_eos. destruct (n <? 3)%nat; [now intros [= <- <-]|].
      repeat match goal with |- context [cset ?a ?b ?c] => destruct (cset a b c) | |- context [if ?x then _ else _] => destruct x end; now intros [= <- <-]. }
    now rewrite K.
  - cbv zeta. destruct (_ <=? _)%nat; [reflexivity|]. destruct (_ <=? _)%nat; [|reflexivity]. now rewrite u_rdr_consume.
Qed.
Lemma u_eos dbg st n : u_p (snd (cenc_chunks_eos dbg st n)) = snd (cenc_chunks_eos dbg st n).
Proof.
  unfold cenc_chunks_eos, cenc_receive, cenc_trailers, cenc_eos. destruct (n <? 3)%nat; [reflexivity|].
  repeat match goal with |- context [cset ?a ?b ?c] => destruct (cset a b c) | |- context [if ?x then _ else _] => destruct x end; reflexivity.
Qed.
Lemma u_rcenc ev dbg st r n : rcenc_poll ev dbg st (u_rdr r) n =
  (fst (fst (rcenc_poll ev dbg st r n)), u_rdr (snd (fst (rcenc_poll ev dbg st r n))), u_p (snd (rcenc_poll ev dbg st r n))).
Proof.
  unfold rcenc_poll. destruct st.
  - destruct (cset dbg CStart CChunks); [apply u_rchunks|reflexivity].
  - apply u_rchunks.
  - pose proof (u_eos dbg CEndOfChunks n) as K. destruct (cenc_chunks_eos dbg CEndOfChunks n) as [st' x]. cbn in *. now rewrite K.
  - unfold cenc_trailers, cenc_eos. repeat match goal with |- context [cset ?a ?b ?c] => destruct (cset a b c) | |- context [if ?x then _ else _] => destruct x end; reflexivity.
  - unfold cenc_trailers, cenc_eos. repeat match goal with |- context [cset ?a ?b ?c] => destruct (cset a b c) | |- context [if ?x then _ else _] => destruct x end; reflexivity.
  - unfold cenc_eos. repeat match goal with |- context [cset ?a ?b ?c] => destruct (cset a b c) | |- context [if ?x then _ else _] => destruct x end; reflexivity.
  - reflexivity.
Qed.
Lemma u_fixed ev n : forall fuel e out, renc_fixed fuel ev (u_enc e) out n = u_out (renc_fixed fuel ev e out n).
Proof.
  induction fuel as [|f IH]; intros e out; cbn [renc_fixed]; [reflexivity|]. destruct (_ =? _)%nat; [reflexivity|].
  change (rn_cl (u_enc e)) with (rn_cl e). change (rn_bodyread (u_enc e)) with (rn_bodyread e).
  destruct (rn_cl e) as [cl|]; [|reflexivity]. destruct (upper_arith _ _ _ _) as [u|]; [|reflexivity]. cbv zeta.
  destruct (_ <? _)%nat; [reflexivity|]. change (y_rdr (rn_resp (u_enc e))) with (u_rdr (y_rdr (rn_resp e))). rewrite u_rdr_poll.
  destruct (rdr_poll ev _ (y_rdr (rn_resp e))) as [r1 [d|fi| | |]]; cbn [fst snd u_p]; try reflexivity.
  - destruct (cl =? _)%N; [reflexivity|]. rewrite <- IH. reflexivity.
  - destruct out; reflexivity.
Qed.
Lemma u_chunked ev n e out : renc_chunked ev (u_enc e) out n = u_out (renc_chunked ev e out n).
Proof.
  unfold renc_chunked. change (y_rdr (rn_resp (u_enc e))) with (u_rdr (y_rdr (rn_resp e))). change (rn_chunked (u_enc e)) with (rn_chunked e). rewrite u_rcenc.
  destruct (rcenc_poll _ _ _ (y_rdr (rn_resp e)) _) as [[c' s'] r]. cbn [fst snd]. destruct r as [d|f| | |]; try reflexivity. destruct out; reflexivity.
Qed.
Lemma u_head ev n fuel e : renc_head fuel ev (u_enc e) n = u_out (renc_head fuel ev e n).
Proof.
  unfold renc_head. change (rn_head (u_enc e)) with (rn_head e). change (rn_headread (u_enc e)) with (rn_headread e). cbv zeta.
  destruct (_ =? _)%nat; [|reflexivity]. change (rn_cl (u_enc e)) with (rn_cl e).
  destruct (rn_cl e); [rewrite <- u_fixed|rewrite <- u_chunked]; reflexivity.
Qed.
Lemma u_poll ev n fuel e : renc_poll fuel ev n (u_enc e) = u_out (renc_poll fuel ev n e).
Proof.
  unfold renc_poll. change (rn_state (u_enc e)) with (rn_state e). destruct (rn_state e).
  - unfold renc_start. rewrite <- u_head. reflexivity.
  - apply u_head.
  - apply u_fixed.
  - apply u_chunked.
  - reflexivity.
Qed.
Lemma u_copy ev n fuel : forall g e bb w amt, copy_st (renc_poll fuel ev n) g (u_enc e) bb w amt =
  (u_enc (fst (fst (copy_st (renc_poll fuel ev n) g e bb w amt))), snd (fst (copy_st (renc_poll fuel ev n) g e bb w amt)), snd (copy_st (renc_poll fuel ev n) g e bb w amt)).
Proof.
  induction g as [|g IH]; intros e bb w amt; cbn [copy_st]; [reflexivity|]. destruct bb as [|c bb].
  - rewrite u_poll. destruct (renc_poll fuel ev n e) as [e1 [[|c d]|fi| | |]]; cbn [u_out fst snd u_p]; try reflexivity; try apply IH.
    destruct (w_flush w) as [w1 [k|fi|]]; try reflexivity. apply IH.
  - destruct (w_write (c :: bb) w) as [w1 [[|k]|fi|]]; try reflexivity; apply IH.
Qed.
Lemma u_relay fuel ev st v hs len b w : relay_body fuel ev st v hs len (u_body b) w =
  (u_body (fst (fst (relay_body fuel ev st v hs len b w))), snd (fst (relay_body fuel ev st v hs len b w)), snd (relay_body fuel ev st v hs len b w)).
Proof.
  unfold relay_body. change (renc_new (mkRel st v hs len (RMsg (u_body b)))) with (u_enc (renc_new (mkRel st v hs len (RMsg b)))). rewrite u_copy.
  destruct (copy_st _ fuel (renc_new (mkRel st v hs len (RMsg b))) [] w 0%N) as [[e w1] r] eqn:E.
  apply (inv_copy ev (fun _ => True)) in E; [| | | |exact I].
  - unfold at_enc, at_msg in E. cbn [fst snd u_enc rn_resp y_rdr y_with]. destruct (y_rdr (rn_resp e)); [destruct E|reflexivity].
  - auto.
  - intros [s|[rem b0|buf d]] r' x; cbn [rdr_fill]; [intros _ []| |].
    + destruct (take_fill rem b0) as [b1 y]. now intros [= <- <-].
    + destruct (bufdec_fill ev buf d) as [b1 y]. now intros [= <- <-].
  - intros k [s|[rem b0|buf d]]; [intros []| |]; exact (fun x => x).
Qed.

(** ** Handlers *)
Lemma u_reading {A} ev (P : A -> Prop) : forall fuel p b, deaf P p ->
  run_reading fuel ev p (u_body b) = (u_body (fst (run_reading fuel ev p b)), snd (run_reading fuel ev p b)) /\
  (forall a, snd (run_reading fuel ev p b) = inl a -> P a).
Proof.
  induction fuel as [|f IH]; intros p b [n k E H|a Pa]; cbn [run_reading]; try (split; [reflexivity|intros x; try discriminate; intros [= <-]; exact Pa]).
  rewrite u_body_read. destruct (body_read ev n b) as [b1 r]. cbn [fst snd]. destruct r as [x|fi| | |]; cbn [u_p]; try (apply IH, H).
  - replace (k (PPend false)) with (k (PPend fi)) by (destruct fi; [exact E|reflexivity]). apply IH, H.
  - split; [reflexivity|discriminate].
  - split; [reflexivity|discriminate].
Qed.
Lemma u_handler fuel ev p b w : deaf_handler p -> run_handler fuel ev p (u_body b) w =
  (u_body (fst (fst (run_handler fuel ev p b w))), snd (fst (run_handler fuel ev p b w)), snd (run_handler fuel ev p b w)).
Proof.
  intros HD. unfold run_handler. destruct (u_reading ev _ fuel p b HD) as [-> HP]. destruct (run_reading fuel ev p b) as [b1 [x|x]]; cbn [fst snd] in *; [|reflexivity].
  specialize (HP x eq_refl). destruct x as [g|r kok kerr|st v hs len kok kerr]; [reflexivity| |].
  - destruct HP as [H1 H2]. destruct (send fuel ev r w) as [w1 [k| | | |]]; try reflexivity.
    + destruct (u_reading ev _ fuel (kok k) b1 (H1 k)) as [-> _]. destruct (run_reading fuel ev (kok k) b1); reflexivity.
    + destruct (u_reading ev _ fuel kerr b1 H2) as [-> _]. destruct (run_reading fuel ev kerr b1) as [b2 [g|x]]; reflexivity.
  - rewrite u_relay. destruct (relay_body fuel ev st v hs len b1 w) as [[b2 w2] [k| | | |]]; reflexivity.
Qed.

(** ** Heads *)
Lemma u_until : forall fuel b acc, read_until_go fuel false (u_brd b) acc = (u_brd (fst (read_until_go fuel false b acc)), snd (read_until_go fuel false b acc)).
Proof.
  induction fuel as [|f IH]; intros b acc; cbn [read_until_go]; [reflexivity|]. rewrite u_fill. destruct (br_fill b) as [b' [d|fi| | |]]; cbn [fst snd u_p andb]; try reflexivity.
  - destruct (split_after LF d) as [[p q]|]; [reflexivity|]. destruct d; [reflexivity|]. apply (IH (br_consume _ b')).
  - apply IH.
Qed.
Lemma u_heads : forall fuel b buf, read_head_go fuel false (u_brd b) buf = (u_brd (fst (read_head_go fuel false b buf)), snd (read_head_go fuel false b buf)).
Proof.
  induction fuel as [|f IH]; intros b buf; cbn [read_head_go]; [reflexivity|]. unfold read_until. rewrite u_br_size, u_until.
  destruct (read_until_go _ false b []) as [b' [x| | | |]]; cbn [fst snd]; try reflexivity. destruct x; [reflexivity|]. destruct (ends_with _ _); [reflexivity|apply IH].
Qed.
Lemma until_in_time tmo : forall fuel b acc, snd (read_until_go fuel tmo b acc) <> RTimeout -> read_until_go fuel false b acc = read_until_go fuel tmo b acc.
Proof.
  induction fuel as [|f IH]; intros b acc; cbn [read_until_go]; [reflexivity|]. destruct (br_fill b) as [b' [d|fi| | |]]; cbn [andb]; try reflexivity.
  - destruct (split_after LF d) as [[p q]|]; [reflexivity|]. destruct d; [reflexivity|]. apply IH.
  - destruct (tmo && fi)%bool; [cbn; congruence|]. apply IH.
Qed.
Lemma head_in_time tmo : forall fuel b buf, snd (read_head_go fuel tmo b buf) <> HdTimeout -> read_head_go fuel false b buf = read_head_go fuel tmo b buf.
Proof.
  induction fuel as [|f IH]; intros b buf; cbn [read_head_go]; [reflexivity|]. unfold read_until. pose proof (until_in_time tmo (S (br_size b)) b []) as K.
  destruct (read_until_go (S (br_size b)) tmo b []) as [b' [x| | | |]]; cbn [snd] in K; intros H; try (rewrite K by discriminate); try reflexivity.
  - destruct x; [reflexivity|]. destruct (ends_with _ _); [reflexivity|]. now apply IH.
  - cbn in H. congruence.
Qed.
Definition u_outcome (x : outcome) : outcome := match x with OReq q b => OReq q (u_body b) | x => x end.
Lemma u_req_head tmo s1 s2 cap b1 b2 r1 r2 : u_src s1 = u_src s2 -> req_head tmo (br_new cap s1) = (b1, r1) -> req_head tmo (br_new cap s2) = (b2, r2) ->
  r1 <> HdTimeout -> r2 <> HdTimeout -> r1 = r2 /\ u_brd b1 = u_brd b2.
Proof.
  intros E H1 H2 N1 N2. unfold req_head in *.
  assert (EB : u_brd (br_new cap s1) = u_brd (br_new cap s2)) by (unfold u_brd, br_new; cbn; now rewrite E).
  pose proof (u_br_size (br_new cap s1)) as Z1. pose proof (u_br_size (br_new cap s2)) as Z2. rewrite EB in Z1. rewrite <- Z1 in H1. rewrite <- Z2 in H2.
  set (m := S _) in *.
  pose proof (head_in_time tmo m (br_new cap s1) []) as K1. pose proof (head_in_time tmo m (br_new cap s2) []) as K2. rewrite H1 in K1. rewrite H2 in K2. cbn [snd] in *.
  pose proof (u_heads m (br_new cap s1) []) as U1. pose proof (u_heads m (br_new cap s2) []) as U2. rewrite (K1 N1) in U1. rewrite (K2 N2) in U2. rewrite EB in U1. rewrite U1 in U2.
  cbn [fst snd] in U2. split; [exact (f_equal snd U2)|exact (f_equal fst U2)].
Qed.
Lemma u_req ev m path a b1 b2 : u_brd b1 = u_brd b2 -> u_outcome (build_req ev m path a b1) = u_outcome (build_req ev m path a b2).
Proof.
  intros E. unfold build_req. destruct (negb _); [reflexivity|]. destruct (parse_uri _ _); [|reflexivity]. cbn [u_outcome]. f_equal.
  destruct (_ && _)%bool; cbn [u_body]; [|now rewrite E]. change (u_dec (dec_new ev ?b)) with (dec_new ev (u_brd b)). now rewrite E.
Qed.

Lemma u_decodes ev tmo s1 s2 w s1' s2' w1 w2 x1 x2 : u_src s1 = u_src s2 -> decode ev tmo s1 w = (s1', w1, x1) -> decode ev tmo s2 w = (s2', w2, x2) ->
  snd (req_head tmo (br_new (e_bufcap ev) s1)) <> HdTimeout -> snd (req_head tmo (br_new (e_bufcap ev) s2)) <> HdTimeout ->
  u_src s1' = u_src s2' /\ w1 = w2 /\ u_outcome x1 = u_outcome x2.
Proof.
  intros E D1 D2 N1 N2. unfold decode in *. destruct (req_head tmo (br_new _ s1)) as [b1 r1] eqn:R1. destruct (req_head tmo (br_new _ s2)) as [b2 r2] eqn:R2.
  destruct (u_req_head _ _ _ _ _ _ _ _ E R1 R2 N1 N2) as [<- EB]. assert (ES : u_src (br_src b1) = u_src (br_src b2)) by exact (f_equal br_src EB).
  destruct r1 as [buf| | | |]; try (injection D1 as <- <- <-; injection D2 as <- <- <-; auto).
  destruct (parse_head ev buf) as [f|[[m path] a]]; [injection D1 as <- <- <-; injection D2 as <- <- <-; auto|].
  destruct (expects_continue a).
  - destruct (write_all tmo continue_text w) as [w' [u| | | |]]; injection D1 as <- <- <-; injection D2 as <- <- <-; auto. split; [exact ES|]. split; [reflexivity|]. now apply u_req.
  - injection D1 as <- <- <-. injection D2 as <- <- <-. split; [exact ES|]. split; [reflexivity|]. now apply u_req.
Qed.
Lemma u_body_src b : body_src (u_body b) = u_src (body_src b).
Proof. now destruct b. Qed.
Theorem u_turns fuel ev o h s1 s2 w s1' s2' w1 w2 x1 x2 : same_but_timer s1 s2 -> (forall q, deaf_handler (h q)) ->
  snd (req_head (o_timeout o) (br_new (e_bufcap ev) s1)) <> HdTimeout -> snd (req_head (o_timeout o) (br_new (e_bufcap ev) s2)) <> HdTimeout ->
  turn fuel ev o h s1 w = (s1', w1, x1) -> turn fuel ev o h s2 w = (s2', w2, x2) ->
  same_but_timer s1' s2' /\ w1 = w2 /\ x1 = x2.
Proof.
  intros E HD N1 N2 T1 T2. rewrite same_u in *. unfold turn in *. destruct (decode ev (o_timeout o) s1 w) as [[a1 v1] y1] eqn:D1. destruct (decode ev (o_timeout o) s2 w) as [[a2 v2] y2] eqn:D2.
  destruct (u_decodes _ _ _ _ _ _ _ _ _ _ _ E D1 D2 N1 N2) as (EA & <- & EY).
  destruct y1 as [q1 b1| |f1| |], y2 as [q2 b2| |f2| |]; try discriminate; try (injection T1 as <- <- <-; injection T2 as <- <- <-; auto; fail).
  - cbn [u_outcome] in EY. assert (EQ : q1 = q2) by congruence. subst q2. assert (EB : u_body b1 = u_body b2) by congruence. pose proof (u_handler fuel ev (h q1) b1 v1 (HD q1)) as U1. pose proof (u_handler fuel ev (h q1) b2 v1 (HD q1)) as U2. rewrite EB in U1. rewrite U1 in U2. clear U1.
    destruct (run_handler fuel ev (h q1) b1 v1) as [[c1 u1] z1]. destruct (run_handler fuel ev (h q1) b2 v1) as [[c2 u2] z2]. cbn [fst snd] in U2. pose proof (f_equal (fun x => fst (fst x)) U2) as EC. pose proof (f_equal (fun x => snd (fst x)) U2) as EU. pose proof (f_equal snd U2) as EZ. cbn [fst snd] in EC, EU, EZ. subst u2 z2. clear U2.
    assert (ES : u_src (body_src c1) = u_src (body_src c2)) by now rewrite <- !u_body_src, EC.
    destruct z1 as [[g|]|z]; try (injection T1 as <- <- <-; injection T2 as <- <- <-; auto; fail).
    destruct (send_ignored fuel ev (glitch_response (o_verbose o) g) u1) as [w3 z]. injection T1 as <- <- <-. injection T2 as <- <- <-. auto.
  - injection EY as <-. destruct (handle_fail fuel ev f1 v1) as [w3 z]. injection T1 as <- <- <-. injection T2 as <- <- <-. auto.
Qed.

Lemma offers_in_time ev tmo s w : env_ok ev -> offers tmo s w -> snd (req_head tmo (br_new (e_bufcap ev) s)) <> HdTimeout.
Proof.
  intros He HO HT. destruct (decode_offer ev tmo s w (ok_cap ev He) HO) as (b & rest & _ & _ & _ & _ & _ & _ & _ & _ & HD).
  destruct (judge_total (e_trim ev) (parse_uri (e_uri ev)) w) as (c & v & J). destruct (HD c v J) as (x & A & D).
  destruct (interim_ok c tmo (mkWtr [] []) ltac:(constructor) ltac:(intros _; constructor)) as (w1 & EI & _ & _ & _).
  specialize (D (mkWtr [] [])). rewrite EI in D. cbn [fst snd after_interim] in D. unfold decode in D.
  destruct (req_head tmo (br_new (e_bufcap ev) s)) as [b0 r0]. cbn in HT. subst r0. injection D as _ _ <-.
  destruct v; [destruct A as (f & A & _)|destruct A as (h & A & _)]; discriminate.
Qed.
Lemma u_same s : same_but_timer s (u_src s).
Proof. apply same_u. destruct s as [l t]. unfold u_src. cbn. f_equal. rewrite map_map. apply map_ext. now intros []. Qed.
Lemma u_avail tmo l : avail tmo (map u_ev l) = avail false l.
Proof.
  induction l as [|[d|f|] l IH]; cbn [map u_ev avail]; [reflexivity|now rewrite IH| |reflexivity].
  rewrite andb_false_r. exact IH.
Qed.
Lemma stalled_served ev o h s l1 l2 w wb p c m u hs len r : env_ok ev -> sendable ev r ->
  offers (o_timeout o) s w -> s_evs s = l1 ++ l2 -> avail false l1 = (w ++ wb, ObEnd) ->
  judged ev w c (Accept m u hs len) -> body_wire (e_deccap ev) len p wb ->
  (forall q, presents q m u hs len -> serves (o_verbose o) (chunked_len len) p r (h q)) -> (forall q, deaf_handler (h q)) ->
  forall wt, accepting wt -> prompt (o_timeout o) wt ->
  exists msg F wt' pads, message (e_date ev) r msg /\ w_out wt' = w_out wt ++ (if c then go_ahead else []) ++ msg /\
    evs_data pads = [] /\
    forall fuel, (F <= fuel)%nat -> exists s', turn fuel ev o h s wt = (s', wt', None) /\
      same_but_timer s' (mkSrc (pads ++ l2) (s_tail s)).
Proof.
  intros He Hr HO ES A J BW HS HD wt Ha Hp. pose proof HO as (Ws & Hb & rest & AV).
  destruct (accepted_turn ev r He Hr) as (msg & Hm & K).
  assert (Wu : wf_src (u_src s)) by (unfold wf_src, u_src in *; cbn; apply Forall_map; eapply Forall_impl; [|exact Ws]; intros [d|f|] X; exact X || discriminate).
  assert (A2 : avail (o_timeout o) (map u_ev l1) = (w ++ wb, ObEnd)) by now rewrite u_avail.
  destruct (K o h (u_src s) wt (map u_ev l1) (map u_ev l2) w wb p c m u hs len Wu) as (pads & F & wt' & _ & P2 & _ & T & O' & _); auto.
  { cbn. now rewrite ES, map_app. }
  assert (HO2 : offers (o_timeout o) (u_src s) w).
  { split; [exact Wu|]. split; [exact Hb|]. cbn [u_src s_evs]. rewrite u_avail, ES. exists (wb ++ fst (avail false l2)).
    destruct (avail_calm false l1) as [CM ED]; [now rewrite A|]. rewrite avail_app by exact CM. rewrite <- ED, A. cbn. now rewrite <- app_assoc. }
  exists msg, F, wt', pads. split; [exact Hm|]. split; [exact O'|]. split; [exact P2|]. intros fuel L.
  destruct (turn fuel ev o h s wt) as [[s' wt2] x] eqn:T2.
  destruct (u_turns fuel ev o h s (u_src s) wt s' _ wt2 wt' x None (u_same s) HD (offers_in_time _ _ _ _ He HO) (offers_in_time _ _ _ _ He HO2) T2 (T fuel L)) as (SB & -> & ->).
  exists s'. split; [reflexivity|]. apply same_u. apply same_u in SB. rewrite SB. unfold u_src. cbn [s_evs s_tail]. f_equal.
  rewrite !map_app. f_equal. rewrite map_map. apply map_ext. now intros [].
Qed.
