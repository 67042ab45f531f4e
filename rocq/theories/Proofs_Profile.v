(** A release build does what a debug build does, unless the debug build panics. *)
From Verif Require Import Client Relay Forward Accept Reads BodyRead Identity SpecProfile.

Definition with_ovf (b : bool) (ev : env) : env :=
  mkEnv (e_date ev) (e_hexlen ev) (e_uri ev) (e_trim ev) b (e_bufcap ev) (e_deccap ev) (e_grow ev) (e_stale ev).
Lemma profile_envs e1 e2 : debug_release e1 e2 -> e1 = with_ovf true e1 /\ e2 = with_ovf false e1.
Proof. destruct e1, e2. unfold debug_release, with_ovf. cbn. intros (-> & -> & <- & <- & <- & <- & <- & <- & <- & <-). auto. Qed.

Section Profile.
  Variable ev : env.
  Notation evd := (with_ovf true ev).
  Notation evr := (with_ovf false ev).

  (** ** Reading: the profile plays no part *)
  Lemma f_loop n : forall fuel nr kept d b, dec_loop fuel evr n nr kept d b = dec_loop fuel evd n nr kept d b.
  Proof.
    induction fuel as [|f IH]; intros nr kept d b; cbn [dec_loop]; [reflexivity|]. change (dec_turn evr n nr kept d b) with (dec_turn evd n nr kept d b).
    destruct (dec_turn evd n nr kept d b); [reflexivity|apply IH].
  Qed.
  Lemma f_read n d : dec_read evr n d = dec_read evd n d.
  Proof.
    unfold dec_read. generalize (dec_fuel d). intros fuel. unfold dec_poll. change (blk_fresh evr) with (blk_fresh evd). cbv zeta.
    destruct (_ && _)%bool; [|apply f_loop]. change (poll_read_inner evr) with (poll_read_inner evd).
    destruct (poll_read_inner evd _ (d_blk d) n) as [d1 [read s b' pend| | |]]; try reflexivity; [|apply f_loop].
    destruct pend; [reflexivity|]. destruct (is_done _); [reflexivity|]. destruct (_ <? _)%nat; [reflexivity|apply f_loop].
  Qed.
  Lemma f_body n b : body_read evr n b = body_read evd n b.
  Proof.
    destruct b as [rem b|buf d]; cbn [body_read]; [reflexivity|]. unfold bufdec_read. destruct buf as [|c l]; [|reflexivity].
    change (e_bufcap evr) with (e_bufcap evd). now rewrite !f_read.
  Qed.
  Lemma f_rdr n r : rdr_poll evr n r = rdr_poll evd n r.
  Proof. destruct r as [s|b]; cbn [rdr_poll]; [reflexivity|]. now rewrite f_body. Qed.
  Lemma f_fill r : rdr_fill evr r = rdr_fill evd r.
  Proof.
    destruct r as [s|[rem b|buf d]]; cbn [rdr_fill]; try reflexivity. unfold bufdec_fill. destruct buf as [|c l]; [|reflexivity].
    change (e_bufcap evr) with (e_bufcap evd). now rewrite f_read.
  Qed.
  Lemma f_reading {A} : forall fuel (p : reading A) b, run_reading fuel evr p b = run_reading fuel evd p b.
  Proof.
    induction fuel as [|f IH]; intros [n k|a] b; cbn [run_reading]; try reflexivity. rewrite f_body.
    destruct (body_read evd n b) as [b' [x|fi| | |]]; try reflexivity; apply IH.
  Qed.

  Lemma f_reads : forall ns r, reads (rdr_poll evr) ns r = reads (rdr_poll evd) ns r.
  Proof.
    induction ns as [|n ns IH]; intros r; cbn [reads]; [reflexivity|]. rewrite f_rdr.
    destruct (rdr_poll evd n r) as [r1 [[|c d]|fi| | |]]; rewrite ?IH; reflexivity.
  Qed.
  Lemma f_bytes fuel sz f : into_bytes evr fuel sz f = into_bytes evd fuel sz f /\ into_string evr fuel sz f = into_string evd fuel sz f /\
    into_bytes_with_trailer evr fuel sz f = into_bytes_with_trailer evd fuel sz f /\ into_string_with_trailer evr fuel sz f = into_string_with_trailer evd fuel sz f.
  Proof.
    assert (R : forall r, read_to_end evr fuel sz r = read_to_end evd fuel sz r) by (intros r; unfold read_to_end; now rewrite f_reads).
    unfold into_string, into_bytes_with_trailer, into_string_with_trailer, into_bytes. now rewrite !R.
  Qed.

  (** ** Encoding *)
  Lemma f_arith a c r u : upper_arith true a c r = Some u -> upper_arith false a c r = Some u.
  Proof.
    unfold upper_arith. cbn [andb]. destruct (two64 <=? a + c)%N; [discriminate|]. cbv zeta. destruct (r <=? _)%N; [easy|discriminate].
  Qed.
  Lemma f_cset a b c : cset true a b = Some c -> cset false a b = Some c.
  Proof. unfold cset. cbv zeta. cbn [andb]. destruct (negb _); [discriminate|easy]. Qed.

  (** [tracks x y]: the release outcome [y] is the debug outcome [x], or the latter is a panic. *)
  Definition tracks {A} (x y : A * pres bytes) : Prop := snd x = PPanic \/ y = x.
  Lemma tracks_refl {A} (x : A * pres bytes) : tracks x x.
  Proof. now right. Qed.

  Lemma f_eos st w n : tracks (cenc_eos true st w n) (cenc_eos false st w n).
  Proof. unfold cenc_eos. destruct (_ <=? _)%nat; [|now left]. destruct (cset true st CEnd) eqn:E; [|now left]. rewrite (f_cset _ _ _ E). now right. Qed.
  Lemma f_trailers st w n : tracks (cenc_trailers true st w n) (cenc_trailers false st w n).
  Proof. unfold cenc_trailers. destruct (cset true st _) eqn:E; [|now left]. rewrite (f_cset _ _ _ E). apply f_eos. Qed.
  Lemma f_receive st w n : tracks (cenc_receive true st w n) (cenc_receive false st w n).
  Proof. unfold cenc_receive. destruct (cset true st _) eqn:E; [|now left]. rewrite (f_cset _ _ _ E). apply f_trailers. Qed.
  Lemma f_chunks_eos st n : tracks (cenc_chunks_eos true st n) (cenc_chunks_eos false st n).
  Proof. unfold cenc_chunks_eos. destruct (_ <? _)%nat; [now right|]. destruct (cset true st _) eqn:E; [|now left]. rewrite (f_cset _ _ _ E). apply f_receive. Qed.
  Lemma tracks_pair {A} (x y : cest * pres bytes) (s : A) : tracks x y -> tracks (let (c, r) := x in (c, s, r)) (let (c, r) := y in (c, s, r)).
  Proof. destruct x as [c r], y as [c' r']. intros [E|E]; [left; exact E|right; now injection E as -> ->]. Qed.

  Lemma f_chunks st s n : tracks (cenc_chunks evd true st s n) (cenc_chunks evr false st s n).
  Proof.
    unfold cenc_chunks. destruct (src_fill s) as [s' [[|c d]|f| | |]]; try now right.
    destruct (cset true st _) eqn:E; [|now left]. rewrite (f_cset _ _ _ E). apply tracks_pair, f_chunks_eos.
  Qed.
  Lemma f_cenc st s n : tracks (cenc_poll evd true st s n) (cenc_poll evr false st s n).
  Proof.
    unfold cenc_poll. destruct st; try (apply tracks_pair; first [apply f_chunks_eos|apply f_trailers|apply f_eos]); [|apply f_chunks|now right].
    cbn. apply f_chunks.
  Qed.
  Lemma f_fixed n : forall fuel e out, tracks (enc_fixed fuel evd e out n) (enc_fixed fuel evr e out n).
  Proof.
    induction fuel as [|f IH]; intros e out; cbn [enc_fixed]; [now right|]. destruct (_ =? _)%nat; [now right|]. destruct (en_cl e) as [cl|]; [|now left].
    change (e_ovf evd) with true. change (e_ovf evr) with false. destruct (upper_arith true _ _ _) as [u|] eqn:U; [|now left]. rewrite (f_arith _ _ _ _ U). cbv zeta.
    destruct (_ <? _)%nat; [now left|]. destruct (src_read _ _) as [s' [d|fi| | |]]; try now right. destruct (_ =? _)%N; [now right|]. apply IH.
  Qed.
  Lemma f_chunked e out n : tracks (enc_chunked evd e out n) (enc_chunked evr e out n).
  Proof.
    unfold enc_chunked. change (e_ovf evd) with true. change (e_ovf evr) with false.
    match goal with |- context [cenc_poll evd true ?a ?b ?c] => destruct (f_cenc a b c) as [P|P]; [|rewrite P; now right]; destruct (cenc_poll evd true a b c) as [[c1 s1] r1] end.
    cbn [snd] in P. subst r1. now left.
  Qed.
  Lemma f_head fuel e n : tracks (enc_head fuel evd e n) (enc_head fuel evr e n).
  Proof. unfold enc_head. cbv zeta. destruct (_ =? _)%nat; [|now right]. destruct (en_cl e); [apply f_fixed|apply f_chunked]. Qed.
  Lemma f_enc fuel n e : tracks (enc_poll fuel evd n e) (enc_poll fuel evr n e).
  Proof. unfold enc_poll. destruct (en_state e); [apply (f_head fuel _ n)|apply f_head|apply f_fixed|apply f_chunked|now right]. Qed.

  (** The same for a received body that is sent on. *)
  Lemma f_rchunks st s n : tracks (rcenc_chunks evd true st s n) (rcenc_chunks evr false st s n).
  Proof.
    unfold rcenc_chunks. rewrite f_fill. destruct (rdr_fill evd s) as [s' [[|c d]|f| | |]]; try now right.
    destruct (cset true st _) eqn:E; [|now left]. rewrite (f_cset _ _ _ E). apply tracks_pair, f_chunks_eos.
  Qed.
  Lemma f_rcenc st s n : tracks (rcenc_poll evd true st s n) (rcenc_poll evr false st s n).
  Proof.
    unfold rcenc_poll. destruct st; try (apply tracks_pair; first [apply f_chunks_eos|apply f_trailers|apply f_eos]); [|apply f_rchunks|now right].
    cbn [cset andb]. apply f_rchunks.
  Qed.
  Lemma f_rfixed n : forall fuel e out, tracks (renc_fixed fuel evd e out n) (renc_fixed fuel evr e out n).
  Proof.
    induction fuel as [|f IH]; intros e out; cbn [renc_fixed]; [now right|]. destruct (_ =? _)%nat; [now right|]. destruct (rn_cl e) as [cl|]; [|now left].
    change (e_ovf evd) with true. change (e_ovf evr) with false. destruct (upper_arith true _ _ _) as [u|] eqn:U; [|now left]. rewrite (f_arith _ _ _ _ U). cbv zeta.
    destruct (_ <? _)%nat; [now left|]. rewrite f_rdr. destruct (rdr_poll evd _ _) as [s' [d|fi| | |]]; try now right. destruct (_ =? _)%N; [now right|]. apply IH.
  Qed.
  Lemma f_rchunked e out n : tracks (renc_chunked evd e out n) (renc_chunked evr e out n).
  Proof.
    unfold renc_chunked. change (e_ovf evd) with true. change (e_ovf evr) with false.
    match goal with |- context [rcenc_poll evd true ?a ?b ?c] => destruct (f_rcenc a b c) as [P|P]; [|rewrite P; now right]; destruct (rcenc_poll evd true a b c) as [[c1 s1] r1] end.
    cbn [snd] in P. subst r1. now left.
  Qed.
  Lemma f_rhead fuel e n : tracks (renc_head fuel evd e n) (renc_head fuel evr e n).
  Proof. unfold renc_head. cbv zeta. destruct (_ =? _)%nat; [|now right]. destruct (rn_cl e); [apply f_rfixed|apply f_rchunked]. Qed.
  Lemma f_renc fuel n e : tracks (renc_poll fuel evd n e) (renc_poll fuel evr n e).
  Proof. unfold renc_poll. destruct (rn_state e); [apply (f_rhead fuel _ n)|apply f_rhead|apply f_rfixed|apply f_rchunked|now right]. Qed.

  (** ** Sending *)
  Lemma f_copy {E} (p q : E -> E * pres bytes) : (forall e, tracks (p e) (q e)) -> forall g e bb w amt,
    snd (copy_go p g e bb w amt) = RPanic \/ copy_go q g e bb w amt = copy_go p g e bb w amt.
  Proof.
    intros H. induction g as [|g IH]; intros e bb w amt; cbn [copy_go]; [now right|]. destruct bb as [|c l].
    - destruct (H e) as [P|P].
      + left. destruct (p e) as [e' r]. cbn [snd] in P. now subst r.
      + rewrite P. destruct (p e) as [e' [[|c l]|fi| | |]]; try (now right); try apply IH. destruct (w_flush w) as [w1 [k|fi|]]; try (now right). apply IH.
    - destruct (w_write _ w) as [w1 [[|k]|fi|]]; try (now right); apply IH.
  Qed.
  Lemma f_copy_st {E} (p q : E -> E * pres bytes) : (forall e, tracks (p e) (q e)) -> forall g e bb w amt,
    snd (copy_st p g e bb w amt) = RPanic \/ copy_st q g e bb w amt = copy_st p g e bb w amt.
  Proof.
    intros H. induction g as [|g IH]; intros e bb w amt; cbn [copy_st]; [now right|]. destruct bb as [|c l].
    - destruct (H e) as [P|P].
      + left. destruct (p e) as [e' r]. cbn [snd] in P. now subst r.
      + rewrite P. destruct (p e) as [e' [[|c l]|fi| | |]]; try (now right); try apply IH. destruct (w_flush w) as [w1 [k|fi|]]; try (now right). apply IH.
    - destruct (w_write _ w) as [w1 [[|k]|fi|]]; try (now right); apply IH.
  Qed.
  Lemma f_send fuel r w : snd (send fuel evd r w) = RPanic \/ send fuel evr r w = send fuel evd r w.
  Proof. apply f_copy. intros e. apply f_enc. Qed.
  Lemma f_relay fuel y w : snd (relay fuel evd y w) = RPanic \/ relay fuel evr y w = relay fuel evd y w.
  Proof. apply f_copy. intros e. apply f_renc. Qed.
  Lemma f_relay_body fuel s v hs len b w :
    snd (relay_body fuel evd s v hs len b w) = RPanic \/ relay_body fuel evr s v hs len b w = relay_body fuel evd s v hs len b w.
  Proof.
    unfold relay_body. change (e_bufcap evr) with (e_bufcap evd).
    destruct (f_copy_st (renc_poll fuel evd (e_bufcap evd)) (renc_poll fuel evr (e_bufcap evd)) (fun e => f_renc fuel _ e) fuel (renc_new (mkRel s v hs len (RMsg b))) [] w 0%N) as [P|P].
    - left. destruct (copy_st (renc_poll fuel evd _) _ _ _ _ _) as [[e1 w1] r1]. exact P.
    - right. now rewrite P.
  Qed.

  (** ** Connections *)
  Lemma f_handler fuel p b w : snd (run_handler fuel evd p b w) = inr APanic \/ run_handler fuel evr p b w = run_handler fuel evd p b w.
  Proof.
    unfold run_handler. rewrite f_reading. destruct (run_reading fuel evd p b) as [b1 [[g|r kok kerr|s v hs len kok kerr]|z]]; try now right.
    - destruct (f_send fuel r w) as [P|P].
      + left. destruct (send fuel evd r w) as [w1 r1]. cbn [snd] in P. now subst r1.
      + rewrite P. right. destruct (send fuel evd r w) as [w1 [k| | | |]]; rewrite ?f_reading; reflexivity.
    - destruct (f_relay_body fuel s v hs len b1 w) as [P|P].
      + left. destruct (relay_body fuel evd _ _ _ _ b1 w) as [[b2 w1] r1]. cbn [snd] in P. now subst r1.
      + rewrite P. now right.
  Qed.
  Lemma f_ignored fuel r w : snd (send_ignored fuel evd r w) = Some APanic \/ send_ignored fuel evr r w = send_ignored fuel evd r w.
  Proof.
    unfold send_ignored. destruct (f_send fuel r w) as [P|P].
    - left. destruct (send fuel evd r w) as [w1 r1]. cbn [snd] in P. now subst r1.
    - rewrite P. now right.
  Qed.
  Lemma f_fail fuel f w : snd (handle_fail fuel evd f w) = Some APanic \/ handle_fail fuel evr f w = handle_fail fuel evd f w.
  Proof.
    unfold handle_fail. destruct (fail_response f) as [r|]; [|now right]. destruct (f_ignored fuel r w) as [P|P].
    - left. destruct (send_ignored fuel evd r w) as [w1 r1]. cbn [snd] in P. now subst r1.
    - rewrite P. now right.
  Qed.
  Lemma f_turn fuel o h s w : snd (turn fuel evd o h s w) = Some APanic \/ turn fuel evr o h s w = turn fuel evd o h s w.
  Proof.
    unfold turn. change (decode evr (o_timeout o) s w) with (decode evd (o_timeout o) s w). destruct (decode evd (o_timeout o) s w) as [[s1 w1] [q b| |f| |]]; try now right.
    - destruct (f_handler fuel (h q) b w1) as [P|P].
      + left. destruct (run_handler fuel evd (h q) b w1) as [[b2 w2] r2]. cbn [snd] in P. now subst r2.
      + rewrite P. destruct (run_handler fuel evd (h q) b w1) as [[b2 w2] [[g|]|z]]; try now right.
        destruct (f_ignored fuel (glitch_response (o_verbose o) g) w2) as [Q|Q].
        * left. destruct (send_ignored fuel evd _ w2) as [w3 x3]. exact Q.
        * rewrite Q. now right.
    - destruct (f_fail fuel f w1) as [P|P].
      + left. destruct (handle_fail fuel evd f w1) as [w2 x2]. exact P.
      + rewrite P. now right.
  Qed.
  Lemma f_accept fuel o : forall n h s w, snd (accept_go n fuel evd o h s w) = APanic \/ accept_go n fuel evr o h s w = accept_go n fuel evd o h s w.
  Proof.
    induction n as [|n IH]; intros h s w; cbn [accept_go]; [now right|]. destruct (f_turn fuel o (h O) s w) as [P|P].
    - left. destruct (turn fuel evd o (h O) s w) as [[s1 w1] x]. cbn [snd] in P. now subst x.
    - rewrite P. destruct (turn fuel evd o (h O) s w) as [[s1 w1] [x|]]; [now right|apply IH].
  Qed.
  Lemma f_client fuel q s w : connect evr fuel q s w = connect evd fuel q s w.
  Proof. reflexivity. Qed.
End Profile.

Lemma f_token j now i user r : set_auth_token j true now i user r = None \/ set_auth_token j false now i user r = set_auth_token j true now i user r.
Proof. unfold set_auth_token, make_token. cbv zeta. cbn [andb]. destruct (two64 <=? _)%N; [now left|now right]. Qed.
