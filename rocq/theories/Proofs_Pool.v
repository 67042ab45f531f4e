(** What recycled blocks of the decoder's pool hold makes no difference until a read has failed. *)
From Verif Require Import Client Relay Accept Reads SpecChunked SpecHead SpecResponse SpecReq SpecServer SpecBody SpecPool.

Definition pool (st : nat -> byte) (ev : env) : env :=
  mkEnv (e_date ev) (e_hexlen ev) (e_uri ev) (e_trim ev) (e_ovf ev) (e_bufcap ev) (e_deccap ev) (e_grow ev) st.
Lemma pool_same e1 e2 : same_but_pool e1 e2 -> e2 = pool (e_stale e2) e1.
Proof. destruct e1, e2. unfold same_but_pool, pool. cbn. intros (<- & <- & <- & <- & <- & <- & <- & <-). reflexivity. Qed.

Section Pool.
  Variable st : nat -> byte.
  Variable ev : env.
  Notation ev' := (pool st ev).

  (** ** Decoder *)
  Definition bare_dec (d : dec) : dec := set_blk (mkBlk 0 [] 0 0) d.
  Definition agree (x y : dec * pres bytes) : Prop :=
    snd x = snd y /\ bare_dec (fst x) = bare_dec (fst y) /\ (snd y <> PErr -> fst x = fst y).
  Definition agree_t (x y : dturn) : Prop :=
    match x, y with Ret d r, Ret d' r' => agree (d, r) (d', r') | _, _ => x = y end.
  Lemma agree_refl x : agree x x.
  Proof. now split. Qed.
  Lemma agree_t_refl x : agree_t x x.
  Proof. destruct x; [apply agree_refl|reflexivity]. Qed.
  Lemma agree_err d b b' : agree (set_blk b d, PErr) (set_blk b' d, PErr).
  Proof. split; [reflexivity|]. split; [reflexivity|]. cbn. congruence. Qed.

  Lemma p_inner d b n : poll_read_inner ev' d b n = poll_read_inner ev d b n.
  Proof. reflexivity. Qed.
  Lemma p_decode n kept d b : agree_t (dec_decode ev' n kept d b) (dec_decode ev n kept d b).
  Proof.
    unfold dec_decode. rewrite p_inner. destruct (poll_read_inner ev d b n) as [d1 [read s b' pend| | |]]; try apply agree_t_refl.
    apply agree_err.
  Qed.
  Lemma p_turn n nr kept d b : agree_t (dec_turn ev' n nr kept d b) (dec_turn ev n nr kept d b).
  Proof.
    unfold dec_turn. change (grow ev' b) with (grow ev b). destruct (grow ev b) as [b1|]; [|apply agree_t_refl]. destruct nr; [|apply p_decode].
    destruct (_ <? _)%nat; [apply agree_t_refl|]. destruct (br_read _ (d_in d)) as [i' [x|f| | |]]; try apply agree_t_refl; [apply p_decode|apply agree_err].
  Qed.
  Lemma p_loop n : forall fuel nr kept d b, agree (dec_loop fuel ev' n nr kept d b) (dec_loop fuel ev n nr kept d b).
  Proof.
    induction fuel as [|f IH]; intros nr kept d b; cbn [dec_loop]; [apply agree_refl|]. pose proof (p_turn n nr kept d b) as T.
    destruct (dec_turn ev' n nr kept d b) as [d1 r1|nr1 k1 d1 b1], (dec_turn ev n nr kept d b) as [d2 r2|nr2 k2 d2 b2]; cbn [agree_t] in T; try discriminate; [exact T|].
    injection T as <- <- <- <-. apply IH.
  Qed.
  Lemma p_read n d : agree (dec_read ev' n d) (dec_read ev n d).
  Proof.
    unfold dec_read. generalize (dec_fuel d). intros fuel. unfold dec_poll. change (blk_fresh ev') with (blk_fresh ev). cbv zeta.
    destruct (_ && _)%bool; [|apply p_loop]. rewrite p_inner.
    destruct (poll_read_inner ev _ (d_blk d) n) as [d1 [read s b' pend| | |]]; try apply agree_refl; [|apply p_loop].
    destruct pend; [apply agree_refl|]. destruct (is_done _); [apply agree_refl|]. destruct (_ <? _)%nat; [apply agree_refl|apply p_loop].
  Qed.

  (** ** Bodies and other readers *)
  Definition bare_body (b : rbody) : rbody := match b with RChunked buf d => RChunked buf (bare_dec d) | b => b end.
  Definition agree_b (x y : rbody * pres bytes) : Prop :=
    snd x = snd y /\ bare_body (fst x) = bare_body (fst y) /\ (snd y <> PErr -> fst x = fst y).
  Lemma agree_b_refl x : agree_b x x.
  Proof. now split. Qed.
  Lemma p_body n b : agree_b (body_read ev' n b) (body_read ev n b).
  Proof.
    destruct b as [rem b|buf d]; cbn [body_read]; [apply agree_b_refl|]. unfold bufdec_read. destruct buf as [|c l]; [|apply agree_b_refl].
    change (e_bufcap ev') with (e_bufcap ev). destruct (_ <=? _)%nat.
    - pose proof (p_read n d) as (A & B & C). destruct (dec_read ev' n d) as [d1 r1], (dec_read ev n d) as [d2 r2]; cbn [fst snd] in *. subst r1.
      split; [reflexivity|]. cbn. split; [now rewrite B|]. intros H. now rewrite C.
    - pose proof (p_read (e_bufcap ev) d) as (A & B & C). destruct (dec_read ev' _ d) as [d1 r1], (dec_read ev _ d) as [d2 r2]; cbn [fst snd] in *. subst r1.
      destruct r2; (split; [reflexivity|]); cbn; rewrite B; (split; [reflexivity|]); intros H; try congruence; now rewrite C.
  Qed.
  Definition bare_rdr (r : reader) : reader := match r with RMsg b => RMsg (bare_body b) | r => r end.
  Definition agree_r (x y : reader * pres bytes) : Prop :=
    snd x = snd y /\ bare_rdr (fst x) = bare_rdr (fst y) /\ (snd y <> PErr -> fst x = fst y).
  Lemma agree_r_refl x : agree_r x x.
  Proof. now split. Qed.
  Lemma p_rdr n r : agree_r (rdr_poll ev' n r) (rdr_poll ev n r).
  Proof.
    destruct r as [s|b]; cbn [rdr_poll]; [apply agree_r_refl|]. pose proof (p_body n b) as (A & B & C).
    destruct (body_read ev' n b) as [b1 r1], (body_read ev n b) as [b2 r2]; cbn [fst snd] in *. subst r1.
    split; [reflexivity|]. cbn. split; [now rewrite B|]. intros H. now rewrite C.
  Qed.
  Lemma p_fill r : agree_r (rdr_fill ev' r) (rdr_fill ev r).
  Proof.
    destruct r as [s|[rem b|buf d]]; cbn [rdr_fill]; try apply agree_r_refl. unfold bufdec_fill. destruct buf as [|c l]; [|apply agree_r_refl].
    change (e_bufcap ev') with (e_bufcap ev). pose proof (p_read (e_bufcap ev) d) as (A & B & C).
    destruct (dec_read ev' _ d) as [d1 r1], (dec_read ev _ d) as [d2 r2]; cbn [fst snd] in *. subst r1.
    destruct r2; (split; [reflexivity|]); cbn; rewrite B; (split; [reflexivity|]); intros H; try congruence; now rewrite C.
  Qed.
  Definition agree_s (x y : reader * bytes * rend) : Prop :=
    snd x = snd y /\ snd (fst x) = snd (fst y) /\ (snd y <> Failed -> fst (fst x) = fst (fst y)).
  Lemma p_reads : forall ns r, agree_s (reads (rdr_poll ev') ns r) (reads (rdr_poll ev) ns r).
  Proof.
    induction ns as [|n ns IH]; intros r; cbn [reads]; [now split|]. pose proof (p_rdr n r) as (A & B & C).
    destruct (rdr_poll ev' n r) as [r1 x1], (rdr_poll ev n r) as [r2 x2]; cbn [fst snd] in *. subst x1.
    destruct x2 as [[|c l]|f| | |]; try (rewrite C by discriminate); try (now split).
    - specialize (IH r2). destruct (reads (rdr_poll ev') ns r2) as [[e1 o1] k1], (reads (rdr_poll ev) ns r2) as [[e2 o2] k2].
      destruct IH as (X & Y & Z). cbn in *. subst k1 o1. split; [reflexivity|]. split; [reflexivity|exact Z].
    - apply IH.
  Qed.
  Lemma p_end fuel sz r : snd (read_to_end ev' fuel sz r) = snd (read_to_end ev fuel sz r) /\
    (forall l, snd (read_to_end ev fuel sz r) = ROk l -> fst (read_to_end ev' fuel sz r) = fst (read_to_end ev fuel sz r)).
  Proof.
    unfold read_to_end. pose proof (p_reads (map sz (seq 0 fuel)) r) as (X & Y & Z).
    destruct (reads (rdr_poll ev') _ r) as [[e1 o1] k1], (reads (rdr_poll ev) _ r) as [[e2 o2] k2]; cbn in *. subst k1 o1.
    destruct k2; (split; [reflexivity|]); cbn; intros l E; try discriminate. now apply Z.
  Qed.
  Lemma p_bytes fuel sz f : into_bytes ev' fuel sz f = into_bytes ev fuel sz f.
  Proof. apply p_end. Qed.
  Lemma p_string fuel sz f : into_string ev' fuel sz f = into_string ev fuel sz f.
  Proof. unfold into_string. now rewrite p_bytes. Qed.
  Lemma p_with own fuel sz r : with_trailer own (read_to_end ev' fuel sz r) = with_trailer own (read_to_end ev fuel sz r).
  Proof.
    destruct (p_end fuel sz r) as [A B]. unfold with_trailer. rewrite A. destruct (snd (read_to_end ev fuel sz r)) as [l| | | |]; try reflexivity.
    now rewrite (B l eq_refl).
  Qed.

  Lemma p_string_with fuel sz f : into_string_with_trailer ev' fuel sz f = into_string_with_trailer ev fuel sz f.
  Proof.
    unfold into_string_with_trailer. destruct (too_long f); [reflexivity|]. destruct (p_end fuel sz (f_rdr f)) as [A B].
    destruct (read_to_end ev' fuel sz (f_rdr f)) as [r1 x1], (read_to_end ev fuel sz (f_rdr f)) as [r2 x2]; cbn [fst snd] in *. subst x1.
    destruct x2 as [l| | | |]; try reflexivity. now rewrite (B l eq_refl).
  Qed.

  (** ** Sending *)
  Lemma copy_ext {E} (p q : E -> E * pres bytes) : (forall e, p e = q e) -> forall fuel e bb w amt, copy_go p fuel e bb w amt = copy_go q fuel e bb w amt.
  Proof.
    intros H. induction fuel as [|f IH]; intros e bb w amt; cbn [copy_go]; [reflexivity|]. destruct bb as [|c l].
    - rewrite H. destruct (q e) as [e' [[|c l]|fi| | |]]; try reflexivity; try apply IH. destruct (w_flush w) as [w1 [k|fi|]]; try reflexivity. apply IH.
    - destruct (w_write _ w) as [w1 [[|k]|fi|]]; try reflexivity; apply IH.
  Qed.
  Lemma p_fixed n : forall fuel e out, enc_fixed fuel ev' e out n = enc_fixed fuel ev e out n.
  Proof.
    induction fuel as [|f IH]; intros e out; cbn [enc_fixed]; [reflexivity|]. destruct (_ =? _)%nat; [reflexivity|]. destruct (en_cl e) as [cl|]; [|reflexivity].
    change (e_ovf ev') with (e_ovf ev). destruct (upper_arith _ _ _ _); [|reflexivity]. cbv zeta. destruct (_ <? _)%nat; [reflexivity|].
    destruct (src_read _ _) as [s' [d|fi| | |]]; try reflexivity. destruct (_ =? _)%N; [reflexivity|]. apply IH.
  Qed.
  Lemma p_ehead fuel n e : enc_head fuel ev' e n = enc_head fuel ev e n.
  Proof. unfold enc_head. cbv zeta. destruct (_ =? _)%nat; [|reflexivity]. destruct (en_cl e); [apply p_fixed|reflexivity]. Qed.
  Lemma p_enc fuel n e : enc_poll fuel ev' n e = enc_poll fuel ev n e.
  Proof. unfold enc_poll. destruct (en_state e); [unfold enc_start; apply p_ehead|apply p_ehead|apply p_fixed|reflexivity|reflexivity]. Qed.
  Lemma p_send fuel r w : send fuel ev' r w = send fuel ev r w.
  Proof. apply copy_ext. intros e. apply p_enc. Qed.

  (** ** Sending a received body *)
  Definition bare_enc (e : renc) : renc := mkRenc (y_with (rn_resp e) (bare_rdr (y_rdr (rn_resp e)))) (rn_state e) (rn_head e) (rn_headread e) (rn_bodyread e) (rn_chunked e).
  Definition agree_e (x y : renc * pres bytes) : Prop :=
    snd x = snd y /\ bare_enc (fst x) = bare_enc (fst y) /\ (snd y <> PErr -> fst x = fst y).
  Lemma agree_e_refl x : agree_e x x.
  Proof. now split. Qed.
  Definition agree_c (x y : cest * reader * pres bytes) : Prop :=
    snd x = snd y /\ fst (fst x) = fst (fst y) /\ bare_rdr (snd (fst x)) = bare_rdr (snd (fst y)) /\ (snd y <> PErr -> fst x = fst y).
  Lemma agree_c_refl x : agree_c x x.
  Proof. repeat split. Qed.
  Lemma p_chunks dbg c r n : agree_c (rcenc_chunks ev' dbg c r n) (rcenc_chunks ev dbg c r n).
  Proof.
    unfold rcenc_chunks. pose proof (p_fill r) as (A & B & C). destruct (rdr_fill ev' r) as [r1 x1], (rdr_fill ev r) as [r2 x2]; cbn [fst snd] in *. subst x1.
    destruct x2 as [d|f| | |]; try (rewrite C by discriminate; apply agree_c_refl). repeat (split; [assumption || reflexivity|]). cbn. congruence.
  Qed.
  Lemma p_rcenc dbg c r n : agree_c (rcenc_poll ev' dbg c r n) (rcenc_poll ev dbg c r n).
  Proof. unfold rcenc_poll. destruct c; try apply agree_c_refl; [destruct (cset _ _ _); [apply p_chunks|apply agree_c_refl]|apply p_chunks]. Qed.
  Lemma p_rfixed n : forall fuel e out, agree_e (renc_fixed fuel ev' e out n) (renc_fixed fuel ev e out n).
  Proof.
    induction fuel as [|f IH]; intros e out; cbn [renc_fixed]; [apply agree_e_refl|]. destruct (_ =? _)%nat; [apply agree_e_refl|]. destruct (rn_cl e) as [cl|]; [|apply agree_e_refl].
    change (e_ovf ev') with (e_ovf ev). destruct (upper_arith _ _ _ _) as [u|]; [|apply agree_e_refl]. cbv zeta. destruct (_ <? _)%nat; [apply agree_e_refl|].
    match goal with |- context [rdr_poll ev' ?m ?r] => pose proof (p_rdr m r) as (A & B & C); destruct (rdr_poll ev' m r) as [r1 x1], (rdr_poll ev m r) as [r2 x2] end.
    cbn [fst snd] in *. subst x1. destruct x2 as [d|fi| | |]; try (rewrite C by discriminate); try apply agree_e_refl.
    - destruct (_ =? _)%N; [apply agree_e_refl|apply IH].
    - split; [reflexivity|]. split; [|cbn; congruence]. unfold bare_enc. cbn. unfold y_with at 1 3. cbn. now rewrite B.
  Qed.
  Lemma p_rchunked e out n : agree_e (renc_chunked ev' e out n) (renc_chunked ev e out n).
  Proof.
    unfold renc_chunked. change (e_ovf ev') with (e_ovf ev).
    match goal with |- context [rcenc_poll ev' ?a ?b ?c ?d] => pose proof (p_rcenc a b c d) as (A & A2 & B & C); destruct (rcenc_poll ev' a b c d) as [[c1 r1] x1], (rcenc_poll ev a b c d) as [[c2 r2] x2] end.
    cbn [fst snd] in *. subst x1 c1. destruct x2 as [d|fi| | |]; try (assert (E : (c2, r1) = (c2, r2)) by (apply C; discriminate); injection E as ->; apply agree_e_refl).
    split; [reflexivity|]. split; [|intros X; now destruct X]. unfold bare_enc. cbn. unfold y_with at 1 3. cbn. now rewrite B.
  Qed.
  Lemma p_rhead fuel e n : agree_e (renc_head fuel ev' e n) (renc_head fuel ev e n).
  Proof. unfold renc_head. cbv zeta. destruct (_ =? _)%nat; [|apply agree_e_refl]. destruct (rn_cl e); [apply p_rfixed|apply p_rchunked]. Qed.
  Lemma p_renc fuel n e : agree_e (renc_poll fuel ev' n e) (renc_poll fuel ev n e).
  Proof. unfold renc_poll. destruct (rn_state e); [unfold renc_start; apply p_rhead|apply p_rhead|apply p_rfixed|apply p_rchunked|apply agree_e_refl]. Qed.
  Lemma p_copy fuel n : forall g e bb w amt, let x := copy_st (renc_poll fuel ev' n) g e bb w amt in let y := copy_st (renc_poll fuel ev n) g e bb w amt in
    snd x = snd y /\ snd (fst x) = snd (fst y) /\ bare_enc (fst (fst x)) = bare_enc (fst (fst y)).
  Proof.
    induction g as [|g IH]; intros e bb w amt; cbn [copy_st]; [now split|]. destruct bb as [|c bb].
    - pose proof (p_renc fuel n e) as (A & B & C). destruct (renc_poll fuel ev' n e) as [e1 x1], (renc_poll fuel ev n e) as [e2 x2]; cbn [fst snd] in *. subst x1.
      destruct x2 as [[|c d]|fi| | |]; try (rewrite C by discriminate); try (now split); try apply IH.
      destruct (w_flush w) as [w1 [k|fi|]]; try (now split). apply IH.
    - destruct (w_write (c :: bb) w) as [w1 [[|k]|fi|]]; try (now split); apply IH.
  Qed.
  Lemma p_relay fuel s v hs len b w : let x := relay_body fuel ev' s v hs len b w in let y := relay_body fuel ev s v hs len b w in
    snd x = snd y /\ snd (fst x) = snd (fst y) /\ body_src (fst (fst x)) = body_src (fst (fst y)).
  Proof.
    cbv zeta. unfold relay_body. change (e_bufcap ev') with (e_bufcap ev).
    pose proof (p_copy fuel (e_bufcap ev) fuel (renc_new (mkRel s v hs len (RMsg b))) [] w 0%N) as (A & B & C). cbv zeta in *.
    destruct (copy_st (renc_poll fuel ev' _) _ _ _ _ _) as [[e1 w1] r1], (copy_st (renc_poll fuel ev _) _ _ _ _ _) as [[e2 w2] r2]. cbn [fst snd] in *. subst r1 w1.
    split; [reflexivity|]. split; [reflexivity|]. apply (f_equal (fun e => y_rdr (rn_resp e))) in C. cbn in C.
    destruct (y_rdr (rn_resp e1)) as [s1|[r1 b1|u1 d1]], (y_rdr (rn_resp e2)) as [s2|[r2' b2|u2 d2]]; cbn in C; try discriminate; try reflexivity; try congruence.
    unfold bare_dec in C. injection C as _ E _ _ _ _. cbn. now rewrite E.
  Qed.
  Lemma p_relay_whole fuel y w : relay fuel ev' y w = relay fuel ev y w.
  Proof.
    unfold relay. change (e_bufcap ev') with (e_bufcap ev).
    assert (K : forall g e bb w0 amt, copy_go (renc_poll fuel ev' (e_bufcap ev)) g e bb w0 amt = copy_go (renc_poll fuel ev (e_bufcap ev)) g e bb w0 amt).
    { induction g as [|g IH]; intros e bb w0 amt; cbn [copy_go]; [reflexivity|]. destruct bb as [|c bb].
      - pose proof (p_renc fuel (e_bufcap ev) e) as (A & B & C). destruct (renc_poll fuel ev' _ e) as [e1 x1], (renc_poll fuel ev _ e) as [e2 x2]; cbn [fst snd] in *. subst x1.
        destruct x2 as [[|c d]|fi| | |]; try (rewrite C by discriminate); try reflexivity; try apply IH.
        destruct (w_flush w0) as [w1 [k|fi|]]; try reflexivity. apply IH.
      - destruct (w_write (c :: bb) w0) as [w1 [[|k]|fi|]]; try reflexivity; apply IH. }
    apply K.
  Qed.

  (** ** Handlers *)
  Lemma p_reading {A} (P Q : A -> Prop) : forall fuel p b, heeds true P Q p ->
    let x := run_reading fuel ev' p b in let y := run_reading fuel ev p b in
    snd x = snd y /\ body_src (fst x) = body_src (fst y) /\
    (forall a, snd y = inl a -> fst x = fst y /\ P a \/ Q a) /\ (forall z, snd y = inr z -> fst x = fst y).
  Proof.
    induction fuel as [|f IH]; intros p b H; destruct H as [a Pa|n k Hn Hp Ho He Hf]; cbn [run_reading]; cbv zeta;
      try (repeat (split; [reflexivity|]); cbn; split; [intros a' [= <-]; auto|discriminate]).
    - repeat (split; [reflexivity|]); cbn. split; [discriminate|reflexivity].
    - pose proof (p_body n b) as (X & Y & Z). destruct (body_read ev' n b) as [b1 x1], (body_read ev n b) as [b2 x2]; cbn [fst snd] in *. subst x1.
      destruct x2 as [d|fi| | |]; try (rewrite Z by discriminate).
      + apply IH, Ho. now left.
      + apply IH, Hp.
      + destruct Hf as (a & Ek & Qa). change (@PErr (list ascii)) with (@PErr bytes) in Ek. change (@PErr (list ascii)) with (@PErr bytes). rewrite Ek. assert (BS : body_src b1 = body_src b2).
        { destruct b1 as [r1 b1|u1 d1], b2 as [r2 b2|u2 d2]; cbn in Y |- *; try congruence. unfold bare_dec in Y. injection Y as _ E _ _ _ _. now rewrite E. }
        destruct f; cbn [run_reading fst snd]; (split; [reflexivity|]); (split; [exact BS|]); (split; [intros a' [= <-]; auto|discriminate]).
      + repeat (split; [reflexivity|]); cbn. split; [discriminate|reflexivity].
      + repeat (split; [reflexivity|]); cbn. split; [discriminate|reflexivity].
  Qed.
  Lemma settled_run {A} (P : A -> Prop) fuel e p b : settled P p -> exists a, run_reading fuel e p b = (b, inl a).
  Proof. intros (a & -> & _). exists a. now destruct fuel. Qed.
  Lemma p_handler ok verbose fuel p b w : safe_handler true ok verbose p ->
    let x := run_handler fuel ev' p b w in let y := run_handler fuel ev p b w in
    snd x = snd y /\ snd (fst x) = snd (fst y) /\ body_src (fst (fst x)) = body_src (fst (fst y)).
  Proof.
    intros H. cbv zeta. unfold run_handler. pose proof (p_reading _ _ fuel p b H) as (A & B & C & D). cbv zeta in *.
    destruct (run_reading fuel ev' p b) as [b1 x1], (run_reading fuel ev p b) as [b2 x2]; cbn [fst snd] in *. subst x1.
    destruct x2 as [[g|r kok kerr|s v hs len kok kerr]|z]; try (now split).
    - rewrite p_send. destruct (send fuel ev r w) as [w1 [k| | | |]]; try (now split).
      + destruct (C _ eq_refl) as [[-> HS]|HS]; cbn [safe_choice] in HS; destruct HS as [_ [Hk _]]; specialize (Hk k).
        * pose proof (p_reading _ _ fuel (kok k) b2 Hk) as (A1 & B1 & _). cbv zeta in *.
          destruct (run_reading fuel ev' (kok k) b2) as [b3 x3], (run_reading fuel ev (kok k) b2) as [b4 x4]; cbn [fst snd] in *. now subst.
        * destruct (settled_run _ fuel ev' _ b1 Hk) as [a E1]. destruct (settled_run _ fuel ev _ b2 Hk) as [a' E2].
          assert (a = a') by (destruct Hk as (a0 & E & _); rewrite E in *; destruct fuel; cbn in E1, E2; congruence). subst a'. rewrite E1, E2. now split.
      + destruct (C _ eq_refl) as [[-> HS]|HS]; cbn [safe_choice] in HS; destruct HS as [_ [_ Hk]].
        * pose proof (p_reading _ _ fuel kerr b2 Hk) as (A1 & B1 & _). cbv zeta in *.
          destruct (run_reading fuel ev' kerr b2) as [b3 x3], (run_reading fuel ev kerr b2) as [b4 x4]; cbn [fst snd] in *. subst x3. now destruct x4.
        * destruct (settled_run _ fuel ev' _ b1 Hk) as [a E1]. destruct (settled_run _ fuel ev _ b2 Hk) as [a' E2].
          assert (a = a') by (destruct Hk as (a0 & E & _); rewrite E in *; destruct fuel; cbn in E1, E2; congruence). subst a'. rewrite E1, E2. now split.
    - destruct (C _ eq_refl) as [[-> HS]|HS]; [|cbn [safe_choice] in HS; destruct HS; discriminate].
      pose proof (p_relay fuel s v hs len b2 w) as (A1 & B1 & C1). cbv zeta in *.
      destruct (relay_body fuel ev' _ _ _ _ b2 w) as [[b3 w3] r3], (relay_body fuel ev _ _ _ _ b2 w) as [[b4 w4] r4]; cbn [fst snd] in *. subst r3 w3. now destruct r4.
  Qed.

  (** ** Connections *)
  Lemma p_ignored fuel r w : send_ignored fuel ev' r w = send_ignored fuel ev r w.
  Proof. unfold send_ignored. now rewrite p_send. Qed.
  Lemma p_fail fuel f w : handle_fail fuel ev' f w = handle_fail fuel ev f w.
  Proof. unfold handle_fail. destruct (fail_response f); [now rewrite p_ignored|reflexivity]. Qed.
  Lemma p_dec_server tmo s w : decode ev' tmo s w = decode ev tmo s w.
  Proof. reflexivity. Qed.
  Lemma p_turns ok fuel o h s w : (forall q, safe_handler true ok (o_verbose o) (h q)) -> turn fuel ev' o h s w = turn fuel ev o h s w.
  Proof.
    intros H. unfold turn. rewrite p_dec_server. destruct (decode ev (o_timeout o) s w) as [[s1 w1] [q b| |f| |]]; try reflexivity; [|now rewrite p_fail].
    pose proof (p_handler ok (o_verbose o) fuel (h q) b w1 (H q)) as (A & B & C). cbv zeta in *.
    destruct (run_handler fuel ev' (h q) b w1) as [[b3 w3] r3], (run_handler fuel ev (h q) b w1) as [[b4 w4] r4]; cbn [fst snd] in *. subst r3 w3. rewrite C.
    destruct r4 as [[g|]|z]; try reflexivity. now rewrite p_ignored.
  Qed.
  Lemma p_accept ok fuel o : forall n h s w, (forall i q, safe_handler true ok (o_verbose o) (h i q)) -> accept_go n fuel ev' o h s w = accept_go n fuel ev o h s w.
  Proof.
    induction n as [|n IH]; intros h s w H; cbn [accept_go]; [reflexivity|]. rewrite (p_turns ok) by apply H.
    destruct (turn fuel ev o (h O) s w) as [[s1 w1] [x|]]; [reflexivity|]. apply IH. intros i. apply (H (S i)).
  Qed.
End Pool.
