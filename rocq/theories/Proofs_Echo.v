(** Answering with the request's own body inside the connection loop. *)
From Verif Require Import Relay Accept Reads SpecChunked SpecHead SpecResponse SpecReq SpecServer SpecBody Lemmas Proofs_Copy Proofs_ServerEnc Proofs_Head
  Proofs_Send Proofs_Parse Proofs_Buf Proofs_Dec Proofs_DecMsg Proofs_DecReads Proofs_ReqHead Proofs_ServerDec Proofs_RelayReq Proofs_Relay Proofs_Body Proofs_Accept Proofs_Request Proofs_Hand Proofs_Map Proofs_Length.

(** ** A reader with more events behind it *)
Section Lockstep.
  Variables (l2 : list ev) (t : rtail) (ev : env).
  Hypothesis Hcap : (0 < e_bufcap ev)%nat.
  Definition rx (r : reader) : reader := match r with RMsg b => RMsg (bext l2 t b) | RSrc s => RSrc s end.
  Definition lone (b : rbody) : Prop := broken (body_brd b) /\ body_ok b.
  Local Notation ok := (at_msg lone).

  Lemma br_fill_ext b b' r : broken b -> br_fill b = (b', r) -> broken b' /\ (r = PErr \/ br_fill (ext l2 t b) = (ext l2 t b', r)).
  Proof.
    destruct b as [cap bb [evs tl]]. unfold broken, br_fill, ext, src_read. cbn [br_buf br_cap br_src s_evs s_tail].
    intros T. destruct bb as [|c buf]; [|intros [= <- <-]; split; [assumption|right; reflexivity]].
    destruct evs as [|[d|f|] l]; cbn [app]; [rewrite T| | |]; intros [= <- <-]; cbn; auto.
    split; [assumption|]. right. destruct (skipn cap d); reflexivity.
  Qed.
  Lemma poll_rx n r r' x : ok r -> rdr_poll ev n r = (r', x) -> ok r' /\ (x = PErr \/ rdr_poll ev n (rx r) = (rx r', x)).
  Proof.
    destruct r as [s|b]; [intros []|]. intros [B O]. cbn [rdr_poll rx]. destruct (body_read ev n b) as [b' y] eqn:E. intros [= <- <-].
    destruct (body_ext l2 t ev n b b' y Hcap B O E) as (B' & O' & [->|E']); (split; [split; assumption|]); auto. right. now rewrite E'.
  Qed.
  Lemma fill_rx r r' x : ok r -> rdr_fill ev r = (r', x) -> ok r' /\ (x = PErr \/ rdr_fill ev (rx r) = (rx r', x)).
  Proof.
    destruct r as [s|[rem b|buf d]]; [intros []| |]; intros [B O]; cbn [rdr_fill rx bext].
    - cbn [body_brd body_ok] in B, O. unfold take_fill. destruct (rem =? 0)%N; [intros [= <- <-]; split; [split; assumption|auto]|].
      destruct (br_fill b) as [b1 y] eqn:E. destruct (br_fill_ext _ _ _ B E) as [B1 [->|E']]; [intros [= <- <-]; split; [split; assumption|auto]|].
      rewrite E'. destruct y; intros [= <- <-]; (split; [split; assumption|auto]).
    - cbn [body_brd body_ok] in B, O. unfold bufdec_fill. destruct buf as [|c buf]; [|intros [= <- <-]; split; [split; assumption|auto]].
      destruct (dec_read ev (e_bufcap ev) d) as [d1 y] eqn:E. pose proof (proj1 (poll_mu ev (e_bufcap ev) d Hcap O)) as O1. rewrite E in O1. cbn [fst] in O1.
      destruct (dread_ext l2 t ev _ d d1 y B Hcap O E) as [B1 [->|E']]; [intros [= <- <-]; split; [split; assumption|auto]|].
      rewrite E'. destruct y; intros [= <- <-]; (split; [split; assumption|auto]).
  Qed.
  Lemma consume_rx k r : ok r -> ok (rdr_consume k r) /\ rdr_consume k (rx r) = rx (rdr_consume k r).
  Proof. destruct r as [s|[rem b|buf d]]; [intros []| |]; intros [B O]; (split; [split; assumption|reflexivity]). Qed.

  Lemma rchunks_rx dbg st r n st' r' x : ok r -> rcenc_chunks ev dbg st r n = (st', r', x) ->
    ok r' /\ (x = PErr \/ rcenc_chunks ev dbg st (rx r) n = (st', rx r', x)).
  Proof.
    intros K. unfold rcenc_chunks. destruct (rdr_fill ev r) as [r1 y] eqn:E. destruct (fill_rx _ _ _ K E) as [K1 [->|E']]; [intros [= <- <- <-]; auto|].
    rewrite E'. destruct y as [[|c d]|f| | |]; try (intros [= <- <- <-]; auto).
    - destruct (cset dbg st CEndOfChunks) as [st1|]; [|intros [= <- <- <-]; auto]. destruct (cenc_chunks_eos dbg st1 n). intros [= <- <- <-]; auto.
    - cbv zeta. destruct (_ <=? _)%nat; [intros [= <- <- <-]; auto|]. destruct (_ <=? _)%nat; intros [= <- <- <-]; auto.
      set (k := Nat.min _ _). destruct (consume_rx k _ K1) as [K2 ->]. auto.
  Qed.
  Lemma rcenc_rx dbg st r n st' r' x : ok r -> rcenc_poll ev dbg st r n = (st', r', x) ->
    ok r' /\ (x = PErr \/ rcenc_poll ev dbg st (rx r) n = (st', rx r', x)).
  Proof.
    intros K. unfold rcenc_poll. destruct st.
    - destruct (cset dbg CStart CChunks); [now apply rchunks_rx|intros [= <- <- <-]; auto].
    - now apply rchunks_rx.
    - destruct (cenc_chunks_eos dbg CEndOfChunks n). intros [= <- <- <-]; auto.
    - destruct (cenc_trailers dbg CReceive [] n). intros [= <- <- <-]; auto.
    - destruct (cenc_trailers dbg CTrailers [] n). intros [= <- <- <-]; auto.
    - destruct (cenc_eos dbg CEndOfStream [] n). intros [= <- <- <-]; auto.
    - intros [= <- <- <-]; auto.
  Qed.

  Definition ex (e : renc) : renc := mkRenc (y_with (rn_resp e) (rx (y_rdr (rn_resp e)))) (rn_state e) (rn_head e) (rn_headread e) (rn_bodyread e) (rn_chunked e).
  Local Notation oke := (at_enc lone).
  Lemma fixed_rx : forall fuel e out n e' x, oke e -> renc_fixed fuel ev e out n = (e', x) ->
    oke e' /\ (x = PErr \/ renc_fixed fuel ev (ex e) out n = (ex e', x)).
  Proof.
    unfold at_enc. induction fuel as [|f IH]; intros e out n e' x K H; cbn [renc_fixed] in *; [injection H as <- <-; auto|].
    change (rn_cl (ex e)) with (rn_cl e). change (rn_bodyread (ex e)) with (rn_bodyread e).
    destruct (_ =? _)%nat; [injection H as <- <-; auto|]. destruct (rn_cl e) as [cl|]; [|injection H as <- <-; auto].
    destruct (upper_arith _ _ _ _) as [u|]; [|injection H as <- <-; auto]. cbv zeta in *.
    destruct (_ <? _)%nat; [injection H as <- <-; auto|].
    change (y_rdr (rn_resp (ex e))) with (rx (y_rdr (rn_resp e))).
    destruct (rdr_poll ev _ (y_rdr (rn_resp e))) as [r1 y] eqn:E. destruct (poll_rx _ _ _ _ K E) as [K1 [->|E']]; [injection H as <- <-; auto|].
    rewrite E'. destruct y as [d|fi| | |]; try (injection H as <- <-; auto; fail).
    destruct (cl =? _)%N; [injection H as <- <-; auto|].
    match type of H with renc_fixed f ev ?e1 _ _ = _ => destruct (IH e1 _ _ _ _ K1 H) as [K2 Q] end. split; [exact K2|]. destruct Q as [Q|Q]; [auto|right]. exact Q.
  Qed.
  Lemma chunked_rx e out n e' x : oke e -> renc_chunked ev e out n = (e', x) -> oke e' /\ (x = PErr \/ renc_chunked ev (ex e) out n = (ex e', x)).
  Proof.
    unfold at_enc, renc_chunked. intros K. change (y_rdr (rn_resp (ex e))) with (rx (y_rdr (rn_resp e))). change (rn_chunked (ex e)) with (rn_chunked e).
    destruct (rcenc_poll _ _ _ (y_rdr (rn_resp e)) _) as [[c' s'] r] eqn:E. destruct (rcenc_rx _ _ _ _ _ _ _ K E) as [K1 [->|E']]; intros [= <- <-]; auto.
    split; [exact K1|]. right. rewrite E'. reflexivity.
  Qed.
  Lemma head_rx fuel e n e' x : oke e -> renc_head fuel ev e n = (e', x) -> oke e' /\ (x = PErr \/ renc_head fuel ev (ex e) n = (ex e', x)).
  Proof.
    unfold renc_head. cbv zeta. intros K. change (rn_cl (ex e)) with (rn_cl e). change (rn_head (ex e)) with (rn_head e). change (rn_headread (ex e)) with (rn_headread e).
    destruct (_ =? _)%nat; [|intros [= <- <-]; auto]. destruct (rn_cl e).
    - intros H. match type of H with renc_fixed fuel ev ?e1 _ _ = _ => destruct (fixed_rx fuel e1 _ _ _ _ K H) as [K2 Q] end. auto.
    - intros H. match type of H with renc_chunked ev ?e1 _ _ = _ => destruct (chunked_rx e1 _ _ _ _ K H) as [K2 Q] end. auto.
  Qed.
  Lemma renc_rx fuel n e e' x : oke e -> renc_poll fuel ev n e = (e', x) -> oke e' /\ (x = PErr \/ renc_poll fuel ev n (ex e) = (ex e', x)).
  Proof.
    intros K. unfold renc_poll. change (rn_state (ex e)) with (rn_state e). destruct (rn_state e).
    - unfold renc_start. cbv zeta. intros H. match type of H with renc_head fuel ev ?e1 _ = _ => destruct (head_rx fuel e1 _ _ _ K H) as [K2 Q] end. auto.
    - now apply head_rx.
    - now apply fixed_rx.
    - now apply chunked_rx.
    - intros [= <- <-]; auto.
  Qed.
  Lemma copy_rx fuel : forall g e bb w amt e' w' x, oke e -> copy_st (renc_poll fuel ev (e_bufcap ev)) g e bb w amt = (e', w', x) ->
    x = RErr \/ copy_st (renc_poll fuel ev (e_bufcap ev)) g (ex e) bb w amt = (ex e', w', x).
  Proof.
    induction g as [|g IH]; intros e bb w amt e' w' x K H; cbn [copy_st] in *; [injection H as <- <- <-; auto|].
    destruct bb as [|c bb].
    - destruct (renc_poll fuel ev (e_bufcap ev) e) as [e1 y] eqn:E. destruct (renc_rx _ _ _ _ _ K E) as [K1 [->|E']]; [injection H as <- <- <-; auto|].
      rewrite E'. destruct y as [[|c d]|fi| | |]; try (injection H as <- <- <-; auto; fail); try (now apply IH).
      destruct (w_flush w) as [w1 [k|fi|]]; try (injection H as <- <- <-; auto; fail). now apply IH.
    - destruct (w_write (c :: bb) w) as [w1 [[|k]|fi|]]; try (injection H as <- <- <-; auto; fail); now apply IH.
  Qed.
  Lemma relay_rx fuel st v hs len b w b' w' k : lone b -> relay_body fuel ev st v hs len b w = (b', w', ROk k) ->
    relay_body fuel ev st v hs len (bext l2 t b) w = (bext l2 t b', w', ROk k).
  Proof.
    intros K. unfold relay_body. destruct (copy_st _ fuel (renc_new (mkRel st v hs len (RMsg b))) [] w 0) as [[e w1] r] eqn:E. intros [= <- <- ->].
    pose proof (inv_copy ev lone) as IC.
    destruct (copy_rx _ _ _ _ _ _ _ _ _ (K : oke (renc_new (mkRel st v hs len (RMsg b)))) E) as [X|E']; [discriminate|].
    change (renc_new (mkRel st v hs len (RMsg (bext l2 t b)))) with (ex (renc_new (mkRel st v hs len (RMsg b)))). rewrite E'.
    cbn [ex rn_resp y_with y_rdr]. 
    assert (KE : oke e).
    { eapply IC; [| | |exact E|exact K].
      - intros n b1 b2 r0 E0 [B0 O0]. destruct (body_ext l2 t ev n b1 b2 r0 Hcap B0 O0 E0) as (? & ? & _). split; assumption.
      - intros r0 r1 x0 E0 K0. now destruct (fill_rx _ _ _ K0 E0).
      - intros k0 r0 K0. now destruct (consume_rx k0 _ K0). }
    unfold at_enc in KE. destruct (y_rdr (rn_resp e)); [destruct KE|reflexivity].
  Qed.
End Lockstep.

(** ** A body of known length is used up *)
Section UpFixed.
  Variables (ev : env) (cl : N) (tmo : bool).
  Let n := e_bufcap ev.
  Hypothesis Hn : (0 < n)%nat.
  Hypothesis Hcl : (cl + N.of_nat n < two64)%N.

  Definition up (e : renc) : Prop :=
    rn_cl e = Some cl /\ (rn_bodyread e <= cl)%N /\ rn_state e <> EChunked /\
    (rn_headread e <= length (rn_head e))%nat /\ (rn_state e = EDone -> rn_bodyread e = cl) /\
    exists b, y_rdr (rn_resp e) = RMsg (RFixed (cl - rn_bodyread e) b) /\ broken b /\ wf_brd b /\ calmb tmo b /\
      N.of_nat (length (br_data b)) = (cl - rn_bodyread e)%N.

  Lemma up_fixed : forall fuel e out e' x, up e -> (length out <= n)%nat -> renc_fixed fuel ev e out n = (e', x) ->
    match x with POk z => up e' /\ (z = [] -> rn_bodyread e' = cl) | PPend _ => up e' | _ => True end.
  Proof.
    induction fuel as [|f IH]; intros e out e' x U Ho H; cbn [renc_fixed] in H; [injection H as <- <-; exact I|].
    destruct (length out =? n)%nat eqn:EF; [injection H as <- <-; split; [exact U|intros ->; apply Nat.eqb_eq in EF; cbn [length] in EF; lia]|].
    pose proof U as (U1 & U2 & U3 & U4 & U6 & b & U7 & U8 & U9 & U10 & U11).
    rewrite U1, upper_arith_ok in H by (auto; lia). cbv zeta in H.
    match type of H with context [(?a <? length out)%nat] => destruct (a <? length out)%nat eqn:EU; [injection H as <- <-; exact I|]; set (up0 := a) in * end.
    rewrite U7 in H. cbn [rdr_poll body_read] in H. unfold take_read in H.
    destruct (cl - rn_bodyread e =? 0)%N eqn:EZ.
    { cbn [length N.of_nat] in H. replace (cl =? rn_bodyread e + 0)%N with true in H by lia. injection H as <- <-. split; [|intros _; cbn; lia].
      unfold up, rn_cl. cbn. rewrite N.add_0_r. ands; auto; try discriminate; try lia. exists b. auto. }
    destruct (br_read _ b) as [b1 y] eqn:E. pose proof (br_read_wf _ _ _ _ E U9) as W1. pose proof (calm_read tmo _ _ _ _ E U10) as C1.
    destruct (br_read_ext [] FailForever _ _ _ _ U8 E) as [B1 _].
    destruct y as [d|fi| | |]; try (injection H as <- <-; exact I).
    - pose proof (br_read_data _ _ _ _ E) as D. pose proof (br_read_len _ _ _ _ E) as L.
      assert (ND : d <> []).
      { intros ->. apply br_read_stop in E as (_ & _ & _ & X); [|unfold up0; lia|exact U9]. unfold broken in U8. congruence. }
      assert (DL : (N.of_nat (length d) <= cl - rn_bodyread e)%N) by (rewrite D, app_length in U11; lia).
      destruct (cl =? _)%N eqn:EC.
      + injection H as <- <-. split; [|intros X; apply app_eq_nil in X; tauto]. unfold up, rn_cl. cbn. ands; auto; try discriminate; try lia.
        exists b1. ands; auto; [f_equal; f_equal; lia|]. rewrite D, app_length in U11. lia.
      + apply IH in H; [exact H| |rewrite app_length; unfold up0 in *; lia]. unfold up, rn_cl. cbn. ands; auto; try lia.
        exists b1. ands; auto; [f_equal; f_equal; lia|]. rewrite D, app_length in U11. lia.
    - pose proof (br_read_pend_data _ _ _ _ E) as D.
      assert (U' : up (mkRenc (y_with (rn_resp e) (RMsg (RFixed (cl - rn_bodyread e) b1))) (rn_state e) (rn_head e) (rn_headread e) (rn_bodyread e) (rn_chunked e))).
      { unfold up, rn_cl. cbn. ands; auto. exists b1. ands; auto. now rewrite D. }
      injection H as <- <-. destruct out; [exact U'|]. split; [exact U'|discriminate].
  Qed.
  Lemma up_head fuel e e' x : up e -> renc_head fuel ev e n = (e', x) ->
    match x with POk z => up e' /\ (z = [] -> rn_bodyread e' = cl) | PPend _ => up e' | _ => True end.
  Proof.
    intros U. pose proof U as (U1 & U2 & U3 & U4 & U6 & b & U7). unfold renc_head. cbv zeta.
    set (len := Nat.min (length (rn_head e) - rn_headread e) n). destruct (_ =? _)%nat eqn:E.
    - rewrite U1. intros H. apply up_fixed in H; [exact H| |].
      + unfold up, rn_cl in *. cbn. ands; auto; try discriminate; try lia. exists b. exact U7.
      + rewrite firstn_length. unfold len. lia.
    - intros [= <- <-]. split.
      + unfold up, rn_cl in *. cbn. ands; auto; [unfold len; lia|exists b; exact U7].
      + intros X. apply (f_equal (@length byte)) in X. rewrite firstn_length, skipn_length in X. cbn [length] in X. unfold len in *. lia.
  Qed.
End UpFixed.

Definition used (r : reader) (tmo : bool) : Prop := match r with RMsg b => exists b1, body_brd b = b1 /\ wf_brd b1 /\ br_data b1 = [] /\ calmb tmo b1 | RSrc _ => False end.

(** An encoder whose end says that its reader is used up leaves it used up. *)
Section Ends.
  Variables (ev : env) (fuel : nat) (J : renc -> Prop) (Q : renc -> Prop).
  Hypothesis HP : forall e e' x, J e -> renc_poll fuel ev (e_bufcap ev) e = (e', x) ->
    match x with POk z => J e' /\ (z = [] -> Q e') | PPend _ => J e' | _ => True end.
  Lemma ends_copy : forall g e bb w amt e' w' k, J e -> copy_st (renc_poll fuel ev (e_bufcap ev)) g e bb w amt = (e', w', ROk k) -> Q e'.
  Proof.
    induction g as [|g IH]; intros e bb w amt e' w' k K H; cbn [copy_st] in H; [discriminate|].
    destruct bb as [|c bb].
    - destruct (renc_poll fuel ev (e_bufcap ev) e) as [e1 y] eqn:E. pose proof (HP _ _ _ K E) as X.
      destruct y as [[|c d]|fi| | |]; try discriminate; try (now apply IH in H).
      destruct X as [X1 X2]. destruct (w_flush w) as [w1 [m|fi|]]; try discriminate; [|now apply IH in H]. injection H as <- _ _. auto.
    - destruct (w_write (c :: bb) w) as [w1 [[|m]|fi|]]; try discriminate; now apply IH in H.
  Qed.
End Ends.

Section UpFixed2.
  Variables (ev : env) (cl : N) (tmo : bool).
  Hypothesis Hn : (0 < e_bufcap ev)%nat.
  Hypothesis Hcl : (cl + N.of_nat (e_bufcap ev) < two64)%N.
  Lemma up_poll fuel e e' x : up cl tmo e -> renc_poll fuel ev (e_bufcap ev) e = (e', x) ->
    match x with POk z => up cl tmo e' /\ (z = [] -> rn_bodyread e' = cl /\ up cl tmo e') | PPend _ => up cl tmo e' | _ => True end.
  Proof.
    intros U. unfold renc_poll.
    assert (Z : forall e' (x : pres bytes), match x with POk z => up cl tmo e' /\ (z = [] -> rn_bodyread e' = cl) | PPend _ => up cl tmo e' | _ => True end ->
      match x with POk z => up cl tmo e' /\ (z = [] -> rn_bodyread e' = cl /\ up cl tmo e') | PPend _ => up cl tmo e' | _ => True end).
    { intros e0 [z|f| | |]; tauto. }
    pose proof U as (U1 & U2 & U3 & U4 & U6 & b & U7).
    destruct (rn_state e) eqn:ES; intros H; try contradiction.
    - apply Z. eapply (up_head ev cl tmo Hn Hcl); [|exact H]. unfold up, rn_cl in *. cbn. ands; auto; try discriminate; [rewrite app_length; lia|]. exists b. exact U7.
    - apply Z. eapply (up_head ev cl tmo Hn Hcl); [|exact H]. exact U.
    - apply Z. eapply (up_fixed ev cl tmo Hn Hcl); [exact U| |exact H]. cbn. lia.
    - injection H as <- <-. split; [exact U|]. intros _. split; [auto|exact U].
  Qed.
  Lemma up_used fuel st v hs b w b' w' k : broken b -> wf_brd b -> calmb tmo b -> N.of_nat (length (br_data b)) = cl ->
    relay_body fuel ev st v hs (Some cl) (RFixed cl b) w = (b', w', ROk k) -> used (RMsg b') tmo.
  Proof.
    intros B W C D. unfold relay_body. destruct (copy_st _ _ _ _ _ _) as [[e w1] r] eqn:E. intros [= <- <- ->].
    eapply (ends_copy ev fuel (up cl tmo) (fun e => rn_bodyread e = cl /\ up cl tmo e)) in E.
    - destruct E as (E1 & _ & _ & _ & _ & _ & b1 & E2 & E3 & E4 & E5 & E6). rewrite E2. exists b1. ands; auto. destruct (br_data b1); [reflexivity|cbn [length] in E6; lia].
    - intros. eapply up_poll; eauto.
    - unfold up, rn_cl. cbn. ands; auto; try discriminate; try lia. exists b. rewrite N.sub_0_r. auto.
  Qed.
End UpFixed2.

(** ** A chunked body is used up *)
Section UpChunked.
  Variables (ev : env) (tmo : bool) (P wire : bytes) (tr : list (bytes * bytes)) (b0 : brd).
  Hypothesis G : grow_ok ev.
  Hypothesis HF : fitting (e_deccap ev) P tr wire.
  Hypothesis H7 : (7 <= e_bufcap ev)%nat.
  Hypothesis H64 : (N.of_nat (e_bufcap ev) < two64)%N.
  Hypothesis Hx : hexlen_ok ev.
  Hypothesis HW0 : wf_brd b0.
  Hypothesis HB0 : br_data b0 = wire ++ [].

  Definition in_chunks (st : cest) : Prop := st = CStart \/ st = CChunks.
  Definition upc (st : cest) (r : reader) : Prop :=
    (in_chunks st /\ exists buf d ns out, r = RMsg (RChunked buf d) /\ going ev b0 ns d out /\ nice tmo (d_in d)) \/ (~ in_chunks st /\ used r tmo).


  Lemma cset_not dbg a b st : cset dbg a b = Some st -> st = b.
  Proof. unfold cset. destruct (_ && _); congruence. Qed.
  Ltac not_in := unfold in_chunks; intros [X|X]; discriminate.
  Lemma eos_not dbg st w n st' x : ~ in_chunks st -> cenc_eos dbg st w n = (st', x) -> ~ in_chunks st'.
  Proof.
    unfold cenc_eos. intros N. destruct (_ <=? _)%nat; [|intros [= <- _]; exact N].
    destruct (cset dbg st CEnd) as [s|] eqn:E; intros [= <- _]; [|exact N]. apply cset_not in E as ->. not_in.
  Qed.
  Lemma trailers_not dbg st w n st' x : ~ in_chunks st -> cenc_trailers dbg st w n = (st', x) -> ~ in_chunks st'.
  Proof.
    unfold cenc_trailers. intros N. destruct (cset dbg st CEndOfStream) as [s|] eqn:E; [|intros [= <- _]; exact N].
    apply cset_not in E as ->. apply eos_not. not_in.
  Qed.
  Lemma chunks_eos_not dbg st n st' x : ~ in_chunks st -> cenc_chunks_eos dbg st n = (st', x) -> ~ in_chunks st'.
  Proof.
    unfold cenc_chunks_eos, cenc_receive. intros N. destruct (_ <? _)%nat; [intros [= <- _]; exact N|].
    destruct (cset dbg st CReceive) as [s|] eqn:E; [|intros [= <- _]; exact N]. apply cset_not in E as ->.
    destruct (cset dbg CReceive CTrailers) as [s|] eqn:E; [|intros [= <- _]; not_in]. apply cset_not in E as ->. apply trailers_not. not_in.
  Qed.

  Lemma upc_chunks dbg st r k st' r' x : in_chunks st -> (k <= e_bufcap ev)%nat -> upc st r -> rcenc_chunks ev dbg st r k = (st', r', x) ->
    match x with POk z => upc st' r' /\ (z = [] -> k = e_bufcap ev -> ~ in_chunks st') | PPend _ => upc st' r' | _ => True end.
  Proof.
    intros IC Hk [[_ (buf & d & ns & out & -> & HG & HN)]|[N _]]; [|contradiction].
    assert (ST : forall buf d ns out, going ev b0 ns d out -> nice tmo (d_in d) -> upc st (RMsg (RChunked buf d))).
    { intros. left. split; [exact IC|]. eauto 10. }
    assert (DATA : forall d ns out c z, going ev b0 ns d out -> nice tmo (d_in d) -> rcenc_chunks ev dbg st (RMsg (RChunked (c :: z) d)) k = (st', r', x) ->
      match x with POk z => upc st' r' /\ (z = [] -> k = e_bufcap ev -> ~ in_chunks st') | PPend _ => upc st' r' | _ => True end).
    { clear - ST Hx H7 H64 Hk. intros d ns out c z HG HN H. unfold rcenc_chunks in H. cbn [rdr_fill bufdec_fill] in H. cbv zeta in H.
      set (D := c :: z) in *. destruct (k <=? _)%nat eqn:Efr.
      - injection H as <- <- <-. split; [eapply ST; eauto|]. intros _ ->. exfalso.
        set (msg0 := Nat.min (length D) (e_bufcap ev)) in *. assert (Hm : (1 <= msg0 <= e_bufcap ev)%nat) by (unfold msg0; cbn [D length]; lia).
        pose proof (Hx msg0 Hm) as [_ HU].
        assert (length (to_hex (N.of_nat msg0)) <= length (to_hex (N.of_nat (e_bufcap ev))))%nat by (apply to_hex_mono; unfold msg0; lia).
        pose proof (to_hex_short (e_bufcap ev) H7 H64). lia.
      - destruct (_ <=? k)%nat; injection H as <- <- <-; [|exact I]. split; [cbn [rdr_consume]; eapply ST; eauto|].
        intros X. apply app_eq_nil in X as [X _]. now apply to_hex_nonempty in X. }
    destruct buf as [|c buf]; [|intros H; eapply DATA; eauto].
    unfold rcenc_chunks. cbn [rdr_fill bufdec_fill]. destruct (dec_read ev (e_bufcap ev) d) as [d1 y] eqn:E.
    pose proof (going_step ev P wire [] tr b0 G HF HW0 HB0 _ _ _ (e_bufcap ev) _ _ HG ltac:(lia) E) as HG'.
    pose proof (poll_inv (nice tmo) (nice_read tmo) ev _ _ _ _ _ E HN) as HN'.
    destruct y as [[|c z]|f| | |]; try contradiction.
    - destruct (cset dbg st CEndOfChunks) as [s|] eqn:EC; [|intros [= <- <- <-]; exact I]. apply cset_not in EC as ->.
      destruct (cenc_chunks_eos dbg CEndOfChunks k) as [s2 q] eqn:EQ. apply chunks_eos_not in EQ; [|not_in]. intros [= <- <- <-].
      destruct HG' as (_ & _ & HD). apply app_eq_nil in HD as [_ HD].
      assert (Y : upc s2 (RMsg (RChunked [] d1))) by (right; split; [exact EQ|]; exists (d_in d1); destruct HN'; auto).
      destruct q; auto.
    - intros H. eapply DATA; [exact HG'|exact HN'|]. unfold rcenc_chunks. cbn [rdr_fill bufdec_fill]. exact H.
    - intros [= <- <- <-]. eapply ST; eauto.
  Qed.
  Lemma upc_poll dbg st r k st' r' x : (k <= e_bufcap ev)%nat -> upc st r -> rcenc_poll ev dbg st r k = (st', r', x) ->
    match x with POk z => upc st' r' /\ (z = [] -> k = e_bufcap ev -> ~ in_chunks st') | PPend _ => upc st' r' | _ => True end.
  Proof.
    intros Hk U. assert (NI : ~ in_chunks st -> used r tmo) by (destruct U as [[? _]|[_ ?]]; tauto).
    assert (K : forall s (q : pres bytes), ~ in_chunks s -> used r tmo -> match q with POk z => upc s r /\ (z = [] -> k = e_bufcap ev -> ~ in_chunks s) | PPend _ => upc s r | _ => True end).
    { intros s q N1 N2. assert (upc s r) by (right; auto). destruct q; auto. }
    unfold rcenc_poll. destruct st.
    - destruct (cset dbg CStart CChunks) as [s|] eqn:E; [|intros [= <- <- <-]; exact I]. apply cset_not in E as ->. apply upc_chunks; auto; [right; reflexivity|].
      destruct U as [[_ U]|[N _]]; [left; split; [right; reflexivity|exact U]|]. elim N. now left.
    - apply upc_chunks; auto. now right.
    - destruct (cenc_chunks_eos dbg CEndOfChunks k) as [s q] eqn:E. apply chunks_eos_not in E; [|not_in]. intros [= <- <- <-]. apply K; auto. apply NI. not_in.
    - destruct (cenc_trailers dbg CReceive [] k) as [s q] eqn:E. apply trailers_not in E; [|not_in]. intros [= <- <- <-]. apply K; auto. apply NI. not_in.
    - destruct (cenc_trailers dbg CTrailers [] k) as [s q] eqn:E. apply trailers_not in E; [|not_in]. intros [= <- <- <-]. apply K; auto. apply NI. not_in.
    - destruct (cenc_eos dbg CEndOfStream [] k) as [s q] eqn:E. apply eos_not in E; [|not_in]. intros [= <- <- <-]. apply K; auto. apply NI. not_in.
    - intros [= <- <- <-]. assert (~ in_chunks CEnd) by not_in. split; [right; auto|auto].
  Qed.

  Definition upe (e : renc) : Prop := rn_cl e = None /\ rn_state e <> EFixed /\ (rn_headread e <= length (rn_head e))%nat /\
    (rn_state e = EDone -> ~ in_chunks (rn_chunked e)) /\ upc (rn_chunked e) (y_rdr (rn_resp e)).
  Definition upok (e' : renc) (x : pres bytes) : Prop :=
    match x with POk z => upe e' /\ (z = [] -> ~ in_chunks (rn_chunked e') /\ upe e') | PPend _ => upe e' | _ => True end.
  Lemma upe_chunked e out e' x : upe e -> rn_state e = EChunked -> (length out <= e_bufcap ev)%nat -> renc_chunked ev e out (e_bufcap ev) = (e', x) -> upok e' x.
  Proof.
    intros (U1 & U2 & U3 & U4 & U5) ES Ho. unfold renc_chunked. rewrite ES.
    destruct (rcenc_poll ev (e_ovf ev) _ _ _) as [[c' s'] r] eqn:E. apply upc_poll in E; [|lia|exact U5]. intros [= <- <-].
    destruct r as [z|f| | |]; try exact I.
    - destruct E as [E1 E2]. assert (U : upe (mkRenc (y_with (rn_resp e) s') match z with [] => match out with [] => EDone | _ => EChunked end | _ => EChunked end (rn_head e) (rn_headread e) (rn_bodyread e) c')).
      { unfold upe, rn_cl in *. cbn. ands; auto.
        - destruct z, out; discriminate.
        - destruct z; [|discriminate]. destruct out; [|discriminate]. intros _. apply E2; [reflexivity|cbn [length]; lia]. }
      assert (EU : match POk z, out with POk [], [] => EDone | _, _ => EChunked end = match z with [] => match out with [] => EDone | _ => EChunked end | _ => EChunked end) by (destruct z, out; reflexivity).
      unfold upok. split; [destruct z, out; exact U|]. intros X. apply app_eq_nil in X as [-> ->]. split; [|exact U]. apply E2; [reflexivity|cbn [length]; lia].
    - assert (U : upe (mkRenc (y_with (rn_resp e) s') EChunked (rn_head e) (rn_headread e) (rn_bodyread e) c')).
      { unfold upe, rn_cl in *. cbn. ands; auto; discriminate. }
      destruct out; [exact U|]. split; [exact U|discriminate].
  Qed.
  Lemma upe_head fuel e e' x : upe e -> rn_state e = EHead -> renc_head fuel ev e (e_bufcap ev) = (e', x) -> upok e' x.
  Proof.
    intros U ES. pose proof U as (U1 & U2 & U3 & U4 & U5). unfold renc_head. cbv zeta.
    set (len := Nat.min (length (rn_head e) - rn_headread e) (e_bufcap ev)). destruct (_ =? _)%nat eqn:E.
    - rewrite U1. intros H. apply upe_chunked in H; [exact H| |reflexivity|].
      + unfold upe, rn_cl in *. cbn. ands; auto; try discriminate. unfold len. lia.
      + rewrite firstn_length. unfold len. lia.
    - intros [= <- <-]. split.
      + unfold upe, rn_cl in *. cbn. ands; auto. unfold len. lia.
      + intros X. apply (f_equal (@length byte)) in X. rewrite firstn_length, skipn_length in X. cbn [length] in X. unfold len in *. lia.
  Qed.
  Lemma upe_poll fuel e e' x : upe e -> renc_poll fuel ev (e_bufcap ev) e = (e', x) -> upok e' x.
  Proof.
    intros U. pose proof U as (U1 & U2 & U3 & U4 & U5). unfold renc_poll. destruct (rn_state e) eqn:ES; try contradiction.
    - apply upe_head; [|reflexivity]. unfold upe, rn_cl in *. cbn. ands; auto; try discriminate. rewrite app_length. lia.
    - now apply upe_head.
    - apply upe_chunked; auto. cbn. lia.
    - intros [= <- <-]. split; [exact U|]. intros _. split; [auto|exact U].
  Qed.
  Lemma upc_used fuel st v hs w b' w' k : calmb tmo b0 ->
    relay_body fuel ev st v hs None (RChunked [] (dec_new ev b0)) w = (b', w', ROk k) -> used (RMsg b') tmo.
  Proof.
    intros C. unfold relay_body. destruct (copy_st _ _ _ _ _ _) as [[e w1] r] eqn:E. intros [= <- <- ->].
    eapply (ends_copy ev fuel upe (fun e => ~ in_chunks (rn_chunked e) /\ upe e)) in E.
    - destruct E as (E1 & _ & _ & _ & _ & [[E2 _]|[_ E2]]); [contradiction|]. destruct (y_rdr (rn_resp e)); [destruct E2|exact E2].
    - intros. eapply upe_poll; eauto.
    - unfold upe, rn_cl. cbn. ands; auto; try discriminate; try lia. left. split; [now left|]. exists [], (dec_new ev b0), [], []. ands; auto.
      + split; [reflexivity|constructor].
      + split; assumption.
  Qed.
End UpChunked.

(** ** The loop *)
Lemma copy_st_mono {E} (p1 p2 : E -> E * pres bytes) : (forall e e' q, p1 e = (e', q) -> q <> PFuel -> p2 e = (e', q)) ->
  forall f f' e bb w amt e' w' x, (f <= f')%nat -> copy_st p1 f e bb w amt = (e', w', x) -> x <> RFuel -> copy_st p2 f' e bb w amt = (e', w', x).
Proof.
  intros HP. induction f as [|f IH]; intros f' e bb w amt e' w' x Hf H Hx; cbn [copy_st] in H; [injection H as <- <- <-; congruence|].
  destruct f' as [|f']; [lia|]. cbn [copy_st]. destruct bb as [|c bb].
  - destruct (p1 e) as [e1 q] eqn:E1. assert (NF : q <> PFuel) by (intros ->; injection H as <- <- <-; congruence). rewrite (HP _ _ _ E1 NF).
    destruct q as [[|c d]|fi| | |]; try exact H; try (eapply IH; [|exact H|exact Hx]; lia).
    destruct (w_flush w) as [w1 [m|fi|]]; try exact H. eapply IH; [|exact H|exact Hx]; lia.
  - destruct (w_write (c :: bb) w) as [w1 [[|m]|fi|]]; try exact H; (eapply IH; [|exact H|exact Hx]; lia).
Qed.
Lemma relay_body_mono ev st v hs len b w F fuel b' w' x : (F <= fuel)%nat -> relay_body F ev st v hs len b w = (b', w', x) -> x <> RFuel ->
  relay_body fuel ev st v hs len b w = (b', w', x).
Proof.
  intros Hf. unfold relay_body. destruct (copy_st _ F _ _ _ _) as [[e w1] r] eqn:E. intros [= <- <- <-] NF.
  rewrite (copy_st_mono _ (renc_poll fuel ev (e_bufcap ev)) (fun e0 e1 q Hq Hn => renc_poll_mono ev _ F fuel e0 e1 q Hf Hq Hn) _ _ _ _ _ _ _ _ _ Hf E NF). reflexivity.
Qed.

(** One request's body, on its own. *)
Lemma hand_alone ev tmo b1 p wb len r w : env_ok ev -> sendable ev r -> b_len (r_body r) = len -> src_data (b_src (r_body r)) = p ->
  body_wire (e_deccap ev) len p wb -> broken b1 -> wf_brd b1 -> calmb tmo b1 -> br_data b1 = wb -> accepting w ->
  exists F b' w' k msg, relay_body F ev (r_status r) (r_version r) (r_headers r) len (body_reader ev len b1) w = (b', w', ROk k) /\
    message (e_date ev) r msg /\ w_out w' = w_out w ++ msg /\ used (RMsg b') tmo.
Proof.
  intros He (RW & RS) EL ES BW B1 B2 B3 B4 A. pose proof (ok_cap ev He) as Hc.
  assert (HT : forall y0, y_status y0 = r_status r -> y_version y0 = r_version r -> y_headers y0 = r_headers r -> y_len y0 = len -> head_text ev (y_head y0) = head_text ev r).
  { intros y0 E1 E2 E3 E4. destruct r as [a b c [d e]], y0 as [a' b' c' d' e']. cbn in *. subst. reflexivity. }
  assert (HR : response_head (e_date ev) r (head_text ev r)) by (apply head_response; [exact RW|apply He]).
  destruct RS as [RS1 RS2]. rewrite EL in RS2. destruct len as [n|]; cbn [body_wire body_reader] in *.
  - destruct BW as [-> Hn]. destruct RS2 as (L1 & L2 & _).
    destruct (fixed_relayed ev n b1 (r_status r) (r_version r) (r_headers r) He B2 L1 w ltac:(rewrite B4; lia) A) as (w' & (F & S) & O).
    specialize (S F (le_n F)). destruct (relay_body F ev (r_status r) (r_version r) (r_headers r) (Some n) (RFixed n b1) w) as [[b' w2] x] eqn:ER.
    pose proof (relay_body_relay _ _ _ _ _ _ _ _ _ _ _ ER) as ER2. unfold relay_of in S. cbn in S. rewrite S in ER2. injection ER2 as <- <-.
    exists F, b', w', (N.of_nat (length (head_text ev (y_head (relay_of (r_status r) (r_version r) (r_headers r) (msg_body (Some n) (RFixed n b1)))))) + n)%N.
    eexists. split; [exact ER|]. split; [|split; [exact O|]].
    + rewrite HT by reflexivity. exists (head_text ev r), (firstn (N.to_nat n) (br_data b1)). split; [exact HR|]. split; [|reflexivity]. rewrite B4, <- ES. now constructor.
    + eapply (up_used ev n tmo); [lia|exact L1|exact B1|exact B2|exact B3| |exact ER]. rewrite B4. exact Hn.
  - destruct BW as (tr & HF). destruct RS2 as (L1 & L2). rewrite (pinched_head ev r (proj1 He) RW) in L2.
    destruct (chunked_relayed ev b1 (r_status r) (r_version r) (r_headers r) He p tr wb [] w B2 HF ltac:(rewrite app_nil_r; exact B4) A) as (w' & cw & C & (F & S) & O).
    { rewrite HT by reflexivity. now rewrite <- ES. }
    specialize (S F (le_n F)). destruct (relay_body F ev (r_status r) (r_version r) (r_headers r) None (RChunked [] (dec_new ev b1)) w) as [[b' w2] x] eqn:ER.
    pose proof (relay_body_relay _ _ _ _ _ _ _ _ _ _ _ ER) as ER2. unfold relay_of in S. cbn in S. rewrite S in ER2. injection ER2 as <- <-.
    eexists F, b', w', _, _. split; [exact ER|]. split; [|split; [exact O|]].
    + rewrite HT by reflexivity. exists (head_text ev r), (cw ++ last_chunk). split; [exact HR|]. split; [|reflexivity]. constructor; [exact EL|]. now rewrite ES.
    + destruct He as (_ & H7 & H64 & Hx & G). eapply (upc_used ev tmo p wb tr b1 G HF H7 H64 Hx B2 ltac:(rewrite app_nil_r; exact B4)); eauto.
Qed.

Lemma handed_turn ev r : env_ok ev -> sendable ev r -> forall o h s wt l1 l2 w wb p c m u hs len, wf_src s -> s_evs s = l1 ++ l2 ->
  avail (o_timeout o) l1 = (w ++ wb, ObEnd) -> head_block w -> judged ev w c (Accept m u hs len) ->
  body_wire (e_deccap ev) len p wb -> (forall q, presents q m u hs len -> serves (o_verbose o) (chunked_len len) p r (h q) \/ hands_on p len r (h q)) ->
  accepting wt -> prompt (o_timeout o) wt ->
  exists msg pads F wt', message (e_date ev) r msg /\ calm (o_timeout o) pads /\ evs_data pads = [] /\ Forall wf_ev pads /\
    (forall fuel, (F <= fuel)%nat -> turn fuel ev o h s wt = (mkSrc (pads ++ l2) (s_tail s), wt', None)) /\
    w_out wt' = w_out wt ++ (if c then go_ahead else []) ++ msg /\ accepting wt' /\ prompt (o_timeout o) wt'.
Proof.
  intros He HSd o h s wt l1 l2 w wb p c m u hs len Ws E A Hb J BW HD Ha Hp.
  destruct (decode_block ev (o_timeout o) l1 l2 s w wb) as (b & W1 & W2 & _ & _ & W5 & _ & HDc); auto; [destruct He as (_ & ? & _); lia|now rewrite A|].
  rewrite A in W2. cbn [snd] in W2. destruct (HDc c _ J) as (out & (hm & -> & HW & HG) & HDec). clear HDc.
  set (q := mkRhead m u hm len) in *. assert (PQ : presents q m u hs len) by (split; [reflexivity|]; auto).
  destruct (interim_ok c (o_timeout o) wt Ha Hp) as (w1 & EI & A1 & P1 & O1).
  destruct (HD q PQ) as [HS|HO].
  - destruct (accepted_turn ev r He HSd) as (msg & Hm & HT).
    destruct (HT o (fun _ => h q) s wt l1 l2 w wb p c m u hs len Ws E A Hb J BW (fun _ _ => HS) Ha Hp) as (pads & F & wt' & P1' & P2 & P3 & T & O1' & A1' & Q1).
    exists msg, pads, F, wt'. ands; auto. intros fuel Hf. rewrite <- (T fuel Hf). unfold turn. rewrite HDec, EI. reflexivity.
  - destruct HO as (EL & ES & kok & kerr & HK & HQ).
    destruct (win_iso _ _ _ _ W1 W2) as (b1 & EB & B1 & B2 & B3 & B4).
    destruct (hand_alone ev (o_timeout o) b1 p wb len r w1 He HSd EL ES BW B1 B2 B4 B3 A1) as (F & b' & w2 & k & msg & ER & HM & O2 & (b2 & U1 & U2 & U3 & U4)).
    assert (LN : lone (body_reader ev len b1)) by (split; destruct len; cbn; auto).
    pose proof (relay_rx l2 (s_tail (br_src b)) ev (ok_cap ev He) _ _ _ _ _ _ _ _ _ _ LN ER) as EX.
    replace (bext l2 (s_tail (br_src b)) (body_reader ev len b1)) with (body_reader ev len b) in EX by (rewrite EB at 1; destruct len; reflexivity).
    destruct (drained_src (o_timeout o) l2 (s_tail (br_src b)) (bext l2 (s_tail (br_src b)) b')) as (pads & D1 & D2 & D3 & D4).
    { exists b2. ands; auto. subst b2. destruct b'; reflexivity. }
    pose proof (relay_body_relay _ _ _ _ _ _ _ _ _ _ _ ER) as SU. apply copy_suf in SU.
    exists msg, pads, (S F), w2. ands; auto.
    + intros fuel Hf. unfold turn. rewrite HDec, EI. cbn [fst snd after_interim]. unfold run_handler. rewrite HQ.
      assert (RT : run_reading fuel ev (Rt (PRelay (r_status r) (r_version r) (r_headers r) len kok kerr)) (body_reader ev len b) = (body_reader ev len b, inl (PRelay (r_status r) (r_version r) (r_headers r) len kok kerr))) by (destruct fuel; reflexivity).
      rewrite RT, (relay_body_mono _ _ _ _ _ _ _ F fuel _ _ _ ltac:(lia) EX ltac:(discriminate)), HK, D1, W5. reflexivity.
    + rewrite O2, O1, <- app_assoc. reflexivity.
    + eapply suf_accepting; eauto.
    + eapply suf_prompt; eauto.
Qed.

Theorem dialogue_runs ev o tl : env_ok ev -> forall h l xs a,
  dialogue (e_trim ev) (parse_uri (e_uri ev)) (e_deccap ev) o tl h l xs a ->
  (forall x, In x xs -> sendable ev (snd x)) ->
  forall pads wt, calm (o_timeout o) pads -> evs_data pads = [] -> Forall wf_ev pads -> Forall wf_ev l ->
    accepting wt -> prompt (o_timeout o) wt ->
  exists t F s' wt', transcript (e_date ev) xs t /\ w_out wt' = w_out wt ++ t /\
    forall n fuel, (F <= n)%nat -> (F <= fuel)%nat -> accept_go n fuel ev o h (mkSrc (pads ++ l) tl) wt = (s', wt', a).
Proof.
  intros He h l xs a H. induction H as [h l NH HK|h l1 l2 w wb p c m u hs len r xs a A Hb J BW HD HC IH
                                     |h l1 l2 w c code xs a A Hb J NE HC IH|h l1 l2 w rest c A Hb J]; intros HS pads wt C D Wp Wl Ha Hp.
  - destruct (conversation_runs ev o tl He h l [] AOk ltac:(apply cv_end; assumption) HS) as (t & Ht & R).
    destruct (R pads wt C D Wp Wl Ha Hp) as (F & s' & wt' & O & R'). exists t, F, s', wt'. auto.
  - apply Forall_app in Wl as [Wl1 Wl2].
    assert (AP : avail (o_timeout o) (pads ++ l1) = (w ++ wb, ObEnd)).
    { rewrite avail_app, D by exact C. rewrite A. reflexivity. }
    destruct (handed_turn ev r He (HS (c, r) (or_introl eq_refl)) o (h O) (mkSrc (pads ++ l1 ++ l2) tl) wt (pads ++ l1) l2 w wb p c m u hs len) as
      (msg & pads' & F & wt1 & Hm & P1 & P2 & P3 & T & O1 & A1 & Q1); auto.
    { unfold wf_src. cbn [s_evs]. repeat (apply Forall_app; split); assumption. }
    { apply app_assoc. }
    cbn [s_tail] in T.
    destruct (IH ltac:(intros x I; apply HS; now right) pads' wt1 P1 P2 P3 Wl2 A1 Q1) as (t & F2 & s' & wt' & Ht & O2 & R).
    exists ((if c then go_ahead else []) ++ msg ++ t), (S (F + F2))%nat, s', wt'. split; [now apply tr_cons|].
    split; [rewrite O2, O1, <- !app_assoc; reflexivity|].
    intros [|n] fuel Hn Hf; [lia|]. rewrite (accept_step _ _ _ _ _ _ _ _ _ (T fuel ltac:(lia))). apply R; lia.
  - destruct (refused_turn ev code He) as (msg & Hm & HT). apply Forall_app in Wl as [Wl1 Wl2].
    assert (AP : avail (o_timeout o) (pads ++ l1) = (w, ObEnd)).
    { rewrite avail_app, D by exact C. rewrite A. reflexivity. }
    destruct (HT o (mkSrc (pads ++ l1 ++ l2) tl) wt (pads ++ l1) l2 w [] c) as
      (b & F & wt1 & B1 & B2 & B3 & T & O1 & A1 & Q1); auto.
    { unfold wf_src. cbn [s_evs]. repeat (apply Forall_app; split); assumption. }
    { apply app_assoc. }
    { rewrite AP, app_nil_r. reflexivity. }
    rewrite AP in B2. cbn [snd] in B2. destruct (win_iso _ _ _ _ B1 B2) as (b1 & EB & _ & [BW _] & BD & BC).
    cbn [s_tail] in B3. rewrite B3 in EB. unfold br_data in BD. apply app_eq_nil in BD as [_ BD].
    destruct (IH ltac:(intros x I; apply HS; now right) (s_evs (br_src b1)) wt1 BC BD BW Wl2 A1 Q1) as (t & F2 & s' & wt' & Ht & O2 & R).
    exists ((if c then go_ahead else []) ++ msg ++ t), (S (F + F2))%nat, s', wt'. split; [now apply tr_cons|].
    split; [rewrite O2, O1, <- !app_assoc; reflexivity|].
    intros [|n] fuel Hn Hf; [lia|]. specialize (T fuel (h O) ltac:(lia)). destruct (N.eqb_spec code 501); [congruence|].
    rewrite (accept_step _ _ _ _ _ _ _ _ _ T). rewrite EB. apply R; lia.
  - destruct (conversation_runs ev o tl He h (l1 ++ l2) [(c, bare 501)] AErr ltac:(eapply cv_encoding; eassumption) HS) as (t & Ht & R).
    destruct (R pads wt C D Wp Wl Ha Hp) as (F & s' & wt' & O & R'). exists t, F, s', wt'. auto.
Qed.
