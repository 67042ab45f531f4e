(** Bodies of received messages before the first error: reading them and handing them on (C100, C101). *)
From Verif Require Import Relay Accept Reads SpecChunked SpecHead SpecResponse SpecReq SpecServer Lemmas Proofs_Copy Proofs_Parse Proofs_Buf
  Proofs_ReqHead Proofs_ServerEnc Proofs_Dec Proofs_DecReads Proofs_ServerDec Proofs_Send Proofs_Body Proofs_Request Proofs_Accept Proofs_Relay Proofs_RelayReq Proofs_Hand Proofs_Echo.

(** ** Bodies before the first error *)
Definition healthy (b : rbody) : Prop := match b with RFixed _ _ => True | RChunked _ d => ok_dec d end.
Definition bmeas (b : rbody) : nat :=
  match b with RFixed _ b => br_size b | RChunked buf d => length buf + tot d (d_blk d) end.

Lemma br_read_meas n b b' r : br_read n b = (b', r) ->
  match r with
  | POk x => x <> [] -> (br_size b' < br_size b)%nat
  | PPend _ => (br_size b' < br_size b)%nat
  | PErr => True
  | PPanic | PFuel => False
  end.
Proof.
  unfold br_read. destruct (br_buf b) as [|c buf] eqn:EB.
  - destruct (br_cap b <=? n)%nat.
    + destruct (src_read n (br_src b)) as [s' x] eqn:ES. intros [= <- <-]. pose proof (src_read_never _ _ _ _ ES) as [N1 N2].
      unfold br_size. rewrite EB. cbn [br_buf br_src length]. destruct x as [x|f| | |]; try congruence; [|apply src_read_pend_size in ES; lia|exact I].
      intros NE. apply src_read_ok_size in ES; [|exact NE]. destruct x; [congruence|cbn [length] in ES; lia].
    + unfold br_fill. rewrite EB. destruct (src_read (br_cap b) (br_src b)) as [s' x] eqn:ES. pose proof (src_read_never _ _ _ _ ES) as [N1 N2].
      destruct x as [x|f| | |]; try congruence.
      * intros [= <- <-]. intros NE. unfold br_size. rewrite EB. cbn [br_buf br_src length br_consume br_cap].
        assert (NX : x <> []) by (intros ->; now rewrite firstn_nil in NE).
        apply src_read_ok_size in ES; [|exact NX]. rewrite skipn_length, firstn_length.
        destruct n; [now cbn in NE|]. destruct x; [congruence|]. cbn [length] in *. lia.
      * intros [= <- <-]. apply src_read_pend_size in ES. unfold br_size. rewrite EB. cbn [br_buf br_src length]. lia.
      * intros [= <- <-]. exact I.
  - unfold br_fill. rewrite EB. intros [= <- <-]. intros NE. unfold br_size. cbn [br_consume br_buf br_src]. rewrite EB, skipn_length, firstn_length.
    destruct n; [now cbn in NE|]. cbn [length]. lia.
Qed.

Lemma body_any ev n b b' r : grow_ok ev -> healthy b -> body_read ev n b = (b', r) ->
  r <> PPanic /\ (r <> PErr -> r <> PFuel -> healthy b').
Proof.
  intros G H. destruct b as [rem b|buf d]; cbn [body_read].
  - unfold take_read. destruct (rem =? 0)%N; [intros [= <- <-]; split; [discriminate|intros; exact I]|].
    destruct (br_read _ b) as [b1 x] eqn:E. apply br_read_meas in E. destruct x; intros [= <- <-]; try contradiction; (split; [discriminate|intros; exact I]).
  - cbn in H. unfold bufdec_read. destruct buf as [|c buf]; [|intros [= <- <-]; split; [discriminate|intros; exact H]].
    assert (K : forall m d1 x, dec_read ev m d = (d1, x) -> x <> PPanic /\ (x <> PErr -> x <> PFuel -> ok_dec d1)).
    { intros m d1 x E. unfold dec_read in E. destruct H as [HN HC]. pose proof (poll_np ev m d (dec_fuel d) G HN) as P1.
      pose proof (poll_tot ev m d (dec_fuel d) HC) as P2. rewrite E in *. cbn [fst snd] in *. unfold ret_np, ret_tot in *. unfold ok_dec.
      destruct x; (split; [try discriminate; tauto|intros; try congruence; tauto]). }
    destruct (e_bufcap ev <=? n)%nat.
    + destruct (dec_read ev n d) as [d1 x] eqn:E. intros [= <- <-]. exact (K _ _ _ E).
    + destruct (dec_read ev (e_bufcap ev) d) as [d1 x] eqn:E. apply K in E as [E1 E2]. destruct x; intros [= <- <-]; (split; [discriminate||tauto|intros; cbn [healthy]; apply E2; congruence]).
Qed.

Lemma body_pos ev n b b' r : grow_ok ev -> (0 < e_bufcap ev)%nat -> (0 < n)%nat -> healthy b -> body_read ev n b = (b', r) ->
  match r with
  | POk x => healthy b' /\ (x <> [] -> (bmeas b' < bmeas b)%nat)
  | PPend _ => healthy b' /\ (bmeas b' < bmeas b)%nat
  | PErr => True
  | PPanic | PFuel => False
  end.
Proof.
  intros G Hc Hn H E. pose proof (body_any _ _ _ _ _ G H E) as [N HH]. destruct b as [rem b|buf d]; cbn [body_read] in E.
  - unfold take_read in E. destruct (rem =? 0)%N; [injection E as <- <-; split; [exact I|congruence]|].
    destruct (br_read _ b) as [b1 x] eqn:EB. apply br_read_meas in EB. destruct x; injection E as <- <-; cbn [healthy bmeas]; auto.
  - cbn [healthy] in H. unfold bufdec_read in E. destruct buf as [|c buf].
    + assert (K : forall m d1 x, (0 < m)%nat -> dec_read ev m d = (d1, x) -> match x with
        | POk out => ok_dec d1 /\ (tot d1 (d_blk d1) + length out <= tot d (d_blk d))%nat
        | PPend _ => ok_dec d1 /\ (tot d1 (d_blk d1) < tot d (d_blk d))%nat | PErr => True | _ => False end).
      { intros m d1 x Hm EX. pose proof (read_ok _ _ _ _ _ G H Hm EX) as P. destruct x; tauto. }
      destruct (e_bufcap ev <=? n)%nat.
      * destruct (dec_read ev n d) as [d1 x] eqn:ED. apply K in ED; [|exact Hn]. injection E as <- <-. cbn [healthy bmeas length].
        destruct x as [x|f| | |]; auto. destruct ED as [E1 E2]. split; [exact E1|]. intros NE. destruct x; [congruence|]. cbn [length] in E2. lia.
      * destruct (dec_read ev (e_bufcap ev) d) as [d1 x] eqn:ED. apply K in ED; [|exact Hc].
        destruct x as [x|f| | |]; injection E as <- <-; cbn [healthy bmeas length]; auto. destruct ED as [E1 E2]. split; [exact E1|]. intros NE.
        rewrite skipn_length, firstn_length. destruct n; [lia|]. destruct x; [cbn in NE; congruence|]. cbn [length] in *. lia.
    + injection E as <- <-. cbn [healthy bmeas]. split; [exact H|]. intros NE. rewrite skipn_length, firstn_length. destruct n; [lia|]. cbn [length]. lia.
Qed.

Lemma body_len ev n b b' x : grow_ok ev -> healthy b -> body_read ev n b = (b', POk x) -> (length x <= n)%nat.
Proof.
  intros G H. destruct b as [rem b|buf d]; cbn [body_read].
  - unfold take_read. destruct (rem =? 0)%N; [intros [= <- <-]; cbn; lia|].
    destruct (br_read _ b) as [b1 y] eqn:E. destruct y; try discriminate. intros [= <- <-]. apply br_read_len in E. lia.
  - unfold bufdec_read. destruct buf as [|c buf]; [|intros [= <- <-]; rewrite firstn_length; lia].
    destruct (e_bufcap ev <=? n)%nat.
    + destruct (dec_read ev n d) as [d1 y] eqn:E. intros [= <- ->]. unfold dec_read in E.
      pose proof (poll_np ev n d (dec_fuel d) G (proj1 H)) as P. rewrite E in P. cbn in P. lia.
    + destruct (dec_read ev (e_bufcap ev) d) as [d1 y] eqn:E. destruct y; try discriminate. intros [= <- <-]. rewrite firstn_length. lia.
Qed.
Lemma fill_any ev b r' x : grow_ok ev -> healthy b -> rdr_fill ev (RMsg b) = (r', x) ->
  x <> PPanic /\ (x <> PErr -> x <> PFuel -> at_msg healthy r').
Proof.
  intros G H. destruct b as [rem b|buf d]; cbn [rdr_fill].
  - unfold take_fill, br_fill. destruct (rem =? 0)%N; [intros [= <- <-]; split; [discriminate|intros; exact I]|].
    destruct (br_buf b) as [|c l]; [|intros [= <- <-]; split; [discriminate|intros; exact I]].
    destruct (src_read (br_cap b) (br_src b)) as [s' y] eqn:ES. apply src_read_never in ES as [N1 N2].
    destruct y; intros [= <- <-]; (split; [congruence|intros; exact I]).
  - cbn in H. unfold bufdec_fill. destruct buf as [|c buf]; [|intros [= <- <-]; split; [discriminate|intros; exact H]].
    destruct (dec_read ev (e_bufcap ev) d) as [d1 y] eqn:E. unfold dec_read in E. destruct H as [HN HC].
    pose proof (poll_np ev (e_bufcap ev) d (dec_fuel d) G HN) as P1. pose proof (poll_tot ev (e_bufcap ev) d (dec_fuel d) HC) as P2.
    rewrite E in *. cbn [fst snd] in *. unfold ret_np, ret_tot in *.
    destruct y; intros [= <- <-]; (split; [try discriminate; tauto|intros; cbn; unfold ok_dec; try congruence; tauto]).
Qed.
Lemma consume_any k r : at_msg healthy r -> at_msg healthy (rdr_consume k r).
Proof. destruct r as [s|[rem b|buf d]]; cbn; auto. Qed.

(** ** Handing a healthy body on does not panic *)
Section HandOn.
  Variable ev : env.
  Hypothesis G : grow_ok ev.
  Hypothesis Hn : (7 <= e_bufcap ev)%nat.
  Hypothesis H64 : (N.of_nat (e_bufcap ev) < two64)%N.
  Hypothesis Hh : hexlen_ok ev.
  Let n := e_bufcap ev.

  (** Polls that do not panic and, unless they fail, leave something in [Q]. *)
  Definition calm_poll {E} (Q : E -> Prop) (x : E * pres bytes) : Prop :=
    match snd x with POk _ | PPend _ => Q (fst x) | PErr | PFuel => True | PPanic => False end.

  Lemma eos_any dbg k : (k <= n)%nat -> k <> 3%nat -> k <> 4%nat ->
    exists st x, cenc_chunks_eos dbg CEndOfChunks k = (st, POk x) /\ (st = CEndOfChunks \/ st = CEnd).
  Proof.
    intros L N3 N4. destruct (Nat.lt_ge_cases k 5) as [L5|G5]; [|rewrite (chunks_eos_room ev Hn H64) by lia; eauto].
    unfold cenc_chunks_eos. replace (k <? 3)%nat with true by lia. eauto.
  Qed.
  Definition tidy (st : cest) : Prop := st = CStart \/ st = CChunks \/ st = CEndOfChunks \/ st = CEnd.
  Lemma rcenc_any st r k st' r' x : (k <= n)%nat -> k <> 3%nat -> k <> 4%nat -> tidy st -> at_msg healthy r ->
    rcenc_poll ev (e_ovf ev) st r k = (st', r', x) ->
    x <> PPanic /\ (x <> PErr -> x <> PFuel -> tidy st' /\ at_msg healthy r').
  Proof.
    intros L N3 N4 HT HR.
    assert (C : rcenc_chunks ev (e_ovf ev) CChunks r k = (st', r', x) -> x <> PPanic /\ (x <> PErr -> x <> PFuel -> tidy st' /\ at_msg healthy r')).
    { unfold rcenc_chunks. destruct (rdr_fill ev r) as [r1 y] eqn:E. assert (F : y <> PPanic /\ (y <> PErr -> y <> PFuel -> at_msg healthy r1)).
      { destruct r as [s|b]; [destruct HR|]. exact (fill_any _ _ _ _ G HR E). }
      destruct F as [F1 F2]. destruct y as [[|c d]|f| | |].
      - replace (cset (e_ovf ev) CChunks CEndOfChunks) with (Some CEndOfChunks) by (destruct (e_ovf ev); reflexivity).
        destruct (eos_any (e_ovf ev) k L N3 N4) as (st1 & z & -> & HZ). intros [= <- <- <-]. split; [discriminate|]. intros _ _.
        split; [unfold tidy; tauto|]. apply F2; discriminate.
      - set (d0 := c :: d) in *. cbv zeta. set (m0 := Nat.min (length d0) k). destruct (k <=? _)%nat eqn:Efr.
        { intros [= <- <- <-]. split; [discriminate|]. intros _ _. split; [unfold tidy; tauto|]. apply F2; discriminate. }
        set (m := Nat.min m0 _) in *. assert (Hm0 : (1 <= m0 <= e_bufcap ev)%nat) by (unfold m0; fold n; cbn [d0 length]; lia).
        pose proof (Hh m0 Hm0) as [HL _]. assert (HM : (length (to_hex (N.of_nat m)) <= length (to_hex (N.of_nat m0)))%nat) by (apply to_hex_mono; unfold m; lia).
        match goal with |- context [(length ?W <=? k)%nat] => assert (HW : (length W <=? k)%nat = true) end.
        { rewrite !app_length, firstn_length. cbn [CRLF length]. unfold m in *. lia. }
        rewrite HW. intros [= <- <- <-]. split; [discriminate|]. intros _ _. split; [unfold tidy; tauto|]. apply consume_any, F2; discriminate.
      - intros [= <- <- <-]. split; [discriminate|]. intros _ _. split; [unfold tidy; tauto|]. apply F2; discriminate.
      - intros [= <- <- <-]. split; [discriminate|]. congruence.
      - congruence.
      - intros [= <- <- <-]. split; [discriminate|]. congruence. }
    unfold rcenc_poll. destruct HT as [->|[->|[->| ->]]].
    - replace (cset (e_ovf ev) CStart CChunks) with (Some CChunks) by (destruct (e_ovf ev); reflexivity). exact C.
    - exact C.
    - destruct (eos_any (e_ovf ev) k L N3 N4) as (st1 & z & -> & HZ). intros [= <- <- <-]. split; [discriminate|]. intros _ _.
      split; [unfold tidy; tauto|exact HR].
    - intros [= <- <- <-]. split; [discriminate|]. intros _ _. split; [unfold tidy; tauto|exact HR].
  Qed.

  (** What is kept by the encoder of a response with head [H]. *)
  Variable H : bytes.
  Variable len : option N.
  Hypothesis Hl : match len with Some cl => (cl + N.of_nat n < two64)%N | None => ~ eos_window n (length H) end.
  Definition Inv (e : renc) : Prop :=
    rn_cl e = len /\ at_msg healthy (y_rdr (rn_resp e)) /\
    match rn_state e with
    | EStart => False
    | EHead => rn_head e = H /\ (rn_headread e < length H)%nat /\ (exists q, rn_headread e = q * n)%nat /\ rn_bodyread e = 0%N /\ rn_chunked e = CStart
    | EFixed => exists cl, len = Some cl /\ (rn_bodyread e <= cl)%N
    | EChunked => len = None /\ tidy (rn_chunked e)
    | EDone => True
    end.

  Lemma fixed_any : forall fuel e out, Inv e -> rn_state e = EFixed -> (length out <= n)%nat -> calm_poll Inv (renc_fixed fuel ev e out n).
  Proof.
    induction fuel as [|f IH]; intros e out (I1 & I2 & I3) ES L; cbn [renc_fixed]; [exact I|].
    destruct (length out =? n)%nat; [split; [exact I1|]; split; [exact I2|]; exact I3|]. rewrite ES in I3. destruct I3 as (cl & EL & I3). rewrite I1, EL.
    pose proof Hl as Hl'. rewrite EL in Hl'. rewrite upper_arith_ok by lia. cbv zeta.
    destruct (_ <? _)%nat eqn:EU; [lia|]. set (room := (_ - length out)%nat). destruct (y_rdr (rn_resp e)) as [s|b] eqn:ER; [destruct I2|]. cbn [at_msg] in I2. cbn [rdr_poll].
    destruct (body_read ev room b) as [b' y] eqn:E. pose proof (body_any _ _ _ _ _ G I2 E) as [N HB].
    destruct y as [d|fi| | |]; [| | |congruence|exact I].
    - pose proof (body_len _ _ _ _ _ G I2 E) as LD. destruct (cl =? _)%N eqn:EC.
      + split; [exact I1|]. split; [apply HB; discriminate|exact I].
      + apply IH; [|exact ES|rewrite app_length; unfold room in *; lia].
        split; [exact I1|]. split; [apply HB; discriminate|]. cbn [rn_state rn_bodyread]. rewrite ES. exists cl. split; [exact EL|]. unfold room in *. lia.
    - assert (K : Inv (mkRenc (y_with (rn_resp e) (RMsg b')) (rn_state e) (rn_head e) (rn_headread e) (rn_bodyread e) (rn_chunked e))).
      { split; [exact I1|]. split; [apply HB; discriminate|]. cbn [rn_state rn_bodyread]. rewrite ES. eauto. }
      destruct out; exact K.
    - exact I.
  Qed.
  Lemma chunked_any e out : Inv e -> rn_state e = EChunked -> (length out <= n)%nat -> (n - length out <> 3)%nat -> (n - length out <> 4)%nat -> calm_poll Inv (renc_chunked ev e out n).
  Proof.
    intros (I1 & I2 & I3) ES L N3 N4. rewrite ES in I3. destruct I3 as (EL & HT). unfold renc_chunked.
    destruct (rcenc_poll _ _ _ _ _) as [[c' s'] r] eqn:E. apply rcenc_any in E; auto; [|lia]. destruct E as [E1 E2]. cbv zeta.
    assert (K : r <> PErr -> r <> PFuel -> Inv (mkRenc (y_with (rn_resp e) s') (match r, out with POk [], [] => EDone | _, _ => rn_state e end) (rn_head e) (rn_headread e) (rn_bodyread e) c')).
    { intros X1 X2. destruct (E2 X1 X2) as [T1 T2]. split; [exact I1|]. split; [exact T2|]. cbn [rn_state rn_chunked]. rewrite ES. destruct r as [[|? ?]|f| | |], out; cbn; auto. }
    destruct r as [d|f| | |]; unfold calm_poll; cbn [fst snd]; try exact I; try congruence; [apply K; discriminate|].
    destruct out; apply K; discriminate.
  Qed.
  Lemma head_any fuel e : rn_cl e = len -> at_msg healthy (y_rdr (rn_resp e)) -> rn_state e = EHead -> rn_head e = H -> (rn_headread e < length H)%nat ->
    (exists q, rn_headread e = q * n)%nat -> rn_bodyread e = 0%N -> rn_chunked e = CStart -> calm_poll Inv (renc_head fuel ev e n).
  Proof.
    intros I1 I2 ES EH LH (q & EQ) EB EC. unfold renc_head. cbv zeta. rewrite EH. set (l := Nat.min _ n). set (out := firstn l _).
    assert (LO : length out = l) by (unfold out, l; rewrite firstn_length, skipn_length; lia).
    destruct (_ =? length H)%nat eqn:EL.
    - pose proof Hl as Hl'. destruct (rn_cl e) as [cl|] eqn:E; rewrite <- I1 in Hl'.
      + apply fixed_any; [|reflexivity|unfold l in *; lia]. split; [exact (eq_trans E I1)|]. split; [exact I2|]. cbn. exists cl. split; [now symmetry|lia].
      + assert (ML : (length H mod n = l mod n)%nat) by (replace (length H) with (l + q * n)%nat by lia; apply Nat.mod_add; lia).
        unfold eos_window in Hl'. rewrite ML in Hl'. destruct (Nat.eq_dec l n) as [LN|LN].
        * apply chunked_any; [|reflexivity|lia|lia|lia]. split; [exact (eq_trans E I1)|]. split; [exact I2|]. cbn. split; [now symmetry|]. rewrite EC. unfold tidy. tauto.
        * rewrite Nat.mod_small in Hl' by (unfold l in *; lia).
          apply chunked_any; [|reflexivity|unfold l in *; lia|unfold l in *; lia|unfold l in *; lia]. split; [exact (eq_trans E I1)|]. split; [exact I2|]. cbn. split; [now symmetry|]. rewrite EC. unfold tidy. tauto.
    - split; [exact I1|]. split; [exact I2|]. cbn [fst rn_state rn_head rn_headread rn_bodyread rn_chunked]. rewrite ES. split; [reflexivity|].
      assert (l = n) by (unfold l in *; lia). split; [unfold l in *; lia|]. split; [exists (S q); lia|]. auto.
  Qed.
  Lemma poll_any fuel e : Inv e -> calm_poll Inv (renc_poll fuel ev n e).
  Proof.
    intros I. pose proof I as (I1 & I2 & I3). unfold renc_poll. destruct (rn_state e) eqn:ES; [destruct I3| | | |exact I].
    - destruct I3 as (A & B & C & D & E). now apply head_any.
    - apply fixed_any; auto. cbn. lia.
    - apply chunked_any; auto; cbn [length]; unfold n; lia.
  Qed.
  Lemma copy_any fuel : forall g e bb w amt, Inv e -> snd (copy_st (renc_poll fuel ev n) g e bb w amt) <> RPanic.
  Proof.
    induction g as [|g IH]; intros e bb w amt I; cbn [copy_st]; [discriminate|]. destruct bb as [|c bb].
    - pose proof (poll_any fuel e I) as K. destruct (renc_poll fuel ev n e) as [e1 [[|c d]|fi| | |]]; cbn in K; try contradiction; cbn [snd]; try discriminate; auto.
      destruct (w_flush w) as [w1 [k|fi|]]; cbn [snd]; try discriminate. auto.
    - destruct (w_write (c :: bb) w) as [w1 [[|k]|fi|]]; cbn [snd]; try discriminate; auto.
  Qed.
End HandOn.

(** Responses to be sent with the body of the request: declared length and head. *)
Definition hand_ok (ev : env) (st : N) (v : version) (hs : hmap) (len : option N) : Prop :=
  match len with
  | Some cl => (cl + N.of_nat (e_bufcap ev) < two64)%N
  | None => ~ eos_window (e_bufcap ev) (length (head_text ev (mkResp st v hs (mkBody len (mkSrc [] Eof)))))
  end.
Lemma hand_no_panic ev fuel st v hs len b w : grow_ok ev -> (7 <= e_bufcap ev)%nat -> (N.of_nat (e_bufcap ev) < two64)%N -> hexlen_ok ev ->
  hand_ok ev st v hs len -> healthy b -> snd (relay_body fuel ev st v hs len b w) <> RPanic.
Proof.
  intros G Hn H64 Hh HO HB. unfold relay_body. set (H := head_text ev (mkResp st v hs (mkBody len (mkSrc [] Eof)))) in *.
  destruct fuel as [|g]; [discriminate|]. cbn [copy_st]. set (e0 := renc_new _).
  assert (K : calm_poll (Inv ev H len) (renc_poll (S g) ev (e_bufcap ev) e0)).
  { change (renc_poll (S g) ev (e_bufcap ev) e0) with (renc_start (S g) ev e0 (e_bufcap ev)). unfold renc_start. cbv zeta.
    apply head_any; auto; cbn; auto.
    - apply head_text_pos.
    - now exists O. }
  destruct (renc_poll (S g) ev (e_bufcap ev) e0) as [e1 [[|c d]|fi| | |]]; cbn in K; try contradiction; cbn [snd]; try discriminate.
  all: repeat match goal with
    | |- context [copy_st ?p ?f ?e ?bb ?w ?a] => pose proof (copy_any ev G Hn H64 Hh H len HO (S g) f e bb w a K) as Q; destruct (copy_st p f e bb w a) as [[e2 w2] x]; exact Q
    | |- context [w_flush ?w0] => destruct (w_flush w0) as [w1 [k|fi'|]]; cbn [snd]; try discriminate
    end.
Qed.

(** ** And it ends *)
Lemma reading_wf {A} ev : forall fuel (p : reading A) b b' x, run_reading fuel ev p b = (b', x) -> wf_brd (body_brd b) -> wf_brd (body_brd b').
Proof.
  induction fuel as [|f IH]; intros p b b' x; destruct p as [n k|a]; cbn [run_reading]; intros H W; try (injection H as <- <-; exact W).
  destruct (body_read ev n b) as [b1 r] eqn:E. apply (body_inv wf_brd) in E; [|intros; eapply br_read_wf; eauto|exact W].
  destruct r; try (injection H as <- <-; assumption); eauto.
Qed.
Lemma hand_ends ev st v hs b w : grow_ok ev -> (7 <= e_bufcap ev)%nat -> (N.of_nat (e_bufcap ev) < two64)%N -> hexlen_ok ev ->
  hand_ok ev st v hs None -> healthy b -> wf_brd (body_brd b) ->
  exists F b' w' x, (x = RErr \/ exists k, x = ROk k) /\ forall fuel, (F <= fuel)%nat -> relay_body fuel ev st v hs None b w = (b', w', x).
Proof.
  intros G Hn H64 Hh HO HB HW. assert (BG : big ev) by (split; [lia|exact G]). set (y := mkRel st v hs None (RMsg b)).
  assert (R : exists O k, run (renc_poll 0 ev (e_bufcap ev)) (renc_new y) O k /\ (k = KOk \/ k = KErr)).
  { destruct b as [rem b|buf d].
    - destruct (relay_chunked_run ev (yields ev) y (firstn (N.to_nat rem) (br_data b)) ((rem <= N.of_nat (length (br_data b)))%N \/ clean (br_src b)) (br_size b)
        (fun r D c m r' x => fill_spec ev r D c m r' x BG)) with (F := 0%nat) as (O & k & R & K); auto.
      { cbn. ands; auto; tauto. }
      exists O, k. split; [exact R|]. destruct k; auto; [|contradiction]. destruct K as (_ & _ & K & _). contradiction.
    - destruct (drained_all ev BG _ d (le_n _) HB) as (p & c & HD).
      destruct (relay_chunked_run ev (dyields ev) y (buf ++ p) c (length buf + tot d (d_blk d))%nat
        (fun r D c m r' x => dfill ev r D c m r' x BG)) with (F := 0%nat) as (O & k & R & K); auto.
      { exists p. auto. }
      exists O, k. split; [exact R|]. destruct k; auto; [|contradiction]. destruct K as (_ & _ & K & _). contradiction. }
  destruct R as (O & k & R & HK). destruct (relay_run ev y w 0 O k R) as (F & w' & x & p & S1 & S2 & _ & _ & S5); [destruct HK; subst; discriminate|].
  specialize (S1 F (le_n F)). destruct (relay_body F ev st v hs None b w) as [[b' w2] x2] eqn:ER.
  pose proof (relay_body_relay _ _ _ _ _ _ _ _ _ _ _ ER) as E2. fold y in E2. rewrite S1 in E2. injection E2 as <- <-.
  exists F, b', w', x. split; [|intros fuel L; exact (relay_body_mono _ _ _ _ _ _ _ _ _ _ _ _ L ER S2)].
  destruct S5 as [[-> _]|[-> _]]; [|now left]. destruct HK; subst k; cbn; eauto.
Qed.
