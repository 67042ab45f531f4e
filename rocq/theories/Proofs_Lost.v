(** Proofs: what shares a segment with a request, behind it, has no effect. *)
From Verif Require Import Accept SpecBody SpecChunked SpecHead SpecReq SpecServer Lemmas Proofs_Buf Proofs_ReqHead Proofs_ServerDec Proofs_Accept Proofs_Relay Proofs_Turns.

(** ** A buffered body and the bytes behind it *)
Definition cutb (b : rbody) : rbody :=
  match b with RFixed rem b => RFixed rem (mkBrd (br_cap b) (firstn (N.to_nat rem) (br_buf b)) (br_src b)) | b => b end.
Definition fullb (b : rbody) : Prop := match b with RFixed rem b => (rem <= N.of_nat (length (br_buf b)))%N | RChunked _ _ => False end.
Definition cutr (r : reader) : reader := match r with RMsg b => RMsg (cutb b) | r => r end.
Definition fullr (r : reader) : Prop := match r with RMsg b => fullb b | RSrc _ => False end.

Lemma cut_read ev n b b' r : fullb b -> body_read ev n b = (b', r) -> fullb b' /\ body_read ev n (cutb b) = (cutb b', r).
Proof.
  destruct b as [rem b|]; [|intros []]. cbn [body_read cutb fullb]. unfold take_read. intros L.
  destruct (N.eqb_spec rem 0) as [->|NZ]; [now intros [= <- <-]|]. unfold br_read, br_fill. cbn [br_buf br_cap br_src].
  destruct (br_buf b) as [|c l] eqn:EB; [cbn in L; lia|]. set (z := c :: l) in *.
  assert (EZ : exists c0 l0, firstn (N.to_nat rem) z = c0 :: l0) by (destruct (N.to_nat rem) eqn:E; [lia|cbn; eauto]). destruct EZ as (c0 & l0 & EZ).
  set (k := N.to_nat (N.min (N.of_nat n) rem)). intros [= <- <-]. cbn [fullb br_consume br_buf].
  assert (EF : firstn k (firstn (N.to_nat rem) z) = firstn k z) by (rewrite firstn_firstn; f_equal; lia).
  assert (LK : length (firstn k z) = k) by (rewrite firstn_length; lia).
  split; [rewrite EB, LK, skipn_length; lia|]. rewrite EZ, <- EZ, EF. unfold br_consume. cbn [br_buf br_cap br_src]. rewrite ?EB, LK, EZ, <- EZ.
  cbn [cutb br_buf br_cap br_src]. rewrite skipn_firstn_comm. f_equal. f_equal. f_equal. f_equal. lia.
Qed.
Lemma cut_poll ev n r r' x : fullr r -> rdr_poll ev n r = (r', x) -> fullr r' /\ rdr_poll ev n (cutr r) = (cutr r', x).
Proof.
  destruct r as [s|b]; [intros []|]. cbn [fullr rdr_poll cutr]. intros L. destruct (body_read ev n b) as [b1 y] eqn:E. intros [= <- <-].
  destruct (cut_read _ _ _ _ _ L E) as [L1 ->]. auto.
Qed.
Lemma cut_fill ev r r' x : fullr r -> rdr_fill ev r = (r', x) -> fullr r' /\ rdr_fill ev (cutr r) = (cutr r', x).
Proof.
  destruct r as [s|[rem b|]]; try (intros []; fail). cbn [fullr fullb rdr_fill cutr cutb]. unfold take_fill. intros L.
  destruct (N.eqb_spec rem 0) as [->|NZ]; [now intros [= <- <-]|]. unfold br_fill. cbn [br_buf br_cap br_src].
  destruct (br_buf b) as [|c l] eqn:EB; [cbn in L; lia|]. set (z := c :: l) in *.
  assert (EZ : exists c0 l0, firstn (N.to_nat rem) z = c0 :: l0) by (destruct (N.to_nat rem) eqn:E; [lia|cbn; eauto]). destruct EZ as (c0 & l0 & EZ).
  intros [= <- <-]. cbn [fullr fullb cutr cutb]. rewrite EB. split; [exact L|]. rewrite EZ, <- EZ. do 2 f_equal. rewrite firstn_firstn, firstn_length.
  apply (f_equal (fun k => firstn k z)). change (Datatypes.length z) with (S (length l)) in *. lia.
Qed.
Lemma cut_consume k r : fullr r -> fullr (rdr_consume k r) /\ rdr_consume k (cutr r) = cutr (rdr_consume k r).
Proof.
  destruct r as [s|[rem b|]]; try (intros []; fail). cbn [fullr fullb rdr_consume cutr cutb]. unfold take_consume, br_consume. cbn [fullr fullb cutb br_buf br_cap br_src].
  intros L. rewrite skipn_length. split; [lia|]. rewrite skipn_firstn_comm. do 3 f_equal. apply (f_equal (fun k => firstn k _)). lia.
Qed.

(** ** The encoder of a response that carries it *)
Definition cute (e : renc) : renc :=
  mkRenc (y_with (rn_resp e) (cutr (y_rdr (rn_resp e)))) (rn_state e) (rn_head e) (rn_headread e) (rn_bodyread e) (rn_chunked e).
Definition fulle (e : renc) : Prop := fullr (y_rdr (rn_resp e)).

Lemma cut_chunks ev dbg st r n st' r' x : fullr r -> rcenc_poll ev dbg st r n = (st', r', x) -> fullr r' /\ rcenc_poll ev dbg st (cutr r) n = (st', cutr r', x).
Proof.
  intros L. assert (CH : forall st0, forall st' r' x, rcenc_chunks ev dbg st0 r n = (st', r', x) -> fullr r' /\ rcenc_chunks ev dbg st0 (cutr r) n = (st', cutr r', x)).
  { intros st0 st1 r1 x1. unfold rcenc_chunks. destruct (rdr_fill ev r) as [r2 y] eqn:E. destruct (cut_fill _ _ _ _ L E) as [L2 ->].
    destruct y as [[|c d]|f| | |]; try (intros [= <- <- <-]; auto).
    - destruct (cset dbg st0 CEndOfChunks); [|intros [= <- <- <-]; auto]. destruct (cenc_chunks_eos _ _ _). intros [= <- <- <-]. auto.
    - cbv zeta. destruct (_ <=? _)%nat; [intros [= <- <- <-]; auto|]. destruct (_ <=? _)%nat; [|intros [= <- <- <-]; auto].
      intros [= <- <- <-]. destruct (cut_consume (Nat.min (Nat.min (length (c :: d)) n) (n - (e_hexlen ev (Nat.min (length (c :: d)) n) + 4))) r2 L2) as [L3 E3]. split; [exact L3|]. now rewrite E3. }
  unfold rcenc_poll. destruct st; auto.
  - destruct (cset dbg CStart CChunks); [apply CH|intros [= <- <- <-]; auto].
  - destruct (cenc_chunks_eos _ _ _). intros [= <- <- <-]. auto.
  - destruct (cenc_trailers _ _ _ _). intros [= <- <- <-]. auto.
  - destruct (cenc_trailers _ _ _ _). intros [= <- <- <-]. auto.
  - destruct (cenc_eos _ _ _ _). intros [= <- <- <-]. auto.
  - intros [= <- <- <-]. auto.
Qed.
Lemma cut_fixed ev n : forall fuel e out e' x, fulle e -> renc_fixed fuel ev e out n = (e', x) -> fulle e' /\ renc_fixed fuel ev (cute e) out n = (cute e', x).
Proof.
  induction fuel as [|f IH]; intros e out e' x L; cbn [renc_fixed]; [intros [= <- <-]; auto|].
  destruct (length out =? n)%nat; [intros [= <- <-]; auto|]. change (rn_cl (cute e)) with (rn_cl e). destruct (rn_cl e) as [cl|]; [|intros [= <- <-]; auto].
  change (rn_bodyread (cute e)) with (rn_bodyread e). destruct (upper_arith _ _ _ _); [|intros [= <- <-]; auto]. cbv zeta. destruct (_ <? _)%nat; [intros [= <- <-]; auto|].
  destruct (rdr_poll ev _ (y_rdr (rn_resp e))) as [r1 y] eqn:E. destruct (cut_poll _ _ _ _ _ L E) as [L1 E1].
  change (y_rdr (rn_resp (cute e))) with (cutr (y_rdr (rn_resp e))). rewrite E1. destruct y as [d|fi| | |]; try (intros [= <- <-]; auto).
  change (rn_state (cute e)) with (rn_state e). destruct (cl =? _)%N; [intros [= <- <-]; auto|].
  intros H. apply IH in H; [|exact L1]. exact H.
Qed.
Lemma cut_chunked ev n e out e' x : fulle e -> renc_chunked ev e out n = (e', x) -> fulle e' /\ renc_chunked ev (cute e) out n = (cute e', x).
Proof.
  unfold renc_chunked. intros L. destruct (rcenc_poll _ _ _ _ _) as [[c' s'] r] eqn:E. destruct (cut_chunks _ _ _ _ _ _ _ _ L E) as [L1 E1].
  change (rn_chunked (cute e)) with (rn_chunked e). change (y_rdr (rn_resp (cute e))) with (cutr (y_rdr (rn_resp e))). rewrite E1. intros [= <- <-]. auto.
Qed.
Lemma cut_head fuel ev n e e' x : fulle e -> renc_head fuel ev e n = (e', x) -> fulle e' /\ renc_head fuel ev (cute e) n = (cute e', x).
Proof.
  unfold renc_head. intros L. cbn [cute rn_head rn_headread]. change (rn_cl (cute e)) with (rn_cl e). destruct (_ =? _)%nat; [|intros [= <- <-]; auto].
  destruct (rn_cl e); intros H; [apply cut_fixed in H|apply cut_chunked in H]; auto.
Qed.
Lemma cut_enc fuel ev n e e' x : fulle e -> renc_poll fuel ev n e = (e', x) -> fulle e' /\ renc_poll fuel ev n (cute e) = (cute e', x).
Proof.
  unfold renc_poll. intros L. change (rn_state (cute e)) with (rn_state e). destruct (rn_state e).
  - unfold renc_start. intros H. apply cut_head in H; auto.
  - now apply cut_head.
  - now apply cut_fixed.
  - now apply cut_chunked.
  - intros [= <- <-]. auto.
Qed.
Lemma cut_copy fuel ev : forall f e bb w amt e' w' x, fulle e -> copy_st (renc_poll fuel ev (e_bufcap ev)) f e bb w amt = (e', w', x) ->
  fulle e' /\ copy_st (renc_poll fuel ev (e_bufcap ev)) f (cute e) bb w amt = (cute e', w', x).
Proof.
  induction f as [|f IH]; intros e bb w amt e' w' x L; cbn [copy_st]; [intros [= <- <- <-]; auto|]. destruct bb as [|c bb].
  - destruct (renc_poll fuel ev (e_bufcap ev) e) as [e1 y] eqn:E. destruct (cut_enc _ _ _ _ _ _ L E) as [L1 ->].
    destruct y as [[|c d]|fi| | |]; try (now apply IH); try (intros [= <- <- <-]; auto).
    destruct (w_flush w) as [w1 [k|k|]]; try (intros [= <- <- <-]; auto). now apply IH.
  - destruct (w_write (c :: bb) w) as [w1 [[|k]|k|]]; try (intros [= <- <- <-]; auto); now apply IH.
Qed.
Lemma cut_relay fuel ev st v hs len b w b' w' x : fullb b -> relay_body fuel ev st v hs len b w = (b', w', x) ->
  fullb b' /\ relay_body fuel ev st v hs len (cutb b) w = (cutb b', w', x).
Proof.
  unfold relay_body. intros L. destruct (copy_st _ _ _ _ _ _) as [[e' w1] y] eqn:E. destruct (cut_copy _ _ _ _ _ _ _ _ _ _ (L : fulle (renc_new (mkRel st v hs len (RMsg b)))) E) as [L1 E1].
  change (renc_new (mkRel st v hs len (RMsg (cutb b)))) with (cute (renc_new (mkRel st v hs len (RMsg b)))). rewrite E1. unfold fulle in L1. cbn [cute rn_resp y_rdr y_with].
  destruct (y_rdr (rn_resp e')) as [s|b1]; [destruct L1|]. intros [= <- <- <-]. auto.
Qed.

(** ** Handlers *)
Lemma cut_reading ev {A} : forall fuel (p : reading A) b b' x, fullb b -> run_reading fuel ev p b = (b', x) -> fullb b' /\ run_reading fuel ev p (cutb b) = (cutb b', x).
Proof.
  induction fuel as [|f IH]; intros p b b' x L; destruct p as [n k|a]; cbn [run_reading]; try (intros [= <- <-]; auto; fail).
  destruct (body_read ev n b) as [b1 r] eqn:E. destruct (cut_read _ _ _ _ _ L E) as [L1 ->]. destruct r; try (intros [= <- <-]; auto; fail); now apply IH.
Qed.
Lemma cut_handler fuel ev p b w b' w' x : fullb b -> run_handler fuel ev p b w = (b', w', x) -> fullb b' /\ run_handler fuel ev p (cutb b) w = (cutb b', w', x).
Proof.
  unfold run_handler. intros L. destruct (run_reading fuel ev p b) as [b1 y] eqn:E. destruct (cut_reading ev _ _ _ _ _ L E) as [L1 ->].
  destruct y as [[g|r kok kerr|st v hs len kok kerr]|y]; try (intros [= <- <- <-]; auto; fail).
  - destruct (send fuel ev r w) as [w1 [k| | | |]]; try (intros [= <- <- <-]; auto; fail).
    + destruct (run_reading fuel ev (kok k) b1) as [b2 z] eqn:E2. destruct (cut_reading ev _ _ _ _ _ L1 E2) as [L2 ->]. intros [= <- <- <-]. auto.
    + destruct (run_reading fuel ev kerr b1) as [b2 z] eqn:E2. destruct (cut_reading ev _ _ _ _ _ L1 E2) as [L2 ->]. destruct z; intros [= <- <- <-]; auto.
  - destruct (relay_body fuel ev st v hs len b1 w) as [[b2 w1] z] eqn:E2. destruct (cut_relay _ _ _ _ _ _ _ _ _ _ _ L1 E2) as [L2 ->]. destruct z; intros [= <- <- <-]; auto.
Qed.

(** ** One turn *)
Lemma lost_turn ev o h w p more l2 tl wt c v fuel : (length (w ++ p ++ more) <= e_bufcap ev)%nat -> head_block w -> judged ev w c v ->
  (forall m u hs len, v = SpecReq.Accept m u hs len -> len = Some (N.of_nat (length p))) ->
  turn fuel ev o h (mkSrc (Data (w ++ p ++ more) :: l2) tl) wt = turn fuel ev o h (mkSrc (Data (w ++ p) :: l2) tl) wt.
Proof.
  intros Hl HB J HV. unfold turn, decode. rewrite (head_one_segment ev (o_timeout o) w (p ++ more) l2 tl Hl HB).
  rewrite (head_one_segment ev (o_timeout o) w p l2 tl) by (auto; rewrite !app_length in *; lia).
  pose proof (judge_parse ev w c v J) as JP. destruct (parse_head ev w) as [f|[[m path] a]]; [reflexivity|]. destruct JP as [_ JP].
  set (b1 := mkBrd (e_bufcap ev) (p ++ more) (mkSrc l2 tl)). set (b2 := mkBrd (e_bufcap ev) p (mkSrc l2 tl)).
  assert (K : (exists f, build_req ev m path a b1 = OFail f /\ build_req ev m path a b2 = OFail f) \/
              (exists q, build_req ev m path a b1 = OReq q (RFixed (N.of_nat (length p)) b1) /\
                         build_req ev m path a b2 = OReq q (RFixed (N.of_nat (length p)) b2))).
  { pose proof (JP b1) as J1. clear JP. unfold build_req in *. destruct (negb (h_hashost a)); [left; eauto|].
    destruct (parse_uri (e_uri ev) path) as [u|]; [|left; eauto]. right.
    destruct v as [code|m' u' hs len]; [destruct J1 as (f & Q & _); discriminate|]. destruct J1 as (h' & Q & _).
    rewrite (HV _ _ _ _ eq_refl) in Q. destruct (h_te a && h_chunked a); [discriminate|]. cbn [body_reader] in Q. injection Q as _ _ _ EL _. rewrite EL. eauto. }
  assert (R : forall q wx, match run_handler fuel ev (h q) (RFixed (N.of_nat (length p)) b1) wx with
      | (b', w', inr x) => (body_src b', w', Some x) | (b', w', inl None) => (body_src b', w', None)
      | (b', w', inl (Some g)) => let (w'', x) := send_ignored fuel ev (glitch_response (o_verbose o) g) w' in (body_src b', w'', x) end =
      match run_handler fuel ev (h q) (RFixed (N.of_nat (length p)) b2) wx with
      | (b', w', inr x) => (body_src b', w', Some x) | (b', w', inl None) => (body_src b', w', None)
      | (b', w', inl (Some g)) => let (w'', x) := send_ignored fuel ev (glitch_response (o_verbose o) g) w' in (body_src b', w'', x) end).
  { intros q wx. destruct (run_handler fuel ev (h q) (RFixed (N.of_nat (length p)) b1) wx) as [[b' w'] y] eqn:E.
    apply cut_handler in E; [|cbn; rewrite app_length; lia]. destruct E as [F E]. cbn [cutb b1 br_cap br_buf br_src] in E.
    rewrite Nat2N.id, firstn_app, Nat.sub_diag, firstn_O, app_nil_r, firstn_all in E. fold b2 in E. rewrite E.
    assert (SR : body_src (cutb b') = body_src b') by (destruct b'; reflexivity). rewrite SR. reflexivity. }
  destruct (expects_continue a); [destruct (write_all (o_timeout o) continue_text wt) as [w1 [u| | | |]]; try reflexivity|];
    destruct K as [(f & -> & ->)|(q & -> & ->)]; try apply R; reflexivity.
Qed.
Lemma lost ev o h w p more l2 tl wt c v n fuel : (length (w ++ p ++ more) <= e_bufcap ev)%nat -> head_block w -> judged ev w c v ->
  (forall m u hs len, v = SpecReq.Accept m u hs len -> len = Some (N.of_nat (length p))) ->
  accept_go (S n) fuel ev o h (mkSrc (Data (w ++ p ++ more) :: l2) tl) wt = accept_go (S n) fuel ev o h (mkSrc (Data (w ++ p) :: l2) tl) wt.
Proof. intros Hl HB J HV. cbn [accept_go]. now rewrite (lost_turn ev o (h O) w p more l2 tl wt c v fuel Hl HB J HV). Qed.
