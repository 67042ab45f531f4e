(** Handing on the body of a request: what [relay_body] leaves behind. *)
From Verif Require Import Accept SpecServer Lemmas Proofs_Copy.

Lemma copy_st_go {E} (poll : E -> E * pres bytes) : forall fuel e bb w amt,
  copy_go poll fuel e bb w amt = (snd (fst (copy_st poll fuel e bb w amt)), snd (copy_st poll fuel e bb w amt)).
Proof.
  induction fuel as [|f IH]; intros e bb w amt; [reflexivity|]. cbn [copy_go copy_st]. destruct bb as [|c bb].
  - destruct (poll e) as [e' [[|c d]|fi| | |]]; auto. destruct (w_flush w) as [w' [k|fi|]]; auto.
  - destruct (w_write (c :: bb) w) as [w' [[|k]|fi|]]; auto.
Qed.

(** What the body's reader keeps to, the encoder keeps to. *)
Section RInv.
  Variable ev : env.
  Variable P : rbody -> Prop.
  Definition at_msg (r : reader) : Prop := match r with RMsg b => P b | RSrc _ => False end.
  Hypothesis HR : forall n b b' r, body_read ev n b = (b', r) -> P b -> P b'.
  Hypothesis HF : forall r r' x, rdr_fill ev r = (r', x) -> at_msg r -> at_msg r'.
  Hypothesis HC : forall k r, at_msg r -> at_msg (rdr_consume k r).

  Lemma inv_poll n r r' x : rdr_poll ev n r = (r', x) -> at_msg r -> at_msg r'.
  Proof. destruct r as [s|b]; [intros _ []|]. cbn [rdr_poll]. destruct (body_read ev n b) as [b' y] eqn:E. intros [= <- <-] K. exact (HR _ _ _ _ E K). Qed.
  Lemma inv_rchunks dbg st r n st' r' x : rcenc_chunks ev dbg st r n = (st', r', x) -> at_msg r -> at_msg r'.
  Proof.
    unfold rcenc_chunks. destruct (rdr_fill ev r) as [r1 y] eqn:E. intros H K. pose proof (HF _ _ _ E K) as K1.
    destruct y as [[|c d]|f| | |]; try (injection H as <- <- <-; exact K1).
    - destruct (cset dbg st CEndOfChunks) as [st1|]; [|injection H as <- <- <-; exact K1].
      destruct (cenc_chunks_eos dbg st1 n). injection H as <- <- <-. exact K1.
    - cbv zeta in H. destruct (_ <=? _)%nat; [injection H as <- <- <-; exact K1|].
      destruct (_ <=? _)%nat; injection H as <- <- <-; auto.
  Qed.
  Lemma inv_rcenc dbg st r n st' r' x : rcenc_poll ev dbg st r n = (st', r', x) -> at_msg r -> at_msg r'.
  Proof.
    unfold rcenc_poll. destruct st.
    - destruct (cset dbg CStart CChunks); [apply inv_rchunks|now intros [= <- <- <-]].
    - apply inv_rchunks.
    - destruct (cenc_chunks_eos dbg CEndOfChunks n). now intros [= <- <- <-].
    - destruct (cenc_trailers dbg CReceive [] n). now intros [= <- <- <-].
    - destruct (cenc_trailers dbg CTrailers [] n). now intros [= <- <- <-].
    - destruct (cenc_eos dbg CEndOfStream [] n). now intros [= <- <- <-].
    - now intros [= <- <- <-].
  Qed.
  Definition at_enc (e : renc) : Prop := at_msg (y_rdr (rn_resp e)).
  Lemma inv_renc_fixed : forall fuel e out n e' x, renc_fixed fuel ev e out n = (e', x) -> at_enc e -> at_enc e'.
  Proof.
    unfold at_enc. induction fuel as [|f IH]; intros e out n e' x H K; cbn [renc_fixed] in H; [injection H as <- <-; exact K|].
    destruct (_ =? _)%nat; [injection H as <- <-; exact K|]. destruct (rn_cl e) as [cl|]; [|injection H as <- <-; exact K].
    destruct (upper_arith _ _ _ _) as [u|]; [|injection H as <- <-; exact K]. cbv zeta in H.
    destruct (_ <? _)%nat; [injection H as <- <-; exact K|].
    destruct (rdr_poll ev _ (y_rdr (rn_resp e))) as [r1 y] eqn:E. apply inv_poll in E; [|exact K].
    destruct y as [d|fi| | |]; try (injection H as <- <-; assumption).
    destruct (cl =? _)%N; [injection H as <- <-; exact E|]. eapply IH; [exact H|exact E].
  Qed.
  Lemma inv_renc_chunked e out n e' x : renc_chunked ev e out n = (e', x) -> at_enc e -> at_enc e'.
  Proof.
    unfold at_enc, renc_chunked. destruct (rcenc_poll _ _ _ _ _) as [[c' s'] r] eqn:E. intros [= <- _] K. exact (inv_rcenc _ _ _ _ _ _ _ E K).
  Qed.
  Lemma inv_renc_head fuel e n e' x : renc_head fuel ev e n = (e', x) -> at_enc e -> at_enc e'.
  Proof.
    unfold renc_head. cbv zeta. destruct (_ =? _)%nat; [|intros [= <- _]; auto].
    destruct (rn_cl e); intros H K; [eapply inv_renc_fixed in H|eapply inv_renc_chunked in H]; exact H || exact K.
  Qed.
  Lemma inv_renc fuel n e e' x : renc_poll fuel ev n e = (e', x) -> at_enc e -> at_enc e'.
  Proof.
    unfold renc_poll. destruct (rn_state e).
    - unfold renc_start. intros H K. eapply inv_renc_head in H; [exact H|exact K].
    - apply inv_renc_head.
    - apply inv_renc_fixed.
    - apply inv_renc_chunked.
    - intros [= <- _]; auto.
  Qed.
  Lemma inv_copy fuel : forall g e bb w amt e' w' x, copy_st (renc_poll fuel ev (e_bufcap ev)) g e bb w amt = (e', w', x) -> at_enc e -> at_enc e'.
  Proof.
    induction g as [|g IH]; intros e bb w amt e' w' x H K; cbn [copy_st] in H; [injection H as <- <- <-; exact K|].
    destruct bb as [|c bb].
    - destruct (renc_poll _ _ _ e) as [e1 y] eqn:E. apply inv_renc in E; [|exact K].
      destruct y as [[|c d]|fi| | |]; try (injection H as <- <- <-; exact E); eauto.
      destruct (w_flush w) as [w1 [k|fi|]]; try (injection H as <- <- <-; exact E); eauto.
    - destruct (w_write (c :: bb) w) as [w1 [[|k]|fi|]]; try (injection H as <- <- <-; exact K); eauto.
  Qed.
  Lemma inv_relay fuel st v hs len b w b' w' x : relay_body fuel ev st v hs len b w = (b', w', x) -> P b -> P b'.
  Proof.
    unfold relay_body. destruct (copy_st _ _ _ _ _ _) as [[e w1] r] eqn:E. intros [= <- _ _] K. apply inv_copy in E; [|exact K].
    unfold at_enc, at_msg in E. destruct (y_rdr (rn_resp e)); [destruct E|exact E].
  Qed.
End RInv.

Lemma relay_body_relay fuel ev st v hs len b w b' w' x : relay_body fuel ev st v hs len b w = (b', w', x) ->
  relay fuel ev (mkRel st v hs len (RMsg b)) w = (w', x).
Proof. unfold relay_body, relay. rewrite copy_st_go. destruct (copy_st _ _ _ _ _ _) as [[e w1] r]. now intros [= _ <- <-]. Qed.
