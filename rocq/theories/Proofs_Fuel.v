(** The fuel of the connection loop bounds what is computed and nothing else: an outcome reached
    with some fuel is the outcome with any more of it. *)
From Verif Require Import Accept Lemmas Proofs_ServerEnc Proofs_Relay Proofs_Echo Proofs_ClientUse.

Lemma reading_fuel {A} ev : forall f f' (p : reading A) b b' x, (f <= f')%nat -> run_reading f ev p b = (b', x) -> x <> inr AFuel -> run_reading f' ev p b = (b', x).
Proof.
  induction f as [|f IH]; intros f' [n k|a] b b' x L E N; cbn [run_reading] in E.
  - injection E as _ <-. congruence.
  - destruct f'; exact E.
  - destruct f' as [|f']; [lia|]. cbn [run_reading]. destruct (body_read ev n b) as [b1 [d|fi| | |]]; try exact E; eapply IH; eauto; lia.
  - destruct f'; exact E.
Qed.

Lemma handler_fuel ev f f' p b w b' w' x : (f <= f')%nat -> run_handler f ev p b w = (b', w', x) -> x <> inr AFuel -> run_handler f' ev p b w = (b', w', x).
Proof.
  intros L. unfold run_handler. destruct (run_reading f ev p b) as [b1 y] eqn:R. intros E N.
  assert (NY : y <> inr AFuel) by (intros ->; injection E as _ _ <-; congruence).
  rewrite (reading_fuel ev f f' p b b1 y L R NY). destruct y as [[g|r kok kerr|s v hs len kok kerr]|z]; try exact E.
  - destruct (send f ev r w) as [w1 q] eqn:S.
    assert (NQ : q <> RFuel) by (intros ->; injection E as _ _ <-; congruence).
    rewrite (send_mono ev r w f f' w1 q L S NQ). destruct q as [k| | | |]; try exact E.
    + destruct (run_reading f ev (kok k) b1) as [b2 z] eqn:R2. injection E as <- <- <-. now rewrite (reading_fuel ev f f' _ _ _ _ L R2 N).
    + destruct (run_reading f ev kerr b1) as [b2 z] eqn:R2. assert (NZ : z <> inr AFuel) by (intros ->; injection E as _ _ <-; congruence).
      rewrite (reading_fuel ev f f' _ _ _ _ L R2 NZ). exact E.
  - destruct (relay_body f ev s v hs len b1 w) as [[b2 w1] q] eqn:S.
    assert (NQ : q <> RFuel) by (intros ->; injection E as _ _ <-; congruence).
    now rewrite (relay_body_mono ev s v hs len b1 w f f' b2 w1 q L S NQ).
Qed.
Lemma ignored_fuel ev f f' r w w' x : (f <= f')%nat -> send_ignored f ev r w = (w', x) -> x <> Some AFuel -> send_ignored f' ev r w = (w', x).
Proof.
  intros L. unfold send_ignored. destruct (send f ev r w) as [w1 q] eqn:S. intros E N.
  assert (NQ : q <> RFuel) by (intros ->; injection E as _ <-; congruence). now rewrite (send_mono ev r w f f' w1 q L S NQ).
Qed.
Lemma turn_fuel ev f f' o h s w s' w' x : (f <= f')%nat -> turn f ev o h s w = (s', w', x) -> x <> Some AFuel -> turn f' ev o h s w = (s', w', x).
Proof.
  intros L. unfold turn. destruct (decode ev (o_timeout o) s w) as [[s1 w1] [q b| |e| |]]; try easy.
  - destruct (run_handler f ev (h q) b w1) as [[b2 w2] y] eqn:R. intros E N.
    assert (NY : y <> inr AFuel) by (intros ->; injection E as _ _ <-; congruence). rewrite (handler_fuel ev f f' _ _ _ _ _ _ L R NY).
    destruct y as [[g|]|z]; try exact E. destruct (send_ignored f ev _ w2) as [w3 z] eqn:S. injection E as <- <- <-. now rewrite (ignored_fuel ev f f' _ _ _ _ L S N).
  - unfold handle_fail. destruct (fail_response e) as [r|]; [|easy]. destruct (send_ignored f ev r w1) as [w3 z] eqn:S. intros E N.
    assert (NZ : z <> Some AFuel) by (intros ->; injection E as _ _ <-; congruence). now rewrite (ignored_fuel ev f f' _ _ _ _ L S NZ).
Qed.

(** Servers ... *)
Theorem accept_fuel ev f f' o : (f <= f')%nat -> forall n n' h s w s' w' a, (n <= n')%nat ->
  accept_go n f ev o h s w = (s', w', a) -> a <> AFuel -> accept_go n' f' ev o h s w = (s', w', a).
Proof.
  intros L. induction n as [|n IH]; intros n' h s w s' w' a Ln E N; cbn [accept_go] in E; [injection E as _ _ <-; congruence|].
  destruct n' as [|n']; [lia|]. cbn [accept_go]. destruct (turn f ev o (h O) s w) as [[s1 w1] x] eqn:T.
  assert (NX : x <> Some AFuel) by (intros ->; injection E as _ _ <-; congruence). rewrite (turn_fuel ev f f' _ _ _ _ _ _ _ L T NX).
  destruct x as [y|]; [exact E|]. eapply IH; eauto. lia.
Qed.
(** ... so a connection has at most one outcome. *)
Corollary accept_one ev f1 f2 n1 n2 o h s w : snd (accept_go n1 f1 ev o h s w) <> AFuel -> snd (accept_go n2 f2 ev o h s w) <> AFuel ->
  accept_go n1 f1 ev o h s w = accept_go n2 f2 ev o h s w.
Proof.
  intros N1 N2. destruct (accept_go n1 f1 ev o h s w) as [[s1 w1] a1] eqn:E1, (accept_go n2 f2 ev o h s w) as [[s2 w2] a2] eqn:E2. cbn in N1, N2.
  apply (accept_fuel ev f1 (f1 + f2) o ltac:(lia) n1 (n1 + n2)) in E1; [|lia|exact N1].
  apply (accept_fuel ev f2 (f1 + f2) o ltac:(lia) n2 (n1 + n2)) in E2; [|lia|exact N2]. congruence.
Qed.
Print Assumptions accept_fuel.
Print Assumptions accept_one.
