(** [io::copy] (Io.v) in terms of the complete run of the reader being copied. *)
From Verif Require Import Lemmas.

Inductive endk := KOk | KErr | KPanic | KFuel.

(** [run poll e O k]: polling [e] again and again yields exactly the bytes [O] and then
    ends as [k]. *)
Inductive run {E : Type} (poll : E -> E * pres bytes) : E -> bytes -> endk -> Prop :=
| run_done e e' : poll e = (e', POk []) -> poll e' = (e', POk []) -> run poll e [] KOk
| run_out e e' b O k : poll e = (e', POk b) -> b <> [] -> run poll e' O k -> run poll e (b ++ O) k
| run_pend e e' f O k : poll e = (e', PPend f) -> run poll e' O k -> run poll e O k
| run_err e e' : poll e = (e', PErr) -> run poll e [] KErr
| run_panic e e' : poll e = (e', PPanic) -> run poll e [] KPanic
| run_fuel e e' : poll e = (e', PFuel) -> run poll e [] KFuel.

Definition kres (k : endk) (amt : N) : rres N :=
  match k with KOk => ROk amt | KErr => RErr | KPanic => RPanic | KFuel => RFuel end.

Section C.
  Context {E : Type} (poll : E -> E * pres bytes).

  Lemma copy_drain m : forall bb w e amt,
    (length bb + length (w_evs w) <= m)%nat ->
    (exists c w2, (forall fuel, copy_go poll (c + fuel) e bb w amt
                                = copy_go poll fuel e [] w2 (amt + N.of_nat (length bb)))
                  /\ w_out w2 = w_out w ++ bb /\ (accepting w -> accepting w2)
                  /\ (length (w_evs w2) <= length (w_evs w))%nat) \/
    (exists c w2 p, (forall fuel, copy_go poll (c + fuel) e bb w amt = (w2, RErr))
                    /\ prefix p bb /\ w_out w2 = w_out w ++ p /\ ~ accepting w).
  Proof.
    induction m as [|m IH]; intros bb w e amt Hm.
    - destruct bb; [|cbn in Hm; lia]. left. exists 0%nat, w. cbn [length N.of_nat].
      rewrite N.add_0_r, app_nil_r. auto.
    - destruct bb as [|c0 bb0]; [left; exists 0%nat, w; cbn [length N.of_nat]; rewrite N.add_0_r, app_nil_r; auto|].
      set (bb := c0 :: bb0) in *.
      assert (Hbb : bb <> []) by discriminate.
      assert (Hlen : (0 < length bb)%nat) by (cbn; lia).
      destruct (w_evs w) as [|we wr] eqn:EW.
      + left. exists 1%nat, (Wtr [] (w_out w ++ bb) (w_flushed w)).
        split; [|cbn; repeat split; auto; try constructor; lia].
        intros fuel. change (1 + fuel)%nat with (S fuel). cbn [copy_go].
        unfold bb at 1. fold bb. unfold w_write. rewrite EW.
        destruct (length bb) eqn:L; [lia|]. rewrite <- L, skipn_all. reflexivity.
      + destruct we as [k|f|].
        * destruct (Nat.min k (length bb)) as [|j] eqn:K.
          { right. exists 1%nat, (Wtr wr (w_out w ++ []) (w_flushed w)), []. split; [|split; [apply prefix_nil|split; [reflexivity|]]].
            - intros fuel. change (1 + fuel)%nat with (S fuel). cbn [copy_go].
              unfold bb at 1. fold bb. unfold w_write. rewrite EW, K. reflexivity.
            - unfold accepting. rewrite EW. intros A. inversion A; subst. cbn in *. lia. }
          assert (Hstep : forall fuel, copy_go poll (S fuel) e bb w amt
                   = copy_go poll fuel e (skipn (S j) bb) (Wtr wr (w_out w ++ firstn (S j) bb) (w_flushed w)) (amt + N.of_nat (S j))).
          { intros fuel. cbn [copy_go]. unfold bb at 1. fold bb. unfold w_write. rewrite EW, K. reflexivity. }
          assert (Hj : (S j <= length bb)%nat) by lia.
          assert (Hacc : accepting w -> accepting (Wtr wr (w_out w ++ firstn (S j) bb) (w_flushed w))).
          { unfold accepting. rewrite EW. intros A; now inversion A. }
          destruct (IH (skipn (S j) bb) (Wtr wr (w_out w ++ firstn (S j) bb) (w_flushed w)) e (amt + N.of_nat (S j))%N) as [(c & w2 & R & O & A & L)|(c & w2 & p & R & P & O & A)].
          { cbn [w_evs]. rewrite skipn_length. cbn [length] in Hm. lia. }
          { left. exists (S c), w2. split; [|split; [|split]].
            - intros fuel. cbn [plus]. rewrite Hstep, R. f_equal. rewrite skipn_length. lia.
            - rewrite O. cbn [w_out]. now rewrite <- app_assoc, firstn_skipn.
            - auto.
            - cbn in *. lia. }
          { right. exists (S c), w2, (firstn (S j) bb ++ p). split; [|split; [|split]].
            - intros fuel. cbn [plus]. now rewrite Hstep, R.
            - rewrite (firstn_skipn_app (S j) bb) at 2. now apply prefix_app.
            - rewrite O. cbn [w_out]. now rewrite app_assoc.
            - auto. }
        * assert (Hstep : forall fuel, copy_go poll (S fuel) e bb w amt
                   = copy_go poll fuel e bb (Wtr wr (w_out w) (w_flushed w)) amt).
          { intros fuel. cbn [copy_go]. unfold bb at 1. fold bb. unfold w_write. now rewrite EW. }
          assert (Hacc : accepting w -> accepting (Wtr wr (w_out w) (w_flushed w))).
          { unfold accepting. rewrite EW. intros A; now inversion A. }
          destruct (IH bb (Wtr wr (w_out w) (w_flushed w)) e amt) as [(c & w2 & R & O & A & L)|(c & w2 & p & R & P & O & A)].
          { cbn [w_evs]. cbn [length] in Hm. lia. }
          { left. exists (S c), w2. split; [|split; [|split]]; auto.
            - intros fuel. cbn [plus]. now rewrite Hstep, R.
            - cbn in *. lia. }
          { right. exists (S c), w2, p. split; [|split; [|split]]; auto.
            intros fuel. cbn [plus]. now rewrite Hstep, R. }
        * right. exists 1%nat, (Wtr wr (w_out w) (w_flushed w)), []. split; [|split; [apply prefix_nil|split]].
          { intros fuel. change (1 + fuel)%nat with (S fuel). cbn [copy_go].
            unfold bb at 1. fold bb. unfold w_write. now rewrite EW. }
          { now rewrite app_nil_r. }
          { unfold accepting. rewrite EW. intros A. inversion A; subst. cbn in *. auto. }
  Qed.

  Lemma copy_flush e : poll e = (e, POk []) -> forall evs out fl amt,
    exists c w2 r, (forall fuel, copy_go poll (c + fuel) e [] (Wtr evs out fl) amt = (w2, r)) /\
      w_out w2 = out /\ (r = ROk amt \/ (r = RErr /\ ~ accepting (Wtr evs out fl))).
  Proof.
    intros Hp evs out fl amt. induction evs as [|we wr IH].
    - exists 1%nat, (Wtr [] out (length out)), (ROk amt). split; [|auto].
      intros fuel. change (1 + fuel)%nat with (S fuel). cbn [copy_go]. rewrite Hp. reflexivity.
    - destruct we as [k|f|].
      + exists 1%nat, (Wtr (WAcc k :: wr) out (length out)), (ROk amt). split; [|auto].
        intros fuel. change (1 + fuel)%nat with (S fuel). cbn [copy_go]. rewrite Hp. reflexivity.
      + destruct IH as (c & w2 & r & R & O & A).
        exists (S c), w2, r. split; [|split; auto].
        * intros fuel. cbn [plus copy_go]. rewrite Hp. cbn. apply R.
        * destruct A as [A|[A1 A2]]; [now left|]. right. split; [assumption|].
          intros X. apply A2. now inversion X.
      + exists 1%nat, (Wtr wr out fl), RErr. split; [|split; [reflexivity|]].
        * intros fuel. change (1 + fuel)%nat with (S fuel). cbn [copy_go]. rewrite Hp. reflexivity.
        * right. split; [reflexivity|]. intros X. inversion X; subst. auto.
  Qed.

  Theorem copy_run e O k : run poll e O k -> forall w amt,
    exists F w2 r p,
      (forall fuel, (F <= fuel)%nat -> copy_go poll fuel e [] w amt = (w2, r)) /\
      prefix p O /\ w_out w2 = w_out w ++ p /\
      ((r = kres k (amt + N.of_nat (length O)) /\ p = O) \/ (r = RErr /\ ~ accepting w)).
  Proof.
    induction 1 as [e e' P1 P2|e e' b O k P Hb R IH|e e' f O k P R IH|e e' P|e e' P|e e' P]; intros w amt.
    - destruct w as [evs out fl].
      destruct (copy_flush e' P2 evs out fl amt) as (c & w2 & r & HR & HO & HA).
      destruct evs as [|[kk|f|] wr].
      + exists 1%nat, (Wtr [] out (length out)), (ROk amt), []. split; [|split; [apply prefix_refl|]].
        * intros [|fuel] Hf; [lia|]. cbn [copy_go]. rewrite P1. reflexivity.
        * cbn [w_out length N.of_nat kres]. rewrite app_nil_r, N.add_0_r. auto.
      + exists 1%nat, (Wtr (WAcc kk :: wr) out (length out)), (ROk amt), []. split; [|split; [apply prefix_refl|]].
        * intros [|fuel] Hf; [lia|]. cbn [copy_go]. rewrite P1. reflexivity.
        * cbn [w_out length N.of_nat kres]. rewrite app_nil_r, N.add_0_r. auto.
      + destruct (copy_flush e' P2 wr out fl amt) as (c' & w3 & r' & HR' & HO' & HA').
        exists (S c'), w3, r', []. split; [|split; [apply prefix_refl|]].
        * intros [|fuel] Hf; [lia|]. cbn [copy_go]. rewrite P1. cbn.
          replace fuel with (c' + (fuel - c'))%nat by lia. apply HR'.
        * cbn [w_out length N.of_nat kres]. rewrite app_nil_r, N.add_0_r. split; [assumption|].
          destruct HA' as [->|[-> A]]; [auto|]. right. split; auto. intros X; apply A; now inversion X.
      + exists 1%nat, (Wtr wr out fl), RErr, []. split; [|split; [apply prefix_refl|]].
        * intros [|fuel] Hf; [lia|]. cbn [copy_go]. rewrite P1. reflexivity.
        * cbn [w_out]. rewrite app_nil_r. split; auto. right. split; auto. intros X; now inversion X.
    - destruct (copy_drain _ b w e' amt (le_n _)) as [(c & w2 & HR & HO & HA & HL)|(c & w2 & p & HR & HP & HO & HA)].
      + destruct (IH w2 (amt + N.of_nat (length b))%N) as (F & w3 & r & p & HR2 & HP2 & HO2 & HK).
        exists (S (c + F)), w3, r, (b ++ p). split; [|split; [|split]].
        * intros [|fuel] Hf; [lia|]. cbn [copy_go]. rewrite P. destruct b as [|b0 b1]; [congruence|].
          replace fuel with (c + (fuel - c))%nat by lia. rewrite HR. apply HR2. lia.
        * now apply prefix_app.
        * rewrite HO2, HO, app_assoc. reflexivity.
        * destruct HK as [[-> ->]|[-> A]].
          { left. split; [|reflexivity]. rewrite app_length, Nat2N.inj_add, N.add_assoc. reflexivity. }
          { right. split; auto. }
      + exists (S c), w2, RErr, p. split; [|split; [|split]].
        * intros [|fuel] Hf; [lia|]. cbn [copy_go]. rewrite P. destruct b as [|b0 b1]; [congruence|].
          replace fuel with (c + (fuel - c))%nat by lia. apply HR.
        * eapply prefix_trans; [exact HP|apply prefix_app_r].
        * assumption.
        * auto.
    - destruct (IH w amt) as (F & w3 & r & p & HR2 & HP2 & HO2 & HK).
      exists (S F), w3, r, p. split; [|auto].
      intros [|fuel] Hf; [lia|]. cbn [copy_go]. rewrite P. apply HR2. lia.
    - exists 1%nat, w, RErr, []. split; [|split; [apply prefix_refl|split; [now rewrite app_nil_r|auto]]].
      intros [|fuel] Hf; [lia|]. cbn [copy_go]. now rewrite P.
    - exists 1%nat, w, RPanic, []. split; [|split; [apply prefix_refl|split; [now rewrite app_nil_r|auto]]].
      intros [|fuel] Hf; [lia|]. cbn [copy_go]. now rewrite P.
    - exists 1%nat, w, RFuel, []. split; [|split; [apply prefix_refl|split; [now rewrite app_nil_r|auto]]].
      intros [|fuel] Hf; [lia|]. cbn [copy_go]. now rewrite P.
  Qed.
End C.
