(** Proofs about how far a response has got when the body's reader has nothing to offer yet. *)
From Verif Require Import ServerEnc SpecChunked SpecHead SpecResponse Lemmas Proofs_Copy Proofs_ServerEnc Proofs_Head Proofs_Send.

(** ** Partial runs of a poller *)
Inductive steps {E} (poll : E -> E * pres bytes) : E -> list bytes -> E -> Prop :=
| steps_nil e : steps poll e [] e
| steps_out e e1 d l e' : poll e = (e1, POk d) -> d <> [] -> steps poll e1 l e' -> steps poll e (d :: l) e'
| steps_pend e e1 f l e' : poll e = (e1, PPend f) -> steps poll e1 l e' -> steps poll e ([] :: l) e'.

Lemma steps_app {E} (poll : E -> E * pres bytes) e l e1 l2 e2 :
  steps poll e l e1 -> steps poll e1 l2 e2 -> steps poll e (l ++ l2) e2.
Proof. induction 1; intros H2; cbn [app]; [assumption|eapply steps_out; eauto|eapply steps_pend; eauto]. Qed.

Lemma drain_uniform m : forall bb w, (length bb + length (w_evs w) <= m)%nat -> accepting w ->
  exists c w2, w_out w2 = w_out w ++ bb /\ accepting w2 /\
    forall E (poll : E -> E * pres bytes) e amt fuel,
      exists amt', copy_go poll (c + fuel) e bb w amt = copy_go poll fuel e [] w2 amt'.
Proof.
  induction m as [|m IH]; intros bb w Hm Ha.
  - destruct bb; [|cbn in Hm; lia]. exists 0%nat, w. rewrite app_nil_r. ands; auto. intros. eexists. reflexivity.
  - destruct bb as [|c0 bb0]; [exists 0%nat, w; rewrite app_nil_r; ands; auto; intros; eexists; reflexivity|].
    set (bb := c0 :: bb0) in *.
    assert (Hlen : (0 < length bb)%nat) by (cbn; lia).
    destruct (w_evs w) as [|we wr] eqn:EW.
    + exists 1%nat, (Wtr [] (w_out w ++ bb) (w_flushed w)). split; [reflexivity|]. split; [constructor|].
      intros E poll e amt fuel. eexists. change (1 + fuel)%nat with (S fuel). cbn [copy_go].
      unfold bb at 1. fold bb. unfold w_write. rewrite EW.
      destruct (length bb) eqn:L; [lia|]. rewrite <- L, skipn_all. reflexivity.
    + unfold accepting in Ha. rewrite EW in Ha. inversion Ha as [|x l Hx Hl]; subst x l.
      destruct we as [k|f|]; cbn in Hx; [| |contradiction].
      * destruct (Nat.min k (length bb)) as [|j] eqn:K; [lia|].
        destruct (IH (skipn (S j) bb) (Wtr wr (w_out w ++ firstn (S j) bb) (w_flushed w))) as (c & w2 & O & A & R).
        { cbn [w_evs length] in *. rewrite skipn_length. lia. } { exact Hl. }
        exists (S c), w2. cbn [w_out] in O. ands; auto.
        { now rewrite O, <- app_assoc, firstn_skipn. }
        intros E poll e amt fuel. destruct (R E poll e (amt + N.of_nat (S j))%N fuel) as (a & R1). exists a. rewrite <- R1.
        change (S c + fuel)%nat with (S (c + fuel)). cbn [copy_go]. unfold bb at 1. fold bb. unfold w_write. rewrite EW, K. reflexivity.
      * destruct (IH bb (Wtr wr (w_out w) (w_flushed w))) as (c & w2 & O & A & R).
        { cbn [w_evs length] in *. lia. } { exact Hl. }
        exists (S c), w2. ands; auto.
        intros E poll e amt fuel. destruct (R E poll e amt fuel) as (a & R1). exists a. rewrite <- R1.
        change (S c + fuel)%nat with (S (c + fuel)). cbn [copy_go]. unfold bb at 1. fold bb. unfold w_write. rewrite EW. reflexivity.
Qed.

Lemma copy_steps outs : forall w, accepting w ->
  exists c w2, w_out w2 = w_out w ++ concat outs /\
    forall E (poll : E -> E * pres bytes) e e' amt fuel, steps poll e outs e' ->
      exists amt', copy_go poll (c + fuel) e [] w amt = copy_go poll fuel e' [] w2 amt'.
Proof.
  induction outs as [|d outs IH]; intros w Ha.
  - exists 0%nat, w. cbn. rewrite app_nil_r. split; [reflexivity|]. intros E poll e e' amt fuel S1. inversion S1; subst. eexists; reflexivity.
  - destruct (drain_uniform _ d w (le_n _) Ha) as (c1 & w1 & O1 & A1 & R1).
    destruct (IH w1 A1) as (c2 & w2 & O2 & R2).
    destruct d as [|d0 d1].
    + destruct (IH w Ha) as (c & w3 & O3 & R3). exists (S c), w3. split; [exact O3|].
      intros E poll e e' amt fuel S1. inversion S1; subst; [congruence|].
      destruct (R3 E poll e1 e' amt fuel) as (a & R); [assumption|]. exists a. rewrite <- R.
      change (S c + fuel)%nat with (S (c + fuel)). cbn [copy_go].
      match goal with H : poll e = _ |- _ => rewrite H end. reflexivity.
    + exists (S (c1 + c2)), w2. split; [rewrite O2, O1; cbn [concat]; now rewrite <- app_assoc|].
      intros E poll e e' amt fuel S1. inversion S1; subst.
      destruct (R1 E poll e1 amt (c2 + fuel)%nat) as (a1 & Q1).
      destruct (R2 E poll e1 e' a1 fuel) as (a2 & Q2); [assumption|]. exists a2. rewrite <- Q2, <- Q1.
      replace (S (c1 + c2) + fuel)%nat with (S (c1 + (c2 + fuel))) by lia. cbn [copy_go].
      match goal with H : poll e = _ |- _ => rewrite H end. reflexivity.
Qed.

Lemma copy_grows {E} (poll : E -> E * pres bytes) fuel : forall e bb w amt,
  prefix (w_out w) (w_out (fst (copy_go poll fuel e bb w amt))).
Proof.
  induction fuel as [|fuel IH]; intros e bb w amt; cbn [copy_go]; [apply prefix_refl|].
  destruct bb as [|c0 bb0].
  - destruct (poll e) as [e1 [[|d0 d1]|f| | |]]; try apply prefix_refl; try apply IH.
    unfold w_flush. destruct (w_evs w) as [|[k|f|] l]; try apply prefix_refl.
    specialize (IH e1 [] (Wtr l (w_out w) (w_flushed w)) amt). exact IH.
  - unfold w_write. destruct (w_evs w) as [|[k|f|] l].
    + cbn [length]. eapply prefix_trans; [|apply IH]. cbn [w_out]. apply prefix_app_r.
    + destruct (Nat.min k (length (c0 :: bb0))) as [|j].
      * cbn. rewrite app_nil_r. apply prefix_refl.
      * eapply prefix_trans; [|apply IH]. cbn [w_out]. apply prefix_app_r.
    + specialize (IH e (c0 :: bb0) (Wtr l (w_out w) (w_flushed w)) amt). exact IH.
    + apply prefix_refl.
Qed.

(** ** The encoder over a script that stops for a while *)
Definition waits (evs : list Io.ev) (f : bool) (rest : list Io.ev) (tail : rtail) : src := mkSrc (evs ++ Pend f :: rest) tail.
Definition ens (en : enc) (st : est) (br : N) (c : cest) (s : src) : enc :=
  mkEnc (set_src (en_resp en) s) st (en_head en) (en_headread en) br c.
Definition wf_evs (l : list Io.ev) : Prop := Forall wf_ev l.
Definition weight (out : bytes) : nat := match out with [] => 0 | _ => 1 end.
Definition cut (k : nat) (d : bytes) (l : list Io.ev) : list Io.ev := match skipn k d with [] => l | d' => Data d' :: l end.

Lemma cut_app k d l l2 : cut k d (l ++ l2) = cut k d l ++ l2.
Proof. unfold cut. now destruct (skipn k d). Qed.
Lemma cut_data k d l : evs_data (cut k d l) = skipn k d ++ evs_data l.
Proof. unfold cut. now destruct (skipn k d). Qed.
Lemma cut_size k d l : (0 < k)%nat -> d <> [] -> (evs_size (cut k d l) < evs_size (Data d :: l))%nat.
Proof.
  intros Hk Hd. unfold cut. destruct (skipn k d) eqn:E; cbn [evs_size]; [lia|]. rewrite <- E, skipn_length.
  destruct d; [congruence|cbn [length]; lia].
Qed.
Lemma cut_wf k d l : wf_evs l -> wf_evs (cut k d l).
Proof. unfold cut. intros H. destruct (skipn k d); [assumption|constructor; [discriminate|assumption]]. Qed.
Lemma cut_clean k d l : clean_evs l -> clean_evs (cut k d l).
Proof. unfold cut. intros H. destruct (skipn k d); [assumption|constructor; [discriminate|assumption]]. Qed.

Section Ch.
  Variable ev : env.
  Let n := e_bufcap ev.
  Hypothesis Hn : (7 <= n)%nat.
  Hypothesis Hn64 : (N.of_nat n < two64)%N.
  Hypothesis Hhex : hexlen_ok ev.

  Lemma cenc_data c d k : (c = CStart \/ c = CChunks) -> d <> [] -> (k <= n)%nat ->
    ((k < n)%nat /\ forall l tl, cenc_poll ev (e_ovf ev) c (mkSrc (Data d :: l) tl) k = (CChunks, mkSrc (Data d :: l) tl, POk [])) \/
    exists msg sl, (1 <= msg <= length d)%nat /\ plain_size_line (N.of_nat msg) sl /\
      forall l tl, cenc_poll ev (e_ovf ev) c (mkSrc (Data d :: l) tl) k
                   = (CChunks, mkSrc (cut msg d l) tl, POk (sl ++ firstn msg d ++ CRLF)).
  Proof.
    intros Hc Hd Hk.
    assert (E : forall s, cenc_poll ev (e_ovf ev) c s k = cenc_chunks ev (e_ovf ev) CChunks s k).
    { intros s. destruct Hc as [-> | ->]; cbn; [|reflexivity]. destruct (e_ovf ev); reflexivity. }
    assert (E2 : forall l tl, cenc_chunks ev (e_ovf ev) CChunks (mkSrc (Data d :: l) tl) k =
      let msg0 := Nat.min (length d) k in
      let framing := (e_hexlen ev msg0 + 4)%nat in
      let msg := Nat.min msg0 (k - framing) in
      if (k <=? framing)%nat then (CChunks, mkSrc (Data d :: l) tl, POk [])
      else let w := to_hex (N.of_nat msg) ++ CRLF ++ firstn msg d ++ CRLF in
           if (length w <=? k)%nat then (CChunks, mkSrc (cut msg d l) tl, POk w) else (CChunks, mkSrc (Data d :: l) tl, PPanic)).
    { intros l tl. unfold cenc_chunks, src_fill. cbn [s_evs s_tail]. destruct d as [|d0 d1]; [congruence|]. reflexivity. }
    destruct d as [|d0 d1]; [congruence|]. set (d := d0 :: d1) in *.
    set (msg0 := Nat.min (length d) k) in *. set (fr := (e_hexlen ev msg0 + 4)%nat) in *.
    destruct (k <=? fr)%nat eqn:Efr.
    - left. split.
      + destruct (Nat.lt_ge_cases k n) as [|Hge]; [assumption|exfalso].
        assert (k = n) by lia. subst k.
        assert (Hm : (1 <= msg0 <= e_bufcap ev)%nat) by (unfold msg0; fold n; cbn [d length]; lia).
        pose proof (Hhex msg0 Hm) as [_ HU].
        assert (length (to_hex (N.of_nat msg0)) <= length (to_hex (N.of_nat n)))%nat by (apply to_hex_mono; unfold msg0; lia).
        pose proof (to_hex_short n Hn Hn64). unfold fr in *. lia.
      + intros l tl. rewrite E, E2. cbv zeta. fold fr. now rewrite Efr.
    - right. set (msg := Nat.min msg0 (k - fr)) in *.
      assert (Hk5 : (5 <= k)%nat) by (unfold fr in *; lia).
      assert (Hm0 : (1 <= msg0 <= e_bufcap ev)%nat) by (unfold msg0; fold n; cbn [d length]; lia).
      assert (Hmsg : (1 <= msg <= length d)%nat) by (unfold msg, msg0 in *; lia).
      pose proof (Hhex msg0 Hm0) as [HL _].
      assert (HM : (length (to_hex (N.of_nat msg)) <= length (to_hex (N.of_nat msg0)))%nat) by (apply to_hex_mono; unfold msg; lia).
      assert (Hfl : length (firstn msg d) = msg) by (rewrite firstn_length; lia).
      exists msg, (to_hex (N.of_nat msg) ++ CRLF). split; [exact Hmsg|]. split.
      { exists (to_hex (N.of_nat msg)). ands; [apply to_hex_hexnum|apply to_hex_len; lia|reflexivity]. }
      intros l tl. rewrite E, E2. cbv zeta. fold fr. rewrite Efr. fold msg.
      match goal with |- context [(length ?W <=? k)%nat] => assert (HW : (length W <=? k)%nat = true) end.
      { rewrite !app_length, Hfl. cbn [CRLF length]. unfold fr, msg in *. lia. }
      rewrite HW. now rewrite <- !app_assoc.
  Qed.

  Lemma chunked_steps f m : forall en evs out c,
    (2 * evs_size evs + weight out < m)%nat -> wf_evs evs -> clean_evs evs -> (length out <= n)%nat ->
    (c = CStart \/ c = CChunks) ->
    exists outs cw, chunks plain_size_line (evs_data evs) cw /\ concat outs = out ++ cw /\
      forall F rest tl e, enc_poll F ev n e = enc_chunked ev (ens en EChunked (en_bodyread en) c (waits evs f rest tl)) out n ->
        exists e', steps (enc_poll F ev n) e outs e'.
  Proof.
    induction m as [|m IH]; intros en evs out c Hm Hw Hcl Ho Hc; [lia|].
    assert (Again : forall evs' out1, (2 * evs_size evs' < m)%nat -> wf_evs evs' -> clean_evs evs' ->
      exists outs cw, chunks plain_size_line (evs_data evs') cw /\ concat outs = out1 ++ cw /\
        forall F rest tl e, enc_poll F ev n e = (ens en EChunked (en_bodyread en) CChunks (waits evs' f rest tl),
                                    match out1 with [] => PPend f | _ => POk out1 end) ->
          exists e', steps (enc_poll F ev n) e outs e').
    { intros evs' out1 H1 H2 H3.
      destruct (IH en evs' [] CChunks) as (outs & cw & Q1 & Q2 & Q3); auto; [cbn; lia|cbn; lia|].
      exists (out1 :: outs), cw. split; [exact Q1|]. split; [cbn [concat]; now rewrite Q2|].
      intros F rest tl e He.
      destruct (Q3 F rest tl (ens en EChunked (en_bodyread en) CChunks (waits evs' f rest tl))) as (e' & S').
      { reflexivity. }
      exists e'. destruct out1; [eapply steps_pend; eauto|eapply steps_out; eauto; discriminate]. }
    assert (Pd : forall f' s c1, (c1 = CStart \/ c1 = CChunks) -> forall l tl, s = mkSrc (Pend f' :: l) tl ->
       enc_chunked ev (ens en EChunked (en_bodyread en) c1 s) out n =
       (ens en EChunked (en_bodyread en) CChunks (mkSrc l tl), match out with [] => PPend f' | _ => POk out end)).
    { intros f' s c1 H1 l tl ->. unfold enc_chunked. cbn [ens en_chunked en_resp set_src r_body b_src].
      assert (X : cenc_poll ev (e_ovf ev) c1 (mkSrc (Pend f' :: l) tl) (n - length out) = (CChunks, mkSrc l tl, PPend f')).
      { destruct H1 as [-> | ->]; cbn; [destruct (e_ovf ev)|]; reflexivity. }
      rewrite X. reflexivity. }
    destruct evs as [|[d|f'|] l].
    - exists [out], []. split; [constructor|]. split; [reflexivity|].
      intros F rest tl e He. unfold waits in He. cbn [app] in He. rewrite (Pd f _ c Hc rest tl eq_refl) in He.
      eexists. destruct out; [eapply steps_pend; [exact He|constructor]|eapply steps_out; [exact He|discriminate|constructor]].
    - assert (Hd : d <> []) by (inversion Hw; subst; intros ->; now unfold wf_ev in *).
      assert (Hw' : wf_evs l) by now inversion Hw.
      assert (Hcl' : clean_evs l) by now inversion Hcl.
      destruct (cenc_data c d (n - length out) Hc Hd ltac:(lia)) as [(L & HP)|(msg & sl & Hms & Hsl & HP)].
      + destruct out as [|o0 o1]; [cbn in L; lia|]. set (out := o0 :: o1) in *.
        destruct (Again (Data d :: l) out) as (outs & cw & Q1 & Q2 & Q3); auto.
        { cbn [weight out] in Hm. lia. }
        exists outs, cw. split; [exact Q1|]. split; [exact Q2|].
        intros F rest tl e He. apply (Q3 F rest tl). rewrite He. unfold enc_chunked, waits.
        cbn [ens en_chunked en_resp set_src r_body b_src app]. rewrite HP. cbv zeta iota.
        rewrite app_nil_r. reflexivity.
      + destruct (Again (cut msg d l) (out ++ sl ++ firstn msg d ++ CRLF)) as (outs & cw & Q1 & Q2 & Q3).
        { pose proof (cut_size msg d l ltac:(lia) Hd). lia. }
        { now apply cut_wf. } { now apply cut_clean. }
        exists outs, (sl ++ firstn msg d ++ CRLF ++ cw). split; [|split].
        * cbn [evs_data]. replace (d ++ evs_data l) with (firstn msg d ++ evs_data (cut msg d l)) by (now rewrite cut_data, app_assoc, firstn_skipn).
          constructor; [|rewrite firstn_length; replace (Nat.min msg (length d)) with msg by lia; exact Hsl|exact Q1].
          intros X. apply (f_equal (@length _)) in X. rewrite firstn_length in X. cbn in X. lia.
        * rewrite Q2. now rewrite <- !app_assoc.
        * intros F rest tl e He. apply (Q3 F rest tl). rewrite He. unfold enc_chunked, waits.
          cbn [ens en_chunked en_resp set_src r_body b_src app]. rewrite HP. cbv zeta iota.
          rewrite cut_app. 
          destruct sl as [|s0 s1]; [destruct Hsl as (x & Hx & _ & X); destruct x; discriminate|].
          cbn [app]. destruct out; reflexivity.
    - assert (Hw' : wf_evs l) by now inversion Hw.
      assert (Hcl' : clean_evs l) by now inversion Hcl.
      destruct (IH en l [] CChunks) as (outs & cw & Q1 & Q2 & Q3); auto; [cbn [evs_size weight] in *; lia|cbn; lia|].
      exists (out :: outs), cw. split; [exact Q1|]. split; [cbn [concat]; now rewrite Q2|].
      intros F rest tl e He. unfold waits in He. cbn [app] in He. rewrite (Pd f' _ c Hc (l ++ Pend f :: rest) tl eq_refl) in He.
      destruct (Q3 F rest tl (ens en EChunked (en_bodyread en) CChunks (waits l f rest tl)) eq_refl) as (e' & S').
      exists e'. destruct out; [eapply steps_pend; eauto|eapply steps_out; eauto; discriminate].
    - inversion Hcl. congruence.
  Qed.
End Ch.

Section Fx.
  Variables (ev : env) (cl : N).
  Let n := e_bufcap ev.
  Hypothesis Hn : (0 < n)%nat.
  Hypothesis Hsz : (cl + N.of_nat n < two64)%N.

  (** What one poll comes to, whatever follows the wait. *)
  Definition fixed_one (f : bool) (en : enc) (evs : list Io.ev) (br : N) (out : bytes)
      (res : nat -> list Io.ev -> rtail -> enc * pres bytes) : Prop :=
    (exists evs' d, out ++ d <> [] /\ evs_data evs = d ++ evs_data evs' /\
       (br + N.of_nat (length d) < cl \/ (cl = 0 /\ d = []))%N /\
       (evs_size evs' <= evs_size evs)%nat /\ (out = [] -> (evs_size evs' < evs_size evs)%nat) /\
       wf_evs evs' /\ clean_evs evs' /\
       forall g rest tl, (evs_size evs < g)%nat -> res g rest tl = (ens en EFixed (br + N.of_nat (length d)) (en_chunked en) (waits evs' f rest tl), POk (out ++ d))) \/
    (forall g rest tl, (evs_size evs < g)%nat -> exists br' s', res g rest tl =
       (ens en EDone br' (en_chunked en) s', POk (out ++ firstn (N.to_nat (cl - br)) (evs_data evs)))) \/
    (exists evs' f', out = [] /\ evs_data evs = evs_data evs' /\ (evs_size evs' < evs_size evs)%nat /\
       wf_evs evs' /\ clean_evs evs' /\
       forall g rest tl, (evs_size evs < g)%nat -> res g rest tl = (ens en EFixed br (en_chunked en) (waits evs' f rest tl), PPend f')) \/
    ((N.of_nat (length (evs_data evs)) <= cl - br)%N /\
     forall g rest tl, (evs_size evs < g)%nat -> res g rest tl = (ens en EFixed (br + N.of_nat (length (evs_data evs))) (en_chunked en) (mkSrc rest tl),
                                    match out ++ evs_data evs with [] => PPend f | o => POk o end)).

  Lemma fixed_waits f m : forall en evs br out,
    (evs_size evs < m)%nat -> wf_evs evs -> clean_evs evs -> (length out <= n)%nat ->
    en_cl en = Some cl -> ((br < cl)%N \/ (cl = 0%N /\ br = 0%N)) ->
    fixed_one f en evs br out (fun g rest tl => enc_fixed g ev (ens en EFixed br (en_chunked en) (waits evs f rest tl)) out n).
  Proof.
    induction m as [|m IH]; intros en evs br out Hm Hw Hc Ho Hcl Hbr; [lia|].
    unfold fixed_one.
    destruct (length out =? n)%nat eqn:Efull.
    { left. exists evs, []. cbn [length N.of_nat]. rewrite N.add_0_r, app_nil_r.
      assert (out <> []) by (intros ->; cbn [length] in Efull; lia). ands; auto; try lia; try (intros; congruence).
      - destruct Hbr as [?|[? ?]]; auto.
      - intros [|g] rest tl Hg; [lia|]. cbn [enc_fixed]. now rewrite Efull. }
    assert (EC : forall s, en_cl (ens en EFixed br (en_chunked en) s) = Some cl) by (intros; exact Hcl).
    set (upper := N.to_nat (N.min (N.of_nat (length out) + cl - br) (N.of_nat n))).
    assert (HU : forall g s, enc_fixed (S g) ev (ens en EFixed br (en_chunked en) s) out n =
      match src_read (upper - length out) s with
      | (s', POk d) =>
          let br' := (br + N.of_nat (length d))%N in
          if (cl =? br')%N then (ens en EDone br' (en_chunked en) s', POk (out ++ d))
          else enc_fixed g ev (ens en EFixed br' (en_chunked en) s') (out ++ d) n
      | (s', PErr) => (ens en EFixed br (en_chunked en) s', PErr)
      | (s', PPend fi) => (ens en EFixed br (en_chunked en) s', match out with [] => PPend fi | _ => POk out end)
      | (_, PPanic) => (ens en EFixed br (en_chunked en) s, PPanic)
      | (_, PFuel) => (ens en EFixed br (en_chunked en) s, PFuel)
      end).
    { intros g s. cbn [enc_fixed]. rewrite Efull, EC. change (en_bodyread (ens en EFixed br (en_chunked en) s)) with br.
      rewrite upper_arith_ok by lia. cbv zeta.
      match goal with |- context [(?a <? length out)%nat] => replace (a <? length out)%nat with false by lia end.
      fold upper. cbn [ens en_resp set_src r_body b_src en_state en_head en_headread en_chunked].
      destruct (src_read (upper - length out) s) as [s' [d|fi| | |]]; try reflexivity.
      destruct (cl =? _)%N; reflexivity. }
    assert (Hup : (upper - length out = Nat.min (N.to_nat (cl - br)) (n - length out))%nat) by (unfold upper; lia).
    unfold waits.
    destruct evs as [|[d|f'|] l].
    - right. right. right. cbn [evs_data length N.of_nat app]. split; [lia|]. intros [|g] rest tl Hg; [lia|].
      rewrite HU. unfold waits, src_read. cbn [s_evs s_tail]. rewrite N.add_0_r, app_nil_r. destruct out; reflexivity.
    - assert (Hd : d <> []) by (inversion Hw; subst; intros ->; now unfold wf_ev in *).
      assert (Hw' : wf_evs l) by now inversion Hw.
      assert (Hcl' : clean_evs l) by now inversion Hc.
      set (k := (upper - length out)%nat) in *.
      set (d' := firstn k d).
      assert (Hrd : forall rest tl, src_read k (mkSrc ((Data d :: l) ++ Pend f :: rest) tl) = (waits (cut k d l) f rest tl, POk d')).
      { intros. unfold src_read, waits. cbn [s_evs s_tail app]. now rewrite <- cut_app. }
      assert (Ld : (length d' <= k)%nat) by (unfold d'; rewrite firstn_length; lia).
      destruct (cl =? br + N.of_nat (length d'))%N eqn:Edone.
      + right. left. intros [|g] rest tl Hg; [lia|]. rewrite HU, Hrd. cbv zeta. rewrite Edone. eexists _, _. do 2 f_equal.
        f_equal. unfold d'. cbn [evs_data].
        assert (length d' = N.to_nat (cl - br)) by lia.
        assert (N.to_nat (cl - br) <= length d)%nat by (unfold d' in *; rewrite firstn_length in *; lia).
        rewrite firstn_app. replace (N.to_nat (cl - br) - length d)%nat with 0%nat by lia. cbn [firstn]. rewrite app_nil_r.
        unfold d' in *. rewrite firstn_length in *. destruct (Nat.le_gt_cases k (length d)); [f_equal; lia|].
        rewrite !firstn_all2 by lia. reflexivity.
      + assert (Hlt : (br < cl)%N).
        { destruct Hbr as [?|[-> ->]]; [assumption|]. cbn in Hup. assert (length d' = 0)%nat by lia. lia. }
        assert (Hk : (0 < k)%nat) by lia.
        assert (Hd' : d' <> []) by (unfold d'; destruct d; [congruence|]; destruct k; [lia|discriminate]).
        assert (Hsz2 := cut_size k d l Hk Hd).
        assert (HD : evs_data (Data d :: l) = d' ++ evs_data (cut k d l)) by (cbn [evs_data]; unfold d'; now rewrite cut_data, app_assoc, firstn_skipn).
        destruct (IH en (cut k d l) (br + N.of_nat (length d'))%N (out ++ d')) as [H|[H|[H|H]]]; auto.
        { lia. } { now apply cut_wf. } { now apply cut_clean. } { rewrite app_length. lia. } { left. lia. }
        * destruct H as (evs' & d2 & H1 & H2 & H3 & H4 & H5 & H6 & H7 & H8).
          left. exists evs', (d' ++ d2). rewrite app_assoc, app_length, Nat2N.inj_add, N.add_assoc. ands; auto; try lia.
          -- now rewrite HD, H2, app_assoc.
          -- intros [|g] rest tl Hg; [lia|]. rewrite HU, Hrd. cbv zeta. rewrite Edone. apply H8. lia.
        * right. left. intros [|g] rest tl Hg; [lia|]. destruct (H g rest tl ltac:(lia)) as (br' & s' & E'). exists br', s'.
          rewrite HU, Hrd. cbv zeta. rewrite Edone, E'. do 2 f_equal. rewrite HD, <- app_assoc. f_equal.
          rewrite firstn_app_r by lia. do 2 f_equal. lia.
        * destruct H as (evs' & f' & H1 & _). apply app_eq_nil in H1. destruct H1; congruence.
        * destruct H as (H1 & H2). right. right. right. rewrite HD, app_length. split; [lia|].
          intros [|g] rest tl Hg; [lia|]. rewrite HU, Hrd. cbv zeta. rewrite Edone, H2 by lia. rewrite Nat2N.inj_add, N.add_assoc, app_assoc. reflexivity.
    - assert (Hw' : wf_evs l) by now inversion Hw.
      assert (Hcl' : clean_evs l) by now inversion Hc.
      destruct out as [|o0 o1].
      + right. right. left. exists l, f'. cbn [evs_data evs_size]. ands; auto; try lia.
        intros [|g] rest tl Hg; [lia|]. rewrite HU. reflexivity.
      + left. exists l, []. cbn [length N.of_nat evs_size evs_data]. rewrite N.add_0_r, app_nil_r. ands; auto; try lia; try discriminate.
        * destruct Hbr as [?|[? ?]]; auto.
        * intros [|g] rest tl Hg; [lia|]. rewrite HU. reflexivity.
    - inversion Hc. congruence.
  Qed.

  Lemma fixed_steps f m : forall en evs br out,
    (2 * evs_size evs + weight out < m)%nat -> wf_evs evs -> clean_evs evs -> (length out <= n)%nat ->
    en_cl en = Some cl -> ((br < cl)%N \/ (cl = 0%N /\ br = 0%N)) ->
    exists outs, concat outs = out ++ firstn (N.to_nat (cl - br)) (evs_data evs) /\
      forall F rest tl e, (evs_size evs < F)%nat -> enc_poll F ev n e = enc_fixed F ev (ens en EFixed br (en_chunked en) (waits evs f rest tl)) out n ->
        exists e', steps (enc_poll F ev n) e outs e'.
  Proof.
    induction m as [|m IH]; intros en evs br out Hm Hw Hc Ho Hcl Hbr; [lia|].
    destruct (fixed_waits f _ en evs br out (Nat.lt_succ_diag_r _) Hw Hc Ho Hcl Hbr) as [H|[H|[H|H]]].
    - destruct H as (evs' & d & H1 & H2 & H3 & H4 & H5 & H6 & H7 & H8).
      destruct (IH en evs' (br + N.of_nat (length d))%N []) as (outs & Q1 & Q2); auto.
      { cbn [weight]. destruct out; cbn [weight] in *; [specialize (H5 eq_refl)|]; lia. } { cbn; lia. }
      { destruct H3 as [?|[-> ->]]; [auto|]. right. split; [reflexivity|]. cbn. lia. }
      exists ((out ++ d) :: outs). split.
      { cbn [concat]. rewrite Q1, H2. cbn [app]. rewrite <- app_assoc. f_equal.
        destruct H3 as [?|[-> ->]]; [|cbn; f_equal; lia].
        rewrite firstn_app_r by lia. do 2 f_equal. lia. }
      intros F rest tl e HF He. cbv beta in H8. rewrite H8 in He by exact HF.
      destruct (Q2 F rest tl (ens en EFixed (br + N.of_nat (length d)) (en_chunked en) (waits evs' f rest tl))  ltac:(lia) eq_refl) as (e' & S').
      exists e'. eapply steps_out; eauto.
    - destruct (out ++ firstn (N.to_nat (cl - br)) (evs_data evs)) as [|o0 o1] eqn:EO.
      + exists []. split; [reflexivity|]. intros F rest tl e HF He. exists e. constructor.
      + exists [o0 :: o1]. split; [cbn; now rewrite app_nil_r|].
        intros F rest tl e HF He. destruct (H F rest tl HF) as (br' & s' & E'). rewrite E' in He.
        eexists. eapply steps_out; [exact He|discriminate|constructor].
    - destruct H as (evs' & f' & -> & H2 & H3 & H4 & H5 & H6).
      destruct (IH en evs' br []) as (outs & Q1 & Q2); auto.
      { cbn [weight] in *. lia. }
      exists ([] :: outs). split; [cbn [concat app]; rewrite Q1, H2; reflexivity|].
      intros F rest tl e HF He. cbv beta in H6. rewrite H6 in He by exact HF.
      destruct (Q2 F rest tl (ens en EFixed br (en_chunked en) (waits evs' f rest tl))  ltac:(lia) eq_refl) as (e' & S').
      exists e'. eapply steps_pend; eauto.
    - destruct H as (H1 & H2). rewrite firstn_all2 by lia.
      exists [out ++ evs_data evs]. split; [cbn; now rewrite app_nil_r|].
      intros F rest tl e HF He. cbv beta in H2. rewrite H2 in He by exact HF. eexists.
      destruct (out ++ evs_data evs); [eapply steps_pend; [exact He|constructor]|eapply steps_out; [exact He|discriminate|constructor]].
  Qed.
End Fx.

(** The head goes out in full buffers; the last piece shares its buffer with the body. *)
Lemma head_steps ev n m : (0 < n)%nat -> forall H h, (length H - h <= m)%nat -> (h < length H)%nat ->
  exists pre out, concat pre ++ out = skipn h H /\ (0 < length out <= n)%nat /\
    forall F en, en_head en = H -> en_headread en = h -> en_state en = EHead ->
      exists e', steps (enc_poll F ev n) en pre e' /\
        enc_poll F ev n e' =
        (let en1 := with_state en (match en_cl en with Some _ => EFixed | None => EChunked end) (length H) in
         match en_cl en with Some _ => enc_fixed F ev en1 out n | None => enc_chunked ev en1 out n end).
Proof.
  intros Hn. induction m as [|m IH]; intros H h Hm Hh; [lia|].
  destruct (Nat.le_gt_cases (length H - h) n) as [L|G].
  - exists [], (skipn h H). cbn [concat app]. ands; auto; rewrite ?skipn_length; try lia.
    intros F en E1 E2 E3. exists en. split; [constructor|].
    unfold enc_poll. rewrite E3. unfold enc_head. rewrite E1, E2. cbv zeta.
    replace (Nat.min (length H - h) n) with (length H - h)%nat by lia.
    replace (h + (length H - h) =? length H)%nat with true by lia.
    replace (h + (length H - h))%nat with (length H) by lia.
    rewrite (firstn_all2 (skipn h H)) by (rewrite skipn_length; lia).
    unfold with_state. rewrite E1. destruct (en_cl en); reflexivity.
  - destruct (IH H (h + n)%nat) as (pre & out & S1 & S2 & S3); [lia|lia|].
    assert (Hfn : length (firstn n (skipn h H)) = n) by (rewrite firstn_length, skipn_length; lia).
    exists (firstn n (skipn h H) :: pre), out. split; [|split; [exact S2|]].
    + cbn [concat]. rewrite <- app_assoc, S1, <- skipn_skipn', firstn_skipn. reflexivity.
    + intros F en E1 E2 E3.
      set (en1 := mkEnc (en_resp en) (en_state en) H (h + n) (en_bodyread en) (en_chunked en)).
      destruct (S3 F en1) as (e' & R1 & R2); auto. exists e'. split.
      * eapply steps_out; [| |exact R1].
        -- unfold enc_poll. rewrite E3. unfold enc_head. rewrite E1, E2. cbv zeta.
           replace (Nat.min (length H - h) n) with n by lia.
           replace (h + n =? length H)%nat with false by lia. reflexivity.
        -- intros X. rewrite X in Hfn. cbn [length] in Hfn. lia.
      * rewrite R2. unfold with_state, en1, en_cl. cbn [en_resp en_head en_bodyread en_chunked]. rewrite E1. reflexivity.
Qed.

Lemma send_steps ev r evs f outs w : accepting w ->
  (exists F0, forall F, (F0 <= F)%nat -> forall rest tl,
     exists e e', enc_poll F ev (e_bufcap ev) e = enc_poll F ev (e_bufcap ev) (enc_new (set_src r (waits evs f rest tl))) /\
       steps (enc_poll F ev (e_bufcap ev)) e outs e') ->
  exists F, forall rest tl fuel, (F <= fuel)%nat ->
    prefix (w_out w ++ concat outs) (w_out (fst (send fuel ev (set_src r (waits evs f rest tl)) w))).
Proof.
  intros Ha (F0 & H). destruct (copy_steps outs w Ha) as (c & w2 & O & R).
  exists (S c + F0)%nat. intros rest tl fuel Hf. unfold send.
  destruct (H fuel ltac:(lia) rest tl) as (e & e' & E & S1).
  destruct (R _ _ _ _ 0%N (fuel - c)%nat S1) as (a & Q). replace (c + (fuel - c))%nat with fuel in Q by lia.
  assert (X : forall g e1 e2 w1 a1, enc_poll fuel ev (e_bufcap ev) e1 = enc_poll fuel ev (e_bufcap ev) e2 ->
    copy_go (enc_poll fuel ev (e_bufcap ev)) g e1 [] w1 a1 = copy_go (enc_poll fuel ev (e_bufcap ev)) g e2 [] w1 a1).
  { intros g e1 e2 w1 a1 H1. destruct g; [reflexivity|]. cbn [copy_go]. now rewrite H1. }
  rewrite <- (X fuel _ _ w 0%N E), Q, <- O. apply copy_grows.
Qed.

Lemma start_head F ev r : enc_poll F ev (e_bufcap ev) (head_enc ev r) = enc_poll F ev (e_bufcap ev) (enc_new r).
Proof. reflexivity. Qed.


Lemma head_text_src ev r s : head_text ev (set_src r s) = head_text ev r.
Proof. reflexivity. Qed.

Lemma head_text_pos ev r : (0 < length (head_text ev r))%nat.
Proof. unfold head_text. rewrite !app_length. cbn [length CRLF]. lia. Qed.

Lemma stream_chunked ev r evs f : wf_evs evs -> clean_evs evs ->
  (7 <= e_bufcap ev)%nat -> (N.of_nat (e_bufcap ev) < two64)%N -> hexlen_ok ev -> b_len (r_body r) = None ->
  exists cw, chunks plain_size_line (evs_data evs) cw /\
    forall w, accepting w -> exists F, forall rest tl fuel, (F <= fuel)%nat ->
      prefix (w_out w ++ head_text ev r ++ cw) (w_out (fst (send fuel ev (set_src r (waits evs f rest tl)) w))).
Proof.
  intros Hw Hc Hn H64 Hx Hb.
  set (e0 := with_state (head_enc ev r) EChunked (length (head_text ev r))).
  destruct (head_steps ev (e_bufcap ev) _ ltac:(lia) (head_text ev r) 0 (le_n _) (head_text_pos ev r)) as (pre & out & S1 & S2 & S3).
  destruct (chunked_steps ev Hn H64 Hx f _ e0 evs out CStart (Nat.lt_succ_diag_r _) Hw Hc ltac:(lia) (or_introl eq_refl)) as (outs & cw & Q1 & Q2 & Q3).
  exists cw. split; [exact Q1|]. intros w Ha.
  assert (E : head_text ev r ++ cw = concat (pre ++ outs)) by (rewrite concat_app, Q2, app_assoc, S1; reflexivity).
  rewrite E. apply send_steps; [exact Ha|]. exists 0%nat. intros F _ rest tl.
  destruct (S3 F (head_enc ev (set_src r (waits evs f rest tl))) (head_text_src _ _ _) eq_refl eq_refl) as (e' & R1 & R2).
  destruct (Q3 F rest tl e') as (e2 & R3).
  { rewrite R2. unfold en_cl. cbn [head_enc en_resp r_body set_src b_len]. rewrite Hb. reflexivity. }
  exists (head_enc ev (set_src r (waits evs f rest tl))), e2. split; [apply start_head|]. eapply steps_app; eauto.
Qed.

Lemma stream_fixed ev r evs f cl : wf_evs evs -> clean_evs evs ->
  (1 <= e_bufcap ev)%nat -> (cl + N.of_nat (e_bufcap ev) < two64)%N -> b_len (r_body r) = Some cl ->
  forall w, accepting w -> exists F, forall rest tl fuel, (F <= fuel)%nat ->
    prefix (w_out w ++ head_text ev r ++ firstn (N.to_nat cl) (evs_data evs)) (w_out (fst (send fuel ev (set_src r (waits evs f rest tl)) w))).
Proof.
  intros Hw Hc Hn H64 Hb w Ha.
  set (e0 := with_state (head_enc ev r) EFixed (length (head_text ev r))).
  destruct (head_steps ev (e_bufcap ev) _ ltac:(lia) (head_text ev r) 0 (le_n _) (head_text_pos ev r)) as (pre & out & S1 & S2 & S3).
  destruct (fixed_steps ev cl Hn H64 f _ e0 evs 0%N out (Nat.lt_succ_diag_r _) Hw Hc ltac:(lia)) as (outs & Q2 & Q3).
  { exact Hb. } { lia. }
  rewrite N.sub_0_r in Q2.
  assert (E : head_text ev r ++ firstn (N.to_nat cl) (evs_data evs) = concat (pre ++ outs)) by (rewrite concat_app, Q2, app_assoc, S1; reflexivity).
  rewrite E. apply send_steps; [exact Ha|]. exists (S (evs_size evs)). intros F HF rest tl.
  destruct (S3 F (head_enc ev (set_src r (waits evs f rest tl))) (head_text_src _ _ _) eq_refl eq_refl) as (e' & R1 & R2).
  destruct (Q3 F rest tl e') as (e2 & R3).
  { lia. }
  { rewrite R2. unfold en_cl. cbn [head_enc en_resp r_body set_src b_len]. rewrite Hb. reflexivity. }
  exists (head_enc ev (set_src r (waits evs f rest tl))), e2. split; [apply start_head|]. eapply steps_app; eauto.
Qed.
