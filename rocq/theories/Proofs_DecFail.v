(** Chunked messages cut off by a failure of the connection. *)
From Verif Require Import Relay Accept Reads SpecChunked SpecHead SpecResponse SpecReq SpecServer SpecBody Lemmas Proofs_Copy Proofs_ServerEnc Proofs_Head
  Proofs_Send Proofs_Parse Proofs_Buf Proofs_Dec Proofs_DecMsg Proofs_DecReads Proofs_ReqHead Proofs_ServerDec Proofs_Body Proofs_Request Proofs_BodyRead Proofs_Relay Proofs_RelayReq.

(** ** The same reader, going on with other events where it fails *)
Fixpoint upto (l : list ev) : list ev :=
  match l with [] => [] | Fail :: _ => [] | e :: l => e :: upto l end.
Definition mend (l2 : list ev) (t : rtail) (b : brd) : brd :=
  mkBrd (br_cap b) (br_buf b) (mkSrc (upto (s_evs (br_src b)) ++ l2) t).
Definition failing (b : brd) : Prop := ~ clean (br_src b).

Lemma failing_cases b : failing b <-> (exists l1 l, s_evs (br_src b) = l1 ++ Fail :: l) \/ s_tail (br_src b) = FailForever.
Proof.
  unfold failing, clean. destruct (br_src b) as [evs tl]. cbn [s_evs s_tail]. split.
  - intros N. destruct tl; [|auto]. left. induction evs as [|e evs IH]; [elim N; split; [constructor|reflexivity]|].
    destruct e as [d|f|]; [| |exists [], evs; reflexivity].
    + destruct IH as (l1 & l & ->); [|exists (Data d :: l1), l; reflexivity]. intros [C _]. apply N. split; [|reflexivity]. constructor; [discriminate|exact C].
    + destruct IH as (l1 & l & ->); [|exists (Pend f :: l1), l; reflexivity]. intros [C _]. apply N. split; [|reflexivity]. constructor; [discriminate|exact C].
  - intros [(l1 & l & ->)| ->] [C T]; [|discriminate]. apply Forall_app in C as [_ C]. inversion C. congruence.
Qed.
Lemma failing_step cap cap' b1 b2 e l t : e <> Fail -> failing (mkBrd cap b1 (mkSrc (e :: l) t)) -> failing (mkBrd cap' b2 (mkSrc l t)).
Proof. unfold failing, clean. cbn. intros E N [C T]. apply N. split; [constructor; assumption|exact T]. Qed.
Lemma failing_data cap cap' b1 b2 d d' l t : failing (mkBrd cap b1 (mkSrc (Data d :: l) t)) -> failing (mkBrd cap' b2 (mkSrc (Data d' :: l) t)).
Proof. unfold failing, clean. cbn. intros N [C T]. apply N. split; [inversion C; subst; constructor; [discriminate|assumption]|exact T]. Qed.
Lemma failing_buf cap b1 cap' b2 s : failing (mkBrd cap b1 s) -> failing (mkBrd cap' b2 s).
Proof. auto. Qed.

Lemma upto_data l : evs_data (upto l) = evs_data l.
Proof. induction l as [|[d|f|] l IH]; cbn; congruence. Qed.
Lemma upto_clean l : clean_evs (upto l).
Proof. induction l as [|[d|f|] l IH]; cbn; constructor; auto; discriminate. Qed.
Lemma clean_data l1 l2 : clean_evs l1 -> evs_data (l1 ++ l2) = evs_data l1 ++ evs_data l2.
Proof. induction 1 as [|e l1 H _ IH]; [reflexivity|]. destruct e; cbn; rewrite ?IH, ?app_assoc; congruence. Qed.
Lemma upto_wf l : Forall wf_ev l -> Forall wf_ev (upto l).
Proof. induction 1 as [|e l H _ IH]; [constructor|]. destruct e; cbn; auto. Qed.
Lemma mend_data l2 t b : br_data (mend l2 t b) = br_data b ++ evs_data l2.
Proof. unfold br_data, src_data, mend. cbn. rewrite clean_data by apply upto_clean. now rewrite upto_data, app_assoc. Qed.
Lemma mend_wf l2 t b : wf_brd b -> Forall wf_ev l2 -> wf_brd (mend l2 t b).
Proof.
  intros [H1 H2] H3. split; [|exact H2]. unfold wf_src in *. cbn. apply Forall_app. split; [now apply upto_wf|exact H3].
Qed.
Lemma mend_clean l2 b : clean_evs l2 -> clean (br_src (mend l2 Eof b)).
Proof. intros H. split; [|reflexivity]. apply Forall_app. split; [apply upto_clean|exact H]. Qed.

Section Mend.
  Variables (l2 : list ev) (t : rtail).
  Local Notation X := (mend l2 t).
  Definition ends : Prop := l2 = [] /\ t = Eof.

  Lemma br_read_mend n b b' r : failing b -> br_read n b = (b', r) ->
    (r = PErr /\ (ends -> exists b2, br_read n (X b) = (b2, POk []))) \/ (failing b' /\ br_read n (X b) = (X b', r)).
  Proof.
    destruct b as [cap bb [evs tl]]. unfold br_read, br_fill, mend, src_read. cbn [br_buf br_cap br_src s_evs s_tail].
    intros T. destruct bb as [|c buf]; [|intros [= <- <-]; right; split; [exact T|reflexivity]].
    assert (T0 : evs = [] -> tl = FailForever).
    { intros ->. apply failing_cases in T as [(l1 & l & E)|E]; [|exact E]. cbn in E. destruct l1; discriminate. }
    destruct (cap <=? n)%nat.
    - destruct evs as [|[d|f|] l]; cbn [upto app]; [rewrite T0 by reflexivity| | |]; intros [= <- <-].
      + left. split; [reflexivity|]. intros [-> ->]. cbn. eauto.
      + right. cbn. split; [|now destruct (skipn n d)]. destruct (skipn n d) as [|c d']; [eapply failing_step; [|exact T]; discriminate|eapply failing_data; exact T].
      + right. cbn. split; [|reflexivity]. eapply failing_step; [|exact T]; discriminate.
      + left. split; [reflexivity|]. intros [-> ->]. cbn. eauto.
    - destruct evs as [|[d|f|] l]; cbn [upto app]; [rewrite T0 by reflexivity| | |]; intros [= <- <-].
      + left. split; [reflexivity|]. intros [-> ->]. cbn. rewrite firstn_nil. eauto.
      + right. cbn. split; [|now destruct (skipn cap d)]. destruct (skipn cap d) as [|c d']; [eapply failing_step; [|exact T]; discriminate|eapply failing_data; exact T].
      + right. cbn. split; [|reflexivity]. eapply failing_step; [|exact T]; discriminate.
      + left. split; [reflexivity|]. intros [-> ->]. cbn. rewrite firstn_nil. eauto.
  Qed.

  Definition dmend (d : dec) : dec := set_in (X (d_in d)) d.

  Lemma inner_mend ev d b n d' r : failing (d_in d) -> (0 < n)%nat -> st_ok (d_st d) -> poll_read_inner ev d b n = (d', r) ->
    (r = DErr /\ (ends -> exists d2 q, poll_read_inner ev (dmend d) b n = (d2, q) /\ (q = DErr \/ exists b2, q = DSome [] (Some DDone) b2 None)))
    \/ (failing (d_in d') /\ poll_read_inner ev (dmend d) b n = (dmend d', r)).
  Proof.
    intros T Hn HS. unfold poll_read_inner. change (d_st (dmend d)) with (d_st d).
    destruct (d_st d) as [|cur len| | |h|h|] eqn:ES.
    - intros [= <- <-]. right. auto.
    - change (d_in (dmend d)) with (X (d_in d)). unfold poll_read_chunk. cbn [st_ok] in HS. replace (len <? cur)%N with false by lia.
      destruct (k_data b).
      + destruct (br_read _ (d_in d)) as [i' q] eqn:E. destruct (br_read_mend _ _ _ _ T E) as [[-> P]|[T' E']].
        * intros [= <- <-]. left. split; [reflexivity|]. intros E2. destruct (P E2) as (b2 & ->). cbn [length N.of_nat].
          rewrite N.add_0_r. replace (cur =? len)%N with false by lia. eexists _, _. split; [reflexivity|]. right. eauto.
        * rewrite E'. destruct q; intros [= <- <-]; right; auto.
      + destruct (_ <? _)%nat; intros [= <- <-]; right; auto.
    - intros [= <- <-]. right. auto.
    - intros [= <- <-]. right. auto.
    - change (d_sender (dmend d)) with (d_sender d). destruct (d_sender d); intros [= <- <-]; right; auto.
    - change (d_chan (dmend d)) with (d_chan d). destruct (d_chan d); intros [= <- <-]; right; auto.
    - intros [= <- <-]. right. auto.
  Qed.
  Lemma dmend_set st d : dmend (set_st_opt st d) = set_st_opt st (dmend d).
  Proof. now destruct st. Qed.

  Definition over (r : pres bytes) : Prop := r = PErr \/ r = POk [].
  Definition msim (a a2 : dturn) : Prop :=
    match a with
    | Ret d' r => (r = PErr /\ (ends -> exists d2 q, a2 = Ret d2 q /\ over q)) \/ (failing (d_in d') /\ a2 = Ret (dmend d') r)
    | Again nr kept d' b' => failing (d_in d') /\ a2 = Again nr kept (dmend d') b'
    end.
  Lemma decode_mend ev n kept d b : failing (d_in d) -> (0 < n)%nat -> st_ok (d_st d) -> msim (dec_decode ev n kept d b) (dec_decode ev n kept (dmend d) b).
  Proof.
    intros T Hn HS. unfold dec_decode. destruct (poll_read_inner ev d b n) as [d1 r] eqn:E.
    apply inner_mend in E as [[-> P]|[T' E]]; [| |assumption..].
    - left. split; [reflexivity|]. intros E2. destruct (P E2) as (d2 & q & -> & [->|(b2 & ->)]); eexists _, _; (split; [reflexivity|]); [left|right]; reflexivity.
    - rewrite E. destruct r as [read st b' pend| | |].
      + assert (DI : d_in (set_st_opt st (set_init true d1)) = d_in d1) by now destruct st.
        assert (DE : set_st_opt st (set_init true (dmend d1)) = dmend (set_st_opt st (set_init true d1))) by now destruct st.
        rewrite DE. change (d_st (dmend ?y)) with (d_st y).
        destruct (is_done _); [right; cbn; rewrite DI; auto|]. destruct (_ <? _)%nat; [right; cbn; rewrite DI; auto|].
        destruct pend; [right|]; cbn; rewrite DI; auto.
      + destruct (_ && _)%bool; [right|]; cbn; auto.
      + right; cbn; auto.
      + right; cbn; auto.
  Qed.
  Lemma turn_mend ev n nr kept d b : failing (d_in d) -> (0 < n)%nat -> st_ok (d_st d) -> msim (dec_turn ev n nr kept d b) (dec_turn ev n nr kept (dmend d) b).
  Proof.
    intros T Hn HS. unfold dec_turn. destruct (grow ev b) as [b1|]; [|right; cbn; auto]. destruct nr; [|now apply decode_mend].
    destruct (_ <? _)%nat; [right; cbn; auto|]. change (d_in (dmend d)) with (X (d_in d)).
    destruct (br_read _ (d_in d)) as [i' q] eqn:E. destruct (br_read_mend _ _ _ _ T E) as [[-> P]|[T' E']].
    - left. split; [reflexivity|]. intros E2. destruct (P E2) as (b2 & ->). cbv zeta. unfold dec_decode, poll_read_inner. cbn. eexists _, _. split; [reflexivity|]. now right.
    - rewrite E'. destruct q as [x|f| | |]; [|right; cbn; auto|right; cbn; auto|right; cbn; auto|right; cbn; auto].
      cbv zeta. replace (match x with [] => set_st DDone (set_in (X i') (dmend d)) | _ :: _ => set_in (X i') (dmend d) end)
        with (dmend (match x with [] => set_st DDone (set_in i' d) | _ :: _ => set_in i' d end)) by now destruct x.
      apply decode_mend; [now destruct x|exact Hn|]. destruct x; [exact I|exact HS].
  Qed.
  Lemma loop_mend ev n : (0 < n)%nat -> forall fuel nr kept d b d' r, failing (d_in d) -> st_ok (d_st d) -> dec_loop fuel ev n nr kept d b = (d', r) ->
    (r = PErr /\ (ends -> exists d2 q, dec_loop fuel ev n nr kept (dmend d) b = (d2, q) /\ over q)) \/
    (failing (d_in d') /\ dec_loop fuel ev n nr kept (dmend d) b = (dmend d', r)).
  Proof.
    intros Hn. induction fuel as [|f IH]; intros nr kept d b d' r T HS; cbn [dec_loop]; [intros [= <- <-]; auto|].
    pose proof (turn_mend ev n nr kept d b T Hn HS) as TS. pose proof (turn_mu ev n nr kept d b Hn HS) as TM.
    destruct (dec_turn ev n nr kept d b) as [d1 r1|nr1 kept1 d1 b1]; cbn [msim] in TS.
    - intros [= <- <-]. destruct TS as [[-> P]|[T1 ->]]; [|auto]. left. split; [reflexivity|]. intros E2. destruct (P E2) as (d2 & q & -> & Q). eauto.
    - destruct TS as [T1 ->]. destruct TM as [TM _]. intros E. now apply (IH nr1 kept1 d1 b1 d' r).
  Qed.
  Lemma poll_mend ev n fuel d d' r : (0 < n)%nat -> failing (d_in d) -> st_ok (d_st d) -> dec_poll fuel ev n d = (d', r) ->
    (r = PErr /\ (ends -> exists d2 q, dec_poll fuel ev n (dmend d) = (d2, q) /\ over q)) \/
    (failing (d_in d') /\ dec_poll fuel ev n (dmend d) = (dmend d', r)).
  Proof.
    intros Hn T HS. unfold dec_poll. change (d_init (set_blk (blk_fresh ev) (dmend d))) with (d_init (set_blk (blk_fresh ev) d)).
    change (d_blk (dmend d)) with (d_blk d). change (d_st (dmend d)) with (d_st d).
    change (set_blk (blk_fresh ev) (dmend d)) with (dmend (set_blk (blk_fresh ev) d)).
    set (d0 := set_blk (blk_fresh ev) d) in *. assert (T0 : failing (d_in d0)) by exact T. assert (S0 : st_ok (d_st d0)) by exact HS.
    clearbody d0. destruct (_ && _)%bool; [|now apply loop_mend].
    destruct (poll_read_inner ev d0 (d_blk d) n) as [d1 q] eqn:E. pose proof (inner_progress ev d0 _ _ _ _ Hn S0 E) as (P1 & _ & P3).
    apply inner_mend in E as [[-> P]|[T' E]]; [| |assumption..].
    - intros [= <- <-]. left. split; [reflexivity|]. intros E2. destruct (P E2) as (d2 & q & -> & [->|(b2 & ->)]); cbn; eexists _, _; (split; [reflexivity|]); [left|right]; reflexivity.
    - rewrite E. destruct q as [read st b' pend| | |]; [| |intros [= <- <-]; auto|intros [= <- <-]; auto].
      + rewrite <- dmend_set. cbv zeta. cbv zeta in P3. destruct P3 as [P3 _]. assert (T2 : failing (d_in (set_st_opt st d1))) by (rewrite set_opt_in; exact T').
        assert (S2 : st_ok (d_st (set_st_opt st d1))) by (destruct st; exact P3).
        set (d2 := set_st_opt st d1) in *. clearbody d2. change (d_st (dmend d2)) with (d_st d2).
        destruct pend; [intros [= <- <-]; auto|]. destruct (is_done _); [intros [= <- <-]; auto|].
        destruct (_ <? _)%nat; [intros [= <- <-]; auto|]. now apply loop_mend.
      + now apply loop_mend.
  Qed.
End Mend.

(** Polls with more fuel than needed. *)
Lemma poll_any ev n d : (0 < n)%nat -> st_ok (d_st d) -> forall fuel, (dec_fuel d <= fuel)%nat -> dec_poll fuel ev n d = dec_read ev n d.
Proof. intros Hn HS. apply (poll_mu ev n d Hn HS). Qed.

Lemma read_mend l2 t ev n d d' r : (0 < n)%nat -> failing (d_in d) -> st_ok (d_st d) -> dec_read ev n d = (d', r) ->
  (r = PErr /\ (ends l2 t -> exists d2 q, dec_read ev n (dmend l2 t d) = (d2, q) /\ over q)) \/
  (failing (d_in d') /\ dec_read ev n (dmend l2 t d) = (dmend l2 t d', r)).
Proof.
  intros Hn T HS E. set (F := (dec_fuel d + dec_fuel (dmend l2 t d))%nat).
  rewrite <- (poll_any ev n (dmend l2 t d) Hn HS F) by (unfold F; lia). rewrite <- (poll_any ev n d Hn HS F) in E by (unfold F; lia).
  now apply poll_mend.
Qed.

Lemma reads_mend l2 t ev : forall ns d d' out k, Forall (fun n => 0 < n)%nat ns -> failing (d_in d) -> st_ok (d_st d) ->
  reads (dec_read ev) ns d = (d', out, k) ->
  (k = Failed /\ (ends l2 t -> exists d2 k2, reads (dec_read ev) ns (dmend l2 t d) = (d2, out, k2) /\ (k2 = Failed \/ k2 = Ended))) \/
  (failing (d_in d') /\ reads (dec_read ev) ns (dmend l2 t d) = (dmend l2 t d', out, k)).
Proof.
  induction ns as [|n ns IH]; intros d d' out k HF T HS H; cbn [reads] in *.
  - injection H as <- <- <-. auto.
  - pose proof (Forall_inv HF) as Hn. pose proof (Forall_inv_tail HF) as HF2. cbv beta in Hn.
    destruct (dec_read ev n d) as [d1 r] eqn:E. pose proof (proj1 (poll_mu ev n d Hn HS)) as HS1. rewrite E in HS1. cbn [fst] in HS1.
    destruct (read_mend l2 t ev n d d1 r Hn T HS E) as [[-> P]|[T1 E1]].
    + injection H as <- <- <-. left. split; [reflexivity|]. intros E2. destruct (P E2) as (d2 & q & -> & [-> | ->]); eauto.
    + rewrite E1. destruct r as [x|f| | |]; [|now apply IH| | |]; try (injection H as <- <- <-; auto; fail).
      destruct x as [|c x]; [injection H as <- <- <-; auto|].
      destruct (reads (dec_read ev) ns d1) as [[d2 o2] k2] eqn:E2. injection H as <- <- <-.
      destruct (IH _ _ _ _ HF2 T1 HS1 E2) as [[-> P]|[T2 E3]]; [|rewrite E3; auto].
      left. split; [reflexivity|]. intros E3. destruct (P E3) as (d3 & k3 & -> & K). eauto.
Qed.

Lemma fresh_fail ev p cw n z tr tw u rest :
  grow_ok ev -> chunks_load (e_deccap ev) p cw n -> size_line 0 z -> fields tr tw -> (length tr <= 16)%nat ->
  (n + length (z ++ tw ++ CRLF) <= e_deccap ev)%nat -> cw ++ z ++ tw ++ CRLF = u ++ rest -> rest <> [] ->
  exists q, prefix q p /\ carried q u /\
  forall br ns d' out k, wf_brd br -> ~ clean (br_src br) -> br_data br = u -> Forall (fun n => 0 < n)%nat ns ->
  reads (dec_read ev) ns (dec_new ev br) = (d', out, k) ->
  match k with
  | Going => prefix out q /\ d_chan d' = [] /\ (length ns <= br_size br)%nat
  | Failed => out = q
  | _ => False
  end.
Proof.
  intros G HC Hz HT HL HF E Hr. destruct (fresh_cut ev p cw n z tr tw u rest G HC Hz HT HL HF E Hr) as (q & Hq & HCq & HM).
  exists q. split; [exact Hq|]. split; [exact HCq|]. intros br ns d' out k HW HK HB HN H.
  destruct (reads_end ev G _ _ _ _ _ (new_ok ev br) HN H) as (R1 & R2 & _ & R3).
  assert (HS : st_ok (d_st (dec_new ev br))) by exact I. assert (HX : failing (d_in (dec_new ev br))) by exact HK.
  assert (D : forall l t, dmend l t (dec_new ev br) = dec_new ev (mend l t br)) by reflexivity.
  (* as if the connection had been closed *)
  pose proof (reads_mend [] Eof ev ns _ _ _ _ HN HX HS H) as M1. rewrite D in M1.
  assert (W1 : wf_brd (mend [] Eof br)) by (apply mend_wf; [exact HW|constructor]).
  assert (C1 : clean (br_src (mend [] Eof br))) by (apply mend_clean; constructor).
  assert (B1 : br_data (mend [] Eof br) = u) by (rewrite mend_data, HB; apply app_nil_r).
  assert (Q := fun d o j => HM _ ns d o j W1 C1 B1 HN).
  (* as if the rest had come *)
  pose proof (reads_mend [Data rest] Eof ev ns _ _ _ _ HN HX HS H) as M2. rewrite D in M2.
  assert (W2 : wf_brd (mend [Data rest] Eof br)) by (apply mend_wf; [exact HW|constructor; [intros [= ->]; now apply Hr|constructor]]).
  assert (B2 : br_data (mend [Data rest] Eof br) = (cw ++ z ++ tw ++ CRLF) ++ []) by (rewrite mend_data, HB, E; cbn; now rewrite !app_nil_r).
  assert (L := fun d o j => fresh_load ev _ p tr cw n z tw [] ns d o j G HC Hz HT HL HF W2 B2 HN).
  destruct k; try congruence.
  - destruct M1 as [[X _]|[_ M1]]; [discriminate|]. specialize (Q _ _ _ M1). cbv iota beta in Q. destruct Q as (Q1 & Q2 & _).
    split; [exact Q1|]. split; [exact Q2|]. destruct (R3 eq_refl) as [_ R4]. unfold tot, dec_new, blk_fresh in R4. cbn in R4. lia.
  - destruct M2 as [[X _]|[_ M2]]; [discriminate|]. specialize (L _ _ _ M2). cbv iota beta in L. destruct L as (_ & _ & _ & _ & L).
    apply app_eq_nil in L as [_ L]. change (d_in (dmend [Data rest] Eof d')) with (mend [Data rest] Eof (d_in d')) in L.
    rewrite mend_data in L. apply app_eq_nil in L as [_ L]. cbn in L. rewrite app_nil_r in L. contradiction.
  - destruct M1 as [[_ M1]|[_ M1]].
    + destruct (M1 (conj eq_refl eq_refl)) as (d2 & k2 & M & [-> | ->]); specialize (Q _ _ _ M); cbv iota beta in Q; [contradiction|apply Q].
    + specialize (Q _ _ _ M1). cbv iota beta in Q. contradiction.
Qed.

(** ** Requests *)
Lemma chunked_failed ev p tr wire cut u : grow_ok ev -> fitting (e_deccap ev) p tr wire -> wire = u ++ cut -> cut <> [] ->
  exists q, prefix q p /\ carried q u /\
  forall br ns d' out k, wf_brd br -> ~ clean (br_src br) -> br_data br = u -> Forall (fun n => 0 < n)%nat ns ->
  reads (dec_read ev) ns (dec_new ev br) = (d', out, k) -> match k with Going => prefix out q | Failed => out = q | _ => False end.
Proof.
  intros G (cw & n & z & tw & F1 & F2 & F3 & F4 & F5 & ->) E Hc. destruct (fresh_fail ev p cw n z tr tw u cut G F1 F2 F3 F4 F5 E Hc) as (q & Q1 & Q2 & Q3).
  exists q. split; [exact Q1|]. split; [exact Q2|]. intros br ns d' out k W C B N H. specialize (Q3 br ns d' out k W C B N H). destruct k; tauto.
Qed.

Section Broken.
  Variables (ev : env) (br : brd) (p : bytes) (tr : list (bytes * bytes)) (wire cut : bytes).
  Hypothesis He : env_ok ev.
  Hypothesis HW : wf_brd br.
  Hypothesis NC : ~ clean (br_src br).
  Hypothesis HF : fitting (e_deccap ev) p tr wire.
  Hypothesis EW : wire = br_data br ++ cut.
  Hypothesis Hc : cut <> [].
  Let f := msg_body None (RChunked [] (dec_new ev br)).

  Lemma whole_failed sz : (forall i, 0 < sz i)%nat ->
    settles (fun fuel => into_bytes ev fuel sz f) RErr /\ settles (fun fuel => into_string ev fuel sz f) RErr /\
    settles (fun fuel => into_bytes_with_trailer ev fuel sz f) TErr /\ settles (fun fuel => into_string_with_trailer ev fuel sz f) TErr.
  Proof.
    intros P. pose proof He as (_ & _ & _ & _ & G). destruct (chunked_settles ev sz br P (ok_cap ev He) G) as (ns & d' & out & k & FN & E & K & S).
    assert (SB := bytes_settle ev sz f _ _ S). assert (ST := trailer_settle ev sz f _ _ S). assert (TL : too_long f = false) by reflexivity.
    assert (SS := string_settle ev sz f _ SB TL).
    destruct (chunked_failed ev p tr wire cut _ G HF EW Hc) as (x & _ & _ & Q). specialize (Q br ns d' out k HW NC eq_refl FN E).
    destruct K as [->| ->]; [contradiction|]. split; [exact SB|]. split; [exact SS|]. split; [exact ST|].
    exact (strailer_settle ev sz f _ _ S TL).
  Qed.

  Lemma handler_failed : exists x, prefix x p /\ carried x (br_data br) /\
    forall ms b' out k, Forall (fun m => 0 < m)%nat ms -> reads (body_read ev) ms (RChunked [] (dec_new ev br)) = (b', out, k) ->
    match k with Going => prefix out x /\ (length ms <= length x + br_size br)%nat | Failed => out = x | _ => False end.
  Proof.
    pose proof He as (_ & _ & _ & _ & G).
    destruct (chunked_failed ev p tr wire cut _ G HF EW Hc) as (x & Q1 & Q2 & Q3). exists x. split; [exact Q1|]. split; [exact Q2|].
    intros ms b' out k HM R. destruct (buffered_reads ev (ok_cap ev He) ms [] _ _ _ _ HM R) as (ns & d' & o2 & buf' & I1 & I2 & _ & I4 & I5 & I6).
    destruct (reads_end ev G _ _ _ _ _ (new_ok ev br) I1 I2) as (_ & _ & _ & R3).
    specialize (Q3 br ns d' o2 k HW NC eq_refl I1 I2). cbn [app] in I4. destruct k; try contradiction.
    - destruct Q3 as [y ->]. rewrite I4. split; [exists (buf' ++ y); now rewrite app_assoc|]. specialize (I6 eq_refl). destruct (R3 eq_refl) as [_ R4].
      unfold tot, dec_new, blk_fresh in R4. cbn in R4. rewrite !app_length. lia.
    - rewrite (I5 ltac:(discriminate)), app_nil_r in I4. congruence.
  Qed.
End Broken.

(** Sending the body on. *)
Lemma drained_reads ev : (0 < e_bufcap ev)%nat -> forall d p c, drained ev d p c ->
  exists ns d' k, Forall (fun n => 0 < n)%nat ns /\ reads (dec_read ev) ns d = (d', p, k) /\ ((k = Ended /\ c = True) \/ (k = Failed /\ c = False)).
Proof.
  intros Hc d p c. induction 1 as [d d' E|d d' E|d d' f p c E _ (ns & d2 & k & I1 & I2 & I3)|d d' x p c E Hx _ (ns & d2 & k & I1 & I2 & I3)].
  - exists [e_bufcap ev], d', Ended. cbn [reads]. rewrite E. auto.
  - exists [e_bufcap ev], d', Failed. cbn [reads]. rewrite E. auto.
  - exists (e_bufcap ev :: ns), d2, k. cbn [reads]. rewrite E. auto.
  - exists (e_bufcap ev :: ns), d2, k. cbn [reads]. rewrite E, I2. destruct x; [congruence|]. auto.
Qed.

Lemma relay_failed ev br p tr wire cut st v hs wr : env_ok ev -> wf_brd br -> ~ clean (br_src br) -> fitting (e_deccap ev) p tr wire ->
  wire = br_data br ++ cut -> cut <> [] -> accepting wr ->
  let y := relay_of st v hs (msg_body None (RChunked [] (dec_new ev br))) in
  exists wr' o x cw, prefix x p /\ chunks plain_size_line x cw /\ prefix o (head_text ev (y_head y) ++ cw) /\
    settles (fun fuel => relay fuel ev y wr) (wr', RErr) /\ w_out wr' = w_out wr ++ o.
Proof.
  intros He HW NC HF EW Hc A y. pose proof (ok_big ev He) as Hb. pose proof He as (_ & H7 & H64 & Hx & G).
  destruct (chunked_failed ev p tr wire cut _ G HF EW Hc) as (x & Q1 & Q2 & Q3).
  destruct (drained_all ev Hb _ (dec_new ev br) (Nat.le_refl _) (new_ok ev br)) as (D & c & HDr).
  destruct (drained_reads ev (ok_cap ev He) _ _ _ HDr) as (ns & d' & k & I1 & I2 & I3).
  specialize (Q3 br ns d' D k HW NC eq_refl I1 I2).
  destruct I3 as [[-> _]|[-> ->]]; [contradiction|]. subst D.
  assert (HY : dyields ev (y_rdr y) x False (tot (dec_new ev br) (d_blk (dec_new ev br)))) by (exists x; ands; auto; apply new_ok).
  destruct (relay_chunked_run ev (dyields ev) y x False _ (fun r D c m r' x => dfill ev r D c m r' x Hb) HY 0 eq_refl H7 H64 Hx) as (O & k & R & K).
  assert (NF : k <> KFuel) by (intros ->; exact K). destruct (relay_ends ev y wr 0 O k R NF A) as (wr' & S & W). destruct k; try tauto.
  destruct K as (_ & p2 & cw & C1 & C2 & C3). exists wr', O, p2, cw. ands; auto. exact (prefix_trans _ _ _ C1 Q1).
Qed.
