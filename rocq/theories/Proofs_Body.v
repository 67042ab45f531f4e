(** Request bodies: what a reader of the body of a request sees and takes from the connection. *)
From Verif Require Import Accept Reads SpecChunked SpecReq SpecServer Lemmas Proofs_Copy Proofs_Parse Proofs_Buf Proofs_Dec Proofs_DecMsg
  Proofs_DecReads Proofs_ReqHead.

(** ** Everything preserved by [br_read] is preserved by the decoder *)
Section Inv.
  Variable P : brd -> Prop.
  Hypothesis HP : forall n b b' r, br_read n b = (b', r) -> P b -> P b'.

  Lemma inner_inv ev d b n d' r : poll_read_inner ev d b n = (d', r) -> P (d_in d) -> P (d_in d').
  Proof.
    unfold poll_read_inner. destruct (d_st d); try (intros [= <- <-]; auto; fail).
    - unfold poll_read_chunk. destruct (_ <? _)%N; [intros [= <- <-]; auto|]. destruct (k_data b).
      + destruct (br_read _ (d_in d)) as [i' [x|f| | |]] eqn:E; intros [= <- <-]; cbn; eauto.
      + destruct (_ <? _)%nat; intros [= <- <-]; auto.
    - destruct (d_sender d); intros [= <- <-]; auto.
    - destruct (d_chan d); intros [= <- <-]; auto.
  Qed.
  Lemma set_opt_in st d : d_in (set_st_opt st d) = d_in d.
  Proof. now destruct st. Qed.
  Lemma decode_inv ev n kept d b :
    P (d_in d) -> match dec_decode ev n kept d b with Ret d' _ => P (d_in d') | Again _ _ d' _ => P (d_in d') end.
  Proof.
    intros H. unfold dec_decode. destruct (poll_read_inner ev d b n) as [d1 [read st b' pend| | |]] eqn:E;
      apply inner_inv in E; auto.
    - destruct (is_done _); [cbn; rewrite set_opt_in; exact E|]. destruct (_ <? _)%nat; [cbn; rewrite set_opt_in; exact E|].
      destruct pend; cbn; rewrite set_opt_in; exact E.
    - destruct (_ && _)%bool; exact E.
  Qed.
  Lemma turn_inv ev n nr kept d b :
    P (d_in d) -> match dec_turn ev n nr kept d b with Ret d' _ => P (d_in d') | Again _ _ d' _ => P (d_in d') end.
  Proof.
    intros H. unfold dec_turn. destruct (grow ev b) as [b1|]; [|exact H]. destruct nr; [|now apply decode_inv].
    destruct (_ <? _)%nat; [exact H|]. destruct (br_read _ (d_in d)) as [i' [x|f| | |]] eqn:E; apply HP in E; auto.
    apply decode_inv. now destruct x.
  Qed.
  Lemma loop_inv ev n : forall fuel nr kept d b d' r, dec_loop fuel ev n nr kept d b = (d', r) -> P (d_in d) -> P (d_in d').
  Proof.
    induction fuel as [|f IH]; intros nr kept d b d' r; cbn [dec_loop]; [intros [= <- <-]; auto|].
    intros H HI. pose proof (turn_inv ev n nr kept d b HI) as T. destruct (dec_turn ev n nr kept d b); [|eauto].
    injection H as <- <-. exact T.
  Qed.
  Lemma poll_inv ev n fuel d d' r : dec_poll fuel ev n d = (d', r) -> P (d_in d) -> P (d_in d').
  Proof.
    unfold dec_poll. intros H HI. destruct (_ && _)%bool; [|eapply loop_inv; [exact H|exact HI]].
    destruct (poll_read_inner ev _ (d_blk d) n) as [d1 [read st b' pend| | |]] eqn:E; apply inner_inv in E; auto.
    - destruct pend; [injection H as <- <-; cbn; now rewrite set_opt_in|].
      destruct (is_done _); [injection H as <- <-; cbn; now rewrite set_opt_in|].
      destruct (_ <? _)%nat; [injection H as <- <-; cbn; now rewrite set_opt_in|].
      eapply loop_inv; [exact H|]. now rewrite set_opt_in.
    - eapply loop_inv; [exact H|assumption].
    - injection H as <- <-. exact E.
    - injection H as <- <-. exact E.
  Qed.

  Definition body_brd (b : rbody) : brd := match b with RFixed _ b => b | RChunked _ d => d_in d end.
  Lemma body_inv ev n b b' r : body_read ev n b = (b', r) -> P (body_brd b) -> P (body_brd b').
  Proof.
    destruct b as [rem b|buf d]; cbn [body_read body_brd]; intros H HI.
    - unfold take_read in H. destruct (rem =? 0)%N; [injection H as <- <-; auto|].
      destruct (br_read _ b) as [b1 [x|f| | |]] eqn:E; apply HP in E; auto; injection H as <- <-; auto.
    - unfold bufdec_read, dec_read in H. destruct buf; [|injection H as <- <-; auto].
      destruct (_ <=? _)%nat.
      + destruct (dec_poll _ _ _ d) as [d' r'] eqn:E. apply poll_inv in E; auto. injection H as <- <-. auto.
      + destruct (dec_poll _ _ _ d) as [d' [x|f| | |]] eqn:E; apply poll_inv in E; auto; injection H as <- <-; auto.
  Qed.
End Inv.

(** ** A reader with more events behind it *)
Definition ext (l2 : list ev) (t : rtail) (b : brd) : brd :=
  mkBrd (br_cap b) (br_buf b) (mkSrc (s_evs (br_src b) ++ l2) t).
Definition broken (b : brd) : Prop := s_tail (br_src b) = FailForever.

Section Ext.
  Variables (l2 : list ev) (t : rtail).
  Local Notation X := (ext l2 t).

  Lemma br_read_ext n b b' r : broken b -> br_read n b = (b', r) -> broken b' /\ (r = PErr \/ br_read n (X b) = (X b', r)).
  Proof.
    destruct b as [cap bb [evs tl]]. unfold broken, br_read, br_fill, ext, src_read. cbn [br_buf br_cap br_src s_evs s_tail].
    intros T. destruct bb as [|c buf]; [|intros [= <- <-]; split; [assumption|right; reflexivity]].
    destruct (cap <=? n)%nat.
    - destruct evs as [|[d|f|] l]; cbn [app]; [rewrite T| | |]; intros [= <- <-]; cbn; auto.
      split; [assumption|]. right. destruct (skipn n d); reflexivity.
    - destruct evs as [|[d|f|] l]; cbn [app]; [rewrite T| | |]; intros [= <- <-]; cbn; auto.
      split; [assumption|]. right. destruct (skipn cap d); reflexivity.
  Qed.

  Definition dext (d : dec) : dec := set_in (X (d_in d)) d.
  Definition bext (b : rbody) : rbody :=
    match b with RFixed n b => RFixed n (X b) | RChunked buf d => RChunked buf (dext d) end.

  Lemma inner_ext ev d b n d' r : broken (d_in d) -> poll_read_inner ev d b n = (d', r) ->
    broken (d_in d') /\ (r = DErr \/ poll_read_inner ev (dext d) b n = (dext d', r)).
  Proof.
    intros T. unfold poll_read_inner. change (d_st (dext d)) with (d_st d).
    destruct (d_st d) eqn:ES; try (intros [= <- <-]; auto; fail).
    - change (d_in (dext d)) with (X (d_in d)). unfold poll_read_chunk. destruct (_ <? _)%N; [intros [= <- <-]; auto|].
      destruct (k_data b).
      + destruct (br_read _ (d_in d)) as [i' q] eqn:E. destruct (br_read_ext _ _ _ _ T E) as [T' E']. clear E. destruct E' as [->|E]; [intros [= <- <-]; auto|].
        rewrite E. destruct q; intros [= <- <-]; auto.
      + destruct (_ <? _)%nat; intros [= <- <-]; auto.
    - change (d_sender (dext d)) with (d_sender d). destruct (d_sender d); intros [= <- <-]; auto.
    - change (d_chan (dext d)) with (d_chan d). destruct (d_chan d); intros [= <- <-]; auto.
  Qed.
  Lemma dext_set st d : dext (set_st_opt st d) = set_st_opt st (dext d).
  Proof. now destruct st. Qed.

  Definition tsim (a a2 : dturn) : Prop :=
    match a with
    | Ret d' r => broken (d_in d') /\ (r = PErr \/ a2 = Ret (dext d') r)
    | Again nr kept d' b' => broken (d_in d') /\ a2 = Again nr kept (dext d') b'
    end.
  Lemma decode_ext ev n kept d b : broken (d_in d) -> tsim (dec_decode ev n kept d b) (dec_decode ev n kept (dext d) b).
  Proof.
    intros T. unfold dec_decode. destruct (poll_read_inner ev d b n) as [d1 r] eqn:E.
    apply inner_ext in E as [T' E]; [|assumption]. destruct E as [->|E]; [cbn; auto|]. rewrite E.
    destruct r as [read st b' pend| | |]; [| |cbn; auto|cbn; auto].
    - assert (DS : d_st (set_st_opt st (set_init true (dext d1))) = d_st (set_st_opt st (set_init true d1))) by now destruct st.
      assert (DI : d_in (set_st_opt st (set_init true d1)) = d_in d1) by now destruct st.
      assert (DE : set_st_opt st (set_init true (dext d1)) = dext (set_st_opt st (set_init true d1))) by now destruct st.
      rewrite DE. change (d_st (dext ?y)) with (d_st y).
      destruct (is_done _); [cbn; rewrite DI; auto|]. destruct (_ <? _)%nat; [cbn; rewrite DI; auto|].
      destruct pend; cbn; rewrite DI; auto.
    - destruct (_ && _)%bool; cbn; auto.
  Qed.
  Lemma turn_ext ev n nr kept d b : broken (d_in d) -> tsim (dec_turn ev n nr kept d b) (dec_turn ev n nr kept (dext d) b).
  Proof.
    intros T. unfold dec_turn. destruct (grow ev b) as [b1|]; [|cbn; auto]. destruct nr; [|now apply decode_ext].
    destruct (_ <? _)%nat; [cbn; auto|]. change (d_in (dext d)) with (X (d_in d)).
    destruct (br_read _ (d_in d)) as [i' q] eqn:E. destruct (br_read_ext _ _ _ _ T E) as [T' E']. clear E. destruct E' as [->|E]; [cbn; auto|].
    rewrite E. destruct q as [x|f| | |]; [|cbn; auto|cbn; auto|cbn; auto|cbn; auto].
    cbv zeta. replace (match x with [] => set_st DDone (set_in (X i') (dext d)) | _ :: _ => set_in (X i') (dext d) end)
      with (dext (match x with [] => set_st DDone (set_in i' d) | _ :: _ => set_in i' d end)) by now destruct x.
    apply decode_ext. now destruct x.
  Qed.
  Lemma loop_ext ev n : forall fuel nr kept d b d' r, broken (d_in d) -> dec_loop fuel ev n nr kept d b = (d', r) ->
    broken (d_in d') /\ (r = PErr \/ dec_loop fuel ev n nr kept (dext d) b = (dext d', r)).
  Proof.
    induction fuel as [|f IH]; intros nr kept d b d' r T; cbn [dec_loop]; [intros [= <- <-]; auto|].
    pose proof (turn_ext ev n nr kept d b T) as TS. destruct (dec_turn ev n nr kept d b) as [d1 r1|nr1 kept1 d1 b1]; cbn [tsim] in TS.
    - intros [= <- <-]. destruct TS as [T1 [->| ->]]; auto.
    - destruct TS as [T1 ->]. apply IH. assumption.
  Qed.
  Lemma poll_ext ev n fuel d d' r : broken (d_in d) -> dec_poll fuel ev n d = (d', r) ->
    broken (d_in d') /\ (r = PErr \/ dec_poll fuel ev n (dext d) = (dext d', r)).
  Proof.
    intros T. unfold dec_poll. change (d_init (set_blk (blk_fresh ev) (dext d))) with (d_init (set_blk (blk_fresh ev) d)).
    change (d_blk (dext d)) with (d_blk d). change (d_st (dext d)) with (d_st d).
    change (set_blk (blk_fresh ev) (dext d)) with (dext (set_blk (blk_fresh ev) d)).
    set (d0 := set_blk (blk_fresh ev) d) in *. assert (T0 : broken (d_in d0)) by exact T. clearbody d0.
    destruct (_ && _)%bool; [|now apply loop_ext].
    destruct (poll_read_inner ev d0 (d_blk d) n) as [d1 q] eqn:E.
    apply inner_ext in E as [T' E]; [|assumption]. destruct E as [->|E]; [intros [= <- <-]; auto|]. rewrite E.
    destruct q as [read st b' pend| | |]; [| |intros [= <- <-]; auto|intros [= <- <-]; auto].
    - rewrite <- dext_set. cbv zeta. assert (T2 : broken (d_in (set_st_opt st d1))) by (rewrite set_opt_in; exact T').
      set (d2 := set_st_opt st d1) in *. clearbody d2. change (d_st (dext d2)) with (d_st d2).
      destruct pend; [intros [= <- <-]; auto|]. destruct (is_done _); [intros [= <- <-]; auto|].
      destruct (_ <? _)%nat; [intros [= <- <-]; auto|]. now apply loop_ext.
    - now apply loop_ext.
  Qed.
  Lemma ext_size b : (br_size b <= br_size (X b))%nat.
  Proof.
    unfold br_size, src_size, ext. cbn [br_buf br_src s_evs].
    assert (forall a c, (evs_size a <= evs_size (a ++ c))%nat); [|specialize (H (s_evs (br_src b)) l2); lia].
    induction a as [|[d|f|] a IH]; intros c; cbn; [lia| | |]; specialize (IH c); lia.
  Qed.
  Lemma dread_ext ev n d d' r : broken (d_in d) -> (0 < n)%nat -> st_ok (d_st d) -> dec_read ev n d = (d', r) ->
    broken (d_in d') /\ (r = PErr \/ dec_read ev n (dext d) = (dext d', r)).
  Proof.
    intros T Hn HS H. unfold dec_read. apply poll_ext; [assumption|].
    rewrite <- H. apply poll_mu; [assumption|assumption|]. unfold dec_fuel, dext. cbn [set_in d_in d_blk].
    pose proof (ext_size (d_in d)). lia.
  Qed.
  Definition body_ok (b : rbody) : Prop := match b with RFixed _ _ => True | RChunked _ d => st_ok (d_st d) end.
  Lemma body_ext ev n b b' r : (0 < e_bufcap ev)%nat -> broken (body_brd b) -> body_ok b -> body_read ev n b = (b', r) ->
    broken (body_brd b') /\ body_ok b' /\ (r = PErr \/ body_read ev n (bext b) = (bext b', r)).
  Proof.
    intros Hc T HS. destruct b as [rem b|buf d]; cbn [body_read bext body_brd body_ok] in *.
    - unfold take_read. destruct (rem =? 0)%N; [intros [= <- <-]; auto|].
      destruct (br_read _ b) as [b1 q] eqn:E. destruct (br_read_ext _ _ _ _ T E) as [T' E']. clear E. rename E' into E.
      destruct E as [->|E]; [intros [= <- <-]; auto|]. rewrite E. destruct q; intros [= <- <-]; auto.
    - unfold bufdec_read. destruct buf; [|intros [= <- <-]; auto].
      destruct (e_bufcap ev <=? n)%nat eqn:EN.
      + destruct (dec_read ev n d) as [d1 q] eqn:E. assert (Hn : (0 < n)%nat) by lia.
        pose proof (proj1 (poll_mu ev n d Hn HS)) as SO. rewrite E in SO. cbn [fst] in SO.
        apply dread_ext in E as [T' E]; auto. destruct E as [->|E]; [intros [= <- <-]; auto|]. rewrite E. intros [= <- <-]; auto.
      + destruct (dec_read ev (e_bufcap ev) d) as [d1 q] eqn:E.
        pose proof (proj1 (poll_mu ev (e_bufcap ev) d Hc HS)) as SO. rewrite E in SO. cbn [fst] in SO.
        apply dread_ext in E as [T' E]; auto. destruct E as [->|E]; [intros [= <- <-]; auto|]. rewrite E. destruct q; intros [= <- <-]; auto.
  Qed.
End Ext.

(** ** Segments without obstacles *)
Lemma avail_calm tmo l : snd (avail tmo l) = ObEnd -> calm tmo l /\ fst (avail tmo l) = evs_data l.
Proof.
  induction l as [|[d|f|] l IH]; cbn [avail evs_data].
  - split; [constructor|reflexivity].
  - destruct (avail tmo l) as [x k]. cbn [fst snd] in *. intros H. destruct (IH H) as [C <-]. split; [|reflexivity].
    constructor; [split; [discriminate|intros _; discriminate]|exact C].
  - destruct (tmo && f)%bool eqn:E; [discriminate|]. intros H. destruct (IH H) as [C <-]. split; [|reflexivity].
    constructor; [|exact C]. split; [discriminate|]. intros -> [= ->]. discriminate.
  - discriminate.
Qed.
Lemma avail_app tmo l l2 : calm tmo l -> avail tmo (l ++ l2) = (evs_data l ++ fst (avail tmo l2), snd (avail tmo l2)).
Proof.
  induction 1 as [|e l [H1 H2] _ IH]; cbn [app evs_data]; [now destruct (avail tmo l2)|].
  destruct e as [d|f|]; cbn [avail]; [| |congruence].
  - rewrite IH. cbn [evs_data]. now rewrite app_assoc.
  - destruct (tmo && f)%bool eqn:E; [|exact IH]. apply andb_true_iff in E as [-> ->]. now elim (H2 eq_refl).
Qed.
Definition calmb (tmo : bool) (b : brd) : Prop := calm tmo (s_evs (br_src b)).
Lemma calm_skip tmo n d l : calm tmo l -> calm tmo (match skipn n d with [] => l | d' => Data d' :: l end).
Proof. intros C. destruct (skipn n d); [exact C|]. constructor; [split; [discriminate|intros _; discriminate]|exact C]. Qed.
Lemma calm_src tmo n s s' r : src_read n s = (s', r) -> calm tmo (s_evs s) -> calm tmo (s_evs s').
Proof.
  unfold src_read. destruct (s_evs s) as [|[d|f|] l] eqn:E; intros [= <- <-] C; cbn [s_evs]; rewrite ?E; auto; inversion C; subst; auto.
  now apply calm_skip.
Qed.
Lemma calm_read tmo n b b' r : br_read n b = (b', r) -> calmb tmo b -> calmb tmo b'.
Proof. unfold calmb. intros H C. br_cases H; cbn [br_src]; try assumption; eapply calm_src; eauto. Qed.

(** The reader after a head, apart from the segments that follow. *)
Lemma win_iso tmo l2 b rest : wf_brd b -> win tmo l2 b rest ObEnd ->
  exists b1, b = ext l2 (s_tail (br_src b)) b1 /\ broken b1 /\ wf_brd b1 /\ br_data b1 = rest /\ calmb tmo b1.
Proof.
  intros [W C] (l1 & E & -> & K). symmetry in K. destruct (avail_calm _ _ K) as [CM ED].
  exists (mkBrd (br_cap b) (br_buf b) (mkSrc l1 FailForever)). unfold ext, broken, calmb, br_data, src_data. cbn [br_cap br_buf br_src s_evs s_tail].
  rewrite ED. ands; auto.
  - rewrite <- E. destruct b as [? ? [? ?]]. reflexivity.
  - split; [|exact C]. unfold wf_src in *. rewrite E in W. now apply Forall_app in W.
Qed.

(** ** Draining a body of known length *)
Section Drain.
  Variables (l2 : list ev) (t : rtail) (ev : env) (tmo : bool).
  Local Notation X := (ext l2 t).
  Context {A : Type} (must : bool) (fin : A).

  Definition drained (b : rbody) : Prop :=
    exists b1, body_brd b = X b1 /\ wf_brd b1 /\ br_data b1 = [] /\ calmb tmo b1.

  Lemma drain_fixed : forall m b1 l p, (br_size b1 < m)%nat -> drains must fin l p -> broken b1 -> wf_brd b1 ->
    br_data b1 = l -> calmb tmo b1 ->
    exists F b', drained b' /\ forall fuel, (F <= fuel)%nat -> run_reading fuel ev p (RFixed (N.of_nat (length l)) (X b1)) = (b', inl fin).
  Proof.
    induction m as [|m IH]; intros b1 l p Hm HD HB HW ED HC; [lia|].
    inversion HD as [l0 n k Hn HP HX HE|HM]; subst l0 || subst l; subst p.
    2:{ exists 0%nat. eexists. split; [|intros fuel _; destruct fuel; reflexivity]. exists b1. cbn. auto. }
    destruct l as [|c l].
    - exists 1%nat, (RFixed 0 (X b1)). split; [exists b1; auto|]. intros [|f] Hf; [lia|].
      cbn. rewrite HE by reflexivity. destruct f; reflexivity.
    - set (L := c :: l) in *. assert (LL : (0 < length L)%nat) by (cbn; lia).
      assert (NZ : (N.of_nat (length L) =? 0)%N = false) by lia.
      set (n' := N.to_nat (N.min (N.of_nat n) (N.of_nat (length L)))). assert (Hn' : (0 < n' <= n)%nat) by lia.
      destruct (br_read n' b1) as [b2 r] eqn:E. destruct (br_read_ext l2 t _ _ _ _ HB E) as [HB2 [->|EX]].
      { apply br_read_err in E. rewrite ED in E. discriminate. }
      pose proof (br_read_wf _ _ _ _ E HW) as HW2. pose proof (calm_read _ _ _ _ _ E HC) as HC2.
      assert (ST : forall f, run_reading (S f) ev (Rd n k) (RFixed (N.of_nat (length L)) (X b1)) =
        match r with
        | POk d => run_reading f ev (k r) (RFixed (N.of_nat (length L) - N.of_nat (length d)) (X b2))
        | PPanic => (RFixed (N.of_nat (length L)) (X b2), inr APanic)
        | PFuel => (RFixed (N.of_nat (length L)) (X b2), inr AFuel)
        | _ => run_reading f ev (k r) (RFixed (N.of_nat (length L)) (X b2))
        end).
      { intros f. cbn [run_reading body_read]. unfold take_read. rewrite NZ. fold n'. rewrite EX. destruct r; reflexivity. }
      destruct r as [d|f| | |]; try (now (apply br_read_never in E; destruct E; congruence)).
      + pose proof (br_read_data _ _ _ _ E) as D1. pose proof (br_read_len _ _ _ _ E) as D2. pose proof (br_read_size _ _ _ _ E) as D3.
        destruct d as [|c0 d]; [apply br_read_nil in E; [|lia|assumption]; destruct E as [E _]; rewrite ED in E; discriminate|].
        set (D := c0 :: d) in *. assert (LD : (0 < length D)%nat) by (cbn; lia). rewrite ED in D1.
        destruct (IH b2 (br_data b2) (k (POk D))) as (F & b' & HF & HR); auto; [lia|apply HX; [discriminate|lia|exact D1]|].
        exists (S F), b'. split; [exact HF|]. intros [|f] Hf; [lia|]. rewrite ST.
        replace (N.of_nat (length L) - N.of_nat (length D))%N with (N.of_nat (length (br_data b2))); [apply HR; lia|].
        rewrite D1, app_length. lia.
      + pose proof (br_read_pend_size _ _ _ _ E) as D3. pose proof (br_read_pend_data _ _ _ _ E) as D1.
        destruct (IH b2 L (k (PPend f))) as (F & b' & HF & HR); auto; [lia|congruence|].
        exists (S F), b'. split; [exact HF|]. intros [|g] Hf; [lia|]. rewrite ST. apply HR. lia.
      + apply br_read_err in E. rewrite ED in E. discriminate.
  Qed.
End Drain.

(** ** Draining a chunked body *)
Lemma reads_snoc {E} (read : nat -> E -> E * pres bytes) n : forall ns e d out, reads read ns e = (d, out, Going) ->
  reads read (ns ++ [n]) e =
  match read n d with
  | (d', POk []) => (d', out, Ended)
  | (d', POk x) => (d', out ++ x, Going)
  | (d', PPend _) => (d', out, Going)
  | (d', PErr) => (d', out, Failed)
  | (d', PPanic) => (d', out, Panicked)
  | (d', PFuel) => (d', out, Hung)
  end.
Proof.
  induction ns as [|m ns IH]; intros e d out H; cbn [reads app] in *.
  - injection H as <- <-. destruct (read n e) as [d' [[|c x]|f| | |]]; auto. now rewrite app_nil_r.
  - destruct (read m e) as [e1 [[|c x]|f| | |]]; try discriminate; [|now apply IH].
    destruct (reads read ns e1) as [[e2 o2] k2] eqn:E2. injection H as <- <- ->. rewrite (IH _ _ _ E2).
    destruct (read n e2) as [d' [[|c' x']|f| | |]]; cbv iota beta; try reflexivity. now rewrite app_assoc.
Qed.

Section DrainChunked.
  Variables (l2 : list ev) (t : rtail) (ev : env) (tmo : bool).
  Local Notation X := (ext l2 t).
  Context {A : Type} (fin : A).
  Variables (P wire extra : bytes) (tr : list (bytes * bytes)) (b0 : brd).
  Hypothesis G : grow_ok ev.
  Hypothesis HF : fitting (e_deccap ev) P tr wire.
  Hypothesis Hcap : (0 < e_bufcap ev)%nat.
  Hypothesis HW0 : wf_brd b0.
  Hypothesis HB0 : br_data b0 = wire ++ extra.

  Definition going (ns : list nat) (d : dec) (out : bytes) : Prop :=
    reads (dec_read ev) ns (dec_new ev b0) = (d, out, Going) /\ Forall (fun n => 0 < n)%nat ns.

  Lemma going_prefix ns d out : going ns d out -> prefix out P /\ (length ns <= br_size b0)%nat.
  Proof.
    intros [H1 H2]. destruct HF as (cw & n & z & tw & F1 & F2 & F3 & F4 & F5 & F6).
    assert (HB : br_data b0 = (cw ++ z ++ tw ++ CRLF) ++ extra) by congruence.
    pose proof (fresh_load ev b0 P tr cw n z tw extra ns d out Going G F1 F2 F3 F4 F5 HW0 HB H2 H1) as Q. cbv iota beta in Q. tauto.
  Qed.

  Lemma going_step ns d out n d' r : going ns d out -> (0 < n)%nat -> dec_read ev n d = (d', r) ->
    match r with
    | POk [] => out = P /\ d_st d' = DDone /\ k_data (d_blk d') ++ br_data (d_in d') = extra
    | POk x => going (ns ++ [n]) d' (out ++ x)
    | PPend _ => going (ns ++ [n]) d' out
    | _ => False
    end.
  Proof.
    intros [H1 H2] Hn E. pose proof (reads_snoc (dec_read ev) n _ _ _ _ H1) as R. rewrite E in R.
    assert (H3 : Forall (fun n => 0 < n)%nat (ns ++ [n])) by (apply Forall_app; auto).
    destruct HF as (cw & k & z & tw & F1 & F2 & F3 & F4 & F5 & F6).
    assert (HB : br_data b0 = (cw ++ z ++ tw ++ CRLF) ++ extra) by congruence.
    assert (Q := fun o q => fresh_load ev b0 P tr cw k z tw extra (ns ++ [n]) d' o q G F1 F2 F3 F4 F5 HW0 HB H3).
    destruct r as [[|c x]|f| | |].
    - specialize (Q _ _ R). cbv iota beta in Q. destruct Q as (Q1 & _ & _ & Q2). auto.
    - split; assumption.
    - split; assumption.
    - apply (Q _ _ R).
    - apply (Q _ _ R).
    - apply (Q _ _ R).
  Qed.

  Lemma going_len ns d out n d' r : going ns d out -> (0 < n)%nat -> dec_read ev n d = (d', r) ->
    match r with POk x => (length x <= n)%nat | _ => True end.
  Proof.
    intros [H1 H2] Hn E. destruct (reads_end ev G _ _ _ _ _ (new_ok ev b0) H2 H1) as (_ & _ & _ & Q).
    destruct (Q eq_refl) as [Q1 _]. pose proof (read_ok ev n d d' r G Q1 Hn E) as R. destruct r; auto. tauto.
  Qed.

  (** The decoder's reader keeps its properties. *)
  Definition nice (b : brd) : Prop := wf_brd b /\ calmb tmo b.
  Lemma nice_read n b b' r : br_read n b = (b', r) -> nice b -> nice b'.
  Proof. intros E [H1 H2]. split; [eapply br_read_wf; eauto|eapply calm_read; eauto]. Qed.

  (** Reads of the handler. *)
  Lemma chunked_reads : forall ms ns d out o buf l b' x k, Forall (fun n => 0 < n)%nat ms ->
    going ns d out -> out = o ++ buf -> P = o ++ l ->
    reads (body_read ev) ms (RChunked buf d) = (b', x, k) ->
    match k with
    | Going => prefix x l /\ (length ms <= length l + (br_size b0 - length ns))%nat
    | Ended => x = l /\ exists d', b' = RChunked [] d' /\ d_st d' = DDone /\ k_data (d_blk d') ++ br_data (d_in d') = extra
    | _ => False
    end.
  Proof.
    induction ms as [|n ms IH]; intros ns d out o buf l b' x k HF' HG EO EP H; cbn [reads] in H.
    - injection H as <- <- <-. split; [apply prefix_nil|cbn; lia].
    - pose proof (Forall_inv HF') as Hn. pose proof (Forall_inv_tail HF') as HF2. cbv beta in Hn. subst out.
      destruct (going_prefix _ _ _ HG) as [(q & Eq) HL].
      destruct buf as [|c buf].
      + rewrite app_nil_r in *. set (n' := if (e_bufcap ev <=? n)%nat then n else e_bufcap ev).
        assert (Hn' : (0 < n')%nat) by (unfold n'; destruct (e_bufcap ev <=? n)%nat; lia).
        destruct (dec_read ev n' d) as [d' r] eqn:E.
        pose proof (going_step _ _ _ _ _ _ HG Hn' E) as HG'. pose proof (going_len _ _ _ _ _ _ HG Hn' E) as LE.
        assert (R : body_read ev n (RChunked [] d) =
                    match r with
                    | POk x => (RChunked (if (e_bufcap ev <=? n)%nat then [] else skipn (length (firstn n x)) x) d',
                                POk (if (e_bufcap ev <=? n)%nat then x else firstn n x))
                    | r => (RChunked [] d', r)
                    end).
        { cbn [body_read]. unfold bufdec_read. unfold n' in E. destruct (e_bufcap ev <=? n)%nat; rewrite E; destruct r; reflexivity. }
        rewrite R in H. clear R. destruct r as [Y|fi| | |]; try contradiction.
        * destruct Y as [|c Y].
          { destruct HG' as (<- & D1 & D2). rewrite firstn_nil, skipn_nil in H.
            assert (L0 : l = []) by (apply (app_inv_head o); rewrite app_nil_r; congruence).
            destruct (e_bufcap ev <=? n)%nat; injection H as <- <- <-; (split; [auto|exists d'; auto]). }
          set (YY := c :: Y) in *. change (going (ns ++ [n']) d' (o ++ YY)) in HG'.
          destruct (going_prefix _ _ _ HG') as [(q' & Eq') HL']. rewrite app_length in HL'. cbn [length] in HL'.
          assert (El : l = YY ++ q') by (apply (app_inv_head o); rewrite app_assoc; congruence).
          set (y := if (e_bufcap ev <=? n)%nat then YY else firstn n YY) in *.
          set (bf := if (e_bufcap ev <=? n)%nat then [] else skipn (length (firstn n YY)) YY) in *.
          assert (Yb : YY = y ++ bf).
          { unfold y, bf. destruct (e_bufcap ev <=? n)%nat; [now rewrite app_nil_r|apply take_skip]. }
          assert (Hy : y <> []).
          { unfold y. destruct (e_bufcap ev <=? n)%nat; [discriminate|]. destruct n; [lia|discriminate]. }
          assert (H' : match y with [] => (RChunked bf d', [], Ended) | _ :: _ => let '(e', out, k) := reads (body_read ev) ms (RChunked bf d') in (e', y ++ out, k) end = (b', x, k)) by exact H.
          clear H. rename H' into H. clearbody y bf. destruct y as [|y0 y]; [congruence|]. destruct (reads (body_read ev) ms (RChunked bf d')) as [[b2 x2] k2] eqn:E2.
          injection H as <- <- <-. rewrite Yb, <- app_assoc in El.
          pose proof (IH _ _ _ (o ++ y0 :: y) bf (bf ++ q') _ _ _ HF2 HG' ltac:(rewrite Yb, app_assoc; reflexivity) ltac:(rewrite EP, El, app_assoc; reflexivity) E2) as Q.
          destruct k2; auto.
          { destruct Q as [Q1 Q2]. rewrite El. split; [exact (prefix_app (y0 :: y) x2 _ Q1)|]. rewrite !app_length in *. cbn [length] in *. lia. }
          { destruct Q as [-> Q2]. split; [now rewrite El|exact Q2]. }
        * destruct (going_prefix _ _ _ HG') as [_ HL']. rewrite app_length in HL'. cbn [length] in HL'.
          pose proof (IH _ _ _ o [] l _ _ _ HF2 HG' ltac:(now rewrite app_nil_r) EP H) as Q.
          destruct k; auto. destruct Q as [Q1 Q2]. split; [exact Q1|]. rewrite app_length in Q2. cbn [length] in *. lia.
      + change (body_read ev n (RChunked (c :: buf) d)) with
          (RChunked (skipn (length (firstn n (c :: buf))) (c :: buf)) d, POk (firstn n (c :: buf))) in H.
        set (YY := c :: buf) in *.
        assert (El : l = YY ++ q) by (apply (app_inv_head o); rewrite app_assoc; congruence).
        set (y := firstn n YY) in *. set (bf := skipn (length y) YY) in *. assert (Yb : YY = y ++ bf) by apply take_skip.
        assert (Hy : y <> []) by (unfold y; destruct n; [lia|discriminate]).
        assert (H' : match y with [] => (RChunked bf d, [], Ended) | _ :: _ => let '(e', out, k) := reads (body_read ev) ms (RChunked bf d) in (e', y ++ out, k) end = (b', x, k)) by exact H.
        clear H. rename H' into H. clearbody y bf. destruct y as [|y0 y]; [congruence|]. destruct (reads (body_read ev) ms (RChunked bf d)) as [[b2 x2] k2] eqn:E2.
        injection H as <- <- <-. rewrite Yb, <- app_assoc in El.
        pose proof (IH _ _ _ (o ++ y0 :: y) bf (bf ++ q) _ _ _ HF2 HG ltac:(rewrite Yb, app_assoc; reflexivity) ltac:(rewrite EP, El, app_assoc; reflexivity) E2) as Q.
        destruct k2; auto.
        { destruct Q as [Q1 Q2]. rewrite El. split; [exact (prefix_app (y0 :: y) x2 _ Q1)|]. rewrite !app_length in *. cbn [length] in *. lia. }
        { destruct Q as [-> Q2]. split; [now rewrite El|exact Q2]. }
  Qed.

  Lemma drain_chunked : extra = [] -> forall m ns d out o buf l p, (length l + (br_size b0 - length ns) < m)%nat ->
    going ns d out -> st_ok (d_st d) -> broken (d_in d) -> nice (d_in d) -> out = o ++ buf -> P = o ++ l ->
    drains true fin l p ->
    exists F b', drained l2 t tmo b' /\ forall fuel, (F <= fuel)%nat -> run_reading fuel ev p (RChunked buf (dext l2 t d)) = (b', inl fin).
  Proof.
    intros EE. induction m as [|m IH]; intros ns d out o buf l p Hm HG HS HB HN EO EP HD; [lia|].
    inversion HD as [l0 n k Hn HP HX HE|]; [subst l0 p|discriminate].
    destruct buf as [|c buf].
    - (* the decoder is polled *)
      rewrite app_nil_r in EO. subst out.
      set (n' := if (e_bufcap ev <=? n)%nat then n else e_bufcap ev). assert (Hn' : (0 < n')%nat) by (unfold n'; destruct (e_bufcap ev <=? n)%nat; lia).
      destruct (dec_read ev n' d) as [d' r] eqn:E.
      pose proof (going_step _ _ _ _ _ _ HG Hn' E) as HG'.
      assert (NE : r <> PErr /\ r <> PPanic /\ r <> PFuel) by (destruct r as [[|? ?]| | | |]; tauto || (ands; discriminate)).
      pose proof (going_len _ _ _ _ _ _ HG Hn' E) as LE.
      destruct (dread_ext l2 t ev n' d d' r HB Hn' HS E) as [HB' [?|EX]]; [tauto|].
      pose proof (proj1 (poll_mu ev n' d Hn' HS)) as HS'. rewrite E in HS'. cbn [fst] in HS'.
      pose proof (poll_inv nice nice_read ev n' _ _ _ _ E HN) as HN'.
      assert (ST : forall f, run_reading (S f) ev (Rd n k) (RChunked [] (dext l2 t d)) =
        match r with
        | POk x => run_reading f ev (k (POk (if (e_bufcap ev <=? n)%nat then x else firstn n x)))
                     (RChunked (if (e_bufcap ev <=? n)%nat then [] else skipn (length (firstn n x)) x) (dext l2 t d'))
        | PPend fi => run_reading f ev (k (PPend fi)) (RChunked [] (dext l2 t d'))
        | _ => run_reading (S f) ev (Rd n k) (RChunked [] (dext l2 t d))
        end).
      { intros f. destruct r as [x|fi| | |]; try reflexivity; cbn [run_reading body_read]; unfold bufdec_read; unfold n' in EX;
        destruct (e_bufcap ev <=? n)%nat; rewrite EX; reflexivity. }
      destruct r as [x|fi| | |]; try tauto.
      + destruct x as [|c x].
        * destruct HG' as (<- & _ & HE'). rewrite EE in HE'. apply app_eq_nil in HE' as [_ HE']. exists 1%nat, (RChunked [] (dext l2 t d')). split.
          { exists (d_in d'). split; [reflexivity|]. destruct HN'. auto. }
          intros [|f] Hf; [lia|]. rewrite ST. rewrite firstn_nil, skipn_nil.
          assert (L0 : l = []) by (apply (app_inv_head o); rewrite app_nil_r; congruence).
          transitivity (run_reading f ev (Rt fin) (RChunked [] (dext l2 t d'))); [|destruct f; reflexivity].
          rewrite <- (HE L0). destruct (e_bufcap ev <=? n)%nat; reflexivity.
        * set (Y := c :: x) in *. change (going (ns ++ [n']) d' (o ++ Y)) in HG'. clear E EX NE.
          destruct (going_prefix _ _ _ HG') as [(q & Eq) HL]. rewrite app_length in HL. cbn [length] in HL.
          assert (El : l = Y ++ q) by (apply (app_inv_head o); rewrite app_assoc; congruence).
          set (y := if (e_bufcap ev <=? n)%nat then Y else firstn n Y) in *.
          set (bf := if (e_bufcap ev <=? n)%nat then [] else skipn (length (firstn n Y)) Y) in *.
          assert (Yb : Y = y ++ bf).
          { unfold y, bf. destruct (e_bufcap ev <=? n)%nat; [now rewrite app_nil_r|apply take_skip]. }
          assert (Hy : y <> []).
          { unfold y. destruct (e_bufcap ev <=? n)%nat; [discriminate|]. destruct n; [lia|discriminate]. }
          assert (Ly : (0 < length y)%nat) by (destruct y; [congruence|cbn; lia]).
          assert (Lyn : (length y <= n)%nat).
          { unfold y. unfold n' in LE. destruct (e_bufcap ev <=? n)%nat eqn:EC; [|rewrite firstn_length; lia]. exact LE. }
          rewrite Yb in El. rewrite <- app_assoc in El.
          destruct (IH (ns ++ [n']) d' (o ++ Y) (o ++ y) bf (bf ++ q) (k (POk y))) as (F & b' & HF' & HR); auto.
          { rewrite El, app_length in Hm. rewrite (app_length ns). cbn [length]. lia. }
          { rewrite Yb. now rewrite app_assoc. }
          { rewrite EP, El. now rewrite app_assoc. }
          exists (S F), b'. split; [exact HF'|]. intros [|f] Hf; [lia|]. rewrite ST. apply HR. lia.
      + destruct (going_prefix _ _ _ HG') as [_ HL]. rewrite app_length in HL. cbn [length] in HL.
        destruct (IH (ns ++ [n']) d' o o [] l (k (PPend fi))) as (F & b' & HF' & HR); auto.
        { rewrite (app_length ns). cbn [length]. lia. }
        { now rewrite app_nil_r. }
        exists (S F), b'. split; [exact HF'|]. intros [|f] Hf; [lia|]. rewrite ST. apply HR. lia.
    - (* the buffer is not empty *)
      set (Y := c :: buf) in *. destruct (going_prefix _ _ _ HG) as [(q & Eq) HL].
      assert (El : l = Y ++ q) by (apply (app_inv_head o); rewrite app_assoc; congruence).
      set (y := firstn n Y). set (bf := skipn (length y) Y). assert (Yb : Y = y ++ bf) by apply take_skip.
      assert (Hy : y <> []) by (unfold y; destruct n; [lia|discriminate]).
      assert (Ly : (0 < length y)%nat) by (destruct y; [congruence|cbn; lia]).
      assert (Lyn : (length y <= n)%nat) by (unfold y; rewrite firstn_length; lia).
      rewrite Yb in El. rewrite <- app_assoc in El.
      destruct (IH ns d out (o ++ y) bf (bf ++ q) (k (POk y))) as (F & b' & HF' & HR); auto.
      { rewrite El, app_length in Hm. lia. }
      { rewrite EO, Yb. now rewrite app_assoc. }
      { rewrite EP, El. now rewrite app_assoc. }
      exists (S F), b'. split; [exact HF'|]. intros [|f] Hf; [lia|].
      change (run_reading (S f) ev (Rd n k) (RChunked Y (dext l2 t d))) with (run_reading f ev (k (POk y)) (RChunked bf (dext l2 t d))).
      apply HR. lia.
  Qed.
End DrainChunked.


(** ** Reads of a body of known length *)
Lemma fixed_reads ev : forall ms rem b b' x k, wf_brd b -> Forall (fun n => 0 < n)%nat ms ->
  reads (body_read ev) ms (RFixed rem b) = (b', x, k) ->
  match k with
  | Going => prefix x (firstn (N.to_nat rem) (br_data b)) /\ (length ms <= br_size b)%nat
  | Ended => x = firstn (N.to_nat rem) (br_data b) /\
      exists rem' b2, b' = RFixed rem' b2 /\ br_data b = x ++ br_data b2 /\ (rem' = rem - N.of_nat (length x))%N /\ wf_brd b2
  | Failed => x = br_data b /\ (N.of_nat (length (br_data b)) < rem)%N /\ ~ clean (br_src b)
  | _ => False
  end.
Proof.
  induction ms as [|n ms IH]; intros rem b b' x k HW HF H; cbn [reads] in H.
  - injection H as <- <- <-. split; [apply prefix_nil|cbn; lia].
  - pose proof (Forall_inv HF) as Hn. pose proof (Forall_inv_tail HF) as HF2. cbv beta in Hn. clear HF.
    cbn [body_read] in H. unfold take_read in H. destruct (rem =? 0)%N eqn:Z.
    { assert (rem = 0)%N as -> by lia. injection H as <- <- <-. split; [reflexivity|]. exists 0%N, b. auto. }
    set (n' := N.to_nat (N.min (N.of_nat n) rem)) in *. assert (Hn' : (0 < n' <= N.to_nat rem)%nat) by lia.
    destruct (br_read n' b) as [b1 r] eqn:E. pose proof (br_read_wf _ _ _ _ E HW) as HW1.
    destruct r as [d|f| | |]; try (now (apply br_read_never in E; destruct E; congruence)).
    + pose proof (br_read_data _ _ _ _ E) as D1. pose proof (br_read_len _ _ _ _ E) as D2. pose proof (br_read_size _ _ _ _ E) as D3.
      destruct d as [|c d].
      { assert (Hp : (0 < n')%nat) by (clear -Hn'; lia). destruct (br_read_nil _ _ _ Hp HW E) as [D4 D5]. injection H as <- <- <-. rewrite D4, firstn_nil. split; [reflexivity|].
        exists (rem - N.of_nat (length (@nil byte)))%N, b1. rewrite D5. auto. }
      set (D := c :: d) in *. assert (LD : (0 < length D)%nat) by (cbn; lia).
      destruct (reads (body_read ev) ms (RFixed (rem - N.of_nat (length D)) b1)) as [[b2 x2] k2] eqn:E2.
      injection H as <- <- <-. specialize (IH _ _ _ _ _ HW1 HF2 E2).
      assert (FE : firstn (N.to_nat rem) (br_data b) = D ++ firstn (N.to_nat (rem - N.of_nat (length D))) (br_data b1)).
      { rewrite D1. rewrite firstn_app. rewrite firstn_all2 by lia. f_equal. f_equal. lia. }
      change (c :: d ++ x2) with (D ++ x2). rewrite FE.
      destruct k2; auto.
      * destruct IH as [I1 I2]. split; [now apply prefix_app|cbn [length]; lia].
      * destruct IH as (-> & rem' & b3 & -> & I1 & I2 & I3). split; [reflexivity|]. exists rem', b3. ands; auto.
        { rewrite D1, I1 at 1. now rewrite app_assoc. }
        { rewrite app_length. lia. }
      * destruct IH as (-> & I1 & I2). rewrite D1. split; [reflexivity|]. split; [rewrite app_length; lia|].
        intros C. apply I2. now destruct (br_read_clean _ _ _ _ E C).
    + pose proof (br_read_pend_size _ _ _ _ E) as D3. pose proof (br_read_pend_data _ _ _ _ E) as D1.
      specialize (IH _ _ _ _ _ HW1 HF2 H). rewrite D1 in IH. destruct k; auto.
      * destruct IH as [I1 I2]. split; [exact I1|cbn [length]; lia].
      * destruct IH as (I0 & I1 & I2). ands; auto. intros C. apply I2. now destruct (br_read_clean _ _ _ _ E C).
    + injection H as <- <- <-. rewrite (br_read_err _ _ _ E). ands; auto; [cbn; lia|].
      intros C. now destruct (br_read_clean _ _ _ _ E C).
Qed.

(** Going on after the end never gives more, nor takes more. *)
Lemma fixed_reads_on ev : forall ms rem b b' x k, wf_brd b -> Forall (fun n => 0 < n)%nat ms ->
  reads_on (body_read ev) ms (RFixed rem b) = (b', x, k) ->
  prefix x (firstn (N.to_nat rem) (br_data b)) /\ k <> Panicked /\ k <> Hung /\
  exists rem' b2, b' = RFixed rem' b2 /\ (k <> Failed -> br_data b = x ++ br_data b2).
Proof.
  induction ms as [|n ms IH]; intros rem b b' x k HW HF H; cbn [reads_on] in H.
  - injection H as <- <- <-. ands; [apply prefix_nil|discriminate|discriminate|]. exists rem, b. auto.
  - pose proof (Forall_inv HF) as Hn. pose proof (Forall_inv_tail HF) as HF2. cbv beta in Hn. clear HF.
    cbn [body_read] in H. unfold take_read in H. destruct (rem =? 0)%N eqn:Z.
    { assert (rem = 0)%N as -> by lia. destruct (reads_on (body_read ev) ms (RFixed 0 b)) as [[b2 x2] k2] eqn:E2.
      injection H as <- <- <-. specialize (IH _ _ _ _ _ HW HF2 E2). exact IH. }
    set (n' := N.to_nat (N.min (N.of_nat n) rem)) in *. assert (Hn' : (0 < n' <= N.to_nat rem)%nat) by lia.
    destruct (br_read n' b) as [b1 r] eqn:E. pose proof (br_read_wf _ _ _ _ E HW) as HW1.
    destruct r as [D|f| | |]; try (now (apply br_read_never in E; destruct E; congruence)).
    + pose proof (br_read_data _ _ _ _ E) as D1. pose proof (br_read_len _ _ _ _ E) as D2.
      destruct (reads_on (body_read ev) ms (RFixed (rem - N.of_nat (length D)) b1)) as [[b2 x2] k2] eqn:E2.
      injection H as <- <- <-. destruct (IH _ _ _ _ _ HW1 HF2 E2) as (I1 & I2 & I3 & rem' & b3 & -> & I4).
      assert (FE : firstn (N.to_nat rem) (br_data b) = D ++ firstn (N.to_nat (rem - N.of_nat (length D))) (br_data b1)).
      { rewrite D1. rewrite firstn_app. rewrite firstn_all2 by lia. f_equal. f_equal. lia. }
      rewrite FE. ands; auto; [now apply prefix_app|]. exists rem', b3. split; [reflexivity|]. intros N. rewrite D1, I4 by exact N. now rewrite app_assoc.
    + pose proof (br_read_pend_data _ _ _ _ E) as D1. specialize (IH _ _ _ _ _ HW1 HF2 H). now rewrite D1 in IH.
    + injection H as <- <- <-. ands; [apply prefix_nil|discriminate|discriminate|]. exists rem, b1. split; [reflexivity|congruence].
Qed.
