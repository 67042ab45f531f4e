(** Proofs about how much of a body has been handed over when its reader has to wait. *)
From Verif Require Import ServerEnc Accept Reads SpecChunked SpecReq SpecServer Lemmas Proofs_Parse Proofs_Buf Proofs_Dec Proofs_DecMsg
  Proofs_DecReads Proofs_Body.

(** ** Readers whose connection stops for a while, with anything behind that *)
Definition stops (b : brd) : Prop := exists l f, s_evs (br_src b) = l ++ [Pend f].
Definition dry (b : brd) : Prop := br_buf b = [] /\ s_evs (br_src b) = [].

(** The decoder waits only on the connection, and for chunk data only when it has none left, or
    on the trailer channel. *)
Lemma inner_pend ev d b n d' read st b' f : poll_read_inner ev d b n = (d', DSome read st b' (Some f)) ->
  read = [] /\
  ((exists cur len n0, d_st d = DChunk cur len /\ st = Some (DChunk cur len) /\ k_data b = [] /\ b' = b /\
      br_read n0 (d_in d) = (d_in d', PPend f)) \/
   (exists h, d_st d = DTrailerSending h /\ d_chan d <> [] /\ st = None /\ d' = d)).
Proof.
  unfold poll_read_inner. destruct (d_st d) eqn:ES.
  - unfold decode_init, sliced. destruct (_ <? _)%nat; [discriminate|]. destruct (parse_chunk_size _) as [[sz rest]| |]; discriminate.
  - unfold poll_read_chunk. destruct (_ <? _)%N; [discriminate|]. destruct (k_data b) eqn:EK.
    + destruct (br_read _ _) as [i' [x|f0| | |]] eqn:E; try discriminate. intros [= <- <- <- <- <-]. split; [reflexivity|]. left.
      eexists _, _, _. ands; eauto.
    + cbv zeta. destruct (_ <? _)%nat; discriminate.
  - unfold decode_chunk_end. destruct (_ <? _)%nat; [discriminate|]. destruct (_ <? _)%nat; [discriminate|]. destruct (beq _ _); discriminate.
  - unfold decode_trailer, sliced. destruct (_ <? _)%nat; [discriminate|]. destruct (hp_headers _ _ _) as [[hs rest]| |]; try discriminate.
    destruct (append_trailers hs []); discriminate.
  - destruct (d_sender d); discriminate.
  - destruct (d_chan d) eqn:EC; [discriminate|]. intros [= <- <- <- <- <-]. split; [reflexivity|]. right. eexists. ands; eauto. discriminate.
  - discriminate.
Qed.

Section Stop.
  Variables (l2 : list ev) (t : rtail).
  Local Notation X := (ext l2 t).
  Local Notation DX := (dext l2 t).

  Lemma stop_inv x (l l0 : list ev) f : x :: l = l0 ++ [Pend f] -> (l = [] /\ x = Pend f) \/ exists l1, l = l1 ++ [Pend f].
  Proof. destruct l0 as [|y l0]; cbn; intros [= -> E]; [left; auto|right; eauto]. Qed.
  Lemma stop_skip n d (l : list ev) f : exists l1, match skipn n d with [] => l ++ [Pend f] | d' => Data d' :: l ++ [Pend f] end = l1 ++ [Pend f].
  Proof. destruct (skipn n d); [eauto|]. eexists (Data _ :: l). reflexivity. Qed.

  Lemma br_read_stop n b b' r : stops b -> br_read n b = (b', r) ->
    br_read n (X b) = (X b', r) /\ (stops b' \/ dry b' /\ exists f, r = PPend f).
  Proof.
    destruct b as [cap bb [evs tl]]. unfold stops, dry, br_read, br_fill, ext, src_read. cbn [br_buf br_cap br_src s_evs s_tail].
    intros (l0 & f0 & T). destruct bb as [|c buf]; [|intros [= <- <-]; split; [reflexivity|left; eauto]].
    destruct evs as [|x l]; [destruct l0; discriminate|]. pose proof T as T0. apply stop_inv in T.
    destruct (cap <=? n)%nat; destruct x as [d|f|]; cbn [app]; intros [= <- <-]; cbn [br_buf br_src br_cap s_evs s_tail];
      destruct T as [[-> E]|[l1 ->]]; try discriminate;
      try (split; [reflexivity|]; try (left; eauto; fail); right; eauto; fail).
    - split; [destruct (skipn n d); reflexivity|]. left. destruct (stop_skip n d l1 f0) as (l3 & E). eauto.
    - split; [unfold br_consume; cbn [br_cap br_buf br_src]; destruct (skipn cap d); reflexivity|].
      left. unfold br_consume. cbn [br_src s_evs]. destruct (stop_skip cap d l1 f0) as (l3 & E). eauto.
  Qed.

  Definition kept_or (i : brd) (w : Prop) : Prop := stops i \/ dry i /\ w.

  Lemma inner_stop ev d b n d' r : stops (d_in d) -> poll_read_inner ev d b n = (d', r) ->
    poll_read_inner ev (DX d) b n = (DX d', r) /\ kept_or (d_in d') (exists st b' f, r = DSome [] st b' (Some f)).
  Proof.
    intros T. unfold poll_read_inner, kept_or. change (d_st (DX d)) with (d_st d).
    destruct (d_st d) eqn:ES; try (intros [= <- <-]; auto; fail).
    - change (d_in (DX d)) with (X (d_in d)). unfold poll_read_chunk. destruct (_ <? _)%N; [intros [= <- <-]; auto|].
      destruct (k_data b).
      + destruct (br_read _ (d_in d)) as [i' q] eqn:E. destruct (br_read_stop _ _ _ _ T E) as [E1 T']. rewrite E1.
        destruct q as [x|f| | |]; intros [= <- <-]; (split; [reflexivity|]); cbn [d_in];
        destruct T' as [T'|[T' (f0 & F)]]; try discriminate; eauto. right. split; [assumption|]. eauto.
      + destruct (_ <? _)%nat; intros [= <- <-]; auto.
    - change (d_sender (DX d)) with (d_sender d). destruct (d_sender d); intros [= <- <-]; auto.
    - change (d_chan (DX d)) with (d_chan d). destruct (d_chan d); intros [= <- <-]; auto.
  Qed.

  Definition tstop (a a2 : dturn) : Prop :=
    match a with
    | Ret d' r => a2 = Ret (DX d') r /\ kept_or (d_in d') (exists f, r = PPend f)
    | Again nr kept d' b' => a2 = Again nr kept (DX d') b' /\ stops (d_in d')
    end.

  (** A reader that is done is not polled again; a pending one ends the turn. *)
  Lemma decode_stop ev n kept d b : stops (d_in d) -> tstop (dec_decode ev n kept d b) (dec_decode ev n kept (DX d) b).
  Proof.
    intros T. unfold dec_decode. destruct (poll_read_inner ev d b n) as [d1 r] eqn:E.
    pose proof E as E0. apply inner_stop in E as [E K]; [|assumption]. rewrite E.
    destruct r as [read st b' pend| | |].
    - assert (DI : d_in (set_st_opt st (set_init true d1)) = d_in d1) by now destruct st.
      assert (DE : set_st_opt st (set_init true (DX d1)) = DX (set_st_opt st (set_init true d1))) by now destruct st.
      rewrite DE. change (d_st (DX ?y)) with (d_st y).
      destruct K as [K|[K (st0 & b0 & f & Er)]].
      + destruct (is_done _); [cbn; rewrite DI; split; [reflexivity|now left]|]. destruct (_ <? _)%nat; [cbn; rewrite DI; split; [reflexivity|now left]|].
        destruct pend; cbn; rewrite DI; split; try reflexivity; try assumption. now left.
      + injection Er as -> -> -> ->.
        assert (ND : is_done (d_st (set_st_opt st0 (set_init true d1))) = false).
        { destruct (inner_pend _ _ _ _ _ _ _ _ _ E0) as [_ [(cur & len & n0 & _ & -> & _)|(h & E1 & _ & -> & ->)]]; [reflexivity|].
          cbn. now rewrite E1. }
        rewrite ND. cbn. split; [reflexivity|]. rewrite DI. right. split; [assumption|eauto].
    - destruct K as [K|[K (st0 & b0 & f & Er)]]; [|discriminate].
      destruct (_ && _)%bool; cbn; split; try reflexivity; try assumption. now left.
    - destruct K as [K|[K (st0 & b0 & f & Er)]]; [|discriminate]. cbn. split; [reflexivity|now left].
    - destruct K as [K|[K (st0 & b0 & f & Er)]]; [|discriminate]. cbn. split; [reflexivity|now left].
  Qed.

  Lemma turn_stop ev n nr kept d b : stops (d_in d) -> tstop (dec_turn ev n nr kept d b) (dec_turn ev n nr kept (DX d) b).
  Proof.
    intros T. unfold dec_turn. destruct (grow ev b) as [b1|]; [|cbn; split; [reflexivity|now left]]. destruct nr; [|now apply decode_stop].
    destruct (_ <? _)%nat; [cbn; split; [reflexivity|now left]|]. change (d_in (DX d)) with (X (d_in d)).
    destruct (br_read _ (d_in d)) as [i' q] eqn:E. destruct (br_read_stop _ _ _ _ T E) as [E1 K]. rewrite E1.
    destruct q as [x|f| | |].
    - destruct K as [K|[_ [f F]]]; [|discriminate]. cbv zeta.
      replace (match x with [] => set_st DDone (set_in (X i') (DX d)) | _ :: _ => set_in (X i') (DX d) end)
        with (DX (match x with [] => set_st DDone (set_in i' d) | _ :: _ => set_in i' d end)) by now destruct x.
      apply decode_stop. now destruct x.
    - cbn. split; [reflexivity|]. destruct K as [K|[K F]]; [now left|right; eauto].
    - destruct K as [K|[_ [f F]]]; [|discriminate]. cbn. split; [reflexivity|now left].
    - destruct K as [K|[_ [f F]]]; [|discriminate]. cbn. split; [reflexivity|now left].
    - destruct K as [K|[_ [f F]]]; [|discriminate]. cbn. split; [reflexivity|now left].
  Qed.

  Lemma loop_stop ev n : forall fuel nr kept d b d' r, stops (d_in d) -> dec_loop fuel ev n nr kept d b = (d', r) ->
    dec_loop fuel ev n nr kept (DX d) b = (DX d', r) /\ kept_or (d_in d') (exists f, r = PPend f).
  Proof.
    induction fuel as [|f IH]; intros nr kept d b d' r T; cbn [dec_loop]; [intros [= <- <-]; split; [reflexivity|now left]|].
    pose proof (turn_stop ev n nr kept d b T) as TS. destruct (dec_turn ev n nr kept d b) as [d1 r1|nr1 kept1 d1 b1]; cbn [tstop] in TS; destruct TS as [-> TS].
    - intros [= <- <-]. auto.
    - now apply IH.
  Qed.

  Lemma poll_stop ev n fuel d d' r : stops (d_in d) -> dec_poll fuel ev n d = (d', r) ->
    dec_poll fuel ev n (DX d) = (DX d', r) /\ kept_or (d_in d') (exists f, r = PPend f).
  Proof.
    intros T. unfold dec_poll. change (d_init (set_blk (blk_fresh ev) (DX d))) with (d_init (set_blk (blk_fresh ev) d)).
    change (d_blk (DX d)) with (d_blk d). change (d_st (DX d)) with (d_st d).
    change (set_blk (blk_fresh ev) (DX d)) with (DX (set_blk (blk_fresh ev) d)).
    set (d0 := set_blk (blk_fresh ev) d) in *. assert (T0 : stops (d_in d0)) by exact T. clearbody d0.
    destruct (_ && _)%bool; [|now apply loop_stop].
    destruct (poll_read_inner ev d0 (d_blk d) n) as [d1 q] eqn:E.
    apply inner_stop in E as [E K]; [|assumption]. rewrite E.
    destruct q as [read st b' pend| | |].
    - rewrite <- dext_set. cbv zeta. assert (DI : d_in (set_st_opt st d1) = d_in d1) by now destruct st.
      set (d2 := set_st_opt st d1) in *. clearbody d2. change (d_st (DX d2)) with (d_st d2).
      destruct K as [K|[K (st0 & b0 & f & Er)]].
      + assert (T2 : stops (d_in d2)) by (rewrite DI; exact K).
        destruct pend; [intros [= <- <-]; split; [reflexivity|now left]|]. destruct (is_done _); [intros [= <- <-]; split; [reflexivity|now left]|].
        destruct (_ <? _)%nat; [intros [= <- <-]; split; [reflexivity|now left]|]. now apply loop_stop.
      + injection Er as -> -> -> ->. intros [= <- <-]. split; [reflexivity|]. right. cbn. rewrite DI. split; [exact K|eauto].
    - destruct K as [K|[K (st0 & b0 & f & Er)]]; [|discriminate]. now apply loop_stop.
    - destruct K as [K|[K (st0 & b0 & f & Er)]]; [|discriminate]. intros [= <- <-]. split; [reflexivity|now left].
    - destruct K as [K|[K (st0 & b0 & f & Er)]]; [|discriminate]. intros [= <- <-]. split; [reflexivity|now left].
  Qed.

  Lemma dread_stop ev n d d' r : stops (d_in d) -> (0 < n)%nat -> st_ok (d_st d) -> dec_read ev n d = (d', r) ->
    dec_read ev n (DX d) = (DX d', r) /\ kept_or (d_in d') (exists f, r = PPend f).
  Proof.
    intros T Hn HS H. unfold dec_read. apply poll_stop; [assumption|].
    rewrite <- H. apply poll_mu; [assumption|assumption|]. unfold dec_fuel, dext. cbn [set_in d_in d_blk].
    pose proof (ext_size l2 t (d_in d)). lia.
  Qed.
End Stop.

(** ** Waiting only on the connection *)
Inductive pulled : list ev -> list ev -> Prop :=
| pulled_refl l : pulled l l
| pulled_data n d l l' : pulled (match skipn n d with [] => l | d' => Data d' :: l end) l' -> pulled (Data d :: l) l'.
Lemma pulled_trans a b c : pulled a b -> pulled b c -> pulled a c.
Proof. induction 1; auto. intros. econstructor. eauto. Qed.
Lemma pulled_pend l f l' : pulled l (Pend f :: l') -> exists ds, Forall is_data ds /\ l = ds ++ Pend f :: l'.
Proof.
  remember (Pend f :: l') as y eqn:E. induction 1 as [l|n d l l0 H IH]; subst.
  - exists []. split; [constructor|reflexivity].
  - destruct (IH eq_refl) as (ds & D & EL). destruct (skipn n d).
    + exists (Data d :: ds). split; [constructor; [exact I|assumption]|]. cbn. now rewrite EL.
    + destruct ds as [|x ds]; [discriminate|]. injection EL as <- EL. exists (Data d :: ds). inversion D; subst.
      split; [constructor; [exact I|assumption]|]. reflexivity.
Qed.

Section Wait.
  Variable b0 : brd.
  Definition fed (i : brd) : Prop := pulled (s_evs (br_src b0)) (s_evs (br_src i)).
  (** The connection's last answer was "not yet", after nothing but data. *)
  Definition waited (i : brd) (f : bool) : Prop :=
    br_buf i = [] /\ exists ds, Forall is_data ds /\ s_evs (br_src b0) = ds ++ Pend f :: s_evs (br_src i).

  Lemma br_read_fed n i i' r : br_read n i = (i', r) -> fed i ->
    match r with POk _ => fed i' | PPend f => waited i' f | _ => True end.
  Proof.
    destruct i as [cap bb [evs tl]]. unfold fed, waited, br_read, br_fill, src_read. cbn [br_buf br_cap br_src s_evs s_tail].
    intros H HF. destruct bb as [|c buf]; [|injection H as <- <-; exact HF].
    destruct (cap <=? n)%nat; (destruct evs as [|[d|f|] l]; [destruct tl| | |]; injection H as <- <-; auto; cbn [br_buf br_src br_consume s_evs];
      [eapply pulled_trans; [exact HF|]; econstructor; constructor|split; [reflexivity|now apply pulled_pend]]).
  Qed.

  Lemma inner_fed ev d b n d' r : poll_read_inner ev d b n = (d', r) -> fed (d_in d) ->
    match r with DSome _ _ _ None | DNone => fed (d_in d') | _ => True end /\ (r = DNone -> d' = d /\ is_chunk (d_st d) = false).
  Proof.
    intros H HF. unfold poll_read_inner in H. destruct (d_st d) eqn:ES.
    - injection H as <- <-. split; [destruct (decode_init b) as [? ? ? [|]| | |]; auto|auto].
    - unfold poll_read_chunk in H. destruct (_ <? _)%N; [injection H as <- <-; split; [exact I|discriminate]|]. destruct (k_data b) eqn:EK.
      + destruct (br_read _ _) as [i' [x|f0| | |]] eqn:E; injection H as <- <-; (split; [try exact I|discriminate]).
        exact (br_read_fed _ _ _ _ E HF).
      + cbv zeta in H. destruct (_ <? _)%nat; injection H as <- <-; (split; [try exact I; try exact HF|discriminate]).
    - injection H as <- <-. split; [destruct (decode_chunk_end b) as [? ? ? [|]| | |]; auto|auto].
    - injection H as <- <-. split; [destruct (decode_trailer ev b) as [? ? ? [|]| | |]; auto|auto].
    - destruct (d_sender d); injection H as <- <-; (split; [try exact I; try exact HF|discriminate]).
    - destruct (d_chan d); injection H as <- <-; (split; [try exact I; try exact HF|discriminate]).
    - injection H as <- <-. split; [exact HF|discriminate].
  Qed.

  Definition hungry (d : dec) (f : bool) : Prop :=
    waited (d_in d) f /\ ((is_chunk (d_st d) = true /\ k_data (d_blk d) = []) \/ (is_chunk (d_st d) = false /\ d_init d = false)).
  Definition twait (a : dturn) : Prop :=
    match a with
    | Ret d (PPend f) => hungry d f
    | Ret _ _ => True
    | Again nr _ d _ => fed (d_in d) /\ ch_ok d /\ (nr = true -> is_chunk (d_st d) = false)
    end.

  Lemma inner_hungry ev d b n d' read st b' f : ch_ok d -> poll_read_inner ev d b n = (d', DSome read st b' (Some f)) -> fed (d_in d) ->
    waited (d_in d') f /\ k_data b' = [] /\ exists cur len, st = Some (DChunk cur len).
  Proof.
    intros HC H HF. destruct (inner_pend _ _ _ _ _ _ _ _ _ H) as [_ [(cur & len & n0 & E1 & E2 & E3 & E4 & E5)|(h & E1 & E2 & _)]].
    - split; [exact (br_read_fed _ _ _ _ E5 HF)|]. split; [congruence|]. eauto.
    - unfold ch_ok in HC. rewrite E1 in HC. contradiction.
  Qed.

  Lemma decode_wait ev n kept d b : ch_ok d -> fed (d_in d) -> twait (dec_decode ev n kept d b).
  Proof.
    intros HC HF. pose proof (decode_tot ev n kept d b HC) as DT.
    unfold dec_decode in *. destruct (poll_read_inner ev d b n) as [d1 r] eqn:E.
    destruct (inner_fed _ _ _ _ _ _ E HF) as [F1 F2].
    destruct r as [read st b' pend| | |]; cbn [twait]; auto.
    - assert (DI : d_in (set_st_opt st (set_init true d1)) = d_in d1) by now destruct st. cbv zeta in *.
      destruct pend as [f|].
      + destruct (inner_hungry _ _ _ _ _ _ _ _ _ HC E HF) as (W & K & cur & len & ->).
        destruct (is_done _); [exact I|]. destruct (_ <? _)%nat; [exact I|]. split; [exact W|]. left. split; [reflexivity|exact K].
      + destruct (is_done _); [exact I|]. destruct (_ <? _)%nat; [exact I|]. cbn [twait]. split; [destruct st; exact F1|].
        split; [apply DT|discriminate].
    - destruct (F2 eq_refl) as [-> F3]. destruct (_ && _)%bool; [exact I|]. cbn [twait]. repeat split; auto; destruct (_ && _)%bool; auto.
  Qed.

  Lemma turn_wait ev n nr kept d b : ch_ok d -> fed (d_in d) -> (nr = true -> is_chunk (d_st d) = false) -> twait (dec_turn ev n nr kept d b).
  Proof.
    intros HC HF HN. unfold dec_turn. destruct (grow ev b) as [b1|]; [|exact I]. destruct nr; [|now apply decode_wait].
    destruct (_ <? _)%nat; [exact I|]. destruct (br_read _ (d_in d)) as [i' q] eqn:E. pose proof (br_read_fed _ _ _ _ E HF) as F1.
    destruct q as [x|f| | |]; try exact I.
    - cbv zeta. apply decode_wait; destruct x; auto; exact I.
    - split; [exact F1|]. right. cbn. auto.
  Qed.

  Lemma loop_wait ev n : forall fuel nr kept d b d' f, ch_ok d -> fed (d_in d) -> (nr = true -> is_chunk (d_st d) = false) ->
    dec_loop fuel ev n nr kept d b = (d', PPend f) -> hungry d' f.
  Proof.
    induction fuel as [|g IH]; intros nr kept d b d' f HC HF HN; cbn [dec_loop]; [discriminate|].
    pose proof (turn_wait ev n nr kept d b HC HF HN) as T. destruct (dec_turn ev n nr kept d b) as [d1 r1|nr1 kept1 d1 b1]; cbn [twait] in T.
    - intros [= <- ->]. exact T.
    - destruct T as (T1 & T2 & T3). now apply IH.
  Qed.

  Lemma poll_wait ev n fuel d d' f : ch_ok d -> fed (d_in d) -> dec_poll fuel ev n d = (d', PPend f) -> hungry d' f.
  Proof.
    intros HC HF. unfold dec_poll. cbv zeta. set (d0 := set_blk (blk_fresh ev) d).
    assert (HC0 : ch_ok d0) by exact HC. assert (HF0 : fed (d_in d0)) by exact HF.
    assert (HN0 : negb (is_chunk (d_st d)) = true -> is_chunk (d_st d0) = false) by (cbn; destruct (is_chunk (d_st d)); [discriminate|reflexivity]).
    destruct (_ && _)%bool; [|now apply loop_wait].
    destruct (poll_read_inner ev d0 (d_blk d) n) as [d1 r] eqn:E.
    destruct (inner_fed _ _ _ _ _ _ E HF0) as [F1 F2]. pose proof (inner_ch _ _ _ _ _ _ HC0 E) as PC.
    destruct r as [read st b' pend| | |]; try discriminate.
    - assert (DI : d_in (set_st_opt st d1) = d_in d1) by now destruct st.
      destruct pend as [f0|].
      + intros [= <- <-]. destruct (inner_hungry _ _ _ _ _ _ _ _ _ HC0 E HF0) as (W & K & cur & len & ->).
        split; [exact W|]. left. split; [reflexivity|exact K].
      + destruct (is_done _); [discriminate|]. destruct (_ <? _)%nat; [discriminate|].
        apply loop_wait; [destruct st; exact PC|now rewrite DI|discriminate].
    - destruct (F2 eq_refl) as [-> F3]. now apply loop_wait.
  Qed.
End Wait.

Lemma dread_wait ev n d d' f : ch_ok d -> dec_read ev n d = (d', PPend f) -> hungry (d_in d) d' f.
Proof. intros HC H. eapply poll_wait; [exact HC| |exact H]. constructor. Qed.

(** ** Everything arrived is handed over before the wait *)
Definition in_hand (p out : bytes) (k : rend) (tries most : nat) (rest : list ev) (s : src) : Prop :=
  prefix p out \/ (prefix out p /\ k = Going /\ (tries <= most)%nat /\ untouched rest s).

Lemma stops_untouched l2 t b : stops b -> untouched l2 (br_src (ext l2 t b)).
Proof. intros (l & f & E). exists (l ++ [Pend f]). split; [now destruct l|]. unfold ext. cbn. now rewrite E. Qed.
Lemma in_hand_app x p out k n n' m m' rest s : in_hand p out k n m rest s -> (n' + m <= n + m')%nat ->
  in_hand (x ++ p) (x ++ out) k n' m' rest s.
Proof. intros [H|(H & -> & H2 & H3)] L; [left; now apply prefix_app|right]. ands; auto; [now apply prefix_app|lia]. Qed.

Section Hand.
  Variable ev : env.
  Hypothesis G : grow_ok ev.
  Hypothesis Hb : (0 < e_bufcap ev)%nat.
  Variables (l2 : list Io.ev) (t : rtail).

  Lemma dry_data b : dry b -> br_data b = [].
  Proof. intros [E1 E2]. unfold br_data, src_data. now rewrite E1, E2. Qed.
  Lemma stops_no_end b : dry b -> stops b -> False.
  Proof. intros [_ E] (l & f & E2). rewrite E in E2. destruct l; discriminate. Qed.

  Lemma dec_hand n d p d' r : St ev [] [] [] true ECut d p -> d_st d <> DDone -> stops (d_in d) -> ok_dec d -> (0 < n)%nat ->
    dec_read ev n d = (d', r) ->
    dec_read ev n (dext l2 t d) = (dext l2 t d', r) /\
    match r with
    | POk [] => p = []
    | POk x => exists p', p = x ++ p' /\ St ev [] [] [] true ECut d' p' /\ d_st d' <> DDone /\ stops (d_in d') /\ ok_dec d' /\ (tot d' (d_blk d') + length x <= tot d (d_blk d))%nat
    | PPend _ => p = [] \/ (St ev [] [] [] true ECut d' p /\ d_st d' <> DDone /\ stops (d_in d') /\ ok_dec d' /\ (tot d' (d_blk d') < tot d (d_blk d))%nat)
    | _ => False
    end.
  Proof.
    intros HS ND ST HO Hn E. pose proof (read_ok _ _ _ _ _ G HO Hn E) as P1.
    pose proof (poll_R ev [] [] [] ltac:(cbn; lia) nil_append G true ECut ltac:(reflexivity) n d (dec_fuel d) p (fun _ => Hn) HS ND) as P2.
    destruct (dread_stop l2 t ev n d d' r ST Hn (proj1 (proj2 (proj1 HO))) E) as [P3 P4]. split; [exact P3|].
    unfold dec_read in E. rewrite E in P2. cbn [fst snd] in P2.
    destruct r as [x|f| | |]; cbn [ret_R] in P2; try contradiction.
    - destruct P2 as (p' & -> & Q1 & Q2 & Q3). destruct x as [|c x].
      + specialize (Q2 eq_refl). destruct Q1 as ((Q1 & _) & _). unfold Rst in Q1. rewrite Q2 in Q1. cbn. now destruct (Q1 eq_refl).
      + exists p'. destruct P1 as (O1 & _ & T1). ands; auto; [intros Z; specialize (Q3 eq_refl Z); discriminate|].
        destruct P4 as [P4|[_ [f P4]]]; [exact P4|discriminate].
    - destruct P2 as (Q1 & Q2). destruct P1 as (O1 & T1). destruct P4 as [P4|[P4 _]]; [right; ands; auto|left].
      pose proof (dread_wait ev n d d' f (proj2 HO) E) as (_ & W). pose proof (dry_data _ P4) as DD.
      destruct Q1 as (QR & QI). destruct W as [(W1 & W2)|(W1 & W2)].
      + destruct QR as (QR & _). unfold Rst in QR. destruct (d_st d') eqn:ES; try discriminate. cbv zeta in QR. rewrite W2, DD in QR. cbn [app] in QR.
        destruct QR as (_ & [(c & p' & t0 & s' & _ & HC & _ & X & _)|(_ & X & _)]); [|auto]. destruct c; [congruence|discriminate].
      + assert (SK : stuck ev (d_st d') (k_data (d_blk d'))) by (destruct (d_st d'); try discriminate; try contradiction; try congruence; auto).
        now apply (proj2 (stuck_facts ev [] [] [] ltac:(cbn; lia) true ECut ltac:(reflexivity) _ _ _ QR SK)).
    - now destruct (P2 eq_refl).
  Qed.

  Lemma chunked_hand : forall ns buf d p b' out k, St ev [] [] [] true ECut d p -> d_st d <> DDone -> stops (d_in d) -> ok_dec d ->
    Forall (fun n => 0 < n)%nat ns -> reads (body_read ev) ns (RChunked buf (dext l2 t d)) = (b', out, k) ->
    in_hand (buf ++ p) out k (length ns) (tot d (d_blk d) + length buf) l2 (body_src b').
  Proof.
    induction ns as [|n ns IH]; intros buf d p b' out k HS ND ST HO HF H; cbn [reads] in H.
    - injection H as <- <- <-. right. ands; [apply prefix_nil|reflexivity|cbn; lia|]. cbn [body_src]. now apply stops_untouched.
    - pose proof (Forall_inv HF) as Hn. pose proof (Forall_inv_tail HF) as HF2. cbv beta in Hn. clear HF. cbn [body_read] in H.
      assert (HX : forall x d1 p1, x <> [] -> St ev [] [] [] true ECut d1 p1 -> d_st d1 <> DDone -> stops (d_in d1) -> ok_dec d1 ->
        (tot d1 (d_blk d1) + length x <= tot d (d_blk d) + length buf)%nat ->
        (let '(e'', out, k) := reads (body_read ev) ns (RChunked (skipn (length (firstn n x)) x) (dext l2 t d1)) in (e'', firstn n x ++ out, k)) = (b', out, k) ->
        in_hand (x ++ p1) out k (length (n :: ns)) (tot d (d_blk d) + length buf) l2 (body_src b')).
      { intros x d1 p1 Hx HS1 ND1 ST1 HO1 HT HH.
        destruct (reads (body_read ev) ns _) as [[b2 o2] k2] eqn:E2. injection HH as <- <- <-.
        specialize (IH _ _ _ _ _ _ HS1 ND1 ST1 HO1 HF2 E2). rewrite (take_skip n x) at 1. rewrite <- app_assoc.
        eapply in_hand_app; [exact IH|]. rewrite skipn_length, firstn_length. destruct x; [congruence|]. cbn [length] in *. lia. }
      destruct buf as [|c buf]; cbn [bufdec_read] in H.
      + set (n' := if (e_bufcap ev <=? n)%nat then n else e_bufcap ev).
        assert (Hn' : (0 < n')%nat) by (unfold n'; destruct (e_bufcap ev <=? n)%nat; lia).
        destruct (dec_read ev n' d) as [d1 r] eqn:E. destruct (dec_hand n' d p d1 r HS ND ST HO Hn' E) as [E2 Q].
        assert (HR : bufdec_read ev n [] (dext l2 t d) = match r with
          | POk x => (RChunked (skipn (length (firstn n x)) x) (dext l2 t d1), POk (firstn n x)) | r => (RChunked [] (dext l2 t d1), r) end).
        { unfold bufdec_read. subst n'. destruct (e_bufcap ev <=? n)%nat eqn:EC; rewrite E2; [|destruct r; reflexivity].
          destruct r as [x| | | |]; try reflexivity. pose proof (read_ok _ _ _ _ _ G HO Hn' E) as (_ & L & _).
          rewrite firstn_all2 by exact L. now rewrite skipn_all. }
        fold bufdec_read in H. unfold bufdec_read in HR. rewrite HR in H. clear HR.
        destruct r as [x|f| | |]; try contradiction.
        * destruct x as [|c x]; [left; rewrite Q; apply prefix_nil|]. destruct Q as (p' & -> & Q1 & Q2 & Q3 & Q4 & Q5).
          eapply (HX (c :: x) d1 p'); auto; [discriminate|cbn [length] in *; lia|]. destruct (firstn n (c :: x)) eqn:EF; [destruct n; [lia|discriminate]|]. rewrite <- EF in *. exact H.
        * destruct Q as [->|(Q1 & Q2 & Q3 & Q4 & Q5)]; [left; apply prefix_nil|].
          specialize (IH _ _ _ _ _ _ Q1 Q2 Q3 Q4 HF2 H). eapply (in_hand_app []); [exact IH|]. cbn [length]. lia.
      + apply (HX (c :: buf) d p ltac:(discriminate) HS ND ST HO (le_n _)). cbn [bufdec_read] in H. destruct (firstn n (c :: buf)) eqn:EF; [destruct n; [clear -Hn; lia|discriminate]|]. exact H.
  Qed.

  Lemma fixed_hand : forall ns rem b b' out k, wf_brd b -> clean (br_src b) -> stops b -> Forall (fun n => 0 < n)%nat ns ->
    reads (body_read ev) ns (RFixed rem (ext l2 t b)) = (b', out, k) ->
    in_hand (firstn (N.to_nat rem) (br_data b)) out k (length ns) (br_size b) l2 (body_src b').
  Proof. clear G Hb.
    induction ns as [|n ns IH]; intros rem b b' out k HW HC ST HF H; cbn [reads] in H.
    - injection H as <- <- <-. right. ands; [apply prefix_nil|reflexivity|cbn; lia|]. cbn [body_src]. now apply stops_untouched.
    - pose proof (Forall_inv HF) as Hn. pose proof (Forall_inv_tail HF) as HF2. cbv beta in Hn. clear HF.
      cbn [body_read] in H. unfold take_read in H. destruct (rem =? 0)%N eqn:Z.
      { assert (rem = 0)%N as -> by lia. left. apply prefix_nil. }
      set (n' := N.to_nat (N.min (N.of_nat n) rem)) in *. assert (Hn' : (0 < n' <= N.to_nat rem)%nat) by lia.
      destruct (br_read n' b) as [b1 r] eqn:E. destruct (br_read_stop l2 t _ _ _ _ ST E) as [E1 E2]. rewrite E1 in H.
      pose proof (br_read_wf _ _ _ _ E HW) as HW1. destruct (br_read_clean _ _ _ _ E HC) as [HC1 NE].
      destruct r as [d|f| | |]; try (now (apply br_read_never in E; destruct E; congruence)).
      + pose proof (br_read_data _ _ _ _ E) as D1. pose proof (br_read_len _ _ _ _ E) as D2. pose proof (br_read_size _ _ _ _ E) as D3.
        assert (ST1 : stops b1) by (destruct E2 as [E2|[_ [f E2]]]; [exact E2|discriminate]).
        assert (Hp : (0 < n')%nat) by (clear -Hn'; lia).
        destruct d as [|c d]. { destruct (br_read_nil _ _ _ Hp HW E) as [D4 D5]. left. rewrite D4, firstn_nil. apply prefix_nil. }
        set (D := c :: d) in *. assert (LD : (0 < length D)%nat) by (cbn; lia).
        destruct (reads (body_read ev) ns (RFixed (rem - N.of_nat (length D)) (ext l2 t b1))) as [[b2 x2] k2] eqn:E3.
        injection H as <- <- <-. specialize (IH _ _ _ _ _ HW1 HC1 ST1 HF2 E3).
        assert (FE : firstn (N.to_nat rem) (br_data b) = D ++ firstn (N.to_nat (rem - N.of_nat (length D))) (br_data b1)).
        { rewrite D1. rewrite firstn_app. rewrite firstn_all2 by lia. f_equal. f_equal. lia. }
        change (c :: d ++ x2) with (D ++ x2). rewrite FE. eapply in_hand_app; [exact IH|]. cbn [length]. lia.
      + pose proof (br_read_pend_size _ _ _ _ E) as D3. pose proof (br_read_pend_data _ _ _ _ E) as D1. rewrite <- D1.
        destruct E2 as [ST1|[DR _]]; [|left; rewrite (dry_data _ DR), firstn_nil; apply prefix_nil].
        specialize (IH _ _ _ _ _ HW1 HC1 ST1 HF2 H). eapply (in_hand_app []); [exact IH|]. cbn [length]. lia.
  Qed.
End Hand.

(** ** The end is seen without waiting *)
Definition at_end (p out : bytes) (k : rend) (tries most : nat) (rest : list ev) (s : src) : Prop :=
  untouched rest s /\ ((k = Ended /\ out = p) \/ (k = Going /\ prefix out p /\ (tries <= most)%nat)).
Lemma at_end_app x p out k n n' m m' rest s : at_end p out k n m rest s -> (n' + m <= n + m')%nat ->
  at_end (x ++ p) (x ++ out) k n' m' rest s.
Proof. intros [H1 [(-> & ->)|(-> & H2 & H3)]] L; (split; [exact H1|]); [left; auto|right]. ands; auto; [now apply prefix_app|lia]. Qed.

Section End.
  Variable ev : env.
  Hypothesis G : grow_ok ev.
  Hypothesis Hb : (0 < e_bufcap ev)%nat.
  Variables (l2 : list Io.ev) (t : rtail).
  Variables (tr : list (bytes * bytes)) (h : hmap) (extra : bytes).
  Hypothesis Htr : (length tr <= 16)%nat.
  Hypothesis Hh : append_trailers tr [] = Some h.
  Local Notation S0 := (St ev tr h extra true EOk).

  Lemma dec_end n d p d' r : S0 d p -> d_st d <> DDone -> stops (d_in d) -> ok_dec d -> (0 < n)%nat ->
    dec_read ev n d = (d', r) ->
    dec_read ev n (dext l2 t d) = (dext l2 t d', r) /\ stops (d_in d') /\
    match r with
    | POk [] => p = []
    | POk x => exists p', p = x ++ p' /\ S0 d' p' /\ d_st d' <> DDone /\ ok_dec d' /\ (tot d' (d_blk d') + length x <= tot d (d_blk d))%nat
    | PPend _ => S0 d' p /\ d_st d' <> DDone /\ ok_dec d' /\ (tot d' (d_blk d') < tot d (d_blk d))%nat
    | _ => False
    end.
  Proof.
    intros HS ND ST HO Hn E. pose proof (read_ok _ _ _ _ _ G HO Hn E) as P1.
    pose proof (poll_R ev tr h extra Htr Hh G true EOk ltac:(discriminate) n d (dec_fuel d) p (fun _ => Hn) HS ND) as P2.
    destruct (dread_stop l2 t ev n d d' r ST Hn (proj1 (proj2 (proj1 HO))) E) as [P3 P4]. split; [exact P3|].
    pose proof E as E0. unfold dec_read in E. rewrite E in P2. cbn [fst snd] in P2.
    destruct r as [x|f| | |]; cbn [ret_R] in P2; try contradiction.
    - destruct P2 as (p' & -> & Q1 & Q2 & Q3). split; [destruct P4 as [P4|[_ [f P4]]]; [exact P4|discriminate]|]. destruct x as [|c x].
      + specialize (Q2 eq_refl). destruct Q1 as ((Q1 & _) & _). unfold Rst in Q1. rewrite Q2 in Q1. cbn. now destruct (Q1 eq_refl).
      + exists p'. destruct P1 as (O1 & _ & T1). ands; auto. intros Z; specialize (Q3 eq_refl Z); discriminate.
    - destruct P2 as (Q1 & Q2). destruct P1 as (O1 & T1). split; [|ands; auto]. destruct P4 as [P4|[P4 _]]; [exact P4|exfalso].
      pose proof (dread_wait ev n d d' f (proj2 HO) E0) as (_ & W). pose proof (dry_data _ P4) as DD.
      destruct Q1 as (QR & QI). destruct W as [(W1 & W2)|(W1 & W2)].
      + destruct QR as (QR & _). unfold Rst in QR. destruct (d_st d') eqn:ES; try discriminate. cbv zeta in QR. rewrite W2, DD in QR. cbn [app] in QR.
        destruct QR as (_ & [(c & p' & t0 & s' & _ & HC & _ & X & _)|(X & _)]); [|discriminate]. destruct c; [congruence|discriminate].
      + assert (SK : stuck ev (d_st d') (k_data (d_blk d'))) by (destruct (d_st d'); try discriminate; try contradiction; try congruence; auto).
        destruct (proj2 (stuck_facts ev tr h extra Htr true EOk ltac:(discriminate) _ _ _ QR SK) DD) as [X _]. discriminate.
    - now destruct (P2 eq_refl).
  Qed.

  Lemma chunked_end : forall ns buf d p b' out k, S0 d p -> d_st d <> DDone -> stops (d_in d) -> ok_dec d ->
    Forall (fun n => 0 < n)%nat ns -> reads (body_read ev) ns (RChunked buf (dext l2 t d)) = (b', out, k) ->
    at_end (buf ++ p) out k (length ns) (tot d (d_blk d) + length buf) l2 (body_src b').
  Proof.
    induction ns as [|n ns IH]; intros buf d p b' out k HS ND ST HO HF H; cbn [reads] in H.
    - injection H as <- <- <-. split; [cbn [body_src]; now apply stops_untouched|]. right. ands; [reflexivity|apply prefix_nil|cbn; lia].
    - pose proof (Forall_inv HF) as Hn. pose proof (Forall_inv_tail HF) as HF2. cbv beta in Hn. clear HF. cbn [body_read] in H.
      assert (HX : forall x d1 p1, x <> [] -> S0 d1 p1 -> d_st d1 <> DDone -> stops (d_in d1) -> ok_dec d1 ->
        (tot d1 (d_blk d1) + length x <= tot d (d_blk d) + length buf)%nat ->
        (let '(e'', out, k) := reads (body_read ev) ns (RChunked (skipn (length (firstn n x)) x) (dext l2 t d1)) in (e'', firstn n x ++ out, k)) = (b', out, k) ->
        at_end (x ++ p1) out k (length (n :: ns)) (tot d (d_blk d) + length buf) l2 (body_src b')).
      { intros x d1 p1 Hx HS1 ND1 ST1 HO1 HT HH.
        destruct (reads (body_read ev) ns _) as [[b2 o2] k2] eqn:E2. injection HH as <- <- <-.
        specialize (IH _ _ _ _ _ _ HS1 ND1 ST1 HO1 HF2 E2). rewrite (take_skip n x) at 1. rewrite <- app_assoc.
        eapply at_end_app; [exact IH|]. rewrite skipn_length, firstn_length. destruct x; [congruence|]. cbn [length] in *. lia. }
      destruct buf as [|c buf].
      + set (n' := if (e_bufcap ev <=? n)%nat then n else e_bufcap ev).
        assert (Hn' : (0 < n')%nat) by (unfold n'; destruct (e_bufcap ev <=? n)%nat; lia).
        destruct (dec_read ev n' d) as [d1 r] eqn:E. destruct (dec_end n' d p d1 r HS ND ST HO Hn' E) as (E2 & Q3 & Q).
        assert (HR : bufdec_read ev n [] (dext l2 t d) = match r with
          | POk x => (RChunked (skipn (length (firstn n x)) x) (dext l2 t d1), POk (firstn n x)) | r => (RChunked [] (dext l2 t d1), r) end).
        { unfold bufdec_read. subst n'. destruct (e_bufcap ev <=? n)%nat eqn:EC; rewrite E2; [|destruct r; reflexivity].
          destruct r as [x| | | |]; try reflexivity. pose proof (read_ok _ _ _ _ _ G HO Hn' E) as (_ & L & _).
          rewrite firstn_all2 by exact L. now rewrite skipn_all. }
        rewrite HR in H. clear HR. destruct r as [x|f| | |]; try contradiction.
        * destruct x as [|c x].
          { rewrite firstn_nil in H. injection H as <- <- <-. split; [cbn [body_src]; now apply stops_untouched|]. left. now rewrite Q. }
          destruct Q as (p' & -> & Q1 & Q2 & Q4 & Q5).
          apply (HX (c :: x) d1 p' ltac:(discriminate) Q1 Q2 Q3 Q4); [cbn [length] in *; lia|]. destruct (firstn n (c :: x)) eqn:EF; [destruct n; [clear -Hn; lia|discriminate]|]. exact H.
        * destruct Q as (Q1 & Q2 & Q4 & Q5).
          specialize (IH _ _ _ _ _ _ Q1 Q2 Q3 Q4 HF2 H). eapply (at_end_app []); [exact IH|]. cbn [length]. lia.
      + apply (HX (c :: buf) d p ltac:(discriminate) HS ND ST HO (le_n _)). cbn [bufdec_read] in H. destruct (firstn n (c :: buf)) eqn:EF; [destruct n; [clear -Hn; lia|discriminate]|]. exact H.
  Qed.

  Lemma fixed_end : forall ns rem b b' out k, wf_brd b -> clean (br_src b) -> stops b -> Forall (fun n => 0 < n)%nat ns ->
    (rem <= N.of_nat (length (br_data b)))%N -> reads (body_read ev) ns (RFixed rem (ext l2 t b)) = (b', out, k) ->
    at_end (firstn (N.to_nat rem) (br_data b)) out k (length ns) (br_size b) l2 (body_src b').
  Proof. clear G Hb Htr Hh.
    induction ns as [|n ns IH]; intros rem b b' out k HW HC ST HF HL H; cbn [reads] in H.
    - injection H as <- <- <-. split; [cbn [body_src]; now apply stops_untouched|]. right. ands; [reflexivity|apply prefix_nil|cbn; lia].
    - pose proof (Forall_inv HF) as Hn. pose proof (Forall_inv_tail HF) as HF2. cbv beta in Hn. clear HF.
      cbn [body_read] in H. unfold take_read in H. destruct (rem =? 0)%N eqn:Z.
      { assert (rem = 0)%N as -> by lia. injection H as <- <- <-. split; [cbn [body_src]; now apply stops_untouched|]. now left. }
      set (n' := N.to_nat (N.min (N.of_nat n) rem)) in *. assert (Hn' : (0 < n' <= N.to_nat rem)%nat) by lia.
      destruct (br_read n' b) as [b1 r] eqn:E. destruct (br_read_stop l2 t _ _ _ _ ST E) as [E1 E2]. rewrite E1 in H.
      pose proof (br_read_wf _ _ _ _ E HW) as HW1. destruct (br_read_clean _ _ _ _ E HC) as [HC1 NE].
      destruct r as [d|f| | |]; try (now (apply br_read_never in E; destruct E; congruence)).
      + pose proof (br_read_data _ _ _ _ E) as D1. pose proof (br_read_len _ _ _ _ E) as D2. pose proof (br_read_size _ _ _ _ E) as D3.
        assert (ST1 : stops b1) by (destruct E2 as [E2|[_ [f E2]]]; [exact E2|discriminate]).
        assert (Hp : (0 < n')%nat) by (clear -Hn'; lia).
        destruct d as [|c d]. { destruct (br_read_nil _ _ _ Hp HW E) as [D4 D5]. rewrite D4 in HL. cbn in HL. lia. }
        set (D := c :: d) in *. assert (LD : (0 < length D)%nat) by (cbn; lia).
        destruct (reads (body_read ev) ns (RFixed (rem - N.of_nat (length D)) (ext l2 t b1))) as [[b2 x2] k2] eqn:E3.
        injection H as <- <- <-. rewrite D1, app_length in HL.
        assert (HL1 : (rem - N.of_nat (length D) <= N.of_nat (length (br_data b1)))%N) by lia. specialize (IH _ _ _ _ _ HW1 HC1 ST1 HF2 HL1 E3).
        assert (FE : firstn (N.to_nat rem) (br_data b) = D ++ firstn (N.to_nat (rem - N.of_nat (length D))) (br_data b1)).
        { rewrite D1. rewrite firstn_app. rewrite firstn_all2 by lia. f_equal. f_equal. lia. }
        change (c :: d ++ x2) with (D ++ x2). rewrite FE. eapply at_end_app; [exact IH|]. cbn [length]. lia.
      + pose proof (br_read_pend_size _ _ _ _ E) as D3. pose proof (br_read_pend_data _ _ _ _ E) as D1. rewrite <- D1 in HL |- *.
        destruct E2 as [ST1|[DR _]]; [|rewrite (dry_data _ DR) in HL; cbn in HL; lia].
        specialize (IH _ _ _ _ _ HW1 HC1 ST1 HF2 HL H). eapply (at_end_app []); [exact IH|]. cbn [length]. lia.
  Qed.
End End.

(** ** Waiting, of request bodies *)
Lemma body_ok_reads ev : grow_ok ev -> (0 < e_bufcap ev)%nat -> forall ns buf d b' out, ok_dec d -> Forall (fun n => 0 < n)%nat ns ->
  reads (body_read ev) ns (RChunked buf d) = (b', out, Going) -> exists buf' d', b' = RChunked buf' d' /\ ok_dec d'.
Proof.
  intros G Hb. induction ns as [|n ns IH]; intros buf d b' out HO HF H; cbn [reads] in H; [injection H as <- <-; eauto|].
  pose proof (Forall_inv HF) as Hn. pose proof (Forall_inv_tail HF) as HF2. cbv beta in Hn. clear HF. cbn [body_read] in H.
  assert (Q : forall b1 r, bufdec_read ev n buf d = (b1, r) -> match r with POk _ | PPend _ => exists buf' d', b1 = RChunked buf' d' /\ ok_dec d' | _ => True end).
  { intros b1 r. destruct buf as [|c buf]; cbn [bufdec_read]; [|intros [= <- <-]; eauto].
    destruct (e_bufcap ev <=? n)%nat.
    - destruct (dec_read ev n d) as [d1 r1] eqn:E. intros [= <- <-]. pose proof (read_ok _ _ _ _ _ G HO Hn E) as Q. destruct r1; auto; destruct Q; eauto.
    - destruct (dec_read ev (e_bufcap ev) d) as [d1 r1] eqn:E. pose proof (read_ok _ _ _ _ _ G HO Hb E) as Q. destruct r1; intros [= <- <-]; auto; destruct Q; eauto. }
  destruct (bufdec_read ev n buf d) as [b1 r] eqn:E. specialize (Q _ _ eq_refl). destruct r as [x|f| | |]; try discriminate.
  - destruct Q as (buf' & d' & -> & HO'). destruct x as [|c x]; [discriminate|].
    destruct (reads (body_read ev) ns (RChunked buf' d')) as [[b2 o2] k2] eqn:E2. injection H as <- <- ->. eauto.
  - destruct Q as (buf' & d' & -> & HO'). eauto.
Qed.
Lemma fixed_shape ev : forall ns rem b b' out k, reads (body_read ev) ns (RFixed rem b) = (b', out, k) -> exists rem' b2, b' = RFixed rem' b2.
Proof.
  induction ns as [|n ns IH]; intros rem b b' out k H; cbn [reads] in H; [injection H as <- <- <-; eauto|].
  cbn [body_read] in H. unfold take_read in H. destruct (rem =? 0)%N; [injection H as <- <- <-; eauto|].
  destruct (br_read _ b) as [b1 [[|c x]|f| | |]]; try (injection H as <- <- <-; eauto; fail); [|eauto].
  destruct (reads _ ns _) as [[b2 o2] k2] eqn:E2. injection H as <- <- <-. eauto.
Qed.
Lemma fixed_wait ev n rem b b' f : body_read ev n (RFixed rem b) = (b', PPend f) ->
  exists ds, Forall is_data ds /\ s_evs (br_src b) = ds ++ Pend f :: s_evs (body_src b').
Proof.
  cbn [body_read]. unfold take_read. destruct (rem =? 0)%N; [discriminate|].
  destruct (br_read _ b) as [b1 [x|f0| | |]] eqn:E; try discriminate. intros [= <- <-].
  destruct (br_read_fed b _ _ _ _ E (pulled_refl _)) as [_ Q]. exact Q.
Qed.
Lemma chunked_wait ev n buf d b' f : ok_dec d -> body_read ev n (RChunked buf d) = (b', PPend f) ->
  exists ds, Forall is_data ds /\ s_evs (br_src (d_in d)) = ds ++ Pend f :: s_evs (body_src b').
Proof.
  intros HO. cbn [body_read]. destruct buf as [|c buf]; cbn [bufdec_read]; [|discriminate].
  destruct (e_bufcap ev <=? n)%nat.
  - destruct (dec_read ev n d) as [d1 r] eqn:E. intros [= <- ->]. now destruct (dread_wait ev n d d1 f (proj2 HO) E) as ((_ & Q) & _).
  - destruct (dec_read ev (e_bufcap ev) d) as [d1 [x|f1| | |]] eqn:E; try discriminate. intros [= <- <-].
    now destruct (dread_wait ev _ d d1 f1 (proj2 HO) E) as ((_ & Q) & _).
Qed.

(** A buffered reader up to its next wait. *)
Lemma stop_at cap held evs f rest tl : wf_brd (mkBrd cap held (mkSrc (evs ++ Pend f :: rest) tl)) -> clean_evs evs ->
  let b := mkBrd cap held (mkSrc (evs ++ [Pend f]) Eof) in
  mkBrd cap held (mkSrc (evs ++ Pend f :: rest) tl) = ext rest tl b /\ wf_brd b /\ clean (br_src b) /\ stops b /\
  br_data b = held ++ evs_data evs /\ br_size b = (length held + evs_size (evs ++ [Pend f]))%nat.
Proof.
  intros [W C] CE b. unfold wf_src in W. cbn [br_src s_evs br_cap] in *. apply Forall_app in W as [W1 W2].
  split; [unfold ext, b; cbn [br_cap br_buf br_src s_evs]; now rewrite <- app_assoc|].
  split; [split; [unfold wf_src, b; cbn; apply Forall_app; split; [exact W1|repeat constructor; discriminate]|exact C]|].
  split; [split; [unfold clean_evs, b in *; cbn; apply Forall_app; split; [exact CE|repeat constructor; discriminate]|reflexivity]|].
  split; [unfold stops, b; cbn; eauto|]. split; [|reflexivity]. unfold br_data, src_data, b. cbn [br_buf br_src s_evs]. f_equal.
  clear. induction evs as [|[d|g|] l IH]; cbn; auto; try now rewrite IH.
Qed.

(** ** Waiting, of the encoder *)
Lemma src_read_fed n s0 s s' r : src_read n s = (s', r) -> pulled s0 (s_evs s) ->
  match r with POk _ => pulled s0 (s_evs s') | PPend f => pulled s0 (Pend f :: s_evs s') | _ => True end.
Proof.
  unfold src_read. intros H P. destruct s as [l t]. cbn [s_evs s_tail] in *. destruct l as [|[d|f|] l]; [destruct t| | |]; injection H as <- <-; auto.
  cbn [s_evs]. eapply pulled_trans; [exact P|]. econstructor. constructor.
Qed.
Definition en_src (e : enc) : src := b_src (r_body (en_resp e)).
Lemma enc_fixed_wait s0 ev n : forall fuel e out e' f, pulled s0 (s_evs (en_src e)) -> enc_fixed fuel ev e out n = (e', PPend f) ->
  pulled s0 (Pend f :: s_evs (en_src e')).
Proof.
  induction fuel as [|g IH]; intros e out e' f P; cbn [enc_fixed]; [discriminate|].
  destruct (_ =? _)%nat; [discriminate|]. destruct (en_cl e) as [cl|]; [|discriminate]. destruct (upper_arith _ _ _ _) as [u|]; [|discriminate].
  cbv zeta. destruct (_ <? _)%nat; [discriminate|]. destruct (src_read _ _) as [s1 r] eqn:E. pose proof (src_read_fed _ _ _ _ _ E P) as Q.
  destruct r as [d|f1| | |]; try discriminate.
  - destruct (_ =? _)%N; [discriminate|]. intros H. eapply IH; [|exact H]. exact Q.
  - destruct out; [|discriminate]. intros [= <- <-]. exact Q.
Qed.
Lemma enc_chunked_wait ev e out n e' f : enc_chunked ev e out n = (e', PPend f) -> s_evs (en_src e) = Pend f :: s_evs (en_src e').
Proof.
  unfold enc_chunked. destruct (cenc_poll _ _ _ _ _) as [[c1 s1] r] eqn:E. intros H.
  assert (R : r = PPend f /\ en_src e' = s1).
  { destruct r as [d|f1| | |]; try discriminate. destruct out; [|discriminate]. now injection H as <- <-. }
  destruct R as [-> <-]. clear H. revert E. fold (en_src e).
  assert (EOS : forall dbg st w k, snd (cenc_eos dbg st w k) <> PPend f) by (intros; unfold cenc_eos; destruct (_ <=? _)%nat; [|discriminate]; destruct (cset _ _ _); discriminate).
  assert (TRL : forall dbg st w k, snd (cenc_trailers dbg st w k) <> PPend f) by (intros; unfold cenc_trailers; destruct (cset _ _ _); [apply EOS|discriminate]).
  assert (CEO : forall dbg st k, snd (cenc_chunks_eos dbg st k) <> PPend f).
  { intros. unfold cenc_chunks_eos, cenc_receive. destruct (_ <? _)%nat; [discriminate|]. destruct (cset _ _ _); [|discriminate]. destruct (cset _ _ _); [apply TRL|discriminate]. }
  assert (CH : forall st k c s', cenc_chunks ev (e_ovf ev) st (en_src e) k = (c, s', PPend f) -> s_evs (en_src e) = Pend f :: s_evs s').
  { intros st k c s'. unfold cenc_chunks, src_fill. destruct (s_evs (en_src e)) as [|[d|f1|] l] eqn:EV; [destruct (s_tail _)| | |]; try discriminate.
    - destruct (cset _ _ _) as [st'|]; [|discriminate]. destruct (cenc_chunks_eos _ _ _) as [st2 r2] eqn:EC. intros [= <- <- ->]. now destruct (CEO (e_ovf ev) st' k); rewrite EC.
    - destruct d as [|c0 d].
      + destruct (cset _ _ _) as [st'|]; [|discriminate]. destruct (cenc_chunks_eos _ _ _) as [st2 r2] eqn:EC. intros [= <- <- ->]. now destruct (CEO (e_ovf ev) st' k); rewrite EC.
      + cbv zeta. destruct (_ <=? _)%nat; [discriminate|]. destruct (_ <=? _)%nat; discriminate.
    - intros [= <- <- <-]. reflexivity. }
  unfold cenc_poll. destruct (en_chunked e).
  - destruct (cset _ _ _); [apply CH|discriminate].
  - apply CH.
  - destruct (cenc_chunks_eos _ _ _) as [st2 r2] eqn:EC. intros [= <- <- ->]. now destruct (CEO (e_ovf ev) CEndOfChunks (n - length out)%nat); rewrite EC.
  - destruct (cenc_trailers _ _ _ _) as [st2 r2] eqn:EC. intros [= <- <- ->]. now destruct (TRL (e_ovf ev) CReceive [] (n - length out)%nat); rewrite EC.
  - destruct (cenc_trailers _ _ _ _) as [st2 r2] eqn:EC. intros [= <- <- ->]. now destruct (TRL (e_ovf ev) CTrailers [] (n - length out)%nat); rewrite EC.
  - destruct (cenc_eos _ _ _ _) as [st2 r2] eqn:EC. intros [= <- <- ->]. now destruct (EOS (e_ovf ev) CEndOfStream [] (n - length out)%nat); rewrite EC.
  - discriminate.
Qed.
Lemma enc_wait fuel ev n e e' f : enc_poll fuel ev n e = (e', PPend f) ->
  exists ds, Forall is_data ds /\ s_evs (en_src e) = ds ++ Pend f :: s_evs (en_src e').
Proof.
  assert (C : forall e out, enc_chunked ev e out n = (e', PPend f) -> exists ds, Forall is_data ds /\ s_evs (en_src e) = ds ++ Pend f :: s_evs (en_src e')).
  { intros e0 out H. exists []. split; [constructor|]. exact (enc_chunked_wait _ _ _ _ _ _ H). }
  assert (F : forall e out, enc_fixed fuel ev e out n = (e', PPend f) -> exists ds, Forall is_data ds /\ s_evs (en_src e) = ds ++ Pend f :: s_evs (en_src e')).
  { intros e0 out H. apply pulled_pend. eapply enc_fixed_wait; [|exact H]. constructor. }
  assert (HD : forall e, enc_head fuel ev e n = (e', PPend f) -> exists ds, Forall is_data ds /\ s_evs (en_src e) = ds ++ Pend f :: s_evs (en_src e')).
  { intros e0. unfold enc_head. cbv zeta. destruct (_ =? _)%nat; [|discriminate]. destruct (en_cl e0); intros H; [apply F in H|apply C in H]; exact H. }
  unfold enc_poll. destruct (en_state e); [|apply HD|apply F|apply C|discriminate]. unfold enc_start. intros H. apply HD in H. exact H.
Qed.
