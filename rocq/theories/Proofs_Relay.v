(** Sending a body that reads from a received message. *)
From Verif Require Import Relay SpecChunked SpecHead SpecResponse Lemmas Proofs_Copy Proofs_ServerEnc Proofs_Head Proofs_Send
  Proofs_Buf Proofs_Dec Proofs_DecMsg Proofs_DecReads.

(** ** What a reader yields: data, whether it then ends (or fails), and a bound on its polls *)
Definition yields (ev : env) (r : reader) (D : bytes) (c : Prop) (m : nat) : Prop :=
  match r with
  | RSrc s => wf_src s /\ D = src_data s /\ (c <-> clean s) /\ m = src_size s
  | RMsg (RFixed rem b) =>
      wf_brd b /\ D = firstn (N.to_nat rem) (br_data b) /\
      (c <-> (rem <= N.of_nat (length (br_data b)))%N \/ clean (br_src b)) /\ m = br_size b
  | RMsg (RChunked buf d) => exists tr h extra e p,
      (length tr <= 16)%nat /\ append_trailers tr [] = Some h /\ (e = ECut -> extra = []) /\
      St ev tr h extra true e d p /\ d_st d <> DDone /\ ok_dec d /\
      D = buf ++ p /\ (c <-> e <> EBad) /\ m = (length buf + tot d (d_blk d))%nat
  end.

(** Readers that keep reporting their end. *)
Definition steady (r : reader) : Prop := match r with RMsg (RChunked _ _) => False | _ => True end.
Definition ended (ev : env) (r : reader) : Prop := forall n, rdr_poll ev n r = (r, POk []).

Lemma br_read_clean_iff n b b' r : br_read n b = (b', r) -> (exists d, r = POk d) \/ (exists f, r = PPend f) ->
  (clean (br_src b) <-> clean (br_src b')).
Proof.
  intros H X. br_cases H; cbn [br_src]; try reflexivity; try (apply (src_read_clean_iff _ _ _ _ ES); eauto); destruct X as [[? X]|[? X]]; discriminate.
Qed.
Lemma br_read_unclean n b b' : br_read n b = (b', PErr) -> ~ clean (br_src b).
Proof. intros H. br_cases H; now apply src_read_err in ES. Qed.

Lemma br_read_stop n b b' : (0 < n)%nat -> wf_brd b -> br_read n b = (b', POk []) ->
  b' = b /\ br_buf b = [] /\ s_evs (br_src b) = [] /\ s_tail (br_src b) = Eof.
Proof.
  intros Hn [W C] H. destruct b as [cap bf s]. cbn [br_src br_cap] in *. br_cases H; cbn [br_buf br_src br_cap] in *.
  - destruct (src_read_nil _ _ _ Hn W ES) as (E1 & E2 & ->). subst. auto.
  - destruct d1; [|destruct n; [lia|discriminate]]. destruct (src_read_nil _ _ _ C W ES) as (E1 & E2 & ->). subst. rewrite firstn_nil. cbn. auto.
  - destruct n; [lia|discriminate].
Qed.
Lemma br_read_stopped b : br_buf b = [] -> s_evs (br_src b) = [] -> s_tail (br_src b) = Eof -> forall n, br_read n b = (b, POk []).
Proof.
  destruct b as [cap bf s]. cbn [br_buf br_src]. intros -> E1 E2 n. unfold br_read, br_fill. cbn [br_buf br_cap br_src].
  unfold src_read. rewrite E1, E2. destruct (cap <=? n)%nat; [reflexivity|]. rewrite firstn_nil. reflexivity.
Qed.

Lemma br_fill_spec b b' x : wf_brd b -> br_fill b = (b', x) ->
  wf_brd b' /\
  match x with
  | POk d => br_buf b' = d /\ br_data b' = br_data b /\ (br_size b' <= br_size b)%nat /\ (clean (br_src b) <-> clean (br_src b')) /\
             (d = [] -> br_data b = [] /\ clean (br_src b))
  | PPend _ => br_data b' = br_data b /\ (br_size b' < br_size b)%nat /\ (clean (br_src b) <-> clean (br_src b'))
  | PErr => br_data b = [] /\ ~ clean (br_src b)
  | _ => False
  end.
Proof.
  intros [W C] H. unfold br_fill in H. destruct (br_buf b) as [|c l] eqn:EB.
  - destruct (src_read (br_cap b) (br_src b)) as [s1 r] eqn:ES.
    pose proof (src_read_wf _ _ _ _ ES W) as W1. unfold wf_brd, br_data, br_size. rewrite EB.
    destruct r as [d|f| | |]; inversion H; subst; clear H; cbn [br_buf br_src br_cap app length]; (split; [split; assumption|]).
    + pose proof (src_read_data _ _ _ _ ES) as HD. pose proof (src_read_ok_size' _ _ _ _ ES).
      split; [reflexivity|]. split; [now rewrite HD|]. split; [lia|]. split; [apply (src_read_clean_iff _ _ _ _ ES); eauto|].
      intros ->. destruct (src_read_nil _ _ _ C W ES) as (E1 & E2 & ->). unfold src_data, clean. rewrite E1. repeat split; auto. constructor.
    + split; [now apply src_read_pend_data in ES|]. split; [now apply src_read_pend_size in ES|]. apply (src_read_clean_iff _ _ _ _ ES); eauto.
    + now destruct (src_read_err _ _ _ ES).
    + now destruct (src_read_never _ _ _ _ ES).
    + now destruct (src_read_never _ _ _ _ ES).
  - inversion H; subst. split; [split; assumption|]. split; [assumption|]. split; [reflexivity|]. split; [lia|]. split; [reflexivity|discriminate].
Qed.

Lemma dec_read_spec ev n d tr h extra e p d' x : grow_ok ev -> (0 < n)%nat ->
  (length tr <= 16)%nat -> append_trailers tr [] = Some h -> (e = ECut -> extra = []) ->
  St ev tr h extra true e d p -> d_st d <> DDone -> ok_dec d -> dec_read ev n d = (d', x) ->
  match x with
  | POk out => (length out <= n)%nat /\ (tot d' (d_blk d') + length out <= tot d (d_blk d))%nat /\
      (out = [] -> p = [] /\ e <> EBad) /\
      (out <> [] -> exists p', p = out ++ p' /\ St ev tr h extra true e d' p' /\ d_st d' <> DDone /\ ok_dec d')
  | PPend _ => (tot d' (d_blk d') < tot d (d_blk d))%nat /\ St ev tr h extra true e d' p /\ d_st d' <> DDone /\ ok_dec d'
  | PErr => p = [] /\ e = EBad
  | _ => False
  end.
Proof.
  intros G Hn H1 H2 H3 HS ND HO E. pose proof (read_ok _ _ _ _ _ G HO Hn E) as P.
  pose proof (poll_R ev tr h extra H1 H2 G true e H3 n d (dec_fuel d) p (fun _ => Hn) HS ND) as Q. fold (dec_read ev n d) in Q. rewrite E in Q. cbn [fst snd] in Q.
  destruct x as [out|f| | |]; cbn [ret_R] in Q; try contradiction.
  - destruct P as (P1 & P2 & P3). destruct Q as (p' & -> & Q1 & Q2 & Q3). split; [exact P2|]. split; [exact P3|]. split.
    + intros ->. specialize (Q2 eq_refl). destruct Q1 as ((Q1 & _) & _). unfold Rst in Q1. rewrite Q2 in Q1. destruct (Q1 eq_refl) as [-> Q]. split; [reflexivity|].
      destruct e; [discriminate|contradiction|discriminate].
    + intros NE. exists p'. split; [reflexivity|]. split; [exact Q1|]. split; [|exact P1]. intros Z. apply NE. now apply Q3.
  - destruct P, Q. auto.
  - destruct (Q eq_refl). auto.
Qed.

Definition big (ev : env) : Prop := (0 < e_bufcap ev)%nat /\ grow_ok ev.

Lemma poll_spec ev n r D c m r' x : big ev -> yields ev r D c m -> rdr_poll ev n r = (r', x) ->
  (steady r -> steady r') /\
  match x with
  | POk d => (length d <= n)%nat /\ (d <> [] -> exists D' m', D = d ++ D' /\ (m' < m)%nat /\ yields ev r' D' c m') /\
      (d = [] -> (0 < n)%nat -> D = [] /\ c /\ (steady r -> ended ev r'))
  | PPend _ => exists m', (m' < m)%nat /\ yields ev r' D c m'
  | PErr => D = [] /\ ~ c
  | _ => False
  end.
Proof.
  intros [Hc G] HY H. destruct r as [s|[rem b|buf d]]; cbn [rdr_poll] in H.
  - destruct (src_read n s) as [s1 y] eqn:ES. injection H as <- <-. split; [intros _; exact I|]. destruct HY as (W & -> & HC & ->).
    pose proof (src_read_wf _ _ _ _ ES W) as W1. cbn [yields]. destruct y as [d|f| | |].
    + split; [now apply src_read_len in ES|]. split.
      * intros NE. pose proof (src_read_ok_size _ _ _ _ ES NE). exists (src_data s1), (src_size s1). split; [now apply src_read_data in ES|].
        split; [destruct d; [congruence|cbn [length] in *; lia]|]. split; [exact W1|]. split; [reflexivity|]. split; [|reflexivity].
        rewrite HC. apply (src_read_clean_iff _ _ _ _ ES). eauto.
      * intros -> Hn. destruct (src_read_nil _ _ _ Hn W ES) as (E1 & E2 & ->). unfold src_data. rewrite E1. split; [reflexivity|].
        split; [apply HC; split; [rewrite E1; constructor|assumption]|]. intros _ k. cbn [rdr_poll]. unfold src_read. now rewrite E1, E2.
    + exists (src_size s1). split; [now apply src_read_pend_size in ES|]. split; [exact W1|]. split; [symmetry; now apply src_read_pend_data in ES|]. split; [|reflexivity].
      rewrite HC. apply (src_read_clean_iff _ _ _ _ ES). eauto.
    + destruct (src_read_err _ _ _ ES) as [E1 E2]. split; [exact E2|]. tauto.
    + now destruct (src_read_never _ _ _ _ ES).
    + now destruct (src_read_never _ _ _ _ ES).
  - cbn [body_read] in H. unfold take_read in H. destruct HY as (W & -> & HC & ->). destruct (rem =? 0)%N eqn:ER.
    { injection H as <- <-. assert (rem = 0%N) as -> by lia. split; [auto|]. split; [cbn; lia|]. split; [congruence|]. intros _ _. split; [reflexivity|]. split; [apply HC; left; lia|].
      intros _ k. reflexivity. }
    destruct (br_read (N.to_nat (N.min (N.of_nat n) rem)) b) as [b1 y] eqn:ES.
    pose proof (br_read_wf _ _ _ _ ES W) as W1.
    assert (X : RMsg (match y with POk d => RFixed (rem - N.of_nat (length d)) b1 | _ => RFixed rem b1 end) = r' /\ y = x) by (destruct y; injection H as <- <-; auto).
    clear H. destruct X as [<- ->]. split; [intros _; destruct x; exact I|]. destruct x as [d|f| | |].
    + pose proof (br_read_len _ _ _ _ ES) as HL. split; [lia|]. split.
      * intros NE. pose proof (br_read_size _ _ _ _ ES) as HS. pose proof (br_read_data _ _ _ _ ES) as HD. eexists _, _. cbn [yields].
        split; [rewrite HD, firstn_app_r by lia; reflexivity|]. split; [|split; [exact W1|split; [f_equal; lia|split; [|reflexivity]]]].
        { destruct d; [congruence|cbn [length] in *; lia]. }
        rewrite HC, HD, app_length. rewrite (br_read_clean_iff _ _ _ _ ES) by eauto. split; intros [Z|Z]; try (right; exact Z); left; lia.
      * intros -> Hn. destruct (br_read_stop (N.to_nat (N.min (N.of_nat n) rem)) b b1 ltac:(lia) W ES) as (-> & E1 & E2 & E3).
        assert (E0 : br_data b = []) by (unfold br_data, src_data; now rewrite E1, E2). rewrite E0, firstn_nil. split; [reflexivity|].
        split; [apply HC; right; split; [rewrite E2; constructor|assumption]|]. intros _ k. cbn [rdr_poll body_read length N.of_nat]. unfold take_read. rewrite N.sub_0_r, ER.
        rewrite br_read_stopped by assumption. cbn [length N.of_nat]. now rewrite N.sub_0_r.
    + pose proof (br_read_pend_data _ _ _ _ ES) as HD. eexists. split; [exact (br_read_pend_size _ _ _ _ ES)|]. cbn [yields]. rewrite HD. split; [exact W1|]. split; [reflexivity|]. split; [|reflexivity].
      rewrite HC. rewrite (br_read_clean_iff _ _ _ _ ES) by eauto. reflexivity.
    + pose proof (br_read_err _ _ _ ES) as HE. rewrite HE, firstn_nil in *. split; [reflexivity|]. rewrite HC. pose proof (br_read_unclean _ _ _ ES). intros [Z|Z]; [cbn in Z; lia|auto].
    + now destruct (br_read_never _ _ _ _ ES).
    + now destruct (br_read_never _ _ _ _ ES).
  - cbn [body_read] in H. split; [intros []|]. destruct HY as (tr & h & extra & e & p & Y1 & Y2 & Y3 & Y4 & Y5 & Y6 & -> & HC & ->).
    destruct buf as [|c0 buf].
    + unfold bufdec_read in H. set (n' := if (e_bufcap ev <=? n)%nat then n else e_bufcap ev). assert (Hn' : (0 < n')%nat) by (unfold n'; destruct (e_bufcap ev <=? n)%nat eqn:E0; lia).
      destruct (dec_read ev n' d) as [d1 y] eqn:E.
      assert (X : RMsg (RChunked (match y with POk z => if (e_bufcap ev <=? n)%nat then [] else skipn (length (firstn n z)) z | _ => [] end) d1) = r' /\
                  match y with POk z => POk (if (e_bufcap ev <=? n)%nat then z else firstn n z) | q => q end = x).
      { unfold n' in E. destruct (e_bufcap ev <=? n)%nat; rewrite E in H; destruct y; injection H as <- <-; auto. }
      clear H. destruct X as [<- <-].
      pose proof (dec_read_spec ev n' d tr h extra e p d1 y G Hn' Y1 Y2 Y3 Y4 Y5 Y6 E) as Q. destruct y as [z|f| | |]; try contradiction.
      * destruct Q as (Q1 & Q2 & Q3 & Q4).
        set (o := if (e_bufcap ev <=? n)%nat then z else firstn n z) in *. match goal with |- context [RChunked ?q d1] => set (bf := q) in * end.
        assert (Yb : z = o ++ bf). { unfold o, bf. destruct (e_bufcap ev <=? n)%nat; [now rewrite app_nil_r|apply take_skip]. }
        assert (Ho : (length o <= n)%nat). { unfold o, n' in *. destruct (e_bufcap ev <=? n)%nat; [exact Q1|apply length_firstn_le]. }
        assert (Hz : o = [] -> (0 < n)%nat -> z = []). { unfold o. destruct (e_bufcap ev <=? n)%nat; [auto|]. intros Z Hn. destruct z; [reflexivity|]. destruct n; [lia|discriminate]. }
        clearbody o bf. split; [exact Ho|]. split.
        -- intros NE. assert (NZ : z <> []) by (rewrite Yb; destruct o; [congruence|discriminate]). destruct (Q4 NZ) as (p' & -> & Q5 & Q6 & Q7). eexists _, _. cbn [yields app].
           split; [rewrite Yb, <- app_assoc; reflexivity|]. split; [|exists tr, h, extra, e, p'; ands; auto; try reflexivity; tauto].
           rewrite Yb, app_length in Q2. destruct o; [congruence|]. cbn [length] in *. lia.
        -- intros Z Hn. destruct (Q3 (Hz Z Hn)) as [-> Q]. cbn. split; [reflexivity|]. split; [tauto|intros []].
      * destruct Q as (Q1 & Q2 & Q3 & Q4). eexists. split; [|exists tr, h, extra, e, p; ands; auto; try reflexivity; tauto]. cbn [length]. lia.
      * destruct Q as [-> ->]. split; [reflexivity|]. rewrite HC. tauto.
    + change (bufdec_read ev n (c0 :: buf) d) with (RChunked (skipn (length (firstn n (c0 :: buf))) (c0 :: buf)) d, POk (firstn n (c0 :: buf))) in H.
      set (z := c0 :: buf) in *. assert (HZ : z <> []) by discriminate. clearbody z. injection H as <- <-. split; [apply length_firstn_le|]. split.
      * intros NE. eexists _, _. split; [rewrite (take_skip n z) at 1; rewrite <- app_assoc; reflexivity|]. split; [|exists tr, h, extra, e, p; ands; auto; try reflexivity; tauto].
        rewrite skipn_length. assert (0 < length (firstn n z))%nat by (destruct (firstn n z); [congruence|cbn; lia]). rewrite firstn_length in *. lia.
      * intros Z Hn. destruct z; [congruence|]. destruct n; [lia|discriminate].
Qed.

Definition filled (Y : reader -> bytes -> Prop -> nat -> Prop) (r' : reader) (D : bytes) (c : Prop) (m : nat) (x : pres bytes) : Prop :=
  match x with
  | POk [] => D = [] /\ c
  | POk d => exists D', D = d ++ D' /\ (exists m', (m' <= m)%nat /\ Y r' D c m') /\
      forall k, (1 <= k <= length d)%nat -> exists m', (m' < m)%nat /\ Y (rdr_consume k r') (skipn k d ++ D') c m'
  | PPend _ => exists m', (m' < m)%nat /\ Y r' D c m'
  | PErr => D = [] /\ ~ c
  | _ => False
  end.
Lemma fill_spec ev r D c m r' x : big ev -> yields ev r D c m -> rdr_fill ev r = (r', x) -> filled (yields ev) r' D c m x.
Proof.
  unfold filled. intros [Hc G] HY H. destruct r as [s|[rem b|buf d]]; cbn [rdr_fill] in H.
  - destruct HY as (W & -> & HC & ->). unfold src_fill in H. destruct (s_evs s) as [|[d|f|] l] eqn:EE.
    + destruct (s_tail s) eqn:ET; injection H as <- <-; unfold src_data; rewrite EE; (split; [reflexivity|]); rewrite HC; unfold clean; rewrite EE, ET; [split; [constructor|reflexivity]|]. intros [_ Z]. discriminate.
    + injection H as <- <-. assert (Hd : d <> []) by (unfold wf_src in W; rewrite EE in W; inversion W; subst; intros ->; now unfold wf_ev in *).
      destruct d as [|d0 d1]; [congruence|]. set (d := d0 :: d1) in *. exists (evs_data l). split; [unfold src_data; now rewrite EE|]. split.
      { exists (src_size s). split; [lia|]. cbn [yields]. auto. }
      intros k Hk. exists (src_size (src_consume k s)). split; [eapply src_consume_size; eauto; lia|]. cbn [rdr_consume yields]. split; [now apply src_consume_wf|].
      split; [unfold src_data, src_consume; rewrite EE; cbn [s_evs]; now rewrite evs_data_skip|]. split; [|reflexivity]. rewrite HC.
      unfold clean, src_consume. rewrite EE. cbn [s_evs s_tail]. split; intros [C T]; (split; [|exact T]).
      * inversion C; subst. now apply clean_skip.
      * constructor; [discriminate|]. destruct (skipn k d); [assumption|now inversion C].
    + injection H as <- <-. exists (evs_size l). unfold src_size, src_data. rewrite EE. split; [cbn; lia|]. cbn [yields s_evs evs_data].
      split; [unfold wf_src in *; rewrite EE in W; now inversion W|]. split; [reflexivity|]. split; [|reflexivity]. rewrite HC. unfold clean. rewrite EE. cbn [s_evs s_tail].
      split; intros [C T]; (split; [|exact T]); [now inversion C|constructor; [discriminate|assumption]].
    + injection H as <- <-. unfold src_data. rewrite EE. split; [reflexivity|]. rewrite HC. unfold clean. rewrite EE. intros [C _]. inversion C; congruence.
  - destruct HY as (W & -> & HC & ->). unfold take_fill in H. destruct (rem =? 0)%N eqn:ER.
    { injection H as <- <-. assert (rem = 0%N) as -> by lia. split; [reflexivity|]. apply HC. left. lia. }
    destruct (br_fill b) as [b1 y] eqn:EF. destruct (br_fill_spec _ _ _ W EF) as [W1 Q]. destruct y as [z|f| | |]; try contradiction.
    + destruct Q as (Q1 & Q2 & Q3 & Q4 & Q5). injection H as <- <-. set (kk := N.to_nat (N.min rem (N.of_nat (length z)))). set (d := firstn kk z).
      destruct d as [|d0 d1] eqn:ED.
      { assert (z = []) as ->. { destruct z; [reflexivity|]. apply (f_equal (@length byte)) in ED. unfold d in ED. rewrite firstn_length in ED. unfold kk in ED. cbn [length] in ED. lia. }
        destruct (Q5 eq_refl) as [-> Q6]. rewrite firstn_nil. split; [reflexivity|]. tauto. }
      rewrite <- ED. assert (HL : length d = kk) by (unfold d; rewrite firstn_length; unfold kk; lia). clear ED d0 d1.
      assert (EB : br_data b = z ++ src_data (br_src b1)) by (rewrite <- Q2; unfold br_data; now rewrite Q1).
      assert (EZ : z = d ++ skipn kk z) by (unfold d; symmetry; apply firstn_skipn).
      exists (firstn (N.to_nat rem - kk) (skipn kk z ++ src_data (br_src b1))). split; [|split].
      * rewrite EB, EZ at 1. rewrite <- app_assoc, firstn_app_r by (unfold kk in *; lia). now rewrite HL.
      * exists (br_size b1). split; [exact Q3|]. cbn [yields]. rewrite Q2. split; [exact W1|]. split; [reflexivity|]. split; [|reflexivity]. rewrite HC. tauto.
      * intros k Hk. cbn [rdr_consume]. unfold take_consume. assert (Ek : N.to_nat (N.min (N.of_nat k) rem) = k) by (unfold kk in *; lia). rewrite Ek. set (b2 := br_consume k b1).
        assert (Hkz : (k <= length z)%nat) by (unfold kk in *; lia).
        assert (ED2 : br_data b2 = skipn k z ++ src_data (br_src b1)) by (unfold b2, br_consume, br_data; cbn [br_buf br_src]; now rewrite Q1).
        exists (br_size b2). split. { unfold br_size in *. unfold b2, br_consume. cbn [br_buf br_src]. rewrite Q1 in *. rewrite skipn_length. lia. }
        cbn [yields]. split; [exact W1|]. split; [|split; [|reflexivity]].
        -- rewrite ED2. replace (N.to_nat (rem - N.of_nat k)) with ((kk - k) + (N.to_nat rem - kk))%nat by (unfold kk in *; lia).
           assert (ES : skipn k z = skipn k d ++ skipn kk z). { rewrite EZ at 1. rewrite skipn_app_l by lia. reflexivity. }
           rewrite ES, <- app_assoc. unfold bytes, byte in *. rewrite (firstn_app_r (kk - k + (N.to_nat rem - kk)) (skipn k d)) by (rewrite skipn_length, HL; lia). rewrite skipn_length, HL. f_equal. f_equal. lia.
        -- rewrite HC, ED2, EB, !app_length, skipn_length. change (br_src b2) with (br_src b1). rewrite Q4. split; intros [Z|Z]; try (right; exact Z); left; lia.
    + injection H as <- <-. destruct Q as (Q1 & Q2 & Q3). eexists. split; [exact Q2|]. cbn [yields]. rewrite Q1. split; [exact W1|]. split; [reflexivity|]. split; [|reflexivity]. rewrite HC. tauto.
    + injection H as <- <-. destruct Q as (Q1 & Q2). rewrite Q1, firstn_nil in *. split; [reflexivity|]. rewrite HC. intros [Z|Z]; [cbn in Z; lia|auto].
  - destruct HY as (tr & h & extra & e & p & Y1 & Y2 & Y3 & Y4 & Y5 & Y6 & -> & HC & ->). unfold bufdec_fill in H. destruct buf as [|c0 buf].
    + destruct (dec_read ev (e_bufcap ev) d) as [d1 y] eqn:E.
      pose proof (dec_read_spec ev _ d tr h extra e p d1 y G Hc Y1 Y2 Y3 Y4 Y5 Y6 E) as Q. destruct y as [z|f| | |]; try contradiction; injection H as <- <-.
      * destruct Q as (Q1 & Q2 & Q3 & Q4). destruct z as [|z0 z1].
        { destruct (Q3 eq_refl) as [-> Q]. split; [reflexivity|]. tauto. }
        set (z := z0 :: z1) in *. destruct (Q4 ltac:(discriminate)) as (p' & -> & Q5 & Q6 & Q7). clearbody z. cbn [app length] in *. exists p'. split; [reflexivity|]. split.
        -- eexists. split; [|exists tr, h, extra, e, p'; ands; auto; try reflexivity; tauto]. lia.
        -- intros k Hk. eexists. split; [|exists tr, h, extra, e, p'; ands; auto; try reflexivity; tauto]. rewrite skipn_length. lia.
      * destruct Q as (Q1 & Q2 & Q3 & Q4). eexists. split; [|exists tr, h, extra, e, p; ands; auto; try reflexivity; tauto]. cbn [length]. lia.
      * destruct Q as [-> ->]. split; [reflexivity|]. rewrite HC. tauto.
    + set (z := c0 :: buf) in *. injection H as <- <-. assert (X : exists D', z ++ p = z ++ D' /\ (exists m', (m' <= length z + tot d (d_blk d))%nat /\ yields ev (RMsg (RChunked z d)) (z ++ p) c m') /\
        forall k, (1 <= k <= length z)%nat -> exists m', (m' < length z + tot d (d_blk d))%nat /\ yields ev (rdr_consume k (RMsg (RChunked z d))) (skipn k z ++ D') c m').
      { exists p. split; [reflexivity|]. split; [eexists; split; [|exists tr, h, extra, e, p; ands; auto; try reflexivity; tauto]; lia|].
        intros k Hk. eexists. split; [|exists tr, h, extra, e, p; ands; auto; try reflexivity; tauto]. rewrite skipn_length. lia. }
      exact X.
Qed.

(** ** Fuel monotonicity *)
Lemma renc_fixed_mono ev n f : forall f' en out en' r,
  (f <= f')%nat -> renc_fixed f ev en out n = (en', r) -> r <> PFuel ->
  renc_fixed f' ev en out n = (en', r).
Proof.
  induction f as [|f IH]; intros f' en out en' r Hf H Hr; cbn [renc_fixed] in H.
  - inversion H; subst; congruence.
  - destruct f' as [|f']; [lia|]. cbn [renc_fixed].
    destruct (length out =? n)%nat; [assumption|].
    destruct (rn_cl en) as [cl|]; [|assumption].
    destruct (upper_arith _ _ _ _) as [u|]; [|assumption].
    cbv zeta in *. destruct (_ <? length out)%nat; [assumption|].
    destruct (rdr_poll _ _ _) as [s' [d|fi| | |]]; try assumption.
    destruct (cl =? _)%N; [assumption|]. eapply IH; eauto. lia.
Qed.

Lemma renc_poll_mono ev n f f' e e' r :
  (f <= f')%nat -> renc_poll f ev n e = (e', r) -> r <> PFuel -> renc_poll f' ev n e = (e', r).
Proof.
  intros Hf H Hr. unfold renc_poll, renc_start, renc_head in *. cbv zeta in *.
  destruct (rn_state e); auto; try (eapply renc_fixed_mono; eauto; fail);
  (destruct (_ =? _)%nat in *; [|auto]); (destruct (rn_cl _) in *; [|auto]); eapply renc_fixed_mono; eauto.
Qed.

Lemma relay_run ev y w F O k :
  run (renc_poll F ev (e_bufcap ev)) (renc_new y) O k -> k <> KFuel ->
  exists F' w' x p,
    (forall fuel, (F' <= fuel)%nat -> relay fuel ev y w = (w', x)) /\ x <> RFuel /\
    prefix p O /\ w_out w' = w_out w ++ p /\
    ((x = kres k (N.of_nat (length O)) /\ p = O) \/ (x = RErr /\ ~ accepting w)).
Proof.
  intros R Hk. destruct (copy_run _ _ _ _ R w 0) as (G & w2 & x & p & H & P & Ho & K).
  assert (Hx : x <> RFuel).
  { destruct K as [[-> _]|[-> _]]; [|discriminate]. intros X. now apply kres_fuel in X. }
  exists (Nat.max F G), w2, x, p. split; [|auto].
  intros fuel Hf. unfold relay.
  apply (copy_go_mono (renc_poll F ev (e_bufcap ev)) (renc_poll fuel ev (e_bufcap ev))) with (f := Nat.max F G); auto.
  - intros e e' q Hq Hn. refine (renc_poll_mono _ _ _ _ _ _ _ _ Hq Hn). lia.
  - apply H. lia.
Qed.

Lemma relay_hangs ev y F0 w :
  (forall F, (F0 <= F)%nat -> exists O, run (renc_poll F ev (e_bufcap ev)) (renc_new y) O KFuel) ->
  accepting w -> forall fuel, snd (relay fuel ev y w) = RFuel.
Proof.
  intros HR HA fuel. destruct (relay fuel ev y w) as [w' x] eqn:S.
  destruct (HR (Nat.max F0 fuel) ltac:(lia)) as (O & R).
  destruct (copy_run _ _ _ _ R w 0) as (G & w2 & z & p & H & P & Ho & K).
  assert (z = RFuel) as -> by (destruct K as [[-> _]|[_ K]]; [reflexivity|contradiction]).
  cbn. destruct x; try reflexivity; exfalso; unfold relay in S;
  (eapply (copy_go_mono (renc_poll fuel ev (e_bufcap ev)) (renc_poll (Nat.max F0 fuel) ev (e_bufcap ev))) with (f' := Nat.max G fuel) in S;
   [rewrite H in S by lia; discriminate|intros ? ? ? Hq Hn; refine (renc_poll_mono _ _ _ _ _ _ _ _ Hq Hn); lia|lia|discriminate]).
Qed.

Definition rn_rdr (en : renc) : reader := y_rdr (rn_resp en).
Definition rn_with (en : renc) (st : est) (br : N) (s : reader) : renc :=
  mkRenc (y_with (rn_resp en) s) st (rn_head en) (rn_headread en) br (rn_chunked en).

Section Fixed.
  Variables (ev : env) (n : nat) (cl : N).
  Hypothesis Hbig : big ev.
  Hypothesis Hn : (0 < n)%nat.
  Hypothesis Hcl : (cl + N.of_nat n < two64)%N.

  Definition rleft (en : renc) : N := (cl - rn_bodyread en)%N.
  Definition rfixed_inv (en : renc) (D : bytes) (c : Prop) (m : nat) : Prop :=
    rn_state en = EFixed /\ rn_cl en = Some cl /\ (rn_bodyread en <= cl)%N /\
    ((rn_bodyread en < cl)%N \/ cl = 0%N) /\ yields ev (rn_rdr en) D c m /\
    (steady (rn_rdr en) \/ (rleft en <= N.of_nat (length D))%N).

  Lemma rfixed_eof_hang f en out :
    rn_cl en = Some cl -> (rn_bodyread en < cl)%N -> ended ev (rn_rdr en) ->
    (length out < n)%nat -> snd (renc_fixed f ev en out n) = PFuel.
  Proof.
    revert en out; induction f as [|f IH]; intros en out Hc Hb He Ho; cbn [renc_fixed]; [reflexivity|].
    replace (length out =? n)%nat with false by lia. rewrite Hc.
    rewrite upper_arith_ok by lia. cbv zeta.
    match goal with |- context [(?a <? length out)%nat] => replace (a <? length out)%nat with false by lia end.
    unfold rn_rdr in *. rewrite He. cbn [length N.of_nat].
    replace (cl =? rn_bodyread en + 0)%N with false by lia.
    apply IH; cbn; auto; try lia. rewrite app_nil_r. lia.
  Qed.

  Lemma rfixed_poll f : forall en out D c m,
    rfixed_inv en D c m -> (length out <= n)%nat -> (m < f)%nat ->
    exists en' r, renc_fixed f ev en out n = (en', r) /\
    match r with
    | POk o => exists d D' m' s' st, o = out ++ d /\ D = d ++ D' /\
        (N.of_nat (length d) <= rleft en)%N /\
        en' = rn_with en st (rn_bodyread en + N.of_nat (length d)) s' /\
        ((st = EDone /\ (rn_bodyread en + N.of_nat (length d) = cl)%N) \/
         (st = EFixed /\ (m' <= m)%nat /\ (d <> [] -> (m' < m)%nat) /\ rfixed_inv en' D' c m' /\ out ++ d <> []))
    | PPend _ => exists s' m', out = [] /\ (m' < m)%nat /\ en' = rn_with en EFixed (rn_bodyread en) s' /\ rfixed_inv en' D c m'
    | PErr => ~ c /\ ((N.of_nat (length D) < rleft en)%N \/ cl = 0%N)
    | PFuel => c /\ (N.of_nat (length D) < rleft en)%N
    | PPanic => False
    end.
  Proof.
    induction f as [|f IH]; intros en out D c m Hinv Ho Hf; [lia|].
    assert (Eself : en = rn_with en EFixed (rn_bodyread en) (rn_rdr en)).
    { destruct Hinv as (Z & _). destruct en as [[st0 v0 h0 l0 s0] ste hd hr br ce]. cbn in *. now subst. }
    cbn [renc_fixed].
    destruct (length out =? n)%nat eqn:Efull.
    { exists en, (POk out). split; [reflexivity|]. exists [], D, m, (rn_rdr en), EFixed.
      cbn [length N.of_nat]. rewrite N.add_0_r, app_nil_r. ands; auto; try lia.
      right. ands; auto; try congruence. destruct out; [cbn [length] in *; lia|discriminate]. }
    destruct Hinv as (Hst & Hc & Hle & Hlt & HY & HS).
    rewrite Hc, upper_arith_ok by lia. cbv zeta.
    match goal with |- context [(?a <? length out)%nat] => replace (a <? length out)%nat with false by lia end.
    set (upper := N.to_nat (N.min (N.of_nat (length out) + cl - rn_bodyread en) (N.of_nat n))).
    fold (rn_rdr en).
    destruct (rdr_poll ev (upper - length out) (rn_rdr en)) as [s' r] eqn:R.
    destruct (poll_spec ev _ _ _ _ _ _ _ Hbig HY R) as [HT Q].
    destruct r as [d|fi| | |]; try contradiction.
    - destruct Q as (HL & Q1 & Q2).
      assert (Hdl : (N.of_nat (length d) <= rleft en)%N) by (unfold rleft; lia).
      destruct (cl =? rn_bodyread en + N.of_nat (length d))%N eqn:Edone.
      + assert (X : exists D', D = d ++ D').
        { destruct d as [|d0 d1]; [exists D; reflexivity|]. destruct (Q1 ltac:(discriminate)) as (D' & _ & E & _). eauto. }
        destruct X as [D' ->]. eexists _, (POk (out ++ d)). split; [reflexivity|]. exists d, D', 0%nat, s', EDone.
        unfold rn_with. ands; auto. left. split; [auto|lia].
      + destruct d as [|d0 d1].
        * assert (E0 : (0 < upper - length out)%nat).
          { cbn in Edone. unfold upper. destruct Hlt; lia. }
          destruct (Q2 eq_refl E0) as (-> & Hc' & HE).
          assert (HLt : (rn_bodyread en < cl)%N) by (cbn in Edone; destruct Hlt; lia).
          destruct HS as [HS|HS]; [|unfold rleft in HS; cbn in HS; lia].
          rewrite app_nil_r.
          match goal with |- context [renc_fixed f ev ?e out n] => set (en1 := e);
            pose proof (rfixed_eof_hang f en1 out) as HH end.
          destruct (renc_fixed f ev en1 out n) as [en2 r2].
          assert (Hr2 : r2 = PFuel).
          { apply HH; subst en1; cbn; auto; try lia. }
          subst r2. eexists _, PFuel. split; [reflexivity|].
          split; [assumption|]. unfold rleft. cbn. lia.
        * set (d := d0 :: d1) in *.
          assert (Hdne : d <> []) by discriminate.
          assert (Hlenpos : (0 < length d)%nat) by (cbn; lia). clearbody d.
          destruct (Q1 Hdne) as (D' & m' & -> & Hm & HY').
          match goal with |- context [renc_fixed f ev ?e _ n] => set (en1 := e) end.
          assert (I1 : rfixed_inv en1 D' c m').
          { subst en1. unfold rfixed_inv, rn_rdr, rleft in *. cbn. ands; auto; try lia. destruct HS as [HS|HS]; [left; auto|right]. rewrite app_length in HS. lia. }
          destruct (IH en1 (out ++ d) D' c m' I1) as (en2 & r2 & R2 & Q).
          { rewrite app_length. lia. }
          { lia. }
          exists en2, r2. split; [assumption|].
          assert (B1 : rn_bodyread en1 = (rn_bodyread en + N.of_nat (length d))%N) by reflexivity.
          assert (L1 : rleft en1 = (rleft en - N.of_nat (length d))%N) by (unfold rleft; rewrite B1; lia).
          rewrite ?B1, ?L1 in Q.
          destruct r2 as [o|f2| | |].
          -- destruct Q as (d2 & D2 & m2 & s2 & st2 & P1 & P2 & P3 & P4 & P5).
             exists (d ++ d2), D2, m2, s2, st2. rewrite app_length, Nat2N.inj_add, N.add_assoc.
             ands; auto; try lia.
             ++ now rewrite P1, app_assoc.
             ++ now rewrite P2, app_assoc.
             ++ destruct P5 as [P5|(P5a & P5b & P5c & P5d & P5e)]; [auto|right]. ands; auto; try lia. now rewrite app_assoc.
          -- destruct Q as (s2 & m2 & P1 & _). apply app_eq_nil in P1. destruct P1; congruence.
          -- destruct Q as (P1 & P2). split; [tauto|]. rewrite app_length. destruct P2 as [P2|P2]; [left; lia|auto].
          -- destruct Q.
          -- destruct Q as (P1 & P2). split; [tauto|]. rewrite app_length. lia.
    - destruct Q as (m' & Hm & HY').
      assert (I1 : rfixed_inv (rn_with en EFixed (rn_bodyread en) s') D c m').
      { unfold rfixed_inv, rn_rdr, rleft in *. cbn. ands; auto. destruct HS as [HS|HS]; auto. }
      destruct out as [|o0 o1].
      + eexists _, (PPend fi). split; [reflexivity|]. exists s', m'. unfold rn_with in *. rewrite Hst. ands; auto.
      + eexists _, (POk (o0 :: o1)). split; [reflexivity|]. exists [], D, m', s', EFixed.
        cbn [length N.of_nat]. rewrite N.add_0_r, app_nil_r. unfold rn_with, rleft in *. rewrite Hst.
        ands; auto; try lia.
        right. ands; auto; try lia; try discriminate; congruence.
    - destruct Q as [-> NC]. eexists _, PErr. split; [reflexivity|]. split; [assumption|]. cbn. unfold rleft. destruct Hlt; [left; lia|auto].
  Qed.

  Definition rfixed_end (en : renc) (D : bytes) (c : Prop) (out O : bytes) (k : endk) : Prop :=
    prefix O (out ++ firstn (N.to_nat (rleft en)) D) /\
    match k with
    | KOk => O = out ++ firstn (N.to_nat (rleft en)) D /\ (rleft en <= N.of_nat (length D))%N
    | KErr => ~ c /\ ((N.of_nat (length D) < rleft en)%N \/ cl = 0%N)
    | KFuel => c /\ (N.of_nat (length D) < rleft en)%N
    | KPanic => False
    end.

  Variable F : nat.
  Let poll := renc_poll F ev n.

  Lemma rdone_fix en : rn_state en = EDone -> poll en = (en, POk []).
  Proof. intros H. unfold poll, renc_poll. now rewrite H. Qed.

  Lemma rfixed_run_step e en out D c m :
    rfixed_inv en D c m -> (length out <= n)%nat -> (m < F)%nat ->
    poll e = renc_fixed F ev en out n ->
    (forall en' D' m', rfixed_inv en' D' c m' -> (m' <= m)%nat -> (out = [] -> m' < m)%nat ->
       exists O k, run poll en' O k /\ rfixed_end en' D' c [] O k) ->
    exists O k, run poll e O k /\ rfixed_end en D c out O k.
  Proof.
    intros Hinv Ho Hf Hp IH.
    destruct (rfixed_poll F en out D c m Hinv Ho Hf) as (en' & r & R & Q). rewrite R in Hp.
    destruct r as [o|fi| | |].
    - destruct Q as (d & D' & m' & s' & st & -> & -> & QL & EN & [[-> QE]|(-> & QM & QM2 & QI & QN)]).
      + assert (Hfull : d = firstn (N.to_nat (rleft en)) (d ++ D')).
        { unfold rleft in *. rewrite firstn_app_r by lia.
          replace (_ - length d)%nat with 0%nat by lia. cbn. now rewrite app_nil_r. }
        exists (out ++ d), KOk. split.
        * destruct (out ++ d) as [|x l] eqn:EO.
          -- eapply run_done; [exact Hp|]. apply rdone_fix. now rewrite EN.
          -- rewrite <- (app_nil_r (x :: l)). eapply run_out; [exact Hp|discriminate|].
             eapply run_done; apply rdone_fix; now rewrite EN.
        * unfold rfixed_end. rewrite <- Hfull. split; [apply prefix_refl|]. split; [reflexivity|].
          rewrite app_length. unfold rleft in *. lia.
      + destruct (IH en' D' m' QI QM) as (O & k & RO & PO & QO).
        { intros ->. apply QM2. exact QN. }
        assert (L1 : rleft en' = (rleft en - N.of_nat (length d))%N) by (rewrite EN; unfold rleft; cbn; lia).
        assert (HF : out ++ firstn (N.to_nat (rleft en)) (d ++ D')
                     = (out ++ d) ++ [] ++ firstn (N.to_nat (rleft en')) D').
        { rewrite L1, firstn_app_r by lia. cbn [app].
          rewrite <- app_assoc. do 3 f_equal. lia. }
        exists ((out ++ d) ++ O), k. split; [eapply run_out; eauto|].
        unfold rfixed_end. rewrite HF. split; [now apply prefix_app|].
        destruct k.
        * destruct QO as [-> QO]. split; [reflexivity|]. rewrite L1 in QO. rewrite app_length. lia.
        * destruct QO as [QO1 QO2]. split; [tauto|]. rewrite app_length. rewrite L1 in QO2. destruct QO2; [left; lia|auto].
        * destruct QO.
        * destruct QO as [QO1 QO2]. split; [tauto|]. rewrite app_length. rewrite L1 in QO2. lia.
    - destruct Q as (s' & m' & -> & QM & EN & QI).
      destruct (IH en' D m' QI) as (O & k & RO & QO); [lia|auto|].
      exists O, k. split; [eapply run_pend; eauto|]. rewrite EN in QO. exact QO.
    - exists [], KErr. split; [eapply run_err; eauto|]. split; [apply prefix_nil|assumption].
    - destruct Q.
    - exists [], KFuel. split; [eapply run_fuel; eauto|]. split; [apply prefix_nil|assumption].
  Qed.

  Lemma rfixed_run0 c i : forall en D m, (m <= i)%nat -> (m < F)%nat ->
    rfixed_inv en D c m -> exists O k, run poll en O k /\ rfixed_end en D c [] O k.
  Proof.
    induction i as [|i IH]; intros en D m Hm Hf Hinv;
      (apply (rfixed_run_step en en [] D c m); [exact Hinv|cbn; lia|exact Hf| |]).
    - unfold poll, renc_poll. destruct Hinv as (-> & _). reflexivity.
    - intros en' D' m' Hi Hs Hs2. specialize (Hs2 eq_refl). lia.
    - unfold poll, renc_poll. destruct Hinv as (-> & _). reflexivity.
    - intros en' D' m' Hi Hs Hs2. specialize (Hs2 eq_refl). apply (IH en' D' m'); auto; lia.
  Qed.

  Lemma rfixed_run e en out D c m :
    rfixed_inv en D c m -> (length out <= n)%nat -> (m < F)%nat ->
    poll e = renc_fixed F ev en out n ->
    exists O k, run poll e O k /\ rfixed_end en D c out O k.
  Proof.
    intros Hinv Ho Hf Hp. eapply rfixed_run_step; eauto.
    intros en' D' m' Hi Hs _. eapply rfixed_run0; eauto. lia.
  Qed.
End Fixed.

Section Chunked.
  Variables (ev : env) (F : nat).
  Let n := e_bufcap ev.
  Variable Y : reader -> bytes -> Prop -> nat -> Prop.
  Hypothesis HFill : forall r D c m r' x, Y r D c m -> rdr_fill ev r = (r', x) -> filled Y r' D c m x.
  Hypothesis Hn : (7 <= n)%nat.
  Hypothesis Hn64 : (N.of_nat n < two64)%N.
  Hypothesis Hhex : hexlen_ok ev.
  Let poll := renc_poll F ev n.

  Definition rchunked_inv (en : renc) (D : bytes) (c : Prop) (m : nat) : Prop :=
    rn_state en = EChunked /\ (rn_chunked en = CStart \/ rn_chunked en = CChunks) /\ Y (rn_rdr en) D c m.

  Definition rchunked_end (D : bytes) (c : Prop) (out O : bytes) (k : endk) : Prop :=
    match k with
    | KOk => exists cw, chunks plain_size_line D cw /\ O = out ++ cw ++ last_chunk /\ c
    | KErr => ~ c /\ exists p cw, prefix p D /\ chunks plain_size_line p cw /\ prefix O (out ++ cw)
    | KPanic => O = [] /\ D = [] /\ c /\ (n - length out = 3 \/ n - length out = 4)%nat
    | KFuel => False
    end.

  Lemma rfinish_run e e' (O : bytes) :
    O <> [] -> poll e = (e', POk O) -> rn_state e' = EChunked -> rn_chunked e' = CEnd ->
    run poll e O KOk.
  Proof.
    intros HO Hp Hs Hc. rewrite <- (app_nil_r O). eapply run_out; [exact Hp|assumption|].
    eapply run_done.
    - unfold poll, renc_poll, renc_chunked. rewrite Hs, Hc. cbn. reflexivity.
    - reflexivity.
  Qed.

  Lemma rcenc_step st s D c m k :
    (st = CStart \/ st = CChunks) -> Y s D c m -> (k <= n)%nat ->
    exists st' s' r, rcenc_poll ev (e_ovf ev) st s k = (st', s', r) /\
    match r with
    | POk [] => (st' = CChunks /\ (exists m', (m' <= m)%nat /\ Y s' D c m') /\ (k < n)%nat) \/
                (st' = CEndOfChunks /\ D = [] /\ c /\ (k < 3)%nat)
    | POk w => (st' = CEnd /\ w = last_chunk /\ D = [] /\ c) \/
               (st' = CChunks /\ exists d sl D' m', d <> [] /\ plain_size_line (N.of_nat (length d)) sl /\
                  w = sl ++ d ++ CRLF /\ D = d ++ D' /\ (m' < m)%nat /\ Y s' D' c m')
    | PPend _ => st' = CChunks /\ exists m', (m' < m)%nat /\ Y s' D c m'
    | PErr => ~ c /\ D = []
    | PPanic => D = [] /\ c /\ (k = 3 \/ k = 4)%nat
    | PFuel => False
    end.
  Proof.
    intros Hc HY Hk.
    assert (E : exists c0, c0 = CChunks /\ rcenc_poll ev (e_ovf ev) st s k = rcenc_chunks ev (e_ovf ev) c0 s k).
    { exists CChunks. split; [reflexivity|]. destruct Hc as [-> | ->]; cbn; [|reflexivity].
      destruct (e_ovf ev); reflexivity. }
    destruct E as (c0 & -> & ->). unfold rcenc_chunks.
    destruct (rdr_fill ev s) as [s1 r] eqn:R.
    pose proof (HFill _ _ _ _ _ _ HY R) as Q. unfold filled in Q.
    destruct r as [[|d0 d1]|fi| | |]; try contradiction.
    - destruct Q as [-> HC].
      assert (E1 : cset (e_ovf ev) CChunks CEndOfChunks = Some CEndOfChunks) by (destruct (e_ovf ev); reflexivity).
      rewrite E1.
      destruct (Nat.lt_ge_cases k 3) as [L|G].
      + unfold cenc_chunks_eos. replace (k <? 3)%nat with true by lia.
        eexists _, _, _. split; [reflexivity|]. right. auto.
      + destruct (Nat.lt_ge_cases k 5) as [L|G5].
        * assert (P : snd (cenc_chunks_eos (e_ovf ev) CEndOfChunks k) = PPanic).
          { assert (K : k = 3%nat \/ k = 4%nat) by lia. destruct K as [-> | ->]; destruct (e_ovf ev); reflexivity. }
          destruct (cenc_chunks_eos (e_ovf ev) CEndOfChunks k) as [c2 r2]. cbn in P. subst r2.
          eexists _, _, _. split; [reflexivity|]. split; [reflexivity|]. split; [exact HC|lia].
        * rewrite (chunks_eos_room ev Hn Hn64) by lia. eexists _, _, _. split; [reflexivity|]. cbn. left. auto.
    - destruct Q as (D' & -> & (m1 & Hm1 & HY1) & Q).
      set (d := d0 :: d1) in *.
      cbv zeta. set (msg0 := Nat.min (length d) k). set (fr := (e_hexlen ev msg0 + 4)%nat).
      destruct (k <=? fr)%nat eqn:Efr.
      + eexists _, _, _. split; [reflexivity|]. left. ands; eauto.
        destruct (Nat.lt_ge_cases k n) as [|Hge]; [assumption|exfalso].
        assert (k = n) by lia. subst k.
        assert (Hm : (1 <= msg0 <= e_bufcap ev)%nat) by (unfold msg0; fold n; cbn [d length]; lia).
        pose proof (Hhex msg0 Hm) as [_ HU].
        assert (length (to_hex (N.of_nat msg0)) <= length (to_hex (N.of_nat n)))%nat by (apply to_hex_mono; unfold msg0; lia).
        pose proof (to_hex_short n Hn Hn64). unfold fr in *. lia.
      + set (msg := Nat.min msg0 (k - fr)).
        assert (Hk5 : (5 <= k)%nat) by (unfold fr in *; lia).
        assert (Hm0 : (1 <= msg0 <= e_bufcap ev)%nat) by (unfold msg0; fold n; cbn [d length]; lia).
        assert (Hmsg : (1 <= msg <= length d)%nat) by (unfold msg, msg0 in *; lia).
        pose proof (Hhex msg0 Hm0) as [HL _].
        assert (HM : (length (to_hex (N.of_nat msg)) <= length (to_hex (N.of_nat msg0)))%nat) by (apply to_hex_mono; unfold msg; lia).
        assert (Hfl : length (firstn msg d) = msg) by (rewrite firstn_length; lia).
        match goal with |- context [(length ?W <=? k)%nat] => assert (HW : (length W <=? k)%nat = true) end.
        { rewrite !app_length, Hfl. cbn [CRLF length]. unfold fr, msg in *. lia. }
        rewrite HW.
        eexists _, _, _. split; [reflexivity|].
        cbv iota. match goal with |- match ?W with [] => _ | _ => _ end => destruct W as [|w0 w1] eqn:EW end.
        { exfalso. apply app_eq_nil in EW. destruct EW. now apply (to_hex_nonempty (N.of_nat msg)). }
        rewrite <- EW. right. split; [reflexivity|].
        destruct (Q msg Hmsg) as (m2 & Hm2 & HY2).
        exists (firstn msg d), (to_hex (N.of_nat msg) ++ CRLF), (skipn msg d ++ D'), m2. ands; auto.
        * intros X. rewrite X in Hfl. cbn [length] in Hfl. lia.
        * exists (to_hex (N.of_nat msg)). rewrite Hfl. ands; [apply to_hex_hexnum|apply to_hex_len; lia|reflexivity].
        * now rewrite <- !app_assoc.
        * now rewrite app_assoc, firstn_skipn.
    - eexists _, _, _. split; [reflexivity|]. cbv iota. auto.
    - destruct Q. eexists _, _, _. split; [reflexivity|]. cbv iota. auto.
  Qed.

  Lemma rchunked_run_step e en out D c m :
    rchunked_inv en D c m -> (length out <= n)%nat ->
    poll e = renc_chunked ev en out n ->
    (forall en' D' m', rchunked_inv en' D' c m' -> (m' <= m)%nat -> (out = [] -> m' < m)%nat ->
       exists O k, run poll en' O k /\ rchunked_end D' c [] O k) ->
    exists O k, run poll e O k /\ rchunked_end D c out O k.
  Proof.
    intros (Hst & Hc & HY) Ho Hp IH. unfold renc_chunked in Hp.
    destruct (rcenc_step (rn_chunked en) (rn_rdr en) D c m (n - length out) Hc HY ltac:(lia)) as (c' & s' & r & R & Q).
    change (y_rdr (rn_resp en)) with (rn_rdr en) in Hp. rewrite R in Hp.
    assert (NoPanic : forall D' O, ~ rchunked_end D' c [] O KPanic).
    { intros D' O (_ & _ & _ & H). cbn [length] in H. lia. }
    destruct r as [[|w0 w1]|fi| | |].
    - rewrite app_nil_r in Hp.
      destruct Q as [(-> & (m' & Hm & HY') & Hk)|(-> & -> & HC & Hk)].
      + assert (Hout : out <> []) by (intros ->; cbn in Hk; lia).
        destruct out as [|o0 o1]; [congruence|]. set (out := o0 :: o1) in *.
        cbv zeta in Hp. rewrite Hst in Hp.
        match type of Hp with _ = (?e1, _) => set (en1 := e1) in * end.
        destruct (IH en1 D m') as (O & k & RO & QO).
        { unfold rchunked_inv, en1. cbn. auto. }
        { exact Hm. }
        { discriminate. }
        exists (out ++ O), k. split; [eapply run_out; eauto|].
        destruct k.
        * destruct QO as (cw & Q1 & -> & Q3). exists cw. auto.
        * destruct QO as (Q1 & p & cw & Q2 & Q3 & Q4). split; [exact Q1|]. exists p, cw. split; [exact Q2|]. split; [exact Q3|].
          now apply prefix_app.
        * now apply NoPanic in QO.
        * destruct QO.
      + assert (Hout : out <> []) by (intros ->; cbn in Hk; lia).
        destruct out as [|o0 o1]; [congruence|]. set (out := o0 :: o1) in *.
        cbv zeta in Hp. rewrite Hst in Hp.
        match type of Hp with _ = (?e1, _) => set (en1 := e1) in * end.
        exists (out ++ last_chunk), KOk. split.
        * eapply run_out; eauto. eapply rfinish_run.
          -- discriminate.
          -- unfold poll, renc_poll, en1. cbn [rn_state]. unfold renc_chunked. cbn [rn_chunked length rcenc_poll].
             rewrite Nat.sub_0_r. rewrite (chunks_eos_room ev Hn Hn64) by lia. reflexivity.
          -- reflexivity.
          -- reflexivity.
        * exists []. split; [constructor|]. auto.
    - set (w := w0 :: w1) in *.
      assert (HpE : exists en1, poll e = (en1, POk (out ++ w)) /\ rn_state en1 = EChunked /\ rn_chunked en1 = c' /\ rn_rdr en1 = s').
      { eexists. split; [exact Hp|]. auto. }
      clear Hp. destruct HpE as (en1 & Hp & E1 & E2 & E3).
      assert (HNE : out ++ w <> []) by (destruct out; discriminate).
      destruct Q as [(-> & Hw & -> & HC)|(-> & d & sl & D' & m' & Hd & Hsl & Hw & -> & HM & HY')].
      + exists (out ++ last_chunk), KOk. rewrite Hw in *. split.
        * eapply rfinish_run; eauto.
        * exists []. split; [constructor|]. auto.
      + destruct (IH en1 D' m') as (O & k & RO & QO).
        { unfold rchunked_inv. rewrite E3. auto. }
        { lia. }
        { intros _. exact HM. }
        exists ((out ++ w) ++ O), k. split; [eapply run_out; eauto|].
        destruct k.
        * destruct QO as (cw & Q1 & -> & Q3).
          exists (sl ++ d ++ CRLF ++ cw). rewrite Hw. split; [now constructor|].
          split; [|tauto]. cbn [app]. now rewrite <- !app_assoc.
        * destruct QO as (Q1 & p & cw & Q2 & Q3 & Q4). split; [tauto|].
          exists (d ++ p), (sl ++ d ++ CRLF ++ cw). split; [now apply prefix_app|]. split; [now constructor|].
          rewrite Hw. cbn [app] in Q4. rewrite <- !app_assoc. now repeat apply prefix_app.
        * now apply NoPanic in QO.
        * destruct QO.
    - destruct Q as (-> & m' & HM & HY'). cbv zeta in Hp.
      destruct out as [|o0 o1].
      + rewrite Hst in Hp.
        match type of Hp with _ = (?e1, _) => set (en1 := e1) in * end.
        destruct (IH en1 D m') as (O & k & RO & QO).
        { unfold rchunked_inv, en1. cbn. auto. }
        { lia. }
        { intros _. exact HM. }
        exists O, k. split; [eapply run_pend; eauto|exact QO].
      + rewrite Hst in Hp. set (out := o0 :: o1) in *.
        match type of Hp with _ = (?e1, _) => set (en1 := e1) in * end.
        destruct (IH en1 D m') as (O & k & RO & QO).
        { unfold rchunked_inv, en1. cbn. auto. }
        { lia. }
        { intros _. exact HM. }
        exists (out ++ O), k. split; [eapply run_out; eauto; discriminate|].
        destruct k.
        * destruct QO as (cw & Q1 & -> & Q3). exists cw. auto.
        * destruct QO as (Q1 & p & cw & Q2 & Q3 & Q4). split; [tauto|]. exists p, cw. split; [assumption|].
          split; [assumption|]. now apply prefix_app.
        * now apply NoPanic in QO.
        * destruct QO.
    - destruct Q as (Q1 & ->). exists [], KErr. split; [eapply run_err; eauto|]. split; [assumption|].
      exists [], []. rewrite app_nil_r. split; [apply prefix_nil|]. split; [constructor|apply prefix_nil].
    - destruct Q as (-> & HC & Hk). exists [], KPanic. split; [eapply run_panic; eauto|].
      unfold rchunked_end. auto.
    - destruct Q.
  Qed.

  Lemma rchunked_run0 c i : forall en D m, (m <= i)%nat -> rchunked_inv en D c m ->
    exists O k, run poll en O k /\ rchunked_end D c [] O k.
  Proof.
    induction i as [|i IH]; intros en D m Hm Hinv; (eapply rchunked_run_step; [exact Hinv|cbn; lia| |]).
    - unfold poll, renc_poll. destruct Hinv as (-> & _). reflexivity.
    - intros en' D' m' Hi Hs Hs2. specialize (Hs2 eq_refl). lia.
    - unfold poll, renc_poll. destruct Hinv as (-> & _). reflexivity.
    - intros en' D' m' Hi Hs Hs2. specialize (Hs2 eq_refl). apply (IH en' D' m'); auto; lia.
  Qed.

  Lemma rchunked_run e en out D c m :
    rchunked_inv en D c m -> (length out <= n)%nat -> poll e = renc_chunked ev en out n ->
    exists O k, run poll e O k /\ rchunked_end D c out O k.
  Proof.
    intros Hinv Ho Hp. eapply rchunked_run_step; eauto.
    intros en' D' m' Hi Hs _. eapply rchunked_run0; eauto.
  Qed.
End Chunked.

(** ** The head *)
Definition rwith_state (en : renc) (st : est) (hr : nat) : renc :=
  mkRenc (rn_resp en) st (rn_head en) hr (rn_bodyread en) (rn_chunked en).

Lemma rhead_run F ev n m : (0 < n)%nat -> forall en,
  (length (rn_head en) - rn_headread en <= m)%nat -> (rn_headread en < length (rn_head en))%nat ->
  rn_state en = EHead ->
  exists q pre out e',
    skipn (rn_headread en) (rn_head en) = pre ++ out /\ length pre = (q * n)%nat /\
    (0 < length out <= n)%nat /\
    renc_poll F ev n e' =
      (let en1 := rwith_state en (match rn_cl en with Some _ => EFixed | None => EChunked end) (length (rn_head en)) in
       match rn_cl en with Some _ => renc_fixed F ev en1 out n | None => renc_chunked ev en1 out n end) /\
    (forall O k, run (renc_poll F ev n) e' O k -> run (renc_poll F ev n) en (pre ++ O) k).
Proof.
  intros Hn. induction m as [|m IH]; intros en Hm Hh Hst; [lia|].
  set (H := rn_head en) in *. set (h := rn_headread en) in *.
  assert (EP : renc_poll F ev n en = renc_head F ev en n) by (unfold renc_poll; now rewrite Hst).
  unfold renc_head in EP. fold H h in EP. cbv zeta in EP.
  destruct (Nat.le_gt_cases (length H - h) n) as [L|G].
  - exists 0%nat, [], (skipn h H), en. cbn [app Nat.mul length]. ands; auto; try lia.
    + rewrite skipn_length. lia.
    + rewrite skipn_length. lia.
    + rewrite EP. replace (Nat.min (length H - h) n) with (length H - h)%nat by lia.
      replace (h + (length H - h) =? length H)%nat with true by lia.
      replace (h + (length H - h))%nat with (length H) by lia.
      rewrite (firstn_all2 (skipn h H)) by (rewrite skipn_length; lia).
      cbv zeta. unfold rwith_state. fold H. destruct (rn_cl en); reflexivity.
  - replace (Nat.min (length H - h) n) with n in EP by lia.
    replace (h + n =? length H)%nat with false in EP by lia.
    set (en1 := mkRenc (rn_resp en) (rn_state en) H (h + n) (rn_bodyread en) (rn_chunked en)) in *.
    destruct (IH en1) as (q & pre & out & e' & S1 & S2 & S3 & S4 & S5).
    { subst en1. cbn. lia. } { subst en1. cbn. lia. } { subst en1. exact Hst. }
    cbn [en1 rn_head rn_headread] in S1.
    assert (Hfn : length (firstn n (skipn h H)) = n) by (rewrite firstn_length, skipn_length; lia).
    exists (S q), (firstn n (skipn h H) ++ pre), out, e'. ands; auto; try lia.
    + rewrite <- app_assoc, <- S1, <- skipn_skipn', firstn_skipn. reflexivity.
    + rewrite app_length, Hfn, S2. lia.
    + intros O k R. rewrite <- app_assoc. eapply run_out; [exact EP| |apply S5; exact R].
      intros X. rewrite X in Hfn. cbn [length] in Hfn. lia.
Qed.

Definition rhead_enc (ev : env) (y : relayed) : renc :=
  mkRenc (mkRel (y_status y) (y_version y) (with_default_ct (y_head y)) (y_len y) (y_rdr y)) EHead (head_text ev (y_head y)) 0 0 CStart.

Section Whole.
  Variables (ev : env) (y : relayed) (D : bytes) (c : Prop) (m : nat).
  Let n := e_bufcap ev.
  Let H := head_text ev (y_head y).
  Hypothesis Hbig : big ev.
  Hypothesis Hy : yields ev (y_rdr y) D c m.

  Lemma relay_fixed_run cl F : y_len y = Some cl -> (cl + N.of_nat n < two64)%N ->
    steady (y_rdr y) \/ (cl <= N.of_nat (length D))%N -> (m < F)%nat ->
    exists O k, run (renc_poll F ev n) (renc_new y) O k /\ prefix O (H ++ firstn (N.to_nat cl) D) /\
      match k with
      | KOk => O = H ++ firstn (N.to_nat cl) D /\ (cl <= N.of_nat (length D))%N
      | KErr => ~ c /\ ((N.of_nat (length D) < cl)%N \/ cl = 0%N)
      | KFuel => c /\ (N.of_nat (length D) < cl)%N
      | KPanic => False
      end.
  Proof.
    intros Hcl Hsz Hst HF. assert (Hn : (0 < n)%nat) by apply Hbig.
    destruct (rhead_run F ev n (length H) Hn (rhead_enc ev y)) as (q & pre & out & e' & S1 & S2 & S3 & S4 & S5).
    { cbn. fold H. lia. } { cbn. apply head_text_pos. } { reflexivity. }
    change (rn_cl (rhead_enc ev y)) with (y_len y) in S4. rewrite Hcl in S4. cbv zeta in S4.
    set (en1 := rwith_state (rhead_enc ev y) EFixed (length (rn_head (rhead_enc ev y)))) in *.
    assert (L : rleft cl en1 = cl) by (unfold rleft, en1; cbn; lia).
    assert (I : rfixed_inv ev cl en1 D c m).
    { unfold rfixed_inv. rewrite L. unfold en1. cbn. ands; auto; lia. }
    destruct (rfixed_run ev n cl Hbig Hn Hsz F e' en1 out D c m I) as (O & k & RO & PO & QO).
    { lia. } { exact HF. } { exact S4. }
    rewrite L in *.
    cbn [rhead_enc rn_head rn_headread skipn] in S1. fold H in S1.
    assert (EF : H ++ firstn (N.to_nat cl) D = pre ++ out ++ firstn (N.to_nat cl) D).
    { rewrite S1. now rewrite <- app_assoc. }
    exists (pre ++ O), k. split; [|split].
    - eapply run_same; [|now apply S5]. reflexivity.
    - rewrite EF. now apply prefix_app.
    - destruct k; auto. destruct QO as [-> QO]. now rewrite EF.
  Qed.

End Whole.

Section WholeChunked.
  Variables (ev : env) (Y : reader -> bytes -> Prop -> nat -> Prop) (y : relayed) (D : bytes) (c : Prop) (m : nat).
  Let n := e_bufcap ev.
  Let H := head_text ev (y_head y).
  Hypothesis HFill : forall r D c m r' x, Y r D c m -> rdr_fill ev r = (r', x) -> filled Y r' D c m x.
  Hypothesis Hy : Y (y_rdr y) D c m.

  Lemma relay_chunked_run F : y_len y = None -> (7 <= n)%nat -> (N.of_nat n < two64)%N -> hexlen_ok ev ->
    exists O k, run (renc_poll F ev n) (renc_new y) O k /\
      match k with
      | KOk => c /\ exists cw, chunks plain_size_line D cw /\ O = H ++ cw ++ last_chunk
      | KErr => ~ c /\ exists p cw, prefix p D /\ chunks plain_size_line p cw /\ prefix O (H ++ cw)
      | KPanic => D = [] /\ c /\ eos_window n (length H) /\ prefix O H
      | KFuel => False
      end.
  Proof.
    intros Hcl Hn Hn64 Hhex.
    destruct (rhead_run F ev n (length H) ltac:(lia) (rhead_enc ev y)) as (q & pre & out & e' & S1 & S2 & S3 & S4 & S5).
    { cbn. fold H. lia. } { cbn. apply head_text_pos. } { reflexivity. }
    change (rn_cl (rhead_enc ev y)) with (y_len y) in S4. rewrite Hcl in S4. cbv zeta in S4.
    set (en1 := rwith_state (rhead_enc ev y) EChunked (length (rn_head (rhead_enc ev y)))) in *.
    assert (I : rchunked_inv Y en1 D c m).
    { unfold rchunked_inv, en1. cbn. ands; auto. }
    destruct (rchunked_run ev F Y HFill Hn Hn64 Hhex e' en1 out D c m I) as (O & k & RO & QO).
    { fold n. lia. } { exact S4. }
    cbn [rhead_enc rn_head rn_headread skipn] in S1. fold H in S1.
    exists (pre ++ O), k. split.
    { eapply run_same; [|now apply S5]. reflexivity. }
    unfold rchunked_end in QO.
    destruct k.
    - destruct QO as (cw & Q1 & -> & Q3). split; [assumption|]. exists cw. split; [assumption|].
      rewrite S1. now rewrite <- app_assoc.
    - destruct QO as (Q1 & p & cw & Q2 & Q3 & Q4). split; [assumption|]. exists p, cw. ands; auto.
      rewrite S1, <- app_assoc. now apply prefix_app.
    - destruct QO as (-> & Q1 & Q2 & Q3). ands; auto.
      + unfold eos_window. rewrite S1, app_length, S2, Nat.add_comm, Nat.mod_add by lia.
        fold n in Q3. rewrite Nat.mod_small by lia. lia.
      + rewrite S1, app_nil_r. apply prefix_app_r.
    - destruct QO.
  Qed.
End WholeChunked.
