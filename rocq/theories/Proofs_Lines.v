(** Buffered reading and lines of the bodies that users have. *)
From Verif Require Import BufReads Reads BodyRead SpecChunked SpecHead SpecReq SpecServer SpecBody SpecIo Lemmas Proofs_Buf Proofs_Dec Proofs_DecReads
  Proofs_ServerDec Proofs_Request Proofs_Body Proofs_BodyRead Proofs_BufReads Proofs_ServerEnc.

Lemma reader_ok ev len br : wf_brd br -> rdr_ok (RMsg (body_reader ev len br)).
Proof. intros H. destruct len; [exact H|apply new_ok]. Qed.

Lemma steps_plain ev r os r' out k : (0 < e_bufcap ev)%nat -> grow_ok ev -> rdr_ok r -> Forall step_ok os -> steps ev os r = (r', out, k) ->
  exists ns r2, Forall (fun n => 0 < n)%nat ns /\ reads (rdr_poll ev) ns r = (r2, out, k) /\ (k <> Going -> r2 = r') /\ (length ns <= length os)%nat /\
    (k = Going -> Forall takes os -> length ns = length os).
Proof.
  intros Hc G HO HS H. destruct (steps_reads ev Hc G os r r r' out k HO (or_introl eq_refl) HS H) as (ns & r2 & A1 & A2 & _ & A4 & A5 & A6).
  exists ns, r2. auto.
Qed.

Lemma takes_ok os : Forall takes os -> Forall step_ok os.
Proof. apply Forall_impl. intros [n|k]; cbn; auto. Qed.

(** A reader that delivers [p] in reads delivers it in steps. *)
Lemma steps_deliver ev r p bound : (0 < e_bufcap ev)%nat -> grow_ok ev -> rdr_ok r ->
  (forall ns r' out k, Forall (fun n => 0 < n)%nat ns -> reads (rdr_poll ev) ns r = (r', out, k) ->
    match k with Going => prefix out p /\ (length ns <= bound)%nat | Ended => out = p | _ => False end) ->
  forall os r' out k, Forall takes os -> steps ev os r = (r', out, k) ->
    match k with Going => prefix out p /\ (length os <= bound)%nat | Ended => out = p | _ => False end.
Proof.
  intros Hc G HO HR os r' out k HT H. destruct (steps_plain ev r os r' out k Hc G HO (takes_ok _ HT) H) as (ns & r2 & A1 & A2 & _ & _ & A5).
  pose proof (HR _ _ _ _ A1 A2) as Q. destruct k; auto. now rewrite <- (A5 eq_refl HT).
Qed.

Lemma src_deliver ev s : wf_src s -> clean s -> forall ns r' out k, Forall (fun n => 0 < n)%nat ns -> reads (rdr_poll ev) ns (RSrc s) = (r', out, k) ->
  match k with Going => prefix out (src_data s) /\ (length ns <= src_size s)%nat | Ended => out = src_data s | _ => False end.
Proof.
  intros W C ns r' out k F H. rewrite src_reads in H. destruct (reads src_read ns s) as [[s' o] e] eqn:E. injection H as <- <- <-.
  pose proof (plain_reads _ _ _ _ _ W F E) as Q. destruct e; [exact Q|apply Q|now destruct Q|exact Q|exact Q].
Qed.
Lemma fixed_deliver ev n b : wf_brd b -> (n <= N.of_nat (length (br_data b)))%N \/ clean (br_src b) ->
  forall ns r' out k, Forall (fun n => 0 < n)%nat ns -> reads (rdr_poll ev) ns (RMsg (RFixed n b)) = (r', out, k) ->
  match k with Going => prefix out (firstn (N.to_nat n) (br_data b)) /\ (length ns <= br_size b)%nat | Ended => out = firstn (N.to_nat n) (br_data b) | _ => False end.
Proof.
  intros W C ns r' out k F H. rewrite msg_reads in H. destruct (reads (body_read ev) ns _) as [[s' o] e] eqn:E. injection H as <- <- <-.
  pose proof (fixed_reads _ _ _ _ _ _ _ W F E) as Q. destruct e; try exact Q; [apply Q|]. destruct Q as (_ & Q1 & Q2). destruct C; [lia|contradiction].
Qed.
Lemma chunked_deliver ev br p tr wire extra : (0 < e_bufcap ev)%nat -> grow_ok ev -> fitting (e_deccap ev) p tr wire -> wf_brd br -> br_data br = wire ++ extra ->
  forall ns r' out k, Forall (fun n => 0 < n)%nat ns -> reads (rdr_poll ev) ns (RMsg (RChunked [] (dec_new ev br))) = (r', out, k) ->
  match k with
  | Going => prefix out p /\ (length ns <= br_size br + length p)%nat
  | Ended => out = p /\ exists d', r' = RMsg (RChunked [] d') /\ exists m, d_chan d' = [m] /\ forall x, values x (hm_iter m) = values x tr
  | _ => False
  end.
Proof.
  intros Hc G (cw & n & z & tw & H1 & H2 & H3 & H4 & H5 & ->) W ED ns r' out k F H. rewrite msg_reads in H.
  destruct (reads (body_read ev) ns _) as [[b' o] e] eqn:E. injection H as <- <- <-.
  destruct (buffered_reads ev Hc _ _ _ _ _ _ F E) as (ms & d' & x & buf' & A1 & A2 & -> & A4 & A5 & A6). cbn [app] in A4.
  pose proof (fresh_load ev br p tr cw n z tw extra ms d' x e G H1 H2 H3 H4 H5 W ED A1 A2) as Q. destruct e; try exact Q.
  - destruct Q as (Q1 & _ & Q3). subst x. specialize (A6 eq_refl). destruct Q1 as [y Q1]. rewrite <- app_assoc in Q1. split; [now exists (buf' ++ y)|].
    apply (f_equal (@length _)) in Q1. rewrite !app_length in Q1. lia.
  - destruct Q as (-> & (m & Q2 & _ & Q3) & _). rewrite A5 in * by discriminate. rewrite app_nil_r in A4. split; [now symmetry|]. exists d'. split; [reflexivity|]. now exists m.
Qed.

(** At the end of a body of known length, or of one's own, there is nothing. *)
Lemma src_stays ev s : (0 < e_bufcap ev)%nat -> grow_ok ev -> wf_src s -> clean s -> forall os r out, Forall takes os -> steps ev os (RSrc s) = (r, out, Ended) -> exists r', rdr_fill ev r = (r', POk []).
Proof.
  intros Hc G W C os r out HT H. destruct (steps_plain ev (RSrc s) os r out Ended Hc G W (takes_ok _ HT) H) as (ns & r2 & A1 & A2 & A3 & _). rewrite <- A3 by discriminate.
  rewrite src_reads in A2. destruct (reads src_read ns s) as [[s' o] e] eqn:E. injection A2 as <- <- ->. clear A3 HT H. revert s W C o E. induction A1 as [|n ns Hn F IH]; intros s W C o E; [discriminate|].
  cbn [reads] in E. destruct (src_read n s) as [s1 y] eqn:E1. pose proof (src_read_wf _ _ _ _ E1 W) as W1. destruct y as [[|c x]|f| | |]; try discriminate.
  - injection E as <- <-. destruct (src_read_nil _ _ _ Hn W E1) as (E2 & E3 & ->). cbn [rdr_fill]. unfold src_fill. rewrite E2, E3. eauto.
  - destruct (reads src_read ns s1) as [[s2 o2] k2] eqn:E2. injection E as <- <- ->. apply (IH s1 W1) with (o := o2); [|exact E2]. apply (src_read_clean_iff _ _ _ _ E1); eauto.
  - apply (IH s1 W1) with (o := o); [|exact E]. apply (src_read_clean_iff _ _ _ _ E1); eauto.
Qed.
Lemma fixed_stays ev n b : (0 < e_bufcap ev)%nat -> grow_ok ev -> wf_brd b -> (n <= N.of_nat (length (br_data b)))%N ->
  forall os r out, Forall takes os -> steps ev os (RMsg (RFixed n b)) = (r, out, Ended) -> exists r', rdr_fill ev r = (r', POk []).
Proof.
  intros Hc G W L os r out HT H. destruct (steps_plain ev (RMsg (RFixed n b)) os r out Ended Hc G W (takes_ok _ HT) H) as (ns & r2 & A1 & A2 & A3 & _). rewrite <- A3 by discriminate.
  rewrite msg_reads in A2. destruct (reads (body_read ev) ns _) as [[b' o] e] eqn:E. injection A2 as <- <- ->.
  destruct (fixed_reads _ _ _ _ _ _ _ W A1 E) as (-> & rem & b2 & -> & _ & ER & _). cbn [rdr_fill]. unfold take_fill.
  assert (rem = 0)%N as -> by (rewrite ER, firstn_length; lia). cbn. eauto.
Qed.

Lemma src_lines ev s : (0 < e_bufcap ev)%nat -> grow_ok ev -> wf_src s -> clean s ->
  exists ls, lines_of (src_data s) ls /\ settles (fun fuel => snd (body_lines fuel ev (RSrc s))) (ROk ls).
Proof.
  intros Hc G W C. apply lines_all with (bound := src_size s); [|right; right; exact (src_stays ev s Hc G W C)].
  exact (steps_deliver ev (RSrc s) _ _ Hc G W (src_deliver ev s W C)).
Qed.
Lemma fixed_lines ev n b : (0 < e_bufcap ev)%nat -> grow_ok ev -> wf_brd b -> (n <= N.of_nat (length (br_data b)))%N ->
  exists ls, lines_of (firstn (N.to_nat n) (br_data b)) ls /\ settles (fun fuel => snd (body_lines fuel ev (RMsg (RFixed n b)))) (ROk ls).
Proof.
  intros Hc G W L. apply lines_all with (bound := br_size b); [|right; right; exact (fixed_stays ev n b Hc G W L)].
  exact (steps_deliver ev (RMsg (RFixed n b)) _ _ Hc G W (fixed_deliver ev n b W (or_introl L))).
Qed.
Lemma chunked_lines ev br p tr wire extra : (0 < e_bufcap ev)%nat -> grow_ok ev -> fitting (e_deccap ev) p tr wire -> wf_brd br -> br_data br = wire ++ extra ->
  p = [] \/ (exists q, p = q ++ [LF]) ->
  exists ls, lines_of p ls /\ settles (fun fuel => snd (body_lines fuel ev (RMsg (RChunked [] (dec_new ev br))))) (ROk ls).
Proof.
  intros Hc G HF W ED HP. apply lines_all with (bound := (br_size br + length p)%nat); [|tauto].
  apply (steps_deliver ev _ _ _ Hc G (reader_ok ev None br W)). intros ns r' out k F H.
  pose proof (chunked_deliver ev br p tr wire extra Hc G HF W ED ns r' out k F H) as Q. destruct k; auto. apply Q.
Qed.
