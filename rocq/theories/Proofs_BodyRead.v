(** Reading whole bodies. *)
From Coq Require Import ZifyBool ZifyNat ZifyN.
From Verif Require Import Proofs_ServerEnc Accept BodyRead SpecBody SpecChunked SpecHead SpecReq SpecServer Lemmas Proofs_Copy Proofs_Parse Proofs_Buf Proofs_Dec Proofs_DecMsg
  Proofs_Map Proofs_DecReads Proofs_ReqHead Proofs_ServerDec Proofs_Body Proofs_Accept Proofs_Request.
Local Ltac Zify.zify_post_hook ::= Z.div_mod_to_equations.

(** ** UTF-8 *)
Lemma in_range_iff a b c : in_range a b c = true <-> (a <= bv c <= b)%N.
Proof. unfold in_range. lia. Qed.
Lemma in_range_not a b c : in_range a b c = false <-> ~ (a <= bv c <= b)%N.
Proof. unfold in_range. lia. Qed.
Lemma bv_byte n : (n < 256)%N -> bv (ascii_of_N n) = n.
Proof. intros H. unfold bv. now apply N_ascii_embedding. Qed.
Lemma byte_bv c n : bv c = n -> c = ascii_of_N n.
Proof. intros <-. unfold bv. now rewrite ascii_N_embedding. Qed.

Lemma char_valid n a l : scalar n -> utf8_char n a -> utf8_valid (a ++ l) = utf8_valid l.
Proof.
  unfold scalar. intros S U. destruct U as [n H|n H|n H|n H]; cbn [app utf8_valid]; unfold low6, cont; rewrite ?bv_byte by lia.
  - now replace (n <? 128)%N with true by lia.
  - replace (192 + n / 64 <? 128)%N with false by lia. replace (in_range 194 223 _) with true by (symmetry; apply in_range_iff; rewrite bv_byte; lia).
    now replace (in_range 128 191 _) with true by (symmetry; apply in_range_iff; rewrite bv_byte; lia).
  - replace (224 + n / 4096 <? 128)%N with false by lia. replace (in_range 194 223 _) with false by (symmetry; apply in_range_not; rewrite bv_byte; lia).
    replace (in_range 224 239 _) with true by (symmetry; apply in_range_iff; rewrite bv_byte; lia).
    replace (in_range 128 191 (ascii_of_N (128 + n mod 64))) with true by (symmetry; apply in_range_iff; rewrite bv_byte; lia).
    destruct (N.eqb_spec (224 + n / 4096) 224).
    + now replace (in_range 160 191 _) with true by (symmetry; apply in_range_iff; rewrite bv_byte; lia).
    + destruct (N.eqb_spec (224 + n / 4096) 237).
      * now replace (in_range 128 159 _) with true by (symmetry; apply in_range_iff; rewrite bv_byte; lia).
      * now replace (in_range 128 191 _) with true by (symmetry; apply in_range_iff; rewrite bv_byte; lia).
  - replace (240 + n / 262144 <? 128)%N with false by lia. replace (in_range 194 223 _) with false by (symmetry; apply in_range_not; rewrite bv_byte; lia).
    replace (in_range 224 239 _) with false by (symmetry; apply in_range_not; rewrite bv_byte; lia).
    replace (in_range 240 244 _) with true by (symmetry; apply in_range_iff; rewrite bv_byte; lia).
    replace (in_range 128 191 (ascii_of_N (128 + n mod 64))) with true by (symmetry; apply in_range_iff; rewrite bv_byte; lia).
    replace (in_range 128 191 (ascii_of_N (128 + (n / 64) mod 64))) with true by (symmetry; apply in_range_iff; rewrite bv_byte; lia).
    destruct (N.eqb_spec (240 + n / 262144) 240).
    + now replace (in_range 144 191 _) with true by (symmetry; apply in_range_iff; rewrite bv_byte; lia).
    + destruct (N.eqb_spec (240 + n / 262144) 244).
      * now replace (in_range 128 143 _) with true by (symmetry; apply in_range_iff; rewrite bv_byte; lia).
      * now replace (in_range 128 191 _) with true by (symmetry; apply in_range_iff; rewrite bv_byte; lia).
Qed.
Lemma text_valid l : is_text l -> utf8_valid l = true.
Proof. induction 1 as [|n a l S U _ IH]; [reflexivity|]. now rewrite (char_valid n a l S U). Qed.

Lemma valid_text : forall k l, (length l <= k)%nat -> utf8_valid l = true -> is_text l.
Proof.
  induction k as [|k IH]; intros l L V. { destruct l; [constructor|cbn in L; lia]. }
  destruct l as [|a l]; [constructor|]. cbn [length] in L. cbn [utf8_valid] in V. unfold cont in V.
  destruct (N.ltb_spec (bv a) 128) as [A|A].
  { apply (text_cons (bv a) [a]); [unfold scalar; lia| |apply IH; [lia|exact V]]. rewrite (byte_bv a _ eq_refl) at 2. now constructor. }
  destruct l as [|b l]; [discriminate|]. cbn [length] in L. destruct (in_range 194 223 a) eqn:R2.
  { apply andb_true_iff in V as [B V]. apply in_range_iff in R2, B. apply (text_cons ((bv a - 192) * 64 + (bv b - 128)) [a; b]); [unfold scalar; lia| |apply IH; [lia|exact V]].
    replace [a; b] with [ascii_of_N (192 + ((bv a - 192) * 64 + (bv b - 128)) / 64); low6 ((bv a - 192) * 64 + (bv b - 128))]; [constructor; lia|].
    unfold low6. f_equal; [|f_equal]; symmetry; apply byte_bv; lia. }
  apply in_range_not in R2. destruct l as [|c l]; [discriminate|]. cbn [length] in L. destruct (in_range 224 239 a) eqn:R3.
  { apply andb_true_iff in V as [V V3]. apply andb_true_iff in V as [B C]. apply in_range_iff in R3, C.
    assert (BB : (128 <= bv b <= 191)%N /\ (bv a = 224%N -> 160 <= bv b)%N /\ (bv a = 237%N -> bv b <= 159)%N).
    { destruct (N.eqb_spec (bv a) 224); [apply in_range_iff in B; lia|]. destruct (N.eqb_spec (bv a) 237); apply in_range_iff in B; lia. }
    set (n := ((bv a - 224) * 4096 + (bv b - 128) * 64 + (bv c - 128))%N).
    apply (text_cons n [a; b; c]); [unfold scalar, n; lia| |apply IH; [lia|exact V3]].
    replace [a; b; c] with [ascii_of_N (224 + n / 4096); low6 (n / 64); low6 n]; [constructor; unfold n; lia|].
    unfold low6, n. f_equal; [|f_equal; [|f_equal]]; symmetry; apply byte_bv; lia. }
  apply in_range_not in R3. destruct l as [|d l]; [discriminate|]. cbn [length] in L. destruct (in_range 240 244 a) eqn:R4; [|discriminate].
  apply andb_true_iff in V as [V V4]. apply andb_true_iff in V as [V D]. apply andb_true_iff in V as [B C]. apply in_range_iff in R4, C, D.
  assert (BB : (128 <= bv b <= 191)%N /\ (bv a = 240%N -> 144 <= bv b)%N /\ (bv a = 244%N -> bv b <= 143)%N).
  { destruct (N.eqb_spec (bv a) 240); [apply in_range_iff in B; lia|]. destruct (N.eqb_spec (bv a) 244); apply in_range_iff in B; lia. }
  set (n := ((bv a - 240) * 262144 + (bv b - 128) * 4096 + (bv c - 128) * 64 + (bv d - 128))%N).
  apply (text_cons n [a; b; c; d]); [unfold scalar, n; lia| |apply IH; [lia|exact V4]].
  replace [a; b; c; d] with [ascii_of_N (240 + n / 262144); low6 (n / 4096); low6 (n / 64); low6 n]; [constructor; unfold n; lia|].
  unfold low6, n. f_equal; [|f_equal; [|f_equal; [|f_equal]]]; symmetry; apply byte_bv; lia.
Qed.
Lemma text_iff l : is_text l <-> utf8_valid l = true.
Proof. split; [apply text_valid|apply (valid_text (length l)); lia]. Qed.

(** ** Reading on *)
Lemma reads_more {E} (read : nat -> E -> E * pres bytes) : forall ns e e' out k ms, reads read ns e = (e', out, k) -> k <> Going ->
  reads read (ns ++ ms) e = (e', out, k).
Proof.
  induction ns as [|n ns IH]; intros e e' out k ms H K; cbn [reads app] in *; [congruence|].
  destruct (read n e) as [e1 [[|c x]|f| | |]]; auto. destruct (reads read ns e1) as [[e2 o2] k2] eqn:E2. injection H as <- <- <-. now rewrite (IH _ _ _ _ ms E2 K).
Qed.
Lemma sizes_pos (sz : nat -> nat) : (forall i, 0 < sz i)%nat -> forall f k, Forall (fun n => 0 < n)%nat (map sz (seq k f)).
Proof. intros P f k. apply Forall_map, Forall_forall. intros x _. apply P. Qed.
Lemma read_all {E} (read : nat -> E -> E * pres bytes) e sz bound : (forall i, 0 < sz i)%nat ->
  (forall ns e' out, Forall (fun n => 0 < n)%nat ns -> reads read ns e = (e', out, Going) -> (length ns <= bound)%nat) ->
  exists e' out k, k <> Going /\ reads read (map sz (seq 0 (S bound))) e = (e', out, k) /\
    forall fuel, (S bound <= fuel)%nat -> reads read (map sz (seq 0 fuel)) e = (e', out, k).
Proof.
  intros P H. destruct (reads read (map sz (seq 0 (S bound))) e) as [[e' out] k] eqn:E0. exists e', out, k.
  assert (K : k <> Going).
  { intros ->. apply H in E0; [|now apply sizes_pos]. rewrite map_length, seq_length in E0. lia. }
  split; [exact K|]. split; [reflexivity|]. intros fuel F. replace fuel with (S bound + (fuel - S bound))%nat by lia. rewrite seq_app, map_app. now apply reads_more.
Qed.
Lemma msg_reads ev ns : forall b, reads (rdr_poll ev) ns (RMsg b) = let '(b', o, k) := reads (body_read ev) ns b in (RMsg b', o, k).
Proof.
  induction ns as [|n ns IH]; intros b; cbn [reads rdr_poll]; [reflexivity|]. destruct (body_read ev n b) as [b1 [[|c x]|f| | |]]; try reflexivity; [|apply IH].
  rewrite IH. now destruct (reads (body_read ev) ns b1) as [[b2 o2] k2].
Qed.
Lemma src_reads ev ns : forall s, reads (rdr_poll ev) ns (RSrc s) = let '(s', o, k) := reads src_read ns s in (RSrc s', o, k).
Proof.
  induction ns as [|n ns IH]; intros b; cbn [reads rdr_poll]; [reflexivity|]. destruct (src_read n b) as [b1 [[|c x]|f| | |]]; try reflexivity; [|apply IH].
  rewrite IH. now destruct (reads src_read ns b1) as [[b2 o2] k2].
Qed.

(** A caller's reader. *)
Lemma plain_reads : forall ns s s' x k, wf_src s -> Forall (fun n => 0 < n)%nat ns -> reads src_read ns s = (s', x, k) ->
  match k with
  | Going => prefix x (src_data s) /\ (length ns <= src_size s)%nat
  | Ended => x = src_data s /\ clean s
  | Failed => x = src_data s /\ ~ clean s
  | _ => False
  end.
Proof.
  induction ns as [|n ns IH]; intros s s' x k W F H; cbn [reads] in H.
  - injection H as <- <- <-. split; [apply prefix_nil|cbn; lia].
  - pose proof (Forall_inv F) as Hn. pose proof (Forall_inv_tail F) as F2. cbv beta in Hn. clear F.
    destruct (src_read n s) as [s1 r] eqn:E. pose proof (src_read_wf _ _ _ _ E W) as W1. destruct r as [d|f| | |].
    + pose proof (src_read_data _ _ _ _ E) as D. destruct d as [|c d].
      { injection H as <- <- <-. destruct (src_read_nil _ _ _ Hn W E) as (E1 & E2 & ->). unfold src_data, clean, clean_evs. rewrite E1. split; [reflexivity|split; [constructor|exact E2]]. }
      pose proof (src_read_ok_size _ _ _ _ E ltac:(discriminate)) as SZ. destruct (reads src_read ns s1) as [[s2 x2] k2] eqn:E2. injection H as <- <- <-.
      specialize (IH _ _ _ _ W1 F2 E2). rewrite D.
      destruct k2; auto.
      * destruct IH. split; [now apply (prefix_app (c :: d))|cbn [length] in *; lia].
      * destruct IH as [-> C]. split; [reflexivity|]. apply (src_read_clean_iff _ _ _ _ E); eauto.
      * destruct IH as [-> C]. split; [reflexivity|]. intros C'. apply C. apply (src_read_clean_iff _ _ _ _ E); eauto.
    + pose proof (src_read_pend_data _ _ _ _ E) as D. pose proof (src_read_pend_size _ _ _ _ E) as SZ. specialize (IH _ _ _ _ W1 F2 H). rewrite D in IH.
      destruct k; auto.
      * destruct IH. split; [assumption|cbn [length]; lia].
      * destruct IH as [-> C]. split; [reflexivity|]. apply (src_read_clean_iff _ _ _ _ E); eauto.
      * destruct IH as [-> C]. split; [reflexivity|]. intros C'. apply C. apply (src_read_clean_iff _ _ _ _ E); eauto.
    + injection H as <- <- <-. destruct (src_read_err _ _ _ E) as [D1 D2]. now rewrite D2.
    + now destruct (src_read_never _ _ _ _ E).
    + now destruct (src_read_never _ _ _ _ E).
Qed.

(** ** The second buffer over the decoder: reads through it are reads of the decoder. *)
Lemma buffered_reads ev : (0 < e_bufcap ev)%nat -> forall ms buf d b' x k, Forall (fun n => 0 < n)%nat ms ->
  reads (body_read ev) ms (RChunked buf d) = (b', x, k) ->
  exists ns d' out buf', Forall (fun n => 0 < n)%nat ns /\ reads (dec_read ev) ns d = (d', out, k) /\ b' = RChunked buf' d' /\
    buf ++ out = x ++ buf' /\ (k <> Going -> buf' = []) /\ (k = Going -> length ms <= length ns + length x)%nat.
Proof.
  intros Hc. induction ms as [|n ms IH]; intros buf d b' x k F H; cbn [reads] in H.
  { injection H as <- <- <-. exists [], d, [], buf. repeat split; auto; [now rewrite app_nil_r|congruence]. }
  pose proof (Forall_inv F) as Hn. pose proof (Forall_inv_tail F) as F2. cbv beta in Hn. clear F.
  destruct buf as [|c buf].
  - cbn [body_read] in H. unfold bufdec_read in H. set (n' := if (e_bufcap ev <=? n)%nat then n else e_bufcap ev). assert (Hn' : (0 < n')%nat) by (unfold n'; destruct (e_bufcap ev <=? n)%nat; lia).
    destruct (dec_read ev n' d) as [d1 r] eqn:E.
    assert (R : (if (e_bufcap ev <=? n)%nat then let (d', r) := dec_read ev n d in (RChunked [] d', r)
                 else match dec_read ev (e_bufcap ev) d with
                      | (d', POk x) => (RChunked (skipn (length (firstn n x)) x) d', POk (firstn n x))
                      | (d', r) => (RChunked [] d', r)
                      end) =
                match r with
                | POk x => (RChunked (if (e_bufcap ev <=? n)%nat then [] else skipn (length (firstn n x)) x) d1, POk (if (e_bufcap ev <=? n)%nat then x else firstn n x))
                | r => (RChunked [] d1, r)
                end).
    { unfold n' in E. destruct (e_bufcap ev <=? n)%nat; rewrite E; destruct r; reflexivity. }
    rewrite R in H. clear R. destruct r as [Y|f| | |].
    + destruct Y as [|c Y].
      { rewrite firstn_nil, skipn_nil in H. exists [n'], d1, [], []. assert (H' : (RChunked [] d1, @nil byte, Ended) = (b', x, k)) by (destruct (e_bufcap ev <=? n)%nat; exact H).
        injection H' as <- <- <-. cbn [reads]. rewrite E. repeat split; auto; discriminate. }
      set (YY := c :: Y) in *. set (y := if (e_bufcap ev <=? n)%nat then YY else firstn n YY) in *.
      set (bf := if (e_bufcap ev <=? n)%nat then [] else skipn (length (firstn n YY)) YY) in *.
      assert (Yb : YY = y ++ bf). { unfold y, bf. destruct (e_bufcap ev <=? n)%nat; [now rewrite app_nil_r|apply take_skip]. }
      assert (Hy : y <> []). { unfold y. destruct (e_bufcap ev <=? n)%nat; [discriminate|]. destruct n; [lia|discriminate]. }
      assert (H' : match y with [] => (RChunked bf d1, [], Ended) | _ :: _ => let '(e', out, k) := reads (body_read ev) ms (RChunked bf d1) in (e', y ++ out, k) end = (b', x, k)) by exact H.
      clear H. rename H' into H. clearbody y bf. destruct y as [|y0 y]; [congruence|]. destruct (reads (body_read ev) ms (RChunked bf d1)) as [[b2 x2] k2] eqn:E2. injection H as <- <- <-.
      destruct (IH _ _ _ _ _ F2 E2) as (ns & d' & out & buf' & I1 & I2 & I3 & I4 & I5 & I6). exists (n' :: ns), d', (YY ++ out), buf'.
      split; [constructor; auto|]. split. { cbn [reads]. rewrite E. unfold YY in *. cbv iota beta. now rewrite I2. }
      split; [exact I3|]. split; [cbn [app]; change (y0 :: y ++ x2) with ((y0 :: y) ++ x2); rewrite Yb, <- !app_assoc, I4; now rewrite <- ?app_assoc|]. split; [exact I5|]. intros K. specialize (I6 K). cbn [length app]. rewrite app_length. lia.
    + destruct (IH _ _ _ _ _ F2 H) as (ns & d' & out & buf' & I1 & I2 & I3 & I4 & I5 & I6). exists (n' :: ns), d', out, buf'.
      split; [constructor; auto|]. split; [cbn [reads]; now rewrite E|]. repeat split; auto. intros K. specialize (I6 K). cbn [length]. lia.
    + injection H as <- <- <-. exists [n'], d1, [], []. cbn [reads]. rewrite E. repeat split; auto; discriminate.
    + injection H as <- <- <-. exists [n'], d1, [], []. cbn [reads]. rewrite E. repeat split; auto; discriminate.
    + injection H as <- <- <-. exists [n'], d1, [], []. cbn [reads]. rewrite E. repeat split; auto; discriminate.
  - change (body_read ev n (RChunked (c :: buf) d)) with (RChunked (skipn (length (firstn n (c :: buf))) (c :: buf)) d, POk (firstn n (c :: buf))) in H.
    set (YY := c :: buf) in *. set (y := firstn n YY) in *. set (bf := skipn (length y) YY) in *. assert (Yb : YY = y ++ bf) by apply take_skip.
    assert (Hy : y <> []) by (unfold y; destruct n; [lia|discriminate]).
    assert (H' : match y with [] => (RChunked bf d, [], Ended) | _ :: _ => let '(e', out, k) := reads (body_read ev) ms (RChunked bf d) in (e', y ++ out, k) end = (b', x, k)) by exact H.
    clear H. rename H' into H. clearbody y bf. destruct y as [|y0 y]; [congruence|]. destruct (reads (body_read ev) ms (RChunked bf d)) as [[b2 x2] k2] eqn:E2. injection H as <- <- <-.
    destruct (IH _ _ _ _ _ F2 E2) as (ns & d' & out & buf' & I1 & I2 & I3 & I4 & I5 & I6). exists ns, d', out, buf'.
    repeat split; auto; [change (y0 :: y ++ x2) with ((y0 :: y) ++ x2); rewrite Yb, <- !app_assoc, I4; reflexivity|]. intros K. specialize (I6 K). cbn [length app]. rewrite app_length. lia.
Qed.

(** ** Whole bodies *)
Definition end_res (k : rend) (out : bytes) : rres bytes :=
  match k with Ended => ROk out | Failed => RErr | Panicked => RPanic | _ => RFuel end.
Lemma read_end ev fuel sz r r' out k : reads (rdr_poll ev) (map sz (seq 0 fuel)) r = (r', out, k) -> read_to_end ev fuel sz r = (r', end_res k out).
Proof. unfold read_to_end. intros ->. now destruct k. Qed.
Lemma settle_reads ev sz r bound : (forall i, 0 < sz i)%nat ->
  (forall ns e' out, Forall (fun n => 0 < n)%nat ns -> reads (rdr_poll ev) ns r = (e', out, Going) -> (length ns <= bound)%nat) ->
  exists ns r' out k, Forall (fun n => 0 < n)%nat ns /\ k <> Going /\ reads (rdr_poll ev) ns r = (r', out, k) /\ settles (fun fuel => read_to_end ev fuel sz r) (r', end_res k out).
Proof.
  intros P H. destruct (read_all (rdr_poll ev) r sz bound P H) as (e' & out & k & K & E & F). exists (map sz (seq 0 (S bound))), e', out, k.
  split; [now apply sizes_pos|]. split; [exact K|]. split; [exact E|]. exists (S bound). intros fuel L. now apply read_end, F.
Qed.
Lemma settles_map {A C} (g : A -> C) f v : settles f v -> settles (fun n => g (f n)) (g v).
Proof. intros (F & H). exists F. intros fuel L. now rewrite H. Qed.
Lemma bytes_settle ev sz f r x : settles (fun fuel => read_to_end ev fuel sz (f_rdr f)) (r, x) -> settles (fun fuel => into_bytes ev fuel sz f) x.
Proof. apply (settles_map snd). Qed.
Lemma string_settle ev sz f x : settles (fun fuel => into_bytes ev fuel sz f) x -> too_long f = false -> settles (fun fuel => into_string ev fuel sz f) (to_string x).
Proof. intros H T. unfold into_string. rewrite T. exact (settles_map to_string _ _ H). Qed.
Lemma trailer_settle ev sz f r x : settles (fun fuel => read_to_end ev fuel sz (f_rdr f)) (r, x) ->
  settles (fun fuel => into_bytes_with_trailer ev fuel sz f) (with_trailer (f_own f) (r, x)).
Proof. apply (settles_map (with_trailer (f_own f))). Qed.
Lemma strailer_settle ev sz f r x : settles (fun fuel => read_to_end ev fuel sz (f_rdr f)) (r, x) -> too_long f = false ->
  settles (fun fuel => into_string_with_trailer ev fuel sz f) (with_trailer (f_own f) (r, to_string x)).
Proof.
  intros H T. unfold into_string_with_trailer. rewrite T.
  exact (settles_map (fun rx : reader * rres bytes => let (r, x) := rx in with_trailer (f_own f) (r, to_string x)) _ _ H).
Qed.
Lemma text_string l : is_text l -> to_string (ROk l) = ROk l.
Proof. intros H. apply text_iff in H. cbn [to_string]. now rewrite H. Qed.
Lemma not_text_string l : ~ is_text l -> to_string (ROk l) = RErr.
Proof. intros H. cbn [to_string]. destruct (utf8_valid l) eqn:E; [|reflexivity]. elim H. now apply text_iff. Qed.
Lemma string_text ev sz f l : settles (fun fuel => into_bytes ev fuel sz f) (ROk l) -> too_long f = false -> is_text l -> settles (fun fuel => into_string ev fuel sz f) (ROk l).
Proof. intros H T X. pose proof (string_settle _ _ _ _ H T) as Q. now rewrite text_string in Q. Qed.
Lemma string_not_text ev sz f l : settles (fun fuel => into_bytes ev fuel sz f) (ROk l) -> too_long f = false -> ~ is_text l -> settles (fun fuel => into_string ev fuel sz f) RErr.
Proof. intros H T X. pose proof (string_settle _ _ _ _ H T) as Q. now rewrite not_text_string in Q. Qed.
Lemma strailer_text ev sz f r l : settles (fun fuel => read_to_end ev fuel sz (f_rdr f)) (r, ROk l) -> too_long f = false -> is_text l ->
  settles (fun fuel => into_string_with_trailer ev fuel sz f) (with_trailer (f_own f) (r, ROk l)).
Proof. intros H T X. pose proof (strailer_settle _ _ _ _ _ H T) as Q. now rewrite text_string in Q. Qed.
Lemma short_body f : (forall n, f_len f = Some n -> n <= isize_max)%N -> too_long f = false.
Proof. unfold too_long. intros H. destruct (f_len f) as [n|]; [specialize (H n eq_refl); lia|reflexivity]. Qed.

(** Bodies made by the caller. *)
Lemma source_settles ev sz s : (forall i, 0 < sz i)%nat -> wf_src s -> exists s' x,
  settles (fun fuel => read_to_end ev fuel sz (RSrc s)) (RSrc s', x) /\ (x = ROk (src_data s) /\ clean s \/ x = RErr /\ ~ clean s).
Proof.
  intros P W. destruct (settle_reads ev sz (RSrc s) (src_size s) P) as (ns & r' & out & k & FN & K & E & S).
  { intros ns e' out F H. rewrite src_reads in H. destruct (reads src_read ns s) as [[s1 o1] k1] eqn:E. injection H as _ _ ->.
    now destruct (plain_reads ns s s1 o1 Going W F E). }
  rewrite src_reads in E. destruct (reads src_read ns s) as [[s1 o1] k1] eqn:E1. injection E as <- <- <-.
  pose proof (plain_reads ns s s1 o1 k1 W FN E1) as Q. exists s1, (end_res k1 o1). split; [exact S|]. destruct k1; try contradiction; try congruence; cbn [end_res]; destruct Q as [-> Q]; auto.
Qed.
Lemma bytes_src_ok l : wf_src (bytes_src l) /\ clean (bytes_src l) /\ src_data (bytes_src l) = l.
Proof.
  unfold bytes_src. destruct l as [|c l]; [repeat split; constructor|]. split; [|split].
  - repeat constructor. discriminate.
  - repeat constructor. discriminate.
  - unfold src_data. cbn. now rewrite app_nil_r.
Qed.
Lemma round_trip ev sz l f : (forall i, 0 < sz i)%nat -> In f [full (body_from_bytes l); full (body_from_string l); full (body_from_str l)] ->
  f_len f = Some (N.of_nat (length l)) /\ settles (fun fuel => into_bytes ev fuel sz f) (ROk l) /\
  ((N.of_nat (length l) <= isize_max)%N ->
   (is_text l -> settles (fun fuel => into_string ev fuel sz f) (ROk l)) /\ (~ is_text l -> settles (fun fuel => into_string ev fuel sz f) RErr)).
Proof.
  intros P HI. assert (E : f = full (body_from_bytes l)) by (destruct HI as [<-|[<-|[<-|[]]]]; reflexivity). subst f. clear HI.
  destruct (bytes_src_ok l) as (W & C & D). destruct (source_settles ev sz _ P W) as (s' & x & S & [[-> _]|[_ X]]); [|now elim X]. rewrite D in S.
  assert (SB := bytes_settle ev sz (full (body_from_bytes l)) _ _ S). split; [reflexivity|]. split; [exact SB|]. intros L.
  assert (T : too_long (full (body_from_bytes l)) = false). { apply short_body. intros n H. injection H as <-. exact L. }
  pose proof (string_settle _ _ _ _ SB T) as SS. split; intros H; [now rewrite text_string in SS|now rewrite not_text_string in SS].
Qed.
Lemma reader_whole ev sz s len : (forall i, 0 < sz i)%nat -> wf_src s ->
  let f := full (body_from_reader s len) in
  (clean s -> settles (fun fuel => into_bytes ev fuel sz f) (ROk (src_data s))) /\ (~ clean s -> settles (fun fuel => into_bytes ev fuel sz f) RErr) /\
  ((forall n, len = Some n -> n <= isize_max)%N ->
   (clean s -> is_text (src_data s) -> settles (fun fuel => into_string ev fuel sz f) (ROk (src_data s))) /\
   (~ clean s \/ ~ is_text (src_data s) -> settles (fun fuel => into_string ev fuel sz f) RErr)).
Proof.
  intros P W f. destruct (source_settles ev sz s P W) as (s' & x & S & Hx). assert (SB := bytes_settle ev sz f _ _ S).
  split; [|split].
  - intros C. destruct Hx as [[-> _]|[_ X]]; [exact SB|now elim X].
  - intros C. destruct Hx as [[_ X]|[-> _]]; [now elim C|exact SB].
  - intros L. pose proof (string_settle _ _ _ _ SB (short_body f L)) as SS. split.
    + intros C T. destruct Hx as [[-> _]|[_ X]]; [now rewrite text_string in SS|now elim X].
    + intros C. destruct Hx as [[-> X]|[-> _]]; [|exact SS]. rewrite not_text_string in SS; [exact SS|tauto].
Qed.

(** ** Trailers *)
(** Until the trailers are in the channel the decoder keeps the sender. *)
Definition held (d : dec) : Prop := d_chan d <> [] \/ d_sender d = true.
Definition held_in (d : dec) : Prop := held d \/ exists h, d_st d = DTrailerSending h.
Lemma inner_held ev d b n d' r : held_in d -> poll_read_inner ev d b n = (d', r) ->
  match r with
  | DSome read st b' pending => held (set_st_opt st d') \/ (read = [] /\ pending = None /\ exists h, st = Some (DTrailerSending h))
  | DNone | DErr => held d' | DPanic => True
  end.
Proof.
  assert (X : forall d0 : dec, d_chan d0 = d_chan d -> d_sender d0 = d_sender d -> held d -> held d0) by (unfold held; intros d0 -> ->; auto).
  intros HH H. unfold poll_read_inner in H. destruct (d_st d) as [|cur len| | |h|h|] eqn:Es.
  1,3,4: injection H as <- <-; assert (HD : held d) by (destruct HH as [HH|(h & HH)]; [exact HH|congruence]).
  1: destruct (decode_init b) as [? [?|] ? ?| | |]; first [exact I|exact HD|left; exact HD].
  1: destruct (decode_chunk_end b) as [? [?|] ? ?| | |]; first [exact I|exact HD|left; exact HD].
  1: destruct (decode_trailer ev b) as [? [?|] ? ?| | |]; first [exact I|exact HD|left; exact HD].
  - assert (HD : held d) by (destruct HH as [HH|(h & HH)]; [exact HH|congruence]).
    destruct (poll_read_chunk (d_in d) b n cur len) as [i' r']. injection H as <- <-. destruct r' as [? [?|] ? ?| | |]; auto; try left; apply X; auto.
  - destruct (d_sender d); injection H as <- <-; auto. right. eauto.
  - destruct (d_chan d) eqn:Ec; injection H as <- <-; left; [left; discriminate|]. left. cbn. congruence.
  - injection H as <- <-. assert (HD : held d) by (destruct HH as [HH|(h & HH)]; [exact HH|congruence]). left. now apply X.
Qed.
Lemma decode_held ev n kept d b : held_in d ->
  match dec_decode ev n kept d b with Ret d' r => r = PPanic \/ held d' | Again nr _ d' _ => held d' \/ (nr = false /\ held_in d') end.
Proof.
  intros HH. unfold dec_decode. destruct (poll_read_inner ev d b n) as [d' r] eqn:E. pose proof (inner_held _ _ _ _ _ _ HH E) as Q.
  destruct r as [read st b' pending| | |].
  - destruct Q as [Q|(-> & -> & h & ->)].
    + assert (Q' : held (set_st_opt st (set_init true d'))) by (destruct st; exact Q).
      destruct (is_done _); [right; exact Q'|]. destruct (0 <? length read)%nat; [right; exact Q'|]. destruct pending; [right; exact Q'|left; exact Q'].
    + cbn [set_st_opt set_st d_st is_done length Nat.ltb Nat.leb]. right. split; [reflexivity|]. right. now exists h.
  - destruct (Nat.eqb (k_start b) 0 && Nat.eqb (k_end b) 0); [right; exact Q|left; exact Q].
  - right. exact Q.
  - now left.
Qed.
Definition progress_ok (r : pres bytes) : Prop := (exists x, r = POk x) \/ exists f, r = PPend f.
Lemma loop_held ev n : forall fuel nr kept d b d' r, held d \/ (nr = false /\ held_in d) -> dec_loop fuel ev n nr kept d b = (d', r) -> progress_ok r -> held d'.
Proof.
  assert (NP : ~ progress_ok PErr /\ ~ progress_ok PPanic /\ ~ progress_ok PFuel) by (unfold progress_ok; repeat split; intros [[? ?]|[? ?]]; discriminate).
  destruct NP as (NP1 & NP2 & NP3).
  induction fuel as [|fuel IH]; intros nr kept d b d' r HH H PO; cbn [dec_loop] in H; [injection H as <- <-; tauto|].
  unfold dec_turn in H. destruct (grow ev b) as [b1|] eqn:G; [|injection H as <- <-; tauto].
  assert (Y : forall kept0 d0 b0, held_in d0 -> match dec_decode ev n kept0 d0 b0 with Ret d r => (d, r) | Again nr kept d b => dec_loop fuel ev n nr kept d b end = (d', r) -> held d').
  { intros kept0 d0 b0 H0 E0. pose proof (decode_held ev n kept0 d0 b0 H0) as Q. destruct (dec_decode ev n kept0 d0 b0).
    - injection E0 as <- <-. destruct Q as [->|Q]; tauto.
    - eapply IH; eauto. }
  destruct nr.
  - assert (HD : held d) by (destruct HH as [HH|[HH _]]; [exact HH|discriminate]).
    destruct (k_len b1 <? k_end b1)%nat; [injection H as <- <-; tauto|]. destruct (br_read (k_len b1 - k_end b1) (d_in d)) as [i' [x|f| | |]]; try (injection H as <- <-; tauto).
    all: apply Y in H; [exact H|]; left; destruct x; exact HD.
  - apply Y in H; [exact H|]. unfold held_in in *. tauto.
Qed.
Lemma poll_held ev n d d' r : held d -> dec_read ev n d = (d', r) -> progress_ok r -> held d'.
Proof.
  assert (NP : ~ progress_ok PErr /\ ~ progress_ok PPanic /\ ~ progress_ok PFuel) by (unfold progress_ok; repeat split; intros [[? ?]|[? ?]]; discriminate).
  destruct NP as (NP1 & NP2 & NP3). unfold dec_read, dec_poll. intros HD H PO. set (d0 := set_blk (blk_fresh ev) d) in *. assert (H0 : held d0) by exact HD.
  destruct ((0 <? length (k_data (d_blk d)))%nat && d_init d0).
  2:{ eapply loop_held; eauto. }
  destruct (poll_read_inner ev d0 (d_blk d) n) as [d1 r1] eqn:E. pose proof (inner_held ev d0 _ _ _ _ ltac:(now left) E) as Q.
  destruct r1 as [read st b' pending| | |]; try (injection H as <- <-; tauto).
  - destruct Q as [Q|(-> & -> & h & ->)].
    + destruct pending; [injection H as <- <-; exact Q|]. destruct (is_done _); [injection H as <- <-; exact Q|]. destruct (0 <? length read)%nat; [injection H as <- <-; exact Q|].
      eapply loop_held; eauto.
    + cbn [set_st_opt set_st d_st is_done length Nat.ltb Nat.leb] in H. eapply loop_held; [|exact H|exact PO]. right. split; [reflexivity|]. right. now exists h.
  - eapply loop_held; eauto.
Qed.
Lemma reads_held ev : forall ns d d' out k, held d -> reads (dec_read ev) ns d = (d', out, k) -> k = Going \/ k = Ended -> held d'.
Proof.
  induction ns as [|n ns IH]; intros d d' out k HD H K; cbn [reads] in H; [injection H as <- <- <-; exact HD|].
  destruct (dec_read ev n d) as [d1 r] eqn:E. pose proof (poll_held _ _ _ _ _ HD E) as Q. unfold progress_ok in Q.
  destruct r as [[|c x]|f| | |]; try (injection H as <- <- <-; intuition discriminate).
  - injection H as <- <- <-. eauto.
  - destruct (reads (dec_read ev) ns d1) as [[d2 o2] k2] eqn:E2. injection H as <- <- <-. eapply IH; [|exact E2|exact K]. eauto.
  - eapply IH; [|exact H|exact K]. eauto.
Qed.

(** ** Bodies of decoded messages *)
Lemma fixed_settles ev sz n br : (forall i, 0 < sz i)%nat -> wf_brd br -> exists rem b2 x,
  settles (fun fuel => read_to_end ev fuel sz (RMsg (RFixed n br))) (RMsg (RFixed rem b2), x) /\
  (x = ROk (firstn (N.to_nat n) (br_data br)) /\ ((N.of_nat (length (br_data br)) < n)%N -> clean (br_src br)) \/
   x = RErr /\ (N.of_nat (length (br_data br)) < n)%N /\ ~ clean (br_src br)).
Proof.
  intros P W. destruct (settle_reads ev sz (RMsg (RFixed n br)) (br_size br) P) as (ns & r' & out & k & FN & K & E & S).
  { intros ns e' out F H. rewrite msg_reads in H. destruct (reads (body_read ev) ns (RFixed n br)) as [[s1 o1] k1] eqn:E. injection H as _ _ ->.
    now destruct (fixed_reads ev ns n br s1 o1 Going W F E). }
  rewrite msg_reads in E. destruct (reads (body_read ev) ns (RFixed n br)) as [[s1 o1] k1] eqn:E1. injection E as <- <- <-.
  pose proof (fixed_reads ev ns n br s1 o1 k1 W FN E1) as Q. destruct k1; try contradiction; try congruence.
  - destruct Q as (-> & rem & b2 & -> & _). exists rem, b2. eexists. split; [exact S|]. left. split; [reflexivity|]. intros L.
    eapply fixed_short_clean; [exact W|exact FN|exact E1|]. rewrite firstn_length. lia.
  - destruct Q as (-> & L & C). destruct (fixed_reads_on ev ns n br s1 (br_data br) Failed W FN) as (_ & _ & _ & rem & b2 & -> & _).
    { clear -E1. revert E1. generalize (br_data br). revert s1. generalize (RFixed n br). induction ns as [|m ns IH]; intros b s1 l H; cbn [reads reads_on] in *; [discriminate|].
      destruct (body_read ev m b) as [b1 [[|c x]|f| | |]]; try discriminate; auto.
      destruct (reads (body_read ev) ns b1) as [[b2 o2] k2] eqn:E. injection H as <- <- ->. now rewrite (IH _ _ _ E). }
    exists rem, b2. eexists. split; [exact S|]. right. auto.
Qed.
Lemma chunked_settles ev sz br : (forall i, 0 < sz i)%nat -> (0 < e_bufcap ev)%nat -> grow_ok ev -> exists ns d' out k,
  Forall (fun n => 0 < n)%nat ns /\ reads (dec_read ev) ns (dec_new ev br) = (d', out, k) /\ (k = Ended \/ k = Failed) /\
  settles (fun fuel => read_to_end ev fuel sz (RMsg (RChunked [] (dec_new ev br)))) (RMsg (RChunked [] d'), end_res k out).
Proof.
  intros P Hc G. set (T := tot (dec_new ev br) (d_blk (dec_new ev br))).
  destruct (settle_reads ev sz (RMsg (RChunked [] (dec_new ev br))) (T + T) P) as (ns & r' & out & k & FN & K & E & S).
  { intros ns e' out F H. rewrite msg_reads in H. destruct (reads (body_read ev) ns _) as [[s1 o1] k1] eqn:E. injection H as _ -> ->.
    destruct (buffered_reads ev Hc _ _ _ _ _ _ F E) as (ms & d' & o & buf' & I1 & I2 & I3 & I4 & I5 & I6).
    destruct (reads_end ev G _ _ _ _ _ (new_ok ev br) I1 I2) as (_ & _ & Q1 & Q2). destruct (Q2 eq_refl) as [_ Q3]. fold T in Q1, Q3. specialize (I6 eq_refl).
    cbn [app] in I4. rewrite I4, app_length in Q1. lia. }
  rewrite msg_reads in E. destruct (reads (body_read ev) ns _) as [[s1 o1] k1] eqn:E1. injection E as <- <- <-.
  destruct (buffered_reads ev Hc _ _ _ _ _ _ FN E1) as (ms & d' & o & buf' & I1 & I2 & -> & I4 & I5 & _). rewrite (I5 K) in *. rewrite app_nil_r in I4. cbn [app] in I4. subst o1.
  destruct (reads_end ev G _ _ _ _ _ (new_ok ev br) I1 I2) as (Q1 & Q2 & _). exists ms, d', o, k1. split; [exact I1|]. split; [exact I2|]. split; [|exact S].
  destruct k1; auto; congruence.
Qed.

(** ** The bodies of obtained requests *)
Lemma request_fixed ev tmo s wt s' wt' q b n sz : (forall i, 0 < sz i)%nat -> (0 < e_bufcap ev)%nat -> wf_src s ->
  decode ev tmo s wt = (s', wt', OReq q b) -> q_len q = Some n ->
  exists w rest, offers tmo s w /\ src_data s = w ++ rest /\ let f := msg_body (q_len q) b in
    let x := firstn (N.to_nat n) rest in
    ((n <= N.of_nat (length rest))%N \/ clean s ->
       settles (fun fuel => into_bytes ev fuel sz f) (ROk x) /\
       settles (fun fuel => into_bytes_with_trailer ev fuel sz f) THangs /\
       ((n <= isize_max)%N -> is_text x -> settles (fun fuel => into_string ev fuel sz f) (ROk x) /\ settles (fun fuel => into_string_with_trailer ev fuel sz f) THangs) /\
       ((n <= isize_max)%N -> ~ is_text x -> settles (fun fuel => into_string ev fuel sz f) RErr)) /\
    ((N.of_nat (length rest) < n)%N -> ~ clean s ->
       settles (fun fuel => into_bytes ev fuel sz f) RErr /\ ((n <= isize_max)%N -> settles (fun fuel => into_string ev fuel sz f) RErr)) /\
    ((isize_max < n)%N -> settles (fun fuel => into_string ev fuel sz f) RPanic).
Proof.
  intros P Hc Ws H Hn. destruct (decode_req ev tmo s wt s' wt' q b Hc Ws H) as (w & br & c & m & u & hs & len & HO & HD & HW & -> & HC & HS & _ & J & PR & _).
  destruct PR as (_ & _ & PL & _). rewrite PL in Hn. subst len. cbn [body_reader]. exists w, (br_data br). split; [exact HO|]. split; [exact HD|]. cbv zeta.
  rewrite PL. set (f := msg_body (Some n) (RFixed n br)). destruct (fixed_settles ev sz n br P HW) as (rem & b2 & x & S & Hx).
  assert (SB := bytes_settle ev sz f _ _ S). assert (ST := trailer_settle ev sz f _ _ S).
  assert (TL : (n <= isize_max)%N -> too_long f = false). { intros L. apply short_body. intros k [= <-]. exact L. }
  split; [|split].
  - intros C. destruct Hx as [[-> _]|(-> & L & X)]. 2:{ destruct C as [C|C]; [lia|]. elim X. now apply HC. }
    split; [exact SB|]. split; [exact ST|]. split; intros L T.
    + split; [exact (string_text ev sz f _ SB (TL L) T)|exact (strailer_text ev sz f _ _ S (TL L) T)].
    + exact (string_not_text ev sz f _ SB (TL L) T).
  - intros L C. destruct Hx as [[-> X]|(-> & _ & X)]; [elim C; apply HC; auto|]. split; [exact SB|]. intros L2. exact (string_settle ev sz f _ SB (TL L2)).
  - intros L. exists 0%nat. intros fuel _. unfold into_string, too_long, f. cbn [f_len msg_body]. replace (isize_max <? n)%N with true by lia. reflexivity.
Qed.
Lemma request_chunked ev tmo s wt s' wt' q b sz : (forall i, 0 < sz i)%nat -> env_ok ev -> wf_src s ->
  decode ev tmo s wt = (s', wt', OReq q b) -> q_len q = None ->
  exists w rest, offers tmo s w /\ src_data s = w ++ rest /\ let f := msg_body (q_len q) b in
  (forall p tr wire extra, fitting (e_deccap ev) p tr wire -> rest = wire ++ extra ->
     settles (fun fuel => into_bytes ev fuel sz f) (ROk p) /\
     (is_text p -> settles (fun fuel => into_string ev fuel sz f) (ROk p)) /\ (~ is_text p -> settles (fun fuel => into_string ev fuel sz f) RErr) /\
     exists h, hm_wf h /\ (forall x, values x (hm_iter h) = values x tr) /\ settles (fun fuel => into_bytes_with_trailer ev fuel sz f) (TOk p (Some h)) /\
       (is_text p -> settles (fun fuel => into_string_with_trailer ev fuel sz f) (TOk p (Some h)))) /\
  (forall p wire n extra, malformed (e_deccap ev) p wire n -> (n <= e_deccap ev)%nat -> rest = wire ++ extra ->
     settles (fun fuel => into_bytes ev fuel sz f) RErr /\ settles (fun fuel => into_string ev fuel sz f) RErr /\ settles (fun fuel => into_bytes_with_trailer ev fuel sz f) TErr) /\
  (forall p tr wire cut, fitting (e_deccap ev) p tr wire -> wire = rest ++ cut -> cut <> [] -> clean s ->
     exists x, prefix x p /\ settles (fun fuel => into_bytes ev fuel sz f) (ROk x) /\ settles (fun fuel => into_bytes_with_trailer ev fuel sz f) THangs).
Proof.
  intros P He Ws H Hn. destruct (decode_req ev tmo s wt s' wt' q b (ok_cap ev He) Ws H) as (w & br & c & m & u & hs & len & HO & HD & HW & -> & HC & HS & _ & J & PR & _).
  destruct PR as (_ & _ & PL & _). rewrite PL in Hn. subst len. cbn [body_reader]. exists w, (br_data br). split; [exact HO|]. split; [exact HD|]. cbv zeta.
  rewrite PL. set (f := msg_body None (RChunked [] (dec_new ev br))). pose proof He as (_ & _ & _ & _ & G).
  destruct (chunked_settles ev sz br P (ok_cap ev He) G) as (ns & d' & out & k & FN & E & K & S).
  assert (SB := bytes_settle ev sz f _ _ S). assert (ST := trailer_settle ev sz f _ _ S). assert (TL : too_long f = false) by reflexivity.
  assert (SS := string_settle ev sz f _ SB TL). split; [|split].
  - intros p tr wire extra (cw & n & z & tw & F1 & F2 & F3 & F4 & F5 & ->) ER.
    pose proof (fresh_load ev br p tr cw n z tw extra ns d' out k G F1 F2 F3 F4 F5 HW ER FN E) as Q. destruct K as [->| ->]; [|contradiction].
    destruct Q as (-> & (h & HCh & Wh & Vh) & _ & _). split; [exact SB|].
    split; [exact (string_text ev sz f _ SB TL)|]. split; [exact (string_not_text ev sz f _ SB TL)|].
    exists h. split; [exact Wh|]. split; [exact Vh|].
    assert (RV : recv_trailers false (RMsg (RChunked [] d')) = Got h) by (unfold recv_trailers, channel, body_trailers; now rewrite HCh).
    split.
    + unfold with_trailer in ST. cbn [end_res fst snd f_own f msg_body] in ST. now rewrite RV in ST.
    + intros T. assert (S3 := strailer_text ev sz f _ _ S TL T). unfold with_trailer in S3. cbn [end_res fst snd f_own f msg_body] in S3. now rewrite RV in S3.
  - intros p wire n extra HM HF ER. pose proof (fresh_bad ev br p wire n extra ns d' out k G HM HF HW ER FN E) as Q. destruct K as [->| ->]; [contradiction|]. auto.
  - intros p tr wire cut (cw & n & z & tw & F1 & F2 & F3 & F4 & F5 & ->) EW HN CS.
    destruct (fresh_cut ev p cw n z tr tw _ cut G F1 F2 F3 F4 F5 EW HN) as (x & PX & _ & Q). specialize (Q br ns d' out k HW (proj1 HC CS) eq_refl FN E).
    destruct K as [->| ->]; [|contradiction]. destruct Q as [-> Q]. exists x. split; [exact PX|]. split; [exact SB|].
    assert (HH : held (dec_new ev br)) by (right; reflexivity). pose proof (reads_held ev _ _ _ _ _ HH E ltac:(auto)) as [X|X]; [now elim X|].
    assert (RV : recv_trailers false (RMsg (RChunked [] d')) = Waits) by (unfold recv_trailers, channel, body_trailers, senders, dec_sender; now rewrite Q, X).
    unfold with_trailer in ST. cbn [end_res fst snd f_own f msg_body] in ST. now rewrite RV in ST.
Qed.
(** Whatever the peer sends, reading the whole body of a request comes to an end. *)
Lemma request_settles ev tmo s wt s' wt' q b sz : (forall i, 0 < sz i)%nat -> env_ok ev -> wf_src s ->
  decode ev tmo s wt = (s', wt', OReq q b) ->
  exists x, settles (fun fuel => into_bytes ev fuel sz (msg_body (q_len q) b)) x /\ (x = RErr \/ exists l, x = ROk l).
Proof.
  intros P He Ws H. destruct (decode_req ev tmo s wt s' wt' q b (ok_cap ev He) Ws H) as (w & br & c & m & u & hs & len & HO & HD & HW & -> & HC & HS & _ & J & PR & _).
  destruct len as [n|]; cbn [body_reader].
  - destruct (fixed_settles ev sz n br P HW) as (rem & b2 & x & S & Hx). exists x. split; [exact (bytes_settle ev sz (msg_body (q_len q) (RFixed n br)) _ _ S)|].
    destruct Hx as [[-> _]|[-> _]]; eauto.
  - pose proof He as (_ & _ & _ & _ & G). destruct (chunked_settles ev sz br P (ok_cap ev He) G) as (ns & d' & out & k & FN & E & K & S).
    exists (end_res k out). split; [exact (bytes_settle ev sz (msg_body (q_len q) (RChunked [] (dec_new ev br))) _ _ S)|]. destruct K as [->| ->]; cbn [end_res]; eauto.
Qed.

(** ** Trailers of other bodies *)
Lemma own_hangs ev sz s len : (forall i, 0 < sz i)%nat -> wf_src s -> clean s ->
  settles (fun fuel => into_bytes_with_trailer ev fuel sz (full (body_from_reader s len))) THangs.
Proof. intros P W C. destruct (source_settles ev sz s P W) as (s' & x & S & [[-> _]|[_ X]]); [|now elim X]. exact (trailer_settle ev sz (full (body_from_reader s len)) _ _ S). Qed.
Lemma taken_ends ev sz s len f : (forall i, 0 < sz i)%nat -> wf_src s -> clean s -> send_trailers (full (body_from_reader s len)) = Some f ->
  settles (fun fuel => into_bytes_with_trailer ev fuel sz f) (TOk (src_data s) None) /\ send_trailers f = None.
Proof.
  intros P W C [= <-]. split; [|reflexivity]. destruct (source_settles ev sz s P W) as (s' & x & S & [[-> _]|[_ X]]); [|now elim X].
  exact (trailer_settle ev sz (mkFbody len (RSrc s) false) _ _ S).
Qed.
