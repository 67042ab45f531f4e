(** The chunked decoder on well-formed messages. *)
From Verif Require Import ChunkedDec Reads SpecChunked Lemmas Proofs_Parse Proofs_Buf Proofs_Dec.

Section Msg.
Variable ev : env.
(** Trailer fields, the map they make, the bytes following the message. *)
Variable tr : list (bytes * bytes).
Variable h : hmap.
Variable extra : bytes.
Hypothesis Htr : (length tr <= 16)%nat.
Hypothesis Hh : append_trailers tr [] = Some h.
Hypothesis Hgrow : grow_ok ev.
(** [g = true]: the message fits into the decoder's buffer. *)
Variable g : bool.
(** How the message ends: properly, with a malformation, or cut off by the end of the
    connection. *)
Inductive ekind := EOk | EBad | ECut.
Variable e : ekind.
Hypothesis Hcut : e = ECut -> extra = [].

Let cap := e_deccap ev.

(** The trailer section at buffer position at most [s]. *)
Inductive trl : nat -> bytes -> Prop :=
| trl_ok s tw : e = EOk -> fields tr tw -> (g = true -> (s + length tw + 2 <= cap)%nat) -> trl s (tw ++ CRLF)
| trl_bad s u : e = EBad -> (forall r, hp_headers (e_trim ev) 16 (u ++ r) = HErr) ->
    (forall a b, u = a ++ b -> b <> [] -> hp_headers (e_trim ev) 16 a = HPart) ->
    (g = true -> (s + length u <= cap)%nat) -> trl s u
| trl_cut s u : e = ECut -> (forall a b, u = a ++ b -> hp_headers (e_trim ev) 16 a = HPart) ->
    (g = true -> (s + length u < cap)%nat) -> trl s u.

(** A message, and an upper bound [s] for the buffer position where it starts; [msg true]:
    what follows the data of a chunk. *)
Inductive msg : bool -> nat -> bytes -> bytes -> Prop :=
| msg_last s z t : size_line 0 z -> trl (s + length z) t -> msg false s [] (z ++ t)
| msg_chunk s s' c sl p t : c <> [] -> size_line (N.of_nat (length c)) sl -> msg true s' p t ->
    (g = true -> (s + length sl + length c <= s')%nat \/
                 (cap <= length c)%nat /\ (s + length sl <= s')%nat) ->
    msg false s (c ++ p) (sl ++ c ++ t)
| msg_badline s u : e = EBad -> (forall r, parse_chunk_size (u ++ r) = HErr) ->
    (forall a b, u = a ++ b -> b <> [] -> parse_chunk_size a = HPart) ->
    (g = true -> (s + length u <= cap)%nat) -> msg false s [] u
| msg_cutline s u : e = ECut -> (forall a b, u = a ++ b -> parse_chunk_size a = HPart) ->
    (g = true -> (s + length u < cap)%nat) -> msg false s [] u
| msg_cutdata s c n sl : e = ECut -> size_line n sl -> (N.of_nat (length c) < n)%N ->
    (g = true -> (s + length sl <= cap)%nat) -> msg false s c (sl ++ c)
| msg_after s p m : msg false (s + 2) p m -> msg true s p (CRLF ++ m)
| msg_badend s x : e = EBad -> length x = 2%nat -> x <> CRLF -> (g = true -> (s + 2 <= cap)%nat) -> msg true s [] x
| msg_cutend s x : e = ECut -> (length x < 2)%nat -> (g = true -> (s + 2 <= cap)%nat) -> msg true s [] x.

Lemma trl_bound s t : trl s t -> g = true -> (s <= cap)%nat.
Proof. clear Htr Hh Hgrow Hcut. intros [? ? ? ? H|? ? ? ? ? H|? ? ? ? H] G; specialize (H G); lia. Qed.

Lemma msg_bound a s p m : msg a s p m -> g = true -> (s <= cap)%nat.
Proof. clear Htr Hh Hgrow Hcut.
  induction 1 as [s z t Hz Ht|s s' c sl p t Hc Hs H IH Hg|s u He Hu Hp Hg|s u He Hu Hg|s c n sl He Hs Hl Hg|s p m H IH|s x He Hl Hx Hg|s x He Hl Hg];
    intros G; try (specialize (Hg G)); try (specialize (IH G)); try lia.
  pose proof (trl_bound _ _ Ht G). lia.
Qed.

Lemma trl_down s s' t : trl s' t -> (g = true -> s <= s')%nat -> trl s t.
Proof. clear Htr Hh Hgrow Hcut.
  intros H L. inversion H; subst; [eapply trl_ok|eapply trl_bad|eapply trl_cut]; eauto; intros G;
  specialize (L G); match goal with HH : g = true -> (_ + _ <= _)%nat |- _ => specialize (HH G); lia
  | HH : g = true -> (_ + _ < _)%nat |- _ => specialize (HH G); lia end.
Qed.

Lemma msg_down a s s' p m : msg a s' p m -> (g = true -> s <= s')%nat -> msg a s p m.
Proof. clear Htr Hh Hgrow Hcut.
  intros H; revert s; induction H as [s0 z t Hz Ht|s0 s' c sl p t Hc Hs H IH Hg|s0 u He Hu Hp Hg|s0 u He Hu Hg|s0 c n sl He Hs Hl Hg|s0 p m H IH|s0 x He Hl Hx Hg|s0 x He Hl Hg];
    intros s L.
  - constructor; [assumption|]. eapply trl_down; [eassumption|]. intros G. specialize (L G). lia.
  - econstructor; eauto. intros G. specialize (L G). destruct (Hg G) as [?|[? ?]]; [left|right; split]; lia.
  - eapply msg_badline; eauto. intros G. specialize (L G). specialize (Hg G). lia.
  - eapply msg_cutline; eauto. intros G. specialize (L G). specialize (Hg G). lia.
  - eapply msg_cutdata; eauto. intros G. specialize (L G). specialize (Hg G). lia.
  - constructor. apply IH. intros G. specialize (L G). lia.
  - apply msg_badend; auto. intros G. specialize (L G). specialize (Hg G). lia.
  - apply msg_cutend; auto. intros G. specialize (L G). specialize (Hg G). lia.
Qed.

Definition stuck (s : dst) (data : bytes) : Prop :=
  match s with
  | DInit => parse_chunk_size data = HPart
  | DChunkEnd => (length data < 2)%nat
  | DTrailer => hp_headers (e_trim ev) 16 data = HPart
  | _ => False
  end.

(** The decoder state against the rest of the wire and the payload still to deliver. *)
Definition Rst (d : dec) (b : blk) (p : bytes) : Prop :=
  let w := k_data b ++ br_data (d_in d) in
  match d_st d with
  | DInit => exists m, w = m ++ extra /\ msg false (k_start b) p m
  | DChunk cur len =>
      (g = true -> (length (k_data b) < cap)%nat) /\
      ((exists c p' t s', p = c ++ p' /\ c <> [] /\ (N.of_nat (length c) + cur = len)%N /\
        w = c ++ t ++ extra /\ msg true s' p' t /\
        (g = true -> (k_start b + length c <= s')%nat \/
                     (length (k_data b) <= length c)%nat /\ (k_data b = [] -> k_start b <= s')%nat)) \/
       (e = ECut /\ w = p /\ (N.of_nat (length p) + cur < len)%N))
  | DChunkEnd => exists t, w = t ++ extra /\ msg true (k_start b) p t
  | DTrailer => p = [] /\ exists t, w = t ++ extra /\ trl (k_start b) t
  | DTrailerDone m | DTrailerSending m => p = [] /\ m = h /\ e = EOk /\ w = extra
  | DDone => g = true -> p = [] /\ match e with EOk => d_chan d = [h] /\ w = extra | ECut => d_chan d = [] | EBad => False end
  end.

Definition R (d : dec) (b : blk) (p : bytes) : Prop :=
  Rst d b p /\ np d b /\ (d_st d <> DDone -> d_chan d = []) /\
  (g = true -> wf_brd (d_in d) /\ (e = ECut -> clean (br_src (d_in d))) /\
               (d_st d <> DDone -> k_len b = cap /\ k_cap b = cap)).

Lemma prefix_split {A} (a b c e' : list A) : a ++ b = c ++ e' -> (length a <= length c)%nat ->
  exists x, c = a ++ x /\ b = x ++ e'.
Proof.
  revert c; induction a as [|y a IH]; intros c H L; cbn in *.
  - exists c. auto.
  - destruct c as [|z c]; [cbn in L; lia|]. cbn in *. inversion H; subst.
    destruct (IH c H2 ltac:(lia)) as (x & -> & ->). exists x. auto.
Qed.

(** The part of a wire that is in the buffer: either all of [u], or a proper beginning. *)
Lemma in_buffer (u data rest ex : bytes) : data ++ rest = u ++ ex ->
  (exists r, data = u ++ r /\ r ++ rest = ex) \/
  (exists x, u = data ++ x /\ x <> [] /\ rest = x ++ ex).
Proof.
  intros H. destruct (le_lt_dec (length u) (length data)) as [L|L].
  - destruct (prefix_split _ _ _ _ (eq_sym H) L) as (r & -> & ->). left. eauto.
  - destruct (prefix_split _ _ _ _ H ltac:(lia)) as (x & -> & ->). right. exists x. repeat split.
    intros ->. rewrite app_nil_r in L. lia.
Qed.

Lemma size_line_part n sl data x : size_line n sl -> sl = data ++ x -> x <> [] -> parse_chunk_size data = HPart.
Proof.
  intros Hs E Hx. pose proof (size_line_parse n sl [] Hs) as P. rewrite app_nil_r, E in P.
  unfold parse_chunk_size in *. destruct (chunk_size_streams _ _ _ _ _ _ _ P) as [?|(r1 & P1 & P2)]; [assumption|].
  destruct x; [congruence|]. destruct r1; discriminate.
Qed.

(** What [stuck] states need to know. *)
Definition waiting (d : dec) (b : blk) (p : bytes) : Prop :=
  (g = true -> (k_end b < cap)%nat) /\ (br_data (d_in d) = [] -> e = ECut /\ p = []).

Lemma init_facts d b p : R d b p -> d_st d = DInit ->
  (parse_chunk_size (k_data b) = HPart /\ waiting d b p) \/
  (parse_chunk_size (k_data b) = HErr /\ e = EBad /\ p = []) \/
  exists u r sz, k_data b = u ++ r /\ u <> [] /\ parse_chunk_size (k_data b) = HDone (sz, r) /\
    Rst (set_st (if (sz =? 0)%N then DTrailer else DChunk 0 sz) d)
        (mkBlk (k_start b + length u) r (k_len b) (k_cap b)) p.
Proof.
  intros (HR & (HB & _) & _ & HG) ES. unfold Rst in HR. rewrite ES in HR. destruct HR as (m & EW & HM).
  assert (HK : g = true -> (k_end b <= cap)%nat).
  { intros G. destruct (HG G) as (_ & _ & K). destruct K as (K & _); [rewrite ES; discriminate|]. destruct HB. lia. }
  inversion HM as [s z t Hz Ht E1 E2 E3 E4|s s' c sl p' t Hc Hs Hm Hg E1 E2 E3 E4|s u He Hu Hp Hg|s u He Hu Hg|s c n sl He Hs Hl Hg| | |]; subst; clear HM.
  - rewrite <- app_assoc in EW. destruct (in_buffer _ _ _ _ EW) as [(r & ED & ER)|(x & EU & Hx & ER)].
    + right; right. exists z, r, 0%N. split; [assumption|]. pose proof (size_line_len _ _ Hz). split; [intros ->; cbn in *; lia|].
      split; [rewrite ED; now apply size_line_parse|]. cbn [N.eqb]. unfold Rst. cbn [set_st d_st d_in k_data k_start].
      split; [reflexivity|]. exists t. rewrite ER. auto.
    + left. split; [eapply size_line_part; eauto|]. split.
      * intros G. pose proof (trl_bound _ _ Ht G) as L. rewrite EU, app_length in L. unfold k_end. destruct x; [congruence|cbn [length] in L; lia].
      * rewrite ER. destruct x; [congruence|discriminate].
  - rewrite <- !app_assoc in EW. destruct (in_buffer _ _ _ _ EW) as [(r & ED & ER)|(x & EU & Hx & ER)].
    + right; right. exists sl, r, (N.of_nat (length c)). split; [assumption|]. pose proof (size_line_len _ _ Hs). split; [intros ->; cbn in *; lia|].
      split; [rewrite ED; now apply size_line_parse|].
      assert (Z : (N.of_nat (length c) =? 0)%N = false) by (destruct c; [congruence|cbn [length]; lia]). rewrite Z.
      unfold Rst. cbn [set_st d_st d_in k_data k_start].
      assert (LR : (g = true -> length r + length sl <= cap)%nat).
      { intros G. specialize (HK G). unfold k_end in HK. rewrite ED, app_length in HK. lia. }
      split; [intros G; specialize (LR G); lia|]. left.
      exists c, p', t, s'. rewrite ER. repeat split; auto; try lia.
    + left. split; [eapply size_line_part; eauto|]. split.
      * intros G. pose proof (msg_bound _ _ _ _ Hm G) as L. assert (LL : (length sl = length (k_data b) + length x)%nat) by (rewrite EU; apply app_length).
        unfold k_end. assert (0 < length x)%nat by (destruct x; [congruence|cbn; lia]). destruct (Hg G) as [?|[? ?]]; lia.
      * rewrite ER. destruct x; [congruence|discriminate].
  - destruct (in_buffer _ _ _ _ EW) as [(r & ED & ER)|(x & EU & Hx & ER)].
    + right; left. rewrite ED, Hu. auto.
    + left. split; [eapply Hp; eauto|]. split.
      * intros G. specialize (Hg G). rewrite EU, app_length in Hg. unfold k_end. destruct x; [congruence|cbn [length] in Hg; lia].
      * rewrite ER. destruct x; [congruence|discriminate].
  - rewrite (Hcut He), app_nil_r in EW. left. split; [eapply Hu; symmetry; exact EW|]. split; [|auto].
    intros G. specialize (Hg G). rewrite <- EW, app_length in Hg. unfold k_end. lia.
  - rewrite (Hcut He), app_nil_r in EW. destruct (in_buffer _ _ _ _ EW) as [(r & ED & ER)|(x & EU & Hx & ER)].
    + right; right. exists sl, r, n. split; [assumption|]. pose proof (size_line_len _ _ Hs). split; [intros ->; cbn in *; lia|].
      split; [rewrite ED; now apply size_line_parse|].
      assert (Z : (n =? 0)%N = false) by lia. rewrite Z.
      unfold Rst. cbn [set_st d_st d_in k_data k_start].
      split; [intros G; specialize (HK G); unfold k_end in HK; rewrite ED, app_length in HK; lia|]. right.
      rewrite ER. repeat split; auto. lia.
    + left. split; [eapply size_line_part; eauto|]. split.
      * intros G. specialize (Hg G). rewrite EU, app_length in Hg. unfold k_end. destruct x; [congruence|cbn [length] in Hg; lia].
      * rewrite ER. destruct x; [congruence|discriminate].
Qed.

Lemma end_facts d b p : R d b p -> d_st d = DChunkEnd ->
  ((length (k_data b) < 2)%nat /\ waiting d b p) \/
  ((2 <= length (k_data b))%nat /\ firstn 2 (k_data b) <> CRLF /\ e = EBad /\ p = []) \/
  exists r, k_data b = CRLF ++ r /\ Rst (set_st DInit d) (mkBlk (k_start b + 2) r (k_len b) (k_cap b)) p.
Proof.
  intros (HR & (HB & _) & _ & HG) ES. unfold Rst in HR. rewrite ES in HR. destruct HR as (t & EW & HM).
  inversion HM as [ | | | | |s p' m Hm|s x He Hl Hx Hg|s x He Hl Hg]; subst; clear HM.
  - rewrite <- app_assoc in EW. destruct (in_buffer _ _ _ _ EW) as [(r & ED & ER)|(x & EU & Hx & ER)].
    + right; right. exists r. split; [assumption|]. unfold Rst. cbn [set_st d_st d_in k_data k_start]. exists m. rewrite ER. auto.
    + left. assert (LL : (2 = length (k_data b) + length x)%nat) by (change 2%nat with (length CRLF); rewrite EU; apply app_length).
      assert (0 < length x)%nat by (destruct x; [congruence|cbn; lia]). split; [lia|]. split.
      * intros G. pose proof (msg_bound _ _ _ _ Hm G). unfold k_end. lia.
      * rewrite ER. destruct x; [congruence|discriminate].
  - destruct (in_buffer _ _ _ _ EW) as [(r & ED & ER)|(y & EU & Hy & ER)].
    + right; left. rewrite ED, app_length. split; [lia|]. split; [|auto].
      rewrite firstn_app_l by lia. rewrite firstn_all2 by lia. assumption.
    + left. assert (LL : (2 = length (k_data b) + length y)%nat) by (rewrite <- Hl, EU; apply app_length).
      assert (0 < length y)%nat by (destruct y; [congruence|cbn; lia]). split; [lia|]. split.
      * intros G. specialize (Hg G). unfold k_end. lia.
      * rewrite ER. destruct y; [congruence|discriminate].
  - rewrite (Hcut He), app_nil_r in EW. left. assert (LL : (length (k_data b) <= length t)%nat) by (rewrite <- EW, app_length; lia).
    split; [lia|]. split; [|auto]. intros G. specialize (Hg G). unfold k_end. lia.
Qed.

Lemma trailer_facts d b p : R d b p -> d_st d = DTrailer ->
  p = [] /\
  ((hp_headers (e_trim ev) 16 (k_data b) = HPart /\ waiting d b p) \/
   (hp_headers (e_trim ev) 16 (k_data b) = HErr /\ e = EBad) \/
   (e = EOk /\ exists r, hp_headers (e_trim ev) 16 (k_data b) = HDone (tr, r) /\ r ++ br_data (d_in d) = extra)).
Proof.
  intros (HR & (HB & _) & _ & HG) ES. unfold Rst in HR. rewrite ES in HR. destruct HR as (-> & t & EW & HT).
  split; [reflexivity|]. inversion HT as [s tw He Ht Hg|s u He Hu Hp Hg|s u He Hu Hg]; subst; clear HT.
  - destruct (in_buffer _ _ _ _ EW) as [(r & ED & ER)|(x & EU & Hx & ER)].
    + right; right. split; [assumption|]. exists r. split; [|assumption]. rewrite ED, <- app_assoc. now apply fields_parse.
    + left. split.
      * pose proof (fields_parse (e_trim ev) tr tw [] 16 Ht Htr) as P. rewrite app_nil_r, EU in P.
        destruct (hp_headers_streams _ _ _ _ _ _ P) as [P1|(r1 & P1 & P2)]; [assumption|].
        destruct x; [congruence|]. destruct r1; discriminate.
      * split; [|rewrite ER; destruct x; [congruence|discriminate]].
        intros G. specialize (Hg G). assert (LL : (length tw + 2 = length (k_data b) + length x)%nat) by (rewrite <- (app_length (k_data b)), <- EU, app_length; reflexivity).
        assert (0 < length x)%nat by (destruct x; [congruence|cbn; lia]). unfold k_end. lia.
  - destruct (in_buffer _ _ _ _ EW) as [(r & ED & ER)|(x & EU & Hx & ER)].
    + right; left. rewrite ED. auto.
    + left. split; [eapply Hp; eauto|]. split; [|rewrite ER; destruct x; [congruence|discriminate]].
      intros G. specialize (Hg G). rewrite EU, app_length in Hg. unfold k_end. destruct x; [congruence|cbn [length] in Hg; lia].
  - rewrite (Hcut He), app_nil_r in EW. left. split; [eapply Hu; symmetry; exact EW|]. split; [|auto].
    intros G. specialize (Hg G). rewrite <- EW, app_length in Hg. unfold k_end. lia.
Qed.

(** Being stuck means that there is room for more, and more to come unless cut off. *)
Lemma stuck_facts d b p : R d b p -> stuck (d_st d) (k_data b) -> waiting d b p.
Proof.
  intros HR HS. destruct (d_st d) eqn:ES; try contradiction; cbn [stuck] in HS.
  - destruct (init_facts _ _ _ HR ES) as [(_ & ?)|[(E & _)|(u & r & sz & _ & _ & E & _)]]; [auto|congruence|congruence].
  - destruct (end_facts _ _ _ HR ES) as [(_ & ?)|[(E & _)|(r & E & _)]]; [auto|lia|]. rewrite E in HS. cbn in HS. lia.
  - destruct (trailer_facts _ _ _ HR ES) as (_ & [(_ & ?)|[(E & _)|(_ & r & E & _)]]); [auto|congruence|congruence].
Qed.

Lemma nil_stuck d b : k_data b = [] ->
  match d_st d with DInit | DChunkEnd | DTrailer => stuck (d_st d) (k_data b) | _ => True end.
Proof.
  intros E. rewrite E. destruct (d_st d); try exact I; cbn; try reflexivity. lia.
Qed.

(** One call of [poll_read_inner]. *)
Lemma inner_R d b n d' r p :
  R d b p -> d_st d <> DDone -> (g = true -> (0 < n)%nat) -> poll_read_inner ev d b n = (d', r) ->
  match r with
  | DSome read st b' pend =>
      let d1 := set_st_opt st d' in
      exists p', p = read ++ p' /\ R d1 b' p' /\ d_init d1 = d_init d /\
        (g = true -> d_st d1 = DDone -> read = []) /\
        (pend = None -> read = [] -> is_chunk (d_st d) = true \/ (0 < k_start b')%nat \/
           (exists m, d_st d = DTrailerDone m \/ d_st d = DTrailerSending m) /\ b' = b) /\
        (pend <> None -> is_chunk (d_st d) = true /\ b' = b /\ is_chunk (d_st d1) = true) /\
        (if is_chunk (d_st d) then is_chunk (d_st d1) = true \/ d_st d1 = DChunkEnd \/ d_st d1 = DDone else read = []) /\
        (is_chunk (d_st d) = true -> read = [] -> d_st d1 <> DChunkEnd)
  | DNone => d' = d /\ stuck (d_st d) (k_data b)
  | DErr => g = true -> e = EBad /\ p = []
  | DPanic => False
  end.
Proof.
  intros HR ND Hn H. pose proof HR as HR'.
  destruct HR as (HRs & Hnp & HC & HG). pose proof (inner_np _ _ _ _ _ _ Hnp H) as HN.
  specialize (HC ND).
  assert (HG' : g = true -> wf_brd (d_in d) /\ (e = ECut -> clean (br_src (d_in d))) /\ k_len b = cap /\ k_cap b = cap).
  { intros G. destruct (HG G) as (? & ? & K). split; [assumption|]. split; [assumption|now apply K]. }
  clear HG. unfold poll_read_inner in H.
  destruct (d_st d) as [|cur len| | |m|m|] eqn:ES; [| | | | | |congruence].
  - (* Init *)
    inversion H; subst; clear H.
    destruct (init_facts _ _ _ HR' ES) as [(P1 & P2)|[(P1 & P2 & P3)|(u & r & sz & ED & Hu & P1 & P2)]].
    + unfold decode_init, sliced in *. rewrite P1 in *. destruct (k_len b <? k_end b)%nat; [contradiction|].
      split; [reflexivity|]. exact P1.
    + unfold decode_init, sliced in *. rewrite P1 in *. destruct (k_len b <? k_end b)%nat; [contradiction|]. auto.
    + destruct (decode_init b) as [read st b' pend| | |] eqn:E.
      * apply init_some in E as (-> & -> & u' & r' & sz' & ED' & Hu2 & P1' & -> & ->).
        rewrite P1 in P1'. inversion P1'; subst sz' r'. assert (u' = u) by (rewrite ED in ED'; now apply app_inv_tail in ED'). subst u'.
        cbv zeta. exists p. split; [reflexivity|]. destruct HN as (HN & _).
        cbn [set_st_opt set_st d_st d_init k_data is_chunk].
        assert (Hu' : (0 < length u)%nat) by (destruct u; [congruence|cbn; lia]).
        split; [|repeat split; auto; try (intros; cbn [k_start]; lia); try congruence].
        split; [exact P2|split; [exact HN|split]].
        -- intros _. exact HC.
        -- intros G. cbn [set_st d_in k_len k_cap]. split; [now apply HG'|]. split; [now apply HG'|]. intros _. now apply HG'.
      * exfalso. unfold decode_init, sliced in E. rewrite P1 in E. destruct (k_len b <? k_end b)%nat; discriminate.
      * exfalso. unfold decode_init, sliced in E. rewrite P1 in E. destruct (k_len b <? k_end b)%nat; discriminate.
      * contradiction.
  - (* Chunk *)
    destruct (poll_read_chunk (d_in d) b n cur len) as [i' r'] eqn:E. inversion H; subst; clear H.
    unfold Rst in HRs. rewrite ES in HRs. destruct HRs as (HLD & HRs).
    (* common form: [c] are the bytes of the chunk that will come *)
    assert (HX : exists c p' t, p = c ++ p' /\ k_data b ++ br_data (d_in d) = c ++ t /\ (N.of_nat (length c) + cur <= len)%N /\ (cur < len)%N /\
      ((c <> [] /\ (N.of_nat (length c) + cur = len)%N /\ exists t' s', t = t' ++ extra /\ msg true s' p' t' /\
         (g = true -> (k_start b + length c <= s')%nat \/
                      (length (k_data b) <= length c)%nat /\ (k_data b = [] -> k_start b <= s')%nat)) \/
       (e = ECut /\ p' = [] /\ t = [] /\ (N.of_nat (length c) + cur < len)%N))).
    { destruct HRs as [(c & p' & t & s' & -> & Hc & HL & EW & HM & Hg)|(He & EW & HL)].
      - exists c, p', (t ++ extra). split; [reflexivity|]. split; [exact EW|]. split; [lia|].
        split; [destruct c; [congruence|cbn [length] in HL; lia]|]. left. repeat split; auto. exists t, s'. auto.
      - exists p, [], []. rewrite !app_nil_r. repeat split; auto; try lia. }
    destruct HX as (c & p' & t & -> & EW & HL & HL0 & HX). clear HRs.
    unfold poll_read_chunk in E. destruct (len <? cur)%N eqn:E0; [lia|].
    set (q := N.to_nat (N.min (len - cur) (N.of_nat n))) in *.
    assert (Hq : (N.of_nat q + cur <= len)%N) by (subst q; lia).
    assert (Hq0 : (g = true -> 0 < q)%nat) by (intros G; specialize (Hn G); subst q; lia).
    clearbody q.
    destruct (k_data b) as [|x xs] eqn:ED.
    + cbn [app] in EW. destruct (br_read q (d_in d)) as [i1 [y|f| | |]] eqn:EB; inversion E; subst; clear E.
      * pose proof (br_read_data _ _ _ _ EB) as BD. pose proof (br_read_len _ _ _ _ EB) as BL.
        assert (HS : exists c', c = y ++ c' /\ br_data i' = c' ++ t).
        { destruct HX as [(_ & HL' & _)|(_ & _ & -> & _)].
          - rewrite BD in EW. eapply prefix_split; [exact EW|lia].
          - rewrite app_nil_r in *. exists (br_data i'). split; [congruence|symmetry; apply app_nil_r]. }
        destruct HS as (c' & -> & EX). rewrite app_length in *.
        cbv zeta. destruct HN as (HN & _).
        assert (HGD : g = true -> wf_brd i' /\ (e = ECut -> clean (br_src i')) /\ (y = [] -> c' = [] /\ t = [])).
        { intros G. split; [eapply br_read_wf; [eassumption|now apply HG']|]. split.
          - intros He. eapply br_read_clean; [eassumption|]. now apply HG'.
          - intros ->. destruct (br_read_nil _ _ _ (Hq0 G) (proj1 (HG' G)) EB) as [_ Q]. rewrite Q in EX.
            symmetry in EX. now apply app_eq_nil in EX. }
        cbn [set_st_opt set_st d_st d_init].
        exists (c' ++ p'). split; [now rewrite app_assoc|].
        destruct (cur + N.of_nat (length y) =? len)%N eqn:EQ.
        -- assert (c' = []) by (destruct c'; [reflexivity|cbn [length] in *; lia]). subst c'. cbn [app length] in *.
           destruct HX as [(Hc & HL' & t' & s' & -> & HM & Hg)|(He & -> & -> & HL')]; [|lia].
           split; [|repeat split; auto; try (cbn [is_chunk]; auto; fail); try (intros; discriminate); try (intros; congruence); try (intros _ Z _; rewrite Z in Hc; now apply Hc)].
           split; [|split; [exact HN|split]].
           ++ unfold Rst. cbn [set_st d_st d_in]. rewrite ED. cbn [app]. exists t'. split; [exact EX|].
              eapply msg_down; [exact HM|]. intros G. destruct (Hg G) as [?|(? & Q)]; [lia|now apply Q].
           ++ intros _. exact HC.
           ++ intros G. cbn [set_st d_in]. split; [now apply HGD|]. split; [now apply HGD|]. intros _. now apply HG'.
        -- destruct y as [|y0 y].
           ++ cbn [app length] in *.
              split; [|repeat split; auto; try (cbn [is_chunk]; auto; fail); try (intros; discriminate); try (intros; congruence)].
              split; [|split; [exact HN|split]].
              ** unfold Rst. cbn [set_st d_st d_chan]. intros G. destruct (HGD G) as (_ & _ & Z). destruct (Z eq_refl) as [-> ->].
                 destruct HX as [(Hc & _)|(He & -> & _ & _)]; [congruence|]. rewrite He. auto.
              ** intros Z. cbn [set_st d_st] in Z. congruence.
              ** intros G. cbn [set_st d_in d_st]. split; [now apply HGD|]. split; [now apply HGD|]. congruence.
           ++ set (y' := y0 :: y) in *. assert (y' <> []) by discriminate. clearbody y'. clear y0 y.
              split; [|repeat split; auto; try (cbn [is_chunk]; auto; fail); try (intros; discriminate); try (intros; congruence)].
              split; [|split; [exact HN|split]].
              ** unfold Rst. cbn [set_st d_st d_in]. rewrite ED. cbn [app]. split; [intros G; specialize (HLD G); exact HLD|].
                 destruct HX as [(Hc & HL' & t' & s' & -> & HM & Hg)|(He & -> & -> & HL')].
                 --- left. exists c', p', t', s'. split; [reflexivity|]. split; [intros ->; cbn [length] in *; lia|]. split; [lia|].
                     split; [exact EX|]. split; [exact HM|]. intros G. destruct (Hg G) as [?|(? & Q)]; [left; lia|right; cbn [length]; split; [lia|exact Q]].
                 --- right. rewrite !app_nil_r in *. repeat split; auto. lia.
              ** intros _. exact HC.
              ** intros G. cbn [set_st d_in]. split; [now apply HGD|]. split; [now apply HGD|]. intros _. now apply HG'.
      * pose proof (br_read_pend_data _ _ _ _ EB) as BD. cbv zeta. destruct HN as (HN & _).
        cbn [set_st_opt set_st d_st d_init].
        exists (c ++ p'). split; [reflexivity|].
        split; [|repeat split; auto; try (cbn [is_chunk]; auto; fail); try (intros; discriminate); try (intros; congruence)].
        split; [|split; [exact HN|split]].
        -- unfold Rst. cbn [set_st d_st d_in]. rewrite ED, BD. cbn [app]. split; [intros G; specialize (HLD G); exact HLD|].
           destruct HX as [(Hc & HL' & t' & s' & -> & HM & Hg)|(He & -> & -> & HL')].
           ++ left. exists c, p', t', s'. repeat split; auto.
           ++ right. rewrite !app_nil_r in *. repeat split; auto.
        -- intros _. exact HC.
        -- intros G. cbn [set_st d_in]. split; [eapply br_read_wf; [eassumption|now apply HG']|].
           split; [intros He; eapply br_read_clean; [eassumption|now apply HG']|]. intros _. now apply HG'.
      * intros G. exfalso. destruct HX as [(Hc & _)|(He & _)].
        -- apply br_read_err in EB. rewrite EB in EW. symmetry in EW. apply app_eq_nil in EW as [-> _]. congruence.
        -- destruct (br_read_clean _ _ _ _ EB) as [_ Z]; [now apply HG'|congruence].
      * now apply br_read_never in EB.
      * now apply br_read_never in EB.
    + set (k := Nat.min q (length (x :: xs))) in *.
      assert (Hk0 : (g = true -> 0 < k)%nat) by (intros G; specialize (Hq0 G); subst k; cbn [length]; lia).
      assert (Hkt : (k <= q)%nat) by (subst k; lia).
      assert (Hkd : (k <= length (x :: xs))%nat) by (subst k; lia).
      set (data := x :: xs) in *. clearbody k data.
      destruct (k_len b <? k_start b + k)%nat; [inversion E; subst; contradiction|].
      set (b1 := if Nat.eqb k (length data) then mkBlk 0 [] (k_len b) (k_cap b) else blk_skip k b) in *.
      assert (B1 : k_data b1 = skipn k data /\ (k_start b1 <= k_start b + k)%nat /\ k_len b1 = k_len b /\ k_cap b1 = k_cap b /\
                   (k = length data -> k_start b1 = 0)%nat).
      { subst b1. destruct (Nat.eqb k (length data)) eqn:EQ.
        - apply Nat.eqb_eq in EQ. subst k. rewrite skipn_all. cbn [k_data k_start k_len k_cap]. repeat split; lia.
        - apply Nat.eqb_neq in EQ. unfold blk_skip. cbn [k_data k_start k_len k_cap]. rewrite ED. repeat split; lia. }
      clearbody b1. destruct B1 as (BD & BS & BL & BC & BZ).
      injection E as E1 E2; subst i'; subst r. cbv zeta. destruct HN as (HN & _).
      assert (HkC : (k <= length c)%nat).
      { destruct HX as [(_ & HL' & _)|(_ & _ & -> & _)]; [lia|]. rewrite app_nil_r in EW. rewrite <- EW, app_length. lia. }
      assert (EK : firstn k data = firstn k c).
      { assert (X : firstn k (data ++ br_data (d_in d)) = firstn k (c ++ t)) by now rewrite EW.
        rewrite !firstn_app_l in X by lia. exact X. }
      assert (ES2 : skipn k data ++ br_data (d_in d) = skipn k c ++ t).
      { assert (X : skipn k (data ++ br_data (d_in d)) = skipn k (c ++ t)) by now rewrite EW.
        rewrite !skipn_app_l in X by lia. exact X. }
      assert (LS : length (skipn k c) = (length c - k)%nat) by apply skipn_length.
      assert (LD : length (skipn k data) = (length data - k)%nat) by apply skipn_length.
      assert (LF : length (firstn k data) = k) by (rewrite firstn_length; lia).
      exists (skipn k c ++ p'). rewrite EK, app_assoc, firstn_skipn. split; [reflexivity|].
      rewrite <- EK. cbn [set_st_opt set_st d_st d_init].
      destruct (cur + N.of_nat k =? len)%N eqn:EQ.
      * assert (KC : k = length c) by lia.
        destruct HX as [(Hc & HL' & t' & s' & -> & HM & Hg)|(He & -> & -> & HL')]; [|lia].
        split; [|repeat split; auto; try (cbn [is_chunk]; auto; fail); try (intros; discriminate); try (intros; congruence); try (intros _ Z _; rewrite Z in LF; destruct c; [congruence|cbn in *; lia])].
        assert (EC : skipn k c = []) by (rewrite KC; apply skipn_all). rewrite EC in *. cbn [app] in *.
        split; [|split; [exact HN|split]].
        -- unfold Rst. cbn [set_st d_st d_in]. rewrite BD. exists t'. split; [exact ES2|]. eapply msg_down; [exact HM|].
           intros G. destruct (Hg G) as [?|(? & Q)]; [lia|]. rewrite BZ by lia. lia.
        -- intros _. exact HC.
        -- intros G. cbn [set_st d_in]. split; [now apply HG'|]. split; [now apply HG'|]. rewrite BL, BC. intros _. now apply HG'.
      * split; [|repeat split; auto; try (cbn [is_chunk]; auto; fail); try (intros; discriminate); try (intros; congruence)].
        split; [|split; [exact HN|split]].
        -- unfold Rst. cbn [set_st d_st d_in]. rewrite BD. split; [intros G; specialize (HLD G); lia|].
           destruct HX as [(Hc & HL' & t' & s' & -> & HM & Hg)|(He & -> & -> & HL')].
           ++ left. exists (skipn k c), p', t', s'. split; [reflexivity|]. split; [intros Z; rewrite Z in LS; cbn in LS; lia|].
              split; [lia|]. split; [exact ES2|]. split; [exact HM|]. intros G. rewrite LS, LD.
              destruct (Nat.eq_dec k (length data)) as [KD|KD].
              ** rewrite (BZ KD). right. split; lia.
              ** destruct (Hg G) as [?|(? & Q)]; [left; lia|]. right. split; [lia|].
                 intros Z. rewrite Z in LD. cbn in LD. lia.
           ++ right. rewrite !app_nil_r in *. repeat split; auto. lia.
        -- intros _. exact HC.
        -- intros G. cbn [set_st d_in]. split; [now apply HG'|]. split; [now apply HG'|]. rewrite BL, BC. intros _. now apply HG'.
  - (* ChunkEnd *)
    inversion H; subst; clear H.
    destruct (end_facts _ _ _ HR' ES) as [(P1 & P2)|[(P0 & P1 & P2 & P3)|(r & ED & HRn)]].
    + unfold decode_chunk_end in *. assert (L2 : (length (k_data b) <? 2)%nat = true) by (apply Nat.ltb_lt; exact P1).
      rewrite L2 in *. split; [reflexivity|exact P1].
    + unfold decode_chunk_end in *. assert (L2 : (length (k_data b) <? 2)%nat = false) by (apply Nat.ltb_ge; exact P0).
      rewrite L2 in *. assert (B2 : beq (firstn 2 (k_data b)) CRLF = false) by (now apply beq_neq).
      rewrite B2 in *. destruct (k_len b <? k_start b + 2)%nat; [contradiction|auto].
    + destruct (decode_chunk_end b) as [read st b' pend| | |] eqn:E.
      * apply end_some in E as (-> & -> & -> & r' & ED' & ->).
        rewrite ED in ED'. apply app_inv_head in ED'. subst r'.
        cbv zeta. exists p. split; [reflexivity|]. destruct HN as (HN & _).
        cbn [set_st_opt set_st d_st d_init k_start k_data is_chunk].
        split; [|repeat split; auto; try (intros; lia); try congruence].
        split; [exact HRn|split; [exact HN|split]].
        -- intros _. exact HC.
        -- intros G. cbn [set_st d_in k_len k_cap]. split; [now apply HG'|]. split; [now apply HG'|]. intros _. now apply HG'.
      * exfalso. unfold decode_chunk_end in E. rewrite ED in E. cbn in E.
        repeat (match type of E with context [if ?x then _ else _] => destruct x end); discriminate.
      * exfalso. unfold decode_chunk_end in E. rewrite ED in E. cbn in E.
        repeat (match type of E with context [if ?x then _ else _] => destruct x end); discriminate.
      * contradiction.
  - (* Trailer *)
    inversion H; subst; clear H.
    destruct (trailer_facts _ _ _ HR' ES) as (-> & [(P1 & P2)|[(P1 & P2)|(He & r & P1 & PX)]]).
    + unfold decode_trailer, sliced in *. rewrite P1 in *. destruct (k_len b <? k_end b)%nat; [contradiction|].
      split; [reflexivity|exact P1].
    + unfold decode_trailer, sliced in *. rewrite P1 in *. destruct (k_len b <? k_end b)%nat; [contradiction|]. auto.
    + destruct (decode_trailer ev b) as [read st b' pend| | |] eqn:E.
      * apply trailer_some in E as (-> & -> & u & r' & hs & m' & ED & Hu & P1' & PA & -> & ->).
        rewrite P1 in P1'. inversion P1'; subst hs r'. rewrite Hh in PA. inversion PA; subst m'.
        cbv zeta. exists []. split; [reflexivity|]. destruct HN as (HN & _).
        cbn [set_st_opt set_st d_st d_init k_start k_data is_chunk].
        assert (Hu' : (0 < length u)%nat) by (destruct u; [congruence|cbn; lia]).
        split; [|repeat split; auto; try (intros; lia); try congruence].
        split; [|split; [exact HN|split]].
        -- unfold Rst. cbn [set_st d_st]. auto.
        -- intros _. exact HC.
        -- intros G. cbn [set_st d_in k_len k_cap]. split; [now apply HG'|]. split; [now apply HG'|]. intros _. now apply HG'.
      * exfalso. unfold decode_trailer, sliced in E. rewrite P1, Hh in E. destruct (k_len b <? k_end b)%nat; discriminate.
      * exfalso. unfold decode_trailer, sliced in E. rewrite P1, Hh in E. destruct (k_len b <? k_end b)%nat; discriminate.
      * contradiction.
  - (* TrailerDone *)
    unfold Rst in HRs. rewrite ES in HRs. destruct HRs as (-> & -> & He).
    assert (HS : d_sender d = true).
    { destruct Hnp as (_ & _ & HS). unfold sender_ok in HS. now rewrite ES in HS. }
    rewrite HS in H. inversion H; subst; clear H.
    cbv zeta. exists []. split; [reflexivity|]. destruct HN as (HN & _).
    cbn [set_st_opt set_st d_st d_init is_chunk].
    split; [|repeat split; auto; try (intros; lia); try congruence].
    + split; [|split; [exact HN|split]].
      * unfold Rst. cbn [set_st d_st]. auto.
      * intros _. exact HC.
      * intros G. cbn [set_st d_in]. split; [now apply HG'|]. split; [now apply HG'|]. intros _. now apply HG'.
    + intros _ _. right; right. split; [eauto|reflexivity].
  - (* TrailerSending *)
    unfold Rst in HRs. rewrite ES in HRs. destruct HRs as (-> & -> & He & HXX).
    rewrite HC in H. inversion H; subst; clear H.
    cbv zeta. exists []. split; [reflexivity|]. destruct HN as (HN & _).
    cbn [set_st_opt set_st d_st d_init is_chunk].
    split; [|repeat split; auto; try (intros; lia); try congruence].
    + split; [|split; [exact HN|split]].
      * unfold Rst. cbn [set_st d_st d_chan]. rewrite He. auto.
      * intros Z. cbn [set_st d_st] in Z. congruence.
      * intros G. cbn [set_st d_in d_st]. split; [now apply HG'|]. split; [now apply HG'|]. congruence.
    + intros _ _. right; right. split; [eauto|reflexivity].
Qed.

(** Between polls. *)
Definition St (d : dec) (p : bytes) : Prop :=
  R d (d_blk d) p /\
  match d_st d with DTrailerDone _ | DTrailerSending _ => False | DChunk _ _ | DDone => True
  | _ => d_init d = false -> stuck (d_st d) (k_data (d_blk d)) end.

Definition ret_R (d' : dec) (r : pres bytes) (p : bytes) : Prop :=
  match r with
  | POk out => exists p', p = out ++ p' /\ St d' p' /\ (out = [] -> d_st d' = DDone) /\
                          (g = true -> d_st d' = DDone -> out = [])
  | PPend _ => St d' p /\ d_st d' <> DDone
  | PErr => g = true -> e = EBad /\ p = []
  | PPanic => False
  | PFuel => True
  end.

Definition L (nr : bool) (d : dec) (b : blk) (p : bytes) : Prop :=
  R d b p /\ d_st d <> DDone /\ (nr = true -> stuck (d_st d) (k_data b)) /\
  (nr = false -> is_chunk (d_st d) = true \/ (0 < k_start b)%nat).

Definition pre (d : dec) (b : blk) : Prop :=
  is_chunk (d_st d) = true \/ (0 < k_start b)%nat \/
  (match d_st d with DInit | DChunkEnd | DTrailer => True | _ => False end /\ (0 < k_end b)%nat).

Lemma R_ext d d' b p : d_in d' = d_in d -> d_st d' = d_st d -> d_chan d' = d_chan d -> d_sender d' = d_sender d ->
  R d b p -> R d' b p.
Proof.
  intros E1 E2 E3 E4 (H1 & H2 & H3 & H4). unfold R, Rst, np, sender_ok in *. rewrite E1, E2, E3, E4. auto.
Qed.

Lemma decode_R n kept d b p : R d b p -> d_st d <> DDone -> pre d b -> (g = true -> (0 < n)%nat) ->
  match dec_decode ev n kept d b with
  | Ret d' r => ret_R d' r p
  | Again nr _ d' b' => L nr d' b' p
  end.
Proof.
  intros HR ND HP Hn. unfold dec_decode. destruct (poll_read_inner ev d b n) as [d' r] eqn:E.
  pose proof (inner_R _ _ _ _ _ _ HR ND Hn E) as P.
  destruct r as [read st b' pend| | |]; cbv zeta in *.
  - destruct P as (p' & -> & PR & PI & PD & PN & PP & PC & PE).
    set (d1 := set_st_opt st d') in *. set (d2 := set_st_opt st (set_init true d')).
    assert (E2 : d_st d2 = d_st d1) by (subst d1 d2; destruct st; reflexivity).
    assert (PR2 : R d2 b' p') by (eapply R_ext; [| | | |exact PR]; subst d1 d2; destruct st; reflexivity).
    assert (I2 : d_init d2 = true) by (subst d2; destruct st; reflexivity).
    rewrite <- E2 in *. clearbody d1 d2.
    destruct (is_done (d_st d2)) eqn:EDn.
    { apply is_done_spec in EDn. exists p'. split; [reflexivity|]. split; [|split; auto].
      split; [eapply R_ext; [| | | |exact PR2]; reflexivity|]. cbn [set_blk d_st]. now rewrite EDn. }
    assert (NDn : d_st d2 <> DDone) by (intros Z; rewrite Z in EDn; discriminate).
    destruct (0 <? length read)%nat eqn:EL.
    { apply Nat.ltb_lt in EL. exists p'. split; [reflexivity|]. split; [|split].
      - split; [eapply R_ext; [| | | |exact PR2]; reflexivity|]. cbn [set_blk d_st d_init]. rewrite I2.
        destruct (is_chunk (d_st d)); [|subst read; cbn in EL; lia].
        destruct PC as [PC|[PC|PC]]; [destruct (d_st d2); try discriminate; exact I| |];
          rewrite PC; [discriminate|exact I].
      - intros ->. cbn in EL. lia.
      - cbn [set_blk d_st]. congruence. }
    assert (read = []) by (destruct read; [reflexivity|discriminate]). subst read. cbn [app].
    destruct pend as [f|].
    + destruct (PP ltac:(discriminate)) as (Q1 & -> & Q2).
      split; [|exact NDn]. split; [eapply R_ext; [| | | |exact PR2]; reflexivity|].
      cbn [set_blk d_st]. destruct (d_st d2); try discriminate; exact I.
    + split; [exact PR2|]. split; [exact NDn|]. split; [discriminate|]. intros _.
      destruct (PN eq_refl eq_refl) as [Q|[Q|((m & Q) & ->)]]; [left|right; exact Q|].
      * rewrite Q in PC. destruct PC as [PC|[PC|PC]]; [exact PC|exfalso; now apply (PE Q eq_refl)|congruence].
      * right. destruct HP as [HP|[HP|(HP & _)]]; [destruct Q as [Q|Q]; rewrite Q in HP; discriminate|exact HP|destruct Q as [Q|Q]; rewrite Q in HP; contradiction].
  - destruct P as (-> & HS).
    destruct (Nat.eqb (k_start b) 0 && Nat.eqb (k_end b) 0)%bool eqn:E0.
    + exfalso. apply andb_prop in E0 as [E1 E2]. apply Nat.eqb_eq in E1, E2.
      destruct HP as [HP|[HP|(_ & HP)]]; [|lia|lia]. destruct (d_st d); try discriminate; contradiction.
    + split; [exact HR|]. split; [exact ND|]. split; [auto|discriminate].
  - exact P.
  - contradiction.
Qed.

Lemma L_room nr d b p : L nr d b p -> g = true ->
  (length (k_data b) < cap)%nat /\ k_len b = cap /\ k_cap b = cap /\ wf_brd (d_in d) /\
  (e = ECut -> clean (br_src (d_in d))) /\ (nr = true -> waiting d b p).
Proof.
  intros (HR & ND & HT & HF) G.
  assert (HR' := HR). destruct HR' as (HRs & (HB & _) & _ & HG). destruct (HG G) as (HW & HCl & HK). destruct (HK ND) as (K1 & K2).
  assert (D : (length (k_data b) < cap)%nat /\ (nr = true -> waiting d b p)).
  { destruct nr.
    - pose proof (stuck_facts _ _ _ HR (HT eq_refl)) as Q. split; [|auto]. destruct Q as [Q _]. specialize (Q G). unfold k_end in Q. lia.
    - split; [|discriminate]. destruct (HF eq_refl) as [Q|Q].
      + unfold Rst in HRs. destruct (d_st d); try discriminate. now apply HRs.
      + destruct HB as [HB _]. unfold k_end in HB. lia. }
  destruct D. split; [|split; [|split; [|split; [|split]]]]; assumption.
Qed.

Lemma R_grow d b b1 p : R d b p -> grow ev b = Some b1 -> (g = true -> b1 = b) -> R d b1 p.
Proof.
  intros (H1 & H2 & H3 & H4) EG HGB.
  assert (GD : k_data b1 = k_data b /\ k_start b1 = k_start b).
  { unfold grow in EG. destruct (k_cap b <=? length (k_data b))%nat; [|inversion EG; subst; auto].
    destruct (N.of_nat (k_cap b) + 1024 <=? max_capacity)%N; inversion EG; subst; auto. }
  destruct GD as [GD GS]. split; [|split; [|split]].
  - unfold Rst in *. rewrite GD, GS. exact H1.
  - destruct H2 as (? & ? & ?). split; [eapply grow_blk; eauto|split; assumption].
  - exact H3.
  - intros G. rewrite (HGB G). auto.
Qed.

Lemma turn_R n nr kept d b p : L nr d b p -> (g = true -> (0 < n)%nat) ->
  match dec_turn ev n nr kept d b with
  | Ret d' r => ret_R d' r p
  | Again nr _ d' b' => L nr d' b' p
  end.
Proof.
  intros HL Hn. pose proof HL as (HR & ND & HT & HF). unfold dec_turn.
  destruct (grow ev b) as [b1|] eqn:EG.
  2:{ intros G. exfalso. destruct (L_room _ _ _ _ HL G) as (Q1 & _ & Q2 & _).
      unfold grow in EG. destruct (k_cap b <=? length (k_data b))%nat eqn:Z; [lia|discriminate]. }
  assert (HB1 : g = true -> b1 = b).
  { intros G. destruct (L_room _ _ _ _ HL G) as (Q1 & _ & Q2 & _).
    unfold grow in EG. destruct (k_cap b <=? length (k_data b))%nat eqn:Z; [lia|congruence]. }
  pose proof (R_grow _ _ _ _ HR EG HB1) as HR1.
  assert (GD : k_data b1 = k_data b /\ k_start b1 = k_start b).
  { unfold grow in EG. destruct (k_cap b <=? length (k_data b))%nat; [|inversion EG; subst; auto].
    destruct (N.of_nat (k_cap b) + 1024 <=? max_capacity)%N; inversion EG; subst; auto. }
  destruct GD as [GD GS].
  destruct nr.
  - specialize (HT eq_refl). rewrite <- GD in HT. clear HF.
    assert (HST : match d_st d with DInit | DChunkEnd | DTrailer => True | _ => False end) by (destruct (d_st d); try contradiction; exact I).
    destruct (k_len b1 <? k_end b1)%nat eqn:EL.
    { destruct HR1 as (_ & ((X & _) & _) & _). lia. }
    destruct (br_read (k_len b1 - k_end b1) (d_in d)) as [i' [x|f| | |]] eqn:EB.
    + cbv zeta. pose proof (br_read_data _ _ _ _ EB) as BD. pose proof (br_read_len _ _ _ _ EB) as BL.
      destruct x as [|x0 x].
      * unfold dec_decode, poll_read_inner. cbn [set_st d_st set_in set_st_opt set_init is_done].
        assert (HX : g = true -> wf_brd i' /\ e = ECut /\ clean (br_src i') /\ p = []).
        { intros G. destruct (L_room _ _ _ _ HL G) as (Q1 & Q2 & Q3 & Q4 & Q5 & Q6).
          destruct (Q6 eq_refl) as [Q7 Q8]. specialize (Q7 G). split; [eapply br_read_wf; eassumption|].
          pose proof EB as EB'. rewrite (HB1 G) in EB'. apply br_read_nil in EB' as [Z _]; [|lia|exact Q4].
          destruct (Q8 Z) as [Q9 Q10]. split; [assumption|]. split; [|assumption]. eapply br_read_clean; [exact EB|auto]. }
        exists p. split; [reflexivity|]. split; [|split; auto; congruence].
        split; [|exact I]. split; [|split; [|split]].
        -- unfold Rst. cbn. intros G. destruct (HX G) as (_ & -> & _ & ->). split; [reflexivity|].
           destruct HR as (_ & _ & HC & _). now apply HC.
        -- destruct HR1 as (_ & ((X1 & X2) & X3) & _). unfold np, blk_ok, k_end, sender_ok in *. cbn. rewrite app_nil_r. repeat split; auto; lia.
        -- cbn. congruence.
        -- intros G. destruct (HX G) as (? & ? & ? & _). cbn. split; [assumption|]. split; [auto|congruence].
      * set (y := x0 :: x) in *. assert (Hy : (0 < length y)%nat) by (subst y; cbn; lia). clearbody y.
        apply decode_R; [|exact ND| |exact Hn].
        -- destruct HR1 as (X1 & ((X2 & X2') & X3 & X4) & X5 & X6). split; [|split; [|split]].
           ++ unfold Rst in *. cbn [set_in d_st d_in k_data k_start d_chan].
              assert (EW : (k_data b1 ++ y) ++ br_data i' = k_data b1 ++ br_data (d_in d)) by (rewrite BD, app_assoc; reflexivity).
              rewrite EW. destruct (d_st d); try contradiction; exact X1.
           ++ unfold np, blk_ok, k_end, sender_ok in *. cbn [k_start k_data k_len k_cap set_in d_st d_sender]. rewrite app_length. repeat split; auto; lia.
           ++ exact X5.
           ++ intros G. cbn [set_in d_in d_st k_len k_cap]. destruct (X6 G) as (X7 & X8 & X9). split; [eapply br_read_wf; eassumption|].
              split; [intros He; eapply br_read_clean; [exact EB|auto]|exact X9].
        -- right; right. cbn [set_in d_st]. split; [exact HST|]. unfold k_end. cbn [k_start k_data]. rewrite app_length. lia.
    + split; [|exact ND]. split; [|cbn [set_blk set_init set_in d_st d_init d_blk]; destruct (d_st d); try contradiction; intros _; exact HT].
      destruct HR1 as (X1 & X2 & X5 & X6). split; [|split; [|split]].
      * unfold Rst in *. cbn [set_blk set_init set_in d_st d_in d_blk d_chan].
        rewrite (br_read_pend_data _ _ _ _ EB). exact X1.
      * exact X2.
      * exact X5.
      * intros G. destruct (X6 G) as (X7 & X8 & X9). split; [eapply br_read_wf; eassumption|].
        split; [intros He; eapply br_read_clean; [exact EB|auto]|exact X9].
    + intros G. exfalso. destruct (L_room _ _ _ _ HL G) as (_ & _ & _ & _ & Q5 & Q6).
      destruct (Q6 eq_refl) as [_ Q7]. pose proof (br_read_err _ _ _ EB) as Z. destruct (Q7 Z) as [He _].
      destruct (br_read_clean _ _ _ _ EB (Q5 He)) as [_ Z2]. congruence.
    + now apply br_read_never in EB.
    + now apply br_read_never in EB.
  - apply decode_R; auto. destruct (HF eq_refl) as [Q|Q]; [now left|right; left; lia].
Qed.

Lemma loop_R n fuel : (g = true -> (0 < n)%nat) -> forall nr kept d b p, L nr d b p ->
  ret_R (fst (dec_loop fuel ev n nr kept d b)) (snd (dec_loop fuel ev n nr kept d b)) p.
Proof.
  intros Hn. induction fuel as [|f IH]; intros nr kept d b p HL; [exact I|]. cbn [dec_loop].
  pose proof (turn_R n nr kept d b p HL Hn) as P.
  destruct (dec_turn ev n nr kept d b) as [d' r|nr' kept' d' b']; [exact P|now apply IH].
Qed.

Lemma poll_R n d fuel p : (g = true -> (0 < n)%nat) -> St d p -> d_st d <> DDone ->
  ret_R (fst (dec_poll fuel ev n d)) (snd (dec_poll fuel ev n d)) p.
Proof.
  intros Hn (HR & HI) ND. unfold dec_poll. cbv zeta.
  set (d0 := set_blk (blk_fresh ev) d). set (b := d_blk d) in *.
  assert (HR0 : R d0 b p) by (eapply R_ext; [| | | |exact HR]; reflexivity).
  assert (ND0 : d_st d0 <> DDone) by exact ND.
  assert (HST : match d_st d0 with DTrailerDone _ | DTrailerSending _ | DDone => False | _ => True end).
  { subst d0. cbn [set_blk d_st]. destruct (d_st d); try exact I; try contradiction. }
  assert (HL : (length (k_data b) = 0)%nat \/ d_init d = false -> L (negb (is_chunk (d_st d))) d0 b p).
  { intros HX. split; [exact HR0|]. split; [exact ND0|].
    assert (HS : is_chunk (d_st d) = false -> stuck (d_st d) (k_data b)).
    { intros NC. destruct HX as [HX|HX].
      - apply length_zero_iff_nil in HX. pose proof (nil_stuck d0 _ HX) as Q. change (d_st d0) with (d_st d) in *.
        destruct (d_st d); try discriminate; try contradiction; exact Q.
      - change (d_st d0) with (d_st d) in *. destruct (d_st d); try discriminate; try contradiction; now apply HI. }
    change (d_st d0) with (d_st d) in *. split; intros Z; [apply HS|left]; destruct (is_chunk (d_st d)); auto; discriminate. }
  destruct (_ && _)%bool eqn:EC.
  2:{ apply loop_R; [exact Hn|]. apply HL. apply andb_false_iff in EC as [EC|EC]; [left; apply Nat.ltb_ge in EC; lia|right; exact EC]. }
  apply andb_prop in EC as [EC1 EC2]. apply Nat.ltb_lt in EC1.
  destruct (poll_read_inner ev d0 b n) as [d' r] eqn:E.
  pose proof (inner_R _ _ _ _ _ _ HR0 ND0 Hn E) as P.
  destruct r as [read st b' pend| | |]; cbv zeta in *.
  - destruct P as (p' & -> & PR & PI & PD & PN & PP & PC & PE).
    set (d1 := set_st_opt st d') in *. clearbody d1.
    destruct pend as [f|].
    { destruct (PP ltac:(discriminate)) as (Q1 & -> & Q2).
      assert (read = []).
      { clear - E Q1 EC1. unfold poll_read_inner in E. destruct (d_st d0); try discriminate.
        unfold poll_read_chunk in E. destruct (len <? cur)%N; [discriminate|].
        destruct (k_data b); [cbn in EC1; lia|]. cbv zeta in E.
        match type of E with context [if ?x then (_, DPanic) else _] => destruct x end; inversion E. }
      subst read. cbn [app]. split; [split|].
      - eapply R_ext; [| | | |exact PR]; reflexivity.
      - cbn [fst snd set_blk d_st]. destruct (d_st d1); try discriminate; exact I.
      - cbn [fst snd set_blk d_st]. destruct (d_st d1); discriminate. }
    destruct (is_done (d_st d1)) eqn:EDn.
    { apply is_done_spec in EDn. exists p'. split; [reflexivity|]. split; [|split; auto].
      split; [eapply R_ext; [| | | |exact PR]; reflexivity|]. cbn [fst snd set_blk d_st]. now rewrite EDn. }
    assert (NDn : d_st d1 <> DDone) by (intros Z; rewrite Z in EDn; discriminate).
    destruct (0 <? length read)%nat eqn:EL.
    { apply Nat.ltb_lt in EL. exists p'. split; [reflexivity|]. split; [|split].
      - split; [eapply R_ext; [| | | |exact PR]; reflexivity|]. cbn [fst snd set_blk d_st d_init]. rewrite PI, EC2.
        destruct (is_chunk (d_st d0)); [|subst read; cbn in EL; lia].
        destruct PC as [PC|[PC|PC]]; [destruct (d_st d1); try discriminate; exact I| |];
          rewrite PC; [discriminate|exact I].
      - intros ->. cbn in EL. lia.
      - cbn [fst snd set_blk d_st]. congruence. }
    assert (read = []) by (destruct read; [reflexivity|discriminate]). subst read. cbn [app].
    apply loop_R; [exact Hn|]. split; [exact PR|]. split; [exact NDn|]. split; [discriminate|]. intros _.
    destruct (PN eq_refl eq_refl) as [Q|[Q|((m & Q) & ->)]]; [left|right; exact Q|].
    + rewrite Q in PC. destruct PC as [PC|[PC|PC]]; [exact PC|exfalso; now apply (PE Q eq_refl)|congruence].
    + destruct Q as [Q|Q]; rewrite Q in HST; contradiction.
  - destruct P as (-> & HS). apply loop_R; [exact Hn|]. split; [exact HR0|]. split; [exact ND0|].
    change (d_st d0) with (d_st d) in *. split; [auto|]. intros Z. destruct (d_st d); try discriminate; contradiction.
  - exact P.
  - contradiction.
Qed.
End Msg.
