(** Sending the body of a received request back. *)
From Verif Require Import Relay Accept Reads SpecChunked SpecHead SpecResponse SpecReq SpecServer SpecBody Lemmas Proofs_Copy Proofs_ServerEnc Proofs_Head
  Proofs_Send Proofs_Parse Proofs_Buf Proofs_Dec Proofs_DecMsg Proofs_DecReads Proofs_ReqHead Proofs_ServerDec Proofs_Body Proofs_Accept Proofs_Request Proofs_BodyRead Proofs_Relay Proofs_Map.

(** ** What any chunked decoder yields through a buffer *)
Inductive drained (ev : env) : dec -> bytes -> Prop -> Prop :=
| dn_end d d' : dec_read ev (e_bufcap ev) d = (d', POk []) -> drained ev d [] True
| dn_err d d' : dec_read ev (e_bufcap ev) d = (d', PErr) -> drained ev d [] False
| dn_pend d d' f p c : dec_read ev (e_bufcap ev) d = (d', PPend f) -> drained ev d' p c -> drained ev d p c
| dn_data d d' x p c : dec_read ev (e_bufcap ev) d = (d', POk x) -> x <> [] -> drained ev d' p c -> drained ev d (x ++ p) c.

Lemma drained_all ev : big ev -> forall i d, (tot d (d_blk d) <= i)%nat -> ok_dec d -> exists p c, drained ev d p c.
Proof.
  intros [Hc G]. induction i as [|i IH]; intros d L O; destruct (dec_read ev (e_bufcap ev) d) as [d' x] eqn:E;
  pose proof (read_ok ev _ d d' x G O Hc E) as Q; destruct x as [[|x0 x]|f| | |]; try contradiction;
  try (eexists _, _; eapply dn_end; eassumption); try (eexists _, _; eapply dn_err; eassumption).
  - destruct Q as (_ & _ & Q). cbn [length] in Q. lia.
  - destruct Q as (_ & Q). lia.
  - destruct Q as (Q1 & _ & Q). cbn [length] in Q. destruct (IH d' ltac:(lia) Q1) as (p & c & P). eexists _, _. eapply dn_data; [exact E|discriminate|exact P].
  - destruct Q as (Q1 & Q). destruct (IH d' ltac:(lia) Q1) as (p & c & P). eexists _, _. eapply dn_pend; [exact E|exact P].
Qed.

Definition dyields (ev : env) (r : reader) (D : bytes) (c : Prop) (m : nat) : Prop :=
  match r with
  | RMsg (RChunked buf d) => exists p, ok_dec d /\ drained ev d p c /\ D = buf ++ p /\ m = (length buf + tot d (d_blk d))%nat
  | _ => False
  end.
Lemma dfill ev r D c m r' x : big ev -> dyields ev r D c m -> rdr_fill ev r = (r', x) -> filled (dyields ev) r' D c m x.
Proof.
  intros [Hc G] HY H. destruct r as [s|[rem b|buf d]]; try contradiction. destruct HY as (p & O & HD & -> & ->). cbn [rdr_fill] in H. unfold bufdec_fill in H. destruct buf as [|c0 buf].
  - destruct (dec_read ev (e_bufcap ev) d) as [d1 y] eqn:E. pose proof (read_ok ev _ d d1 y G O Hc E) as Q.
    inversion HD as [d2 d3 E2|d2 d3 E2|d2 d3 f p2 c2 E2 HD2|d2 d3 z p2 c2 E2 Hz HD2]; subst; rewrite E in E2; injection E2 as -> ->; injection H as <- <-; cbn [app].
    + cbn. auto.
    + cbn. auto.
    + destruct Q as [Q1 Q2]. eexists. split; [|exists p; ands; auto; reflexivity]. cbn [length]. lia.
    + destruct Q as (Q1 & _ & Q2). destruct z as [|z0 z1]; [congruence|]. set (z := z0 :: z1) in *. exists p2. split; [reflexivity|]. split.
      * eexists. split; [|exists p2; ands; auto; reflexivity]. cbn [length]. lia.
      * intros k Hk. eexists. split; [|exists p2; ands; auto; reflexivity]. rewrite skipn_length. fold z in Hk. cbn [length]. lia.
  - set (z := c0 :: buf) in *. injection H as <- <-. assert (X : exists D', z ++ p = z ++ D' /\ (exists m', (m' <= length z + tot d (d_blk d))%nat /\ dyields ev (RMsg (RChunked z d)) (z ++ p) c m') /\
      forall k, (1 <= k <= length z)%nat -> exists m', (m' < length z + tot d (d_blk d))%nat /\ dyields ev (rdr_consume k (RMsg (RChunked z d))) (skipn k z ++ D') c m').
    { exists p. split; [reflexivity|]. split; [eexists; split; [|exists p; ands; auto; reflexivity]; lia|].
      intros k Hk. eexists. split; [|exists p; ands; auto; reflexivity]. rewrite skipn_length. lia. }
    exact X.
Qed.

(** ** Requests *)
Lemma ok_big ev : env_ok ev -> big ev.
Proof. intros He. split; [exact (ok_cap ev He)|apply He]. Qed.

Lemma request_reader ev tmo s wt s' wt' q b : env_ok ev -> wf_src s -> decode ev tmo s wt = (s', wt', OReq q b) ->
  exists w br, offers tmo s w /\ src_data s = w ++ br_data br /\ wf_brd br /\ (clean s <-> clean (br_src br)) /\ b = body_reader ev (q_len q) br.
Proof.
  intros He Ws H. destruct (decode_req ev tmo s wt s' wt' q b (ok_cap ev He) Ws H) as (w & br & c & m & u & hs & len & HO & HD & HW & -> & HC & HS & _ & J & PR & _).
  destruct PR as (_ & _ & PL & _). rewrite PL. exists w, br. auto.
Qed.

Lemma relay_ends ev y wr F O k : run (renc_poll F ev (e_bufcap ev)) (renc_new y) O k -> k <> KFuel -> accepting wr ->
  exists wr', settles (fun fuel => relay fuel ev y wr) (wr', kres k (N.of_nat (length O))) /\ w_out wr' = w_out wr ++ O.
Proof.
  intros R K A. destruct (relay_run ev y wr F O k R K) as (F' & w' & x & p & S1 & _ & S3 & S4 & [[-> ->]|[_ X]]); [|contradiction].
  exists w'. split; [exists F'; exact S1|exact S4].
Qed.

Section Fixed.
  Variables (ev : env) (n : N) (br : brd) (st : N) (v : version) (hs : hmap).
  Hypothesis He : env_ok ev.
  Hypothesis HW : wf_brd br.
  Hypothesis Hn : (n + N.of_nat (e_bufcap ev) < two64)%N.
  Let y := relay_of st v hs (msg_body (Some n) (RFixed n br)).
  Let H := head_text ev (y_head y).

  Lemma fixed_yields : yields ev (y_rdr y) (firstn (N.to_nat n) (br_data br)) ((n <= N.of_nat (length (br_data br)))%N \/ clean (br_src br)) (br_size br).
  Proof. cbn. ands; auto; try reflexivity; tauto. Qed.

  Lemma fixed_relayed wr : (n <= N.of_nat (length (br_data br)))%N -> accepting wr ->
    exists wr', settles (fun fuel => relay fuel ev y wr) (wr', ROk (N.of_nat (length H) + n)%N) /\ w_out wr' = w_out wr ++ H ++ firstn (N.to_nat n) (br_data br).
  Proof.
    intros L A. destruct (relay_fixed_run ev y _ _ _ (ok_big ev He) fixed_yields n (S (br_size br)) eq_refl Hn ltac:(left; exact I) ltac:(lia)) as (O & k & R & _ & K).
    rewrite firstn_length in K. destruct k.
    - destruct K as [-> _]. destruct (relay_ends _ _ wr _ _ _ R ltac:(discriminate) A) as (wr' & S & W). exists wr'. rewrite firstn_firstn, Nat.min_id in W. split; [|exact W].
      cbn [kres] in S. rewrite app_length, firstn_firstn, Nat.min_id, firstn_length in S. fold H in S. replace (N.of_nat (length H) + n)%N with (N.of_nat (length H + Nat.min (N.to_nat n) (length (br_data br)))) by lia. exact S.
    - destruct K as [K _]. elim K. auto.
    - destruct K.
    - destruct K as [_ K]. lia.
  Qed.
  Lemma fixed_short wr : (N.of_nat (length (br_data br)) < n)%N -> accepting wr ->
    (clean (br_src br) -> forall fuel, snd (relay fuel ev y wr) = RFuel) /\
    (~ clean (br_src br) -> exists wr' o, settles (fun fuel => relay fuel ev y wr) (wr', RErr) /\ w_out wr' = w_out wr ++ o /\ prefix o (H ++ br_data br)).
  Proof.
    intros L A. assert (EB : firstn (N.to_nat n) (br_data br) = br_data br) by (apply firstn_all2; lia).
    assert (X : forall F, (S (br_size br) <= F)%nat -> exists O k, run (renc_poll F ev (e_bufcap ev)) (renc_new y) O k /\ prefix O (H ++ br_data br) /\
      ((clean (br_src br) /\ k = KFuel) \/ (~ clean (br_src br) /\ k = KErr))).
    { intros F HF. destruct (relay_fixed_run ev y _ _ _ (ok_big ev He) fixed_yields n F eq_refl Hn ltac:(left; exact I) ltac:(lia)) as (O & k & R & P & K).
      rewrite firstn_firstn, Nat.min_id in P. rewrite EB in P, K. exists O, k. split; [exact R|]. split; [exact P|]. destruct k.
      - destruct K. lia.
      - right. destruct K as [K _]. auto.
      - destruct K.
      - left. destruct K as [[K|K] _]; [lia|auto]. }
    split.
    - intros C. apply (relay_hangs ev y (S (br_size br))); [|exact A]. intros F HF. destruct (X F HF) as (O & k & R & _ & [[_ ->]|[N _]]); [|contradiction]. eauto.
    - intros C. destruct (X _ (Nat.le_refl _)) as (O & k & R & P & [[N _]|[_ ->]]); [contradiction|].
      destruct (relay_ends _ _ wr _ _ _ R ltac:(discriminate) A) as (wr' & S & W). exists wr', O. auto.
  Qed.
End Fixed.

Section Chunked.
  Variables (ev : env) (br : brd) (st : N) (v : version) (hs : hmap).
  Hypothesis He : env_ok ev.
  Let y := relay_of st v hs (msg_body None (RChunked [] (dec_new ev br))).
  Let H := head_text ev (y_head y).

  (** Whatever the peer sends. *)
  Lemma chunked_returns wr : exists wr' x o, settles (fun fuel => relay fuel ev y wr) (wr', x) /\ w_out wr' = w_out wr ++ o /\
    exists D cw, chunks plain_size_line D cw /\ prefix o (H ++ cw ++ last_chunk) /\
    match x with
    | ROk k => o = H ++ cw ++ last_chunk /\ k = N.of_nat (length o)
    | RErr => ~ accepting wr \/ prefix o (H ++ cw)
    | RPanic => eos_window (e_bufcap ev) (length H) /\ prefix o H
    | RFuel | RTimeout => False
    end.
  Proof.
    pose proof (ok_big ev He) as Hb. destruct He as (_ & H7 & H64 & Hx & _).
    destruct (drained_all ev Hb _ (dec_new ev br) (Nat.le_refl _) (new_ok ev br)) as (p & c & HD).
    assert (HY : dyields ev (y_rdr y) p c (tot (dec_new ev br) (d_blk (dec_new ev br)))) by (exists p; ands; auto; apply new_ok).
    destruct (relay_chunked_run ev (dyields ev) y p c _ (fun r D c m r' x => dfill ev r D c m r' x Hb) HY 0 eq_refl H7 H64 Hx) as (O & k & R & K).
    assert (NF : k <> KFuel) by (intros ->; exact K).
    destruct (relay_run ev y wr 0 O k R NF) as (F & wr' & x & o & S1 & _ & S3 & S4 & S5). exists wr', x, o. split; [exists F; exact S1|]. split; [exact S4|].
    fold H in K. destruct k.
    - destruct K as (_ & cw & C1 & ->). exists p, cw. split; [exact C1|]. split; [exact S3|]. destruct S5 as [[-> ->]|[-> S5]]; cbn [kres]; auto.
    - destruct K as (_ & p2 & cw & _ & C1 & C2). exists p2, cw. split; [exact C1|]. assert (P : prefix o (H ++ cw)) by (eapply prefix_trans; eassumption).
      split; [|destruct S5 as [[-> ->]|[-> S5]]; cbn [kres]; auto]. rewrite app_assoc. destruct P as [z ->]. exists (z ++ last_chunk). now rewrite app_assoc.
    - destruct K as (-> & _ & C1 & C2). exists [], []. split; [constructor|]. assert (P : prefix o H) by (eapply prefix_trans; eassumption).
      split; [|destruct S5 as [[-> ->]|[-> S5]]; cbn [kres]; auto]. destruct P as [z ->]. cbn [app]. exists (z ++ last_chunk). now rewrite app_assoc.
    - destruct K.
  Qed.

  Lemma chunked_outcome p e tr h extra : (length tr <= 16)%nat -> append_trailers tr [] = Some h -> (e = ECut -> extra = []) ->
    St ev tr h extra true e (dec_new ev br) p -> d_st (dec_new ev br) <> DDone -> forall wr, accepting wr ->
    (e <> EBad -> ~ (p = [] /\ eos_window (e_bufcap ev) (length H)) -> exists wr' cw, chunks plain_size_line p cw /\
       settles (fun fuel => relay fuel ev y wr) (wr', ROk (N.of_nat (length (H ++ cw ++ last_chunk)))) /\ w_out wr' = w_out wr ++ H ++ cw ++ last_chunk) /\
    (e = EBad -> exists wr' o x cw, prefix x p /\ chunks plain_size_line x cw /\ prefix o (H ++ cw) /\
       settles (fun fuel => relay fuel ev y wr) (wr', RErr) /\ w_out wr' = w_out wr ++ o).
  Proof.
    intros HL Hh HE HS HD wr A. pose proof (ok_big ev He) as Hb. destruct He as (_ & H7 & H64 & Hx & _).
    assert (HY : yields ev (y_rdr y) p (e <> EBad) (tot (dec_new ev br) (d_blk (dec_new ev br)))).
    { exists tr, h, extra, e, p. split; [exact HL|]. split; [exact Hh|]. split; [exact HE|]. split; [exact HS|]. split; [exact HD|]. split; [apply new_ok|]. split; [reflexivity|]. split; [reflexivity|reflexivity]. }
    destruct (relay_chunked_run ev (yields ev) y p _ _ (fun r D c m r' x => fill_spec ev r D c m r' x Hb) HY 0 eq_refl H7 H64 Hx) as (O & k & R & K).
    assert (NF : k <> KFuel) by (intros ->; exact K).
    destruct (relay_ends ev y wr 0 O k R NF A) as (wr' & S & W). fold H in K. split.
    - intros E NW. destruct k.
      + destruct K as (_ & cw & C1 & ->). exists wr', cw. auto.
      + destruct K as [K _]. contradiction.
      + destruct K as (-> & _ & C1 & _). elim NW. auto.
      + destruct K.
    - intros ->. destruct k.
      + destruct K as [K _]. congruence.
      + destruct K as (_ & x & cw & C1 & C2 & C3). exists wr', O, x, cw. auto.
      + destruct K as (_ & K & _). congruence.
      + destruct K.
  Qed.

  Lemma chunked_relayed p tr wire extra wr : wf_brd br -> fitting (e_deccap ev) p tr wire -> br_data br = wire ++ extra -> accepting wr ->
    ~ (p = [] /\ eos_window (e_bufcap ev) (length H)) ->
    exists wr' cw, chunks plain_size_line p cw /\
      settles (fun fuel => relay fuel ev y wr) (wr', ROk (N.of_nat (length (H ++ cw ++ last_chunk)))) /\ w_out wr' = w_out wr ++ H ++ cw ++ last_chunk.
  Proof.
    intros HW (cw & n & z & tw & HC & Hz & Ht & HL & HF & ->) HB A NW. destruct (fields_holds _ _ Ht) as (h & Eh & Wh & Vh).
    assert (HM : msg ev tr true EOk false 0 p (cw ++ z ++ tw ++ CRLF)).
    { rewrite <- (app_nil_r p). eapply msg_load; [eassumption|]. constructor; [assumption|]. constructor; auto.
      rewrite !app_length in HF. change (length CRLF) with 2%nat in HF. lia. }
    destruct (St_new ev tr h extra EOk true br p _ HM HB) as [HS ND]; [intros _; split; [assumption|discriminate]|].
    destruct (chunked_outcome p EOk tr h extra HL Eh ltac:(discriminate) HS ND wr A) as [Q _]. apply Q; [discriminate|exact NW].
  Qed.
  Lemma chunked_bad p wire n extra wr : wf_brd br -> malformed (e_deccap ev) p wire n -> (n <= e_deccap ev)%nat -> br_data br = wire ++ extra -> accepting wr ->
    exists wr' o x cw, prefix x p /\ chunks plain_size_line x cw /\ prefix o (H ++ cw) /\
      settles (fun fuel => relay fuel ev y wr) (wr', RErr) /\ w_out wr' = w_out wr ++ o.
  Proof.
    intros HW HM HF HB A. destruct (St_new ev [] [] extra EBad true br p _ (malformed_fit ev _ _ _ HM HF) HB) as [HS ND]; [intros _; split; [assumption|discriminate]|].
    destruct (chunked_outcome p EBad [] [] extra ltac:(cbn; lia) nil_append ltac:(discriminate) HS ND wr A) as [_ Q]. now apply Q.
  Qed.
  Lemma chunked_cut p tr wire cut wr : wf_brd br -> clean (br_src br) -> fitting (e_deccap ev) p tr wire -> wire = br_data br ++ cut -> cut <> [] -> accepting wr ->
    exists x, prefix x p /\ carried x (br_data br) /\ (~ (x = [] /\ eos_window (e_bufcap ev) (length H)) -> exists wr' cw, chunks plain_size_line x cw /\
      settles (fun fuel => relay fuel ev y wr) (wr', ROk (N.of_nat (length (H ++ cw ++ last_chunk)))) /\ w_out wr' = w_out wr ++ H ++ cw ++ last_chunk).
  Proof.
    intros HW HK (cw & n & z & tw & HC & Hz & Ht & HL & HF & ->) E Hr A. destruct (cut_load ev p cw n z tr tw HC Hz Ht HL 0%nat _ cut HF E Hr) as (x & Px & Cx & HM).
    exists x. split; [exact Px|]. split; [exact Cx|]. intros NW.
    destruct (St_new ev [] [] [] ECut true br x _ HM (eq_sym (app_nil_r _))) as [HS ND]; [auto|].
    destruct (chunked_outcome x ECut [] [] [] ltac:(cbn; lia) nil_append ltac:(auto) HS ND wr A) as [Q _]. apply Q; [discriminate|exact NW].
  Qed.
End Chunked.
