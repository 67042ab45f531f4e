(** Sending on a received body under another length. *)
From Verif Require Import Relay SpecChunked SpecHead SpecResponse SpecReq SpecServer SpecBody Lemmas Proofs_Copy Proofs_ServerEnc
  Proofs_Head Proofs_Send Proofs_Buf Proofs_Dec Proofs_DecMsg Proofs_DecReads Proofs_ServerDec Proofs_Accept Proofs_Request Proofs_Relay Proofs_Map Proofs_RelayReq.

(** What the reader of a complete request yields. *)
Lemma complete_yields ev len br p wb extra : wf_brd br -> body_wire (e_deccap ev) len p wb -> br_data br = wb ++ extra ->
  exists m, yields ev (RMsg (body_reader ev len br)) p True m.
Proof.
  intros HW BW HB. destruct len as [n|].
  - destruct BW as [-> Hn]. exists (br_size br). cbn. ands; auto.
    + rewrite HB, firstn_app. replace (N.to_nat n - length p)%nat with 0%nat by lia. rewrite firstn_O, app_nil_r. symmetry. apply firstn_all2. lia.
    + split; [intros _; left; rewrite HB, app_length; lia|tauto].
  - destruct BW as (tr & cw & n & z & tw & HC & Hz & Ht & HL & HF & ->). destruct (fields_holds _ _ Ht) as (h & Eh & Wh & Vh).
    assert (HM : msg ev tr true EOk false 0 p (cw ++ z ++ tw ++ CRLF)).
    { rewrite <- (app_nil_r p). eapply msg_load; [eassumption|]. constructor; [assumption|]. constructor; auto.
      rewrite !app_length in HF. change (length CRLF) with 2%nat in HF. lia. }
    destruct (St_new ev tr h extra EOk true br p _ HM HB) as [HS ND]; [intros _; split; [assumption|discriminate]|].
    exists (tot (dec_new ev br) (d_blk (dec_new ev br))). cbn. exists tr, h, extra, EOk, p. split; [exact HL|]. split; [exact Eh|]. split; [discriminate|].
    split; [exact HS|]. split; [exact ND|]. split; [apply new_ok|]. split; [reflexivity|]. split; [split; [discriminate|auto]|reflexivity].
Qed.

Section Recast.
  Variables (ev : env) (len : option N) (br : brd) (p : bytes) (m : nat) (st : N) (v : version) (hs : hmap).
  Hypothesis He : env_ok ev.
  Hypothesis HY : yields ev (RMsg (body_reader ev len br)) p True m.

  Lemma recast_shorter k wr : (k + N.of_nat (e_bufcap ev) < two64)%N -> (k <= N.of_nat (length p))%N -> accepting wr ->
    let y := relay_of st v hs (msg_body (Some k) (body_reader ev len br)) in let H := head_text ev (y_head y) in
    exists wr', settles (fun fuel => relay fuel ev y wr) (wr', ROk (N.of_nat (length H) + k)%N) /\ w_out wr' = w_out wr ++ H ++ firstn (N.to_nat k) p.
  Proof.
    intros Hk HL A y H. destruct (relay_fixed_run ev y p True m (ok_big ev He) HY k (S m) eq_refl Hk ltac:(right; exact HL) ltac:(lia)) as (O & x & R & _ & K). fold H in K.
    destruct x.
    - destruct K as [-> _]. destruct (relay_ends _ _ wr _ _ _ R ltac:(discriminate) A) as (wr' & S & W). exists wr'. split; [|exact W].
      cbn [kres] in S. rewrite app_length, firstn_length in S. replace (N.of_nat (length H) + k)%N with (N.of_nat (length H + Nat.min (N.to_nat k) (length p))) by lia. exact S.
    - destruct K as [K _]. now elim K.
    - destruct K.
    - destruct K. lia.
  Qed.

  Lemma recast_chunked wr : accepting wr ->
    let y := relay_of st v hs (msg_body None (body_reader ev len br)) in let H := head_text ev (y_head y) in
    ~ (p = [] /\ eos_window (e_bufcap ev) (length H)) ->
    exists wr' cw, chunks plain_size_line p cw /\
      settles (fun fuel => relay fuel ev y wr) (wr', ROk (N.of_nat (length (H ++ cw ++ last_chunk)))) /\ w_out wr' = w_out wr ++ H ++ cw ++ last_chunk.
  Proof.
    intros A y H NW. pose proof (ok_big ev He) as Hb. destruct He as (_ & H7 & H64 & Hx & _).
    destruct (relay_chunked_run ev (yields ev) y p True m (fun r D c m r' x => fill_spec ev r D c m r' x Hb) HY 0 eq_refl H7 H64 Hx) as (O & k & R & K).
    assert (NF : k <> KFuel) by (intros ->; exact K).
    destruct (relay_ends ev y wr 0 O k R NF A) as (wr' & S & W). fold H in K. destruct k.
    - destruct K as (_ & cw & C1 & ->). exists wr', cw. auto.
    - destruct K as [K _]. now elim K.
    - destruct K as (-> & _ & C1 & _). elim NW. auto.
    - destruct K.
  Qed.
End Recast.

(** More than a fixed body has. *)
Lemma recast_longer ev n br st v hs k wr : env_ok ev -> wf_brd br -> (k + N.of_nat (e_bufcap ev) < two64)%N ->
  (n < k)%N -> (n <= N.of_nat (length (br_data br)))%N -> accepting wr ->
  forall fuel, snd (relay fuel ev (relay_of st v hs (msg_body (Some k) (RFixed n br))) wr) = RFuel.
Proof.
  intros He HW Hk HL Hc A. set (y := relay_of st v hs (msg_body (Some k) (RFixed n br))).
  assert (HY : yields ev (y_rdr y) (firstn (N.to_nat n) (br_data br)) True (br_size br)) by (cbn; ands; auto; tauto).
  apply (relay_hangs ev y (S (br_size br))); [|exact A]. intros F HF.
  destruct (relay_fixed_run ev y _ _ _ (ok_big ev He) HY k F eq_refl Hk ltac:(left; exact I) ltac:(lia)) as (O & x & R & _ & K).
  rewrite firstn_length in K. destruct x.
  - destruct K. lia.
  - destruct K as [K _]. now elim K.
  - destruct K.
  - eauto.
Qed.
