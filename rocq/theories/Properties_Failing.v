(** Property C121: chunked bodies cut off by a failure of the connection. *)
From Verif Require Import Client Relay Accept BodyRead Reads SpecChunked SpecHead SpecResponse SpecReq SpecServer SpecBody SpecClient Lemmas Proofs_Head Proofs_Send
  Proofs_Buf Proofs_Dec Proofs_DecReads Proofs_ServerDec Proofs_Accept Proofs_Request Proofs_ClientDec Proofs_Relay Proofs_RelayReq Proofs_DecFail
  Examples_Response Examples_Dec Examples_Request Examples_Client Properties_Body Properties_Client.

(** C121, the decoder: when the connection fails before the last byte of the message, reading
    delivers the chunk data that arrived ([carried]) and then fails, at every point. Compare
    [C16_truncation_silent], where the peer closes instead. *)
Theorem C121_decoder : forall ev p cw n z tr tw u rest,
  grow_ok ev -> chunks_load (e_deccap ev) p cw n -> size_line 0 z -> fields tr tw -> (length tr <= 16)%nat ->
  (n + length (z ++ tw ++ CRLF) <= e_deccap ev)%nat -> cw ++ z ++ tw ++ CRLF = u ++ rest -> rest <> [] ->
  exists q, prefix q p /\ carried q u /\
  forall br ns d' out k, wf_brd br -> ~ clean (br_src br) -> br_data br = u -> Forall (fun n => 0 < n)%nat ns ->
  reads (dec_read ev) ns (dec_new ev br) = (d', out, k) ->
  match k with
  | Going => prefix out q /\ d_chan d' = [] /\ (length ns <= br_size br)%nat
  | Failed => out = q
  | _ => False
  end.
Proof. exact fresh_fail. Qed.
Print Assumptions C121_decoder.
Definition broken_conn (n : nat) : brd := br_new 64 (mkSrc [Data (firstn n wiki_wire); Pend false; Fail; Data (skipn n wiki_wire)] Eof).
Example C121_decoder_case : chunked_message (B "Wikipedia") [(B "Expires", B "never")] wiki_wire /\ br_data (broken_conn 5) = firstn 5 wiki_wire /\
  wf_brd (broken_conn 5) /\ ~ clean (br_src (broken_conn 5)) /\
  (let '(_, out, k) := reads (dec_read (ev0 true)) [9; 9; 9; 9]%nat (dec_new (ev0 true) (broken_conn 5)) in out = B "Wi" /\ k = Failed) /\
  (let '(_, out, k) := reads (dec_read (ev0 true)) [9; 9; 9; 9; 9; 9]%nat (dec_new (ev0 true) (broken_conn (length wiki_wire - 1))) in out = B "Wikipedia" /\ k = Failed).
Proof.
  split; [exact wiki_message|]. split; [reflexivity|]. split; [split; [repeat constructor; discriminate|cbn; lia]|].
  split; [intros [C _]; inversion C as [|? ? _ C2]; inversion C2 as [|? ? _ C3]; now inversion C3|]. split; vm_compute; auto.
Qed.

(** C121, a handler's reads of a request's body: no read reports the end. *)
Theorem C121_reads : forall ev tmo s wt s' wt' q b, env_ok ev -> wf_src s -> ~ clean s ->
  decode ev tmo s wt = (s', wt', OReq q b) -> q_len q = None ->
  exists w rest, offers tmo s w /\ src_data s = w ++ rest /\
  forall p tr wire cut, fitting (e_deccap ev) p tr wire -> wire = rest ++ cut -> cut <> [] ->
  exists x m, prefix x p /\ carried x rest /\
  forall ms b' out k, Forall (fun m => 0 < m)%nat ms -> reads (body_read ev) ms b = (b', out, k) ->
    match k with Going => prefix out x /\ (length ms <= m)%nat | Failed => out = x | _ => False end.
Proof.
  intros ev tmo s wt s' wt' q b He Ws NC H Hn. destruct (request_reader ev tmo s wt s' wt' q b He Ws H) as (w & br & HO & HD & HW & HC & ->).
  rewrite Hn. cbn [body_reader]. exists w, (br_data br). split; [exact HO|]. split; [exact HD|]. intros p tr wire cut HF EW Hc.
  destruct (handler_failed ev br p tr wire cut He HW (fun Z => NC (proj2 HC Z)) HF EW Hc) as (x & X1 & X2 & X3). eexists x, _. split; [exact X1|]. split; [exact X2|exact X3].
Qed.
Print Assumptions C121_reads.

(** C121, reading a request's body as a whole. *)
Theorem C121_whole : forall ev tmo s wt s' wt' q b sz, (forall i, 0 < sz i)%nat -> env_ok ev -> wf_src s -> ~ clean s ->
  decode ev tmo s wt = (s', wt', OReq q b) -> q_len q = None ->
  exists w rest, offers tmo s w /\ src_data s = w ++ rest /\ let f := msg_body (q_len q) b in
  forall p tr wire cut, fitting (e_deccap ev) p tr wire -> wire = rest ++ cut -> cut <> [] ->
    settles (fun fuel => into_bytes ev fuel sz f) RErr /\ settles (fun fuel => into_string ev fuel sz f) RErr /\
    settles (fun fuel => into_bytes_with_trailer ev fuel sz f) TErr /\ settles (fun fuel => into_string_with_trailer ev fuel sz f) TErr.
Proof.
  intros ev tmo s wt s' wt' q b sz P He Ws NC H Hn. destruct (request_reader ev tmo s wt s' wt' q b He Ws H) as (w & br & HO & HD & HW & HC & ->).
  rewrite Hn. cbn [body_reader]. exists w, (br_data br). split; [exact HO|]. split; [exact HD|]. cbv zeta. intros p tr wire cut HF EW Hc.
  exact (whole_failed ev br p tr wire cut He HW (fun Z => NC (proj2 HC Z)) HF EW Hc sz P).
Qed.
Print Assumptions C121_whole.

(** C121, sending a request's body on: the response fails, and no last chunk is written that would
    make it look complete. *)
Theorem C121_handed_on : forall ev tmo s wt s' wt' q b st v hs, env_ok ev -> wf_src s -> ~ clean s ->
  decode ev tmo s wt = (s', wt', OReq q b) -> q_len q = None -> hm_wf hs ->
  let y := relay_of st v hs (msg_body (q_len q) b) in
  exists w rest head, offers tmo s w /\ src_data s = w ++ rest /\ response_head (e_date ev) (announced st v hs None) head /\
  forall p tr wire cut, fitting (e_deccap ev) p tr wire -> wire = rest ++ cut -> cut <> [] -> forall wr, accepting wr ->
  exists wr' o x cw, prefix x p /\ chunks plain_size_line x cw /\ prefix o (head ++ cw) /\
    settles (fun fuel => relay fuel ev y wr) (wr', RErr) /\ w_out wr' = w_out wr ++ o.
Proof.
  intros ev tmo s wt s' wt' q b st v hs He Ws NC H Hn Hh y. subst y. destruct (request_reader ev tmo s wt s' wt' q b He Ws H) as (w & br & HO & HD & HW & HC & ->).
  rewrite Hn. cbn [body_reader]. exists w, (br_data br). eexists. split; [exact HO|]. split; [exact HD|]. split; [apply head_response; [exact Hh|apply He]|].
  intros p tr wire cut HF EW Hc wr A. exact (relay_failed ev br p tr wire cut st v hs wr He HW (fun Z => NC (proj2 HC Z)) HF EW Hc A).
Qed.
Print Assumptions C121_handed_on.
Definition broken_post : src := mkSrc [Data (chunk_head ++ firstn 7 wiki_wire); Data (skipn 7 (firstn 19 wiki_wire))] FailForever.
Example C121_case : wf_src broken_post /\ ~ clean broken_post /\
  exists s' wt' q b, decode (ev0 true) true broken_post slow = (s', wt', OReq q b) /\ q_len q = None /\
  src_data broken_post = chunk_head ++ firstn 19 wiki_wire /\ fitting (e_deccap (ev0 true)) (B "Wikipedia") [(B "Expires", B "never")] (firstn 19 wiki_wire ++ skipn 19 wiki_wire) /\
  (let '(_, out, k) := reads (body_read (ev0 true)) [3; 3; 3; 3; 3]%nat b in out = B "Wikipe" /\ k = Failed) /\
  into_bytes (ev0 true) 20 growing (msg_body (q_len q) b) = RErr /\
  (let '(wr', x) := relay 60 (ev0 true) (relay_of 200 HTTP_11 [] (msg_body (q_len q) b)) slow in x = RErr /\
     skipn 124 (w_out wr') = B "4" ++ CRLF ++ B "Wiki" ++ CRLF ++ B "2" ++ CRLF ++ B "pe" ++ CRLF).
Proof.
  split; [repeat constructor; discriminate|]. split; [intros [_ C]; discriminate|]. eexists _, _, _, _. split; [vm_compute; reflexivity|]. split; [reflexivity|].
  split; [vm_compute; reflexivity|]. split; [exact wiki_fits|]. split; [vm_compute; auto|]. split; vm_compute; auto.
Qed.

(** C121, the body of a response the client receives. *)
Theorem C121_client : forall ev s w rest, env_ok ev -> delivers s w rest -> ~ clean s -> cjudge (e_trim ev) w CvChunked ->
  exists b a after, c_decode ev s = (b, COk a) /\ src_data s = w ++ after /\
  forall p tr wire cut, fitting (e_deccap ev) p tr wire -> wire = after ++ cut -> cut <> [] ->
  (forall sz, (forall i, 0 < sz i)%nat -> settles (fun fuel => into_bytes ev fuel sz (a_body a)) RErr /\ settles (fun fuel => into_string ev fuel sz (a_body a)) RErr /\
    settles (fun fuel => into_bytes_with_trailer ev fuel sz (a_body a)) TErr /\ settles (fun fuel => into_string_with_trailer ev fuel sz (a_body a)) TErr) /\
  forall st v hs wr, hm_wf hs -> accepting wr -> exists wr' head o x cw, response_head (e_date ev) (announced st v hs None) head /\
    prefix x p /\ chunks plain_size_line x cw /\ prefix o (head ++ cw) /\
    settles (fun fuel => relay fuel ev (relay_of st v hs (a_body a)) wr) (wr', RErr) /\ w_out wr' = w_out wr ++ o.
Proof.
  intros ev s w rest He D NC J. assert (L : (N.of_nat (length w) < 8192)%N) by now inversion J.
  destruct (decode_short ev (proj1 He) (ok_cap ev He) s w rest D L) as (b & (HW & _ & HD & HC & _) & E & Q). pose proof (Q _ J) as E2. cbn [canswers] in E2.
  destruct (c_decode ev s) as [b' out]. cbn [fst snd] in E, E2. subst b' out. eexists b, _, (br_data b). split; [reflexivity|]. cbn [a_body]. split; [exact HD|].
  intros p tr wire cut HF EW Hc. assert (NB : ~ clean (br_src b)) by (intros Z; apply NC, HC, Z). split.
  - exact (whole_failed ev b p tr wire cut He HW NB HF EW Hc).
  - intros st v hs wr Hh A. destruct (relay_failed ev b p tr wire cut st v hs wr He HW NB HF EW Hc A) as (wr' & o & x & cw & R1 & R2 & R3 & R4 & R5).
    eexists wr', _, o, x, cw. split; [apply head_response; [exact Hh|apply He]|]. auto.
Qed.
Print Assumptions C121_client.
Example C121_client_case : let s := mkSrc [Data wiki_resp; Data (firstn 19 wiki_wire); Fail; Data (skipn 19 wiki_wire)] Eof in
  delivers s wiki_resp (firstn 19 wiki_wire) /\ ~ clean s /\ cjudge (e_trim (ev0 true)) wiki_resp CvChunked /\
  match c_decode (ev0 true) s with (_, COk a) => into_string (ev0 true) 20 growing (a_body a) = RErr | _ => False end.
Proof.
  cbv zeta. split; [split; [repeat constructor; discriminate|split; [apply resp_blockb_ok; vm_compute; reflexivity|vm_compute; reflexivity]]|].
  split; [intros [C _]; inversion C as [|? ? _ C2]; inversion C2 as [|? ? _ C3]; now inversion C3|].
  split; [eapply cj_chunked; [cbn; lia|eapply parses; vm_compute; reflexivity|reflexivity|eexists; reflexivity]|]. vm_compute. reflexivity.
Qed.
