(** Property C122: trailers vouch for the body they came with. *)
From Verif Require Import Client Accept BodyRead Reads SpecChunked SpecHead SpecReq SpecServer SpecBody SpecClient SpecLax Lemmas
  Proofs_Dec Proofs_ServerDec Proofs_Accept Proofs_Request Proofs_ClientDec Proofs_RelayReq Proofs_Sound
  Examples_Response Examples_Dec Examples_Request Examples_Client Properties_Body Properties_Client.

(** C122, the decoder on anything at all: arbitrary bytes, failures, limits and read sizes. What it
    delivers is chunk data of what came; trailers are sent at most once, and only when what came
    begins with a complete message of which all data has been delivered. *)
Theorem C122_decoder : forall ev br ns d' out k,
  reads_on (dec_read ev) ns (dec_new ev br) = (d', out, k) ->
  exists x y, br_data br = x ++ y /\
  ((d_chan d' = [] /\ begun out x) \/
   exists h hs, d_chan d' = [h] /\ entire (e_trim ev) out hs x /\ hm_wf h /\ forall n, values n (hm_iter h) = values n hs).
Proof.
  intros ev br ns d' out k H. destruct (fresh_fin _ _ _ _ _ _ H) as (x & y & E & [HN|(m & hs & HC & HE & HA)]); exists x, y; (split; [exact E|]); [now left|].
  right. exists m, hs. destruct (append_values _ _ HA). auto.
Qed.
Print Assumptions C122_decoder.
(** Two inputs: garbage after a chunk, and a complete message. *)
Definition odd_conn : brd := br_new 64 (mkSrc [Data (B "3" ++ CRLF ++ B "ab"); Pend false; Data (B "c!?"); Fail] FailForever).
Example C122_decoder_case :
  (let '(d', out, k) := reads_on (dec_read (ev0 true)) [2; 9; 9; 9; 9]%nat (dec_new (ev0 true) odd_conn) in
     d_chan d' = [] /\ out = B "abc" /\ k = Failed) /\
  (let '(d', out, k) := reads_on (dec_read (ev0 true)) [9; 9; 9; 9; 9; 9; 9]%nat (dec_new (ev0 true) wiki_conn) in
     map (fun h => hm_iter h) (d_chan d') = [[(B "expires", B "never")]] /\ out = B "Wikipedia" /\ k = Going).
Proof. vm_compute. auto 10. Qed.

(** C122, the sender's view: the peer sends a message, perhaps of sizes the decoder cannot handle,
    and perhaps only a part arrives. If trailers come out, the whole message has arrived and the
    whole body and the sender's trailers have been delivered. *)
Theorem C122_sender : forall ev br p tr wire extra cut ns d' out k,
  chunked_message p tr wire -> br_data br ++ cut = wire ++ extra ->
  reads_on (dec_read ev) ns (dec_new ev br) = (d', out, k) -> d_chan d' <> [] ->
  out = p /\ (exists y, br_data br = wire ++ y) /\ exists h, d_chan d' = [h] /\ forall n, values n (hm_iter h) = values n tr.
Proof.
  intros ev br p tr wire extra cut ns d' out k HM HW H HC. destruct (C122_decoder _ _ _ _ _ _ H) as (x & y & E & [[? _]|(h & hs & E1 & E2 & _ & E4)]); [congruence|].
  rewrite E, <- app_assoc in HW. destruct (entire_unique _ _ _ _ _ _ _ _ _ E2 HM HW) as (-> & -> & ->).
  split; [reflexivity|]. split; [now exists y|]. now exists h.
Qed.
Print Assumptions C122_sender.
Example C122_sender_case : chunked_message (B "Wikipedia") [(B "Expires", B "never")] wiki_wire /\ br_data wiki_conn ++ [] = wiki_wire ++ B "GET /" /\
  (let '(d', _, _) := reads_on (dec_read (ev0 true)) [9; 9; 9; 9; 9; 9; 9]%nat (dec_new (ev0 true) wiki_conn) in d_chan d' <> []).
Proof. split; [exact wiki_message|]. split; [rewrite app_nil_r; exact wiki_data|]. vm_compute. discriminate. Qed.

(** C122, a handler reading the body piece by piece. [more]: what the reader has taken ahead. *)
Theorem C122_reads : forall ev tmo s wt s' wt' q b ms b' out k, env_ok ev -> wf_src s ->
  decode ev tmo s wt = (s', wt', OReq q b) -> q_len q = None -> Forall (fun m => 0 < m)%nat ms ->
  reads (body_read ev) ms b = (b', out, k) ->
  exists w x y more, offers tmo s w /\ src_data s = w ++ x ++ y /\ (k <> Going -> more = []) /\
  ((body_trailers b' = [] /\ begun (out ++ more) x) \/
   exists h hs, body_trailers b' = [h] /\ entire (e_trim ev) (out ++ more) hs x /\ hm_wf h /\ forall n, values n (hm_iter h) = values n hs).
Proof.
  intros ev tmo s wt s' wt' q b ms b' out k He Ws H Hn F R. destruct (request_reader ev tmo s wt s' wt' q b He Ws H) as (w & br & HO & HD & HW & HC & ->).
  rewrite Hn in R. destruct (buffered_fin ev br ms b' out k (ok_cap ev He) F R) as (more & M & x & y & E & FN).
  exists w, x, y, more. split; [exact HO|]. split; [now rewrite HD, E|]. split; [exact M|]. destruct FN as [FN|(m & hs & F1 & F2 & F3)]; [now left|].
  right. exists m, hs. destruct (append_values _ _ F3). auto.
Qed.
Print Assumptions C122_reads.

(** C122, [into_bytes_with_trailer] and [into_string_with_trailer]: success means that the request is
    chunked, that a complete message came, that its whole body is returned and that its trailers
    are. There is no success with a body cut short, nor one with no trailers. *)
Theorem C122_request : forall ev tmo s wt s' wt' q b fuel sz l t, (forall i, 0 < sz i)%nat -> env_ok ev -> wf_src s ->
  decode ev tmo s wt = (s', wt', OReq q b) -> let f := msg_body (q_len q) b in
  into_bytes_with_trailer ev fuel sz f = TOk l t \/ into_string_with_trailer ev fuel sz f = TOk l t ->
  q_len q = None /\ exists w h hs x y, offers tmo s w /\ src_data s = w ++ x ++ y /\ t = Some h /\
    entire (e_trim ev) l hs x /\ hm_wf h /\ (forall n, values n (hm_iter h) = values n hs) /\
    forall p tr wire cut extra, chunked_message p tr wire -> src_data s ++ cut = w ++ wire ++ extra ->
      l = p /\ (forall n, values n (hm_iter h) = values n tr) /\ x = wire.
Proof.
  intros ev tmo s wt s' wt' q b fuel sz l t P He Ws H f R. subst f. destruct (request_reader ev tmo s wt s' wt' q b He Ws H) as (w & br & HO & HD & HW & HC & ->).
  assert (R' : into_bytes_with_trailer ev fuel sz (msg_body (q_len q) (body_reader ev (q_len q) br)) = TOk l t) by (destruct R as [R|R]; [exact R|exact (string_bytes _ _ _ _ _ _ R)]).
  clear R. destruct (q_len q) as [n|] eqn:EL; [exfalso; exact (fixed_cert _ _ _ _ _ _ _ R')|]. split; [reflexivity|].
  destruct (trailer_cert ev br fuel sz l t (ok_cap ev He) P R') as (h & hs & x & y & -> & E & HE & HM & HV).
  exists w, h, hs, x, y. split; [exact HO|]. split; [now rewrite HD, E|]. repeat (split; [assumption || reflexivity|]).
  intros p tr wire cut extra HP HX. rewrite HD, E, <- !app_assoc in HX. apply app_inv_head in HX. destruct (entire_unique _ _ _ _ _ _ _ _ _ HE HP HX) as (-> & -> & ->). auto.
Qed.
Print Assumptions C122_request.
(** The whole message, and the message cut off after 19 bytes by the peer closing: a plain read
    ends silently (C16), the read with trailers does not. *)
Example C122_case : let s := mkSrc [Data (chunk_head ++ wiki_wire)] Eof in let s2 := mkSrc [Data (chunk_head ++ firstn 19 wiki_wire)] Eof in
  wf_src s /\ wf_src s2 /\
  match decode (ev0 true) true s slow with
  | (_, _, OReq q b) => q_len q = None /\
      (let '(b', out, k) := reads (body_read (ev0 true)) [3; 3; 3; 3; 3; 3]%nat b in out = B "Wikipedia" /\ k = Ended /\ body_trailers b' <> []) /\
      match into_string_with_trailer (ev0 true) 20 growing (msg_body (q_len q) b) with
      | TOk l (Some h) => l = B "Wikipedia" /\ hm_iter h = [(B "expires", B "never")]
      | _ => False
      end
  | _ => False
  end /\
  match decode (ev0 true) true s2 slow with
  | (_, _, OReq q b) => into_bytes (ev0 true) 20 growing (msg_body (q_len q) b) = ROk (B "Wikipe") /\
      into_bytes_with_trailer (ev0 true) 20 growing (msg_body (q_len q) b) = THangs
  | _ => False
  end.
Proof. cbv zeta. split; [repeat constructor; discriminate|]. split; [repeat constructor; discriminate|]. vm_compute. repeat match goal with |- _ /\ _ => split | |- _ = _ => reflexivity | |- _ = _ -> False => discriminate end. Qed.

(** C122, the body of a response the client receives. *)
Theorem C122_client : forall ev s w rest, env_ok ev -> delivers s w rest -> cjudge (e_trim ev) w CvChunked ->
  exists b a, c_decode ev s = (b, COk a) /\ forall fuel sz l t, (forall i, 0 < sz i)%nat ->
  into_bytes_with_trailer ev fuel sz (a_body a) = TOk l t \/ into_string_with_trailer ev fuel sz (a_body a) = TOk l t ->
  exists h hs x y, src_data s = w ++ x ++ y /\ t = Some h /\
    entire (e_trim ev) l hs x /\ hm_wf h /\ (forall n, values n (hm_iter h) = values n hs) /\
    forall p tr wire cut extra, chunked_message p tr wire -> src_data s ++ cut = w ++ wire ++ extra ->
      l = p /\ (forall n, values n (hm_iter h) = values n tr) /\ x = wire.
Proof.
  intros ev s w rest He D J. assert (L : (N.of_nat (length w) < 8192)%N) by now inversion J.
  destruct (decode_short ev (proj1 He) (ok_cap ev He) s w rest D L) as (b & (HW & _ & HD & HC & _) & E & Q). pose proof (Q _ J) as E2. cbn [canswers] in E2.
  destruct (c_decode ev s) as [b' out]. cbn [fst snd] in E, E2. subst b' out. eexists b, _. split; [reflexivity|]. cbn [a_body].
  intros fuel sz l t P R.
  assert (R' : into_bytes_with_trailer ev fuel sz (msg_body None (RChunked [] (dec_new ev b))) = TOk l t) by (destruct R as [R|R]; [exact R|exact (string_bytes _ _ _ _ _ _ R)]).
  destruct (trailer_cert ev b fuel sz l t (ok_cap ev He) P R') as (h & hs & x & y & -> & E & HE & HM & HV).
  exists h, hs, x, y. split; [now rewrite HD, E|]. repeat (split; [assumption || reflexivity|]).
  intros p tr wire cut extra HP HX. rewrite HD, E, <- !app_assoc in HX. apply app_inv_head in HX. destruct (entire_unique _ _ _ _ _ _ _ _ _ HE HP HX) as (-> & -> & ->). auto.
Qed.
Print Assumptions C122_client.
Example C122_client_case : let s := mkSrc [Data wiki_resp; Data (firstn 19 wiki_wire); Pend false; Data (skipn 19 wiki_wire)] Eof in
  delivers s wiki_resp wiki_wire /\ cjudge (e_trim (ev0 true)) wiki_resp CvChunked /\
  match c_decode (ev0 true) s with
  | (_, COk a) => match into_string_with_trailer (ev0 true) 20 growing (a_body a) with TOk l (Some h) => l = B "Wikipedia" /\ hm_iter h = [(B "expires", B "never")] | _ => False end
  | _ => False
  end.
Proof.
  cbv zeta. split; [split; [repeat constructor; discriminate|split; [apply resp_blockb_ok; vm_compute; reflexivity|vm_compute; reflexivity]]|].
  split; [eapply cj_chunked; [cbn; lia|eapply parses; vm_compute; reflexivity|reflexivity|eexists; reflexivity]|]. vm_compute. auto.
Qed.
