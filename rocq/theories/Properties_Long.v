(** Property C123: a well-formed chunked body is never reported as broken. *)
From Verif Require Import Client Accept BodyRead Reads SpecChunked SpecHead SpecReq SpecServer SpecBody SpecClient SpecLax Lemmas
  Proofs_Dec Proofs_ServerDec Proofs_Accept Proofs_Request Proofs_ClientDec Proofs_RelayReq Proofs_Long
  Examples_Response Examples_Dec Examples_Request Examples_Client Properties_Body Properties_Client.

(** C123, the decoder: on a connection without failures, a message of any number of chunks of any
    sizes, with size lines and trailers below 512 MiB, gives no error, no panic and no poll without
    end, and the end comes after a bounded number of reads. The body may still be cut short (C13);
    then no trailers come. *)
Theorem C123_decoder : forall ev br p tr wire extra ns d' out k,
  grow_ok ev -> bounded line_limit p tr wire -> clean (br_src br) -> br_data br = wire ++ extra -> Forall (fun n => 0 < n)%nat ns ->
  reads (dec_read ev) ns (dec_new ev br) = (d', out, k) ->
  match k with
  | Going => prefix out p /\ (length ns <= br_size br)%nat
  | Ended => prefix out p /\ (d_chan d' = [] \/ out = p /\ exists h, d_chan d' = [h] /\ forall n, values n (hm_iter h) = values n tr)
  | _ => False
  end.
Proof. exact long_reads. Qed.
Print Assumptions C123_decoder.
Lemma wikis_bounded k : bounded line_limit (wikip k) [] (wikis k ++ (B "0" ++ CRLF) ++ [] ++ CRLF).
Proof.
  exists (wikis k), (B "0" ++ CRLF), []. split.
  - induction k; [constructor|]. cbn [wikip wikis]. constructor; [discriminate| |assumption].
    split; [apply (line1 (ascii_of_N 52) 4 []); [now right|exact no_ext]|now vm_compute].
  - split; [exact line0|]. split; [now vm_compute|]. split; [constructor|]. split; [cbn; lia|]. split; [now vm_compute|reflexivity].
Qed.
(** The message of [C13_complete_refuted], in one segment and in two: cut short in the one case,
    complete in the other. *)
Example C123_decoder_case : let w := wikis 460 ++ (B "0" ++ CRLF) ++ [] ++ CRLF in
  bounded line_limit (wikip 460) [] w /\ clean (br_src (conn [Data w])) /\ br_data (conn [Data w]) = w ++ [] /\
  (let '(d', out, k) := reads (dec_read (ev0 true)) (repeat 100%nat 2000) (dec_new (ev0 true) (conn [Data w])) in
     k = Ended /\ d_chan d' = [] /\ (length out <? length (wikip 460))%nat = true) /\
  (let '(d', out, k) := reads (dec_read (ev0 true)) (repeat 100%nat 2000) (dec_new (ev0 true) (conn [Data (firstn 1805 w); Data (skipn 1805 w)])) in
     k = Ended /\ d_chan d' <> []).
Proof.
  cbv zeta. split; [exact (wikis_bounded 460)|]. split; [split; [repeat constructor; discriminate|reflexivity]|]. split; [now rewrite app_nil_r|].
  vm_compute. repeat match goal with |- _ /\ _ => split | |- _ = _ => reflexivity | |- _ = _ -> False => discriminate end.
Qed.

(** C123, a handler reading the body piece by piece. *)
Theorem C123_reads : forall ev tmo s wt s' wt' q b, env_ok ev -> wf_src s -> clean s ->
  decode ev tmo s wt = (s', wt', OReq q b) -> q_len q = None ->
  exists w rest m, offers tmo s w /\ src_data s = w ++ rest /\
  forall p tr wire extra ms b' out k, bounded line_limit p tr wire -> rest = wire ++ extra -> Forall (fun m => 0 < m)%nat ms ->
  reads (body_read ev) ms b = (b', out, k) ->
  match k with
  | Going => prefix out p /\ (length ms <= m + length p)%nat
  | Ended => prefix out p /\ (body_trailers b' = [] \/ out = p /\ exists h, body_trailers b' = [h] /\ forall n, values n (hm_iter h) = values n tr)
  | _ => False
  end.
Proof.
  intros ev tmo s wt s' wt' q b He Ws Cs H Hn. destruct (request_reader ev tmo s wt s' wt' q b He Ws H) as (w & br & HO & HD & HW & HC & ->).
  exists w, (br_data br), (br_size br). split; [exact HO|]. split; [exact HD|]. intros p tr wire extra ms b' out k HB ER F R. rewrite Hn in R.
  pose proof He as (_ & _ & _ & _ & G). exact (long_body ev br p tr wire extra ms b' out k (ok_cap ev He) G HB (proj1 HC Cs) ER F R).
Qed.
Print Assumptions C123_reads.

(** C123, the whole body: [into_bytes] succeeds, with the body or the beginning of it;
    [into_bytes_with_trailer] succeeds with the whole body or does not return. *)
Theorem C123_whole : forall ev tmo s wt s' wt' q b sz, (forall i, 0 < sz i)%nat -> env_ok ev -> wf_src s -> clean s ->
  decode ev tmo s wt = (s', wt', OReq q b) -> q_len q = None ->
  exists w rest, offers tmo s w /\ src_data s = w ++ rest /\ let f := msg_body (q_len q) b in
  forall p tr wire extra, bounded line_limit p tr wire -> rest = wire ++ extra ->
  exists l, prefix l p /\ settles (fun fuel => into_bytes ev fuel sz f) (ROk l) /\
    (settles (fun fuel => into_bytes_with_trailer ev fuel sz f) THangs \/
     l = p /\ exists h, settles (fun fuel => into_bytes_with_trailer ev fuel sz f) (TOk p (Some h)) /\ forall n, values n (hm_iter h) = values n tr).
Proof.
  intros ev tmo s wt s' wt' q b sz P He Ws Cs H Hn. destruct (request_reader ev tmo s wt s' wt' q b He Ws H) as (w & br & HO & HD & HW & HC & ->).
  exists w, (br_data br). split; [exact HO|]. split; [exact HD|]. cbv zeta. rewrite Hn. intros p tr wire extra HB ER.
  pose proof He as (_ & _ & _ & _ & G). exact (long_whole ev sz br p tr wire extra P (ok_cap ev He) G HB (proj1 HC Cs) ER).
Qed.
Print Assumptions C123_whole.
(** A request with 460 chunks. *)
Example C123_case : let w := wikis 460 ++ (B "0" ++ CRLF) ++ [] ++ CRLF in let s := mkSrc [Data chunk_head; Data w] Eof in
  wf_src s /\ clean s /\ src_data s = chunk_head ++ w ++ [] /\ bounded line_limit (wikip 460) [] w /\
  match decode (ev0 true) true s slow with
  | (_, _, OReq q b) => q_len q = None /\
      (let '(_, out, k) := reads (body_read (ev0 true)) (repeat 100%nat 600) b in k = Ended /\ (length out <? length (wikip 460))%nat = true) /\
      match into_bytes (ev0 true) 600 growing (msg_body (q_len q) b) with ROk l => (length l <? length (wikip 460))%nat = true | _ => False end /\
      into_bytes_with_trailer (ev0 true) 600 growing (msg_body (q_len q) b) = THangs
  | _ => False
  end.
Proof.
  cbv zeta. split; [repeat constructor; vm_compute; discriminate|]. split; [split; [repeat constructor; discriminate|reflexivity]|].
  split; [vm_compute; reflexivity|]. split; [exact (wikis_bounded 460)|]. vm_compute. auto.
Qed.

(** C123, the body of a response the client receives. *)
Theorem C123_client : forall ev s w rest sz, (forall i, 0 < sz i)%nat -> env_ok ev -> delivers s w rest -> clean s -> cjudge (e_trim ev) w CvChunked ->
  exists b a, c_decode ev s = (b, COk a) /\
  forall p tr wire extra, bounded line_limit p tr wire -> src_data s = w ++ wire ++ extra ->
  exists l, prefix l p /\ settles (fun fuel => into_bytes ev fuel sz (a_body a)) (ROk l) /\
    (settles (fun fuel => into_bytes_with_trailer ev fuel sz (a_body a)) THangs \/
     l = p /\ exists h, settles (fun fuel => into_bytes_with_trailer ev fuel sz (a_body a)) (TOk p (Some h)) /\ forall n, values n (hm_iter h) = values n tr).
Proof.
  intros ev s w rest sz P He D Cs J. assert (L : (N.of_nat (length w) < 8192)%N) by now inversion J.
  destruct (decode_short ev (proj1 He) (ok_cap ev He) s w rest D L) as (b & (HW & _ & HD & HC & _) & E & Q). pose proof (Q _ J) as E2. cbn [canswers] in E2.
  destruct (c_decode ev s) as [b' out]. cbn [fst snd] in E, E2. subst b' out. eexists b, _. split; [reflexivity|]. cbn [a_body].
  intros p tr wire extra HB ER. rewrite HD in ER. apply app_inv_head in ER.
  pose proof He as (_ & _ & _ & _ & G). exact (long_whole ev sz b p tr wire extra P (ok_cap ev He) G HB (proj1 HC Cs) ER).
Qed.
Print Assumptions C123_client.
Example C123_client_case : let w := wikis 460 ++ (B "0" ++ CRLF) ++ [] ++ CRLF in let s := mkSrc [Data wiki_resp; Data w] Eof in
  delivers s wiki_resp w /\ clean s /\ src_data s = wiki_resp ++ w ++ [] /\ cjudge (e_trim (ev0 true)) wiki_resp CvChunked /\
  match c_decode (ev0 true) s with
  | (_, COk a) => match into_bytes (ev0 true) 600 growing (a_body a) with ROk l => (length l <? length (wikip 460))%nat = true | _ => False end
  | _ => False
  end.
Proof.
  cbv zeta. split; [split; [repeat constructor; vm_compute; discriminate|split; [apply resp_blockb_ok; vm_compute; reflexivity|vm_compute; reflexivity]]|].
  split; [split; [repeat constructor; discriminate|reflexivity]|]. split; [vm_compute; reflexivity|].
  split; [eapply cj_chunked; [cbn; lia|eapply parses; vm_compute; reflexivity|reflexivity|eexists; reflexivity]|]. vm_compute. auto.
Qed.
