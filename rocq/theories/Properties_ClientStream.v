(** Properties C103 and C104: the client passes on what has arrived or has been produced before it
    waits for more. *)
From Verif Require Import Accept Client BodyRead Reads SpecChunked SpecHead SpecResponse SpecReq SpecServer SpecBody SpecClient Lemmas Proofs_Copy
  Proofs_Dec Proofs_ServerDec Proofs_Accept Proofs_Client Proofs_ClientDec Proofs_Stream Proofs_InTime Proofs_ClientStream
  Examples_Response Examples_Dec Examples_Request Examples_Client Properties_Client.

(** C103: the answer is returned when its head has arrived: of what comes after the events that
    bring the head, nothing is taken and nothing is waited for ... *)
Theorem C103_head : forall ev s l1 l2 w rest, env_ok ev -> wf_src s -> s_evs s = l1 ++ l2 -> fst (avail false l1) = w ++ rest -> resp_block w ->
  (N.of_nat (length w) < 8192)%N -> exists l, s_evs (br_src (fst (c_decode ev s))) = l ++ l2.
Proof. intros ev s l1 l2 w rest (_ & H7 & _). apply decode_stops. clear -H7. lia. Qed.
Print Assumptions C103_head.
(** ... and data of the body that have arrived are handed to the caller before the connection is
    waited on. Of what comes after the head [w], [held] has been taken from the connection already.
    (The first case is an answer without a body.) *)
Theorem C103_in_time : forall ev s w rest b a, env_ok ev -> delivers s w rest -> c_decode ev s = (b, COk a) ->
  f_rdr (a_body a) = RSrc (mkSrc [] Eof) \/
  exists rb held, f_rdr (a_body a) = RMsg rb /\ src_data s = w ++ held ++ src_data (body_src rb) /\
    in_time ev (f_len (a_body a)) held rb /\ waits_rightly ev rb.
Proof.
  intros ev s w rest b a He D H. destruct (answer_reader ev s w rest b a He D H) as [Q|(br & HW & HD & Q)]; [now left|right].
  exists (body_reader ev (f_len (a_body a)) br), (br_buf br). split; [exact Q|]. split; [now rewrite reader_src|]. split; [now apply reader_in_time|now apply reader_waits].
Qed.
Print Assumptions C103_in_time.
(** The head comes in two segments, with a wait between them; then half of a chunk, and a wait. *)
Definition wiki_halves : src := mkSrc ([Data (firstn 30 wiki_resp); Pend false; Data (skipn 30 wiki_resp ++ B "4"); Data (CRLF ++ B "Wi")] ++ [Pend false; Data (skipn 5 wiki_wire)]) FailForever.
Example C103_case : wf_src wiki_halves /\ delivers wiki_halves wiki_resp wiki_wire /\ s_evs (br_src (fst (c_decode (ev0 true) wiki_halves))) = [Data (CRLF ++ B "Wi"); Pend false; Data (skipn 5 wiki_wire)] /\
  exists b a rb rb', c_decode (ev0 true) wiki_halves = (b, COk a) /\ f_len (a_body a) = None /\ f_rdr (a_body a) = RMsg rb /\
  body_src rb = mkSrc ([Data (CRLF ++ B "Wi")] ++ Pend false :: [Data (skipn 5 wiki_wire)]) FailForever /\
  wiki_wire = (B "4" ++ evs_data [Data (CRLF ++ B "Wi")]) ++ skipn 5 wiki_wire /\
  reads (body_read (ev0 true)) [10%nat] rb = (rb', B "Wi", Going) /\ s_evs (body_src rb') = [Pend false; Data (skipn 5 wiki_wire)].
Proof.
  assert (W : wf_src wiki_halves) by (repeat constructor; vm_compute; discriminate).
  split; [exact W|]. split. { split; [exact W|]. split; [apply resp_blockb_ok; vm_compute; reflexivity|vm_compute; reflexivity]. }
  split; [vm_compute; reflexivity|]. eexists _, _, _, _. split; [vm_compute; reflexivity|]. split; [reflexivity|]. split; [reflexivity|]. split; [vm_compute; reflexivity|].
  split; [vm_compute; reflexivity|]. split; [vm_compute; reflexivity|]. vm_compute. reflexivity.
Qed.

(** C104: when the body of a request has produced [evs] and then makes the client wait, the head and
    all data produced so far are on the connection, whatever the reader does after that and whatever
    the peer sends. (A body that is not ready does not make the client wait while there is some of
    the head to send: a body that has produced nothing yet is asked once for every buffer the head
    fills, and waited for if it is not ready at the last time; hence [S k].) *)
Theorem C104_streams : forall ev q n evs f, (0 < e_bufcap ev)%nat -> creq_wf q -> addressed q -> b_len (c_body q) = Some n ->
  Forall wf_ev evs -> clean_evs evs ->
  exists h, creq_head q h /\ forall k, (length h <= e_bufcap ev * S k)%nat \/ evs_data evs <> [] ->
  forall w, accepting w -> exists enough, forall rest tl s fuel, (enough <= fuel)%nat ->
    prefix (w_out w ++ h ++ evs_data evs) (w_out (fst (connect ev fuel (with_src q (mkSrc (evs ++ repeat (Pend f) (S k) ++ rest) tl)) s w))).
Proof.
  intros ev q n evs f Hc W A HL HE HC. destruct (encode_defined q n) as (h & E); [apply W|exact A|exact HL|]. exists h. split; [now apply encode_reads|].
  intros k HB w Ha. now apply connect_streams.
Qed.
Print Assumptions C104_streams.
(** In every state of the encoder: it waits only when the head has been passed on, and only on the
    body's reader. *)
Theorem C104_waits : forall n e e' f, (0 < n)%nat -> Client.cenc_poll n e = (e', PPend f) -> ce_head e = [] /\ s_evs (ce_src e) = Pend f :: s_evs (ce_src e').
Proof. exact cenc_wait. Qed.
Print Assumptions C104_waits.
(** A body that produces "he" and "llo", makes the client wait and then fails. *)
Example C104_case : let q := post_req two_hdrs hello_body in let evs := [Data (B "he"); Pend false; Data (B "llo")] in
  creq_wf q /\ addressed q /\ Forall wf_ev evs /\ clean_evs evs /\ evs_data evs <> [] /\ accepting slow /\
  w_out (fst (connect (ev0 true) 200 (with_src q (mkSrc (evs ++ Pend false :: [Fail]) FailForever)) (mkSrc [] FailForever) slow)) =
  lines ["POST /up?a=b HTTP/1.1"; "host: h.example:8080"; "content-length: 11"; "accept: */*"; "x-a: 1"; "x-a: 2"]%string ++ B "hello".
Proof.
  cbv zeta. split; [apply post_wf, two_wf|]. split; [apply post_addressed|]. split; [repeat constructor; discriminate|]. split; [repeat constructor; discriminate|].
  split; [discriminate|]. split; [apply slow_accepting|]. vm_compute. reflexivity.
Qed.
(** A head of more than two buffers of fifty bytes, and a body that is not ready, for as long as it
    is asked while the head is sent, and then fails. *)
Definition ev50 : env :=
  let e := ev0 true in mkEnv (e_date e) (e_hexlen e) (e_uri e) (e_trim e) (e_ovf e) 50 (e_deccap e) (e_grow e) (e_stale e).
Example C104_large_case : let q := post_req two_hdrs hello_body in
  let h := lines ["POST /up?a=b HTTP/1.1"; "host: h.example:8080"; "content-length: 11"; "accept: */*"; "x-a: 1"; "x-a: 2"]%string in
  (50 * 1 < length h <= e_bufcap ev50 * 3)%nat /\
  w_out (fst (connect ev50 200 (with_src q (mkSrc ([] ++ repeat (Pend false) 3 ++ [Fail]) FailForever)) (mkSrc [] FailForever) slow)) = h.
Proof. cbv zeta. split; [vm_compute; lia|]. vm_compute. reflexivity. Qed.
Example C104_waits_case : exists e1 e2 x, Client.cenc_poll 20 (mkCenc (B "GET / HTTP/1.1") (mkSrc [Pend false; Pend false; Data (B "he")] Eof) false) = (e1, POk x) /\
  Client.cenc_poll 20 e1 = (e2, PPend false).
Proof. eexists _, _, _. split; [vm_compute; reflexivity|]. vm_compute. reflexivity. Qed.
