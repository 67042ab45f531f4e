(** Property C117: calls of the client one after the other on one transport. *)
From Verif Require Import Client Accept BodyRead SpecBody SpecChunked SpecHead SpecReq SpecResponse SpecServer SpecClient SpecCall Lemmas Proofs_Dec Proofs_Accept Proofs_Request
  Proofs_ServerDec Proofs_ReqParse Proofs_BodyRead Proofs_Client Proofs_ClientDec Proofs_RoundTrip Proofs_ClientUse Proofs_Call Proofs_Reuse Examples_Response Examples_Dec Examples_Request Examples_Accept Examples_Client Properties_Client Properties_Call.

(** C117 is false: a body the caller does not read is left on the transport, and the next call
    takes it for its response. Here the first response carries one of status 403 as its body; the
    answer to the second call has status 204. *)
Definition forged : bytes := lines ["HTTP/1.1 403 Forbidden"; "content-length: 0"]%string.
Definition forty : bytes := lines ["HTTP/1.1 200 OK"; "content-length: 45"]%string.
Definition done204 : bytes := lines ["HTTP/1.1 204 No Content"; "x-a: 1"]%string.
Lemma is_forty : cjudge true forty (CvLength 200 [(B "content-length", B "45")] 45).
Proof. eapply cj_length; [cbn; lia|eapply parses; vm_compute; reflexivity|lia|reflexivity|reflexivity|]. apply cl_value_iff. reflexivity. Qed.
Lemma is_204 : cjudge true done204 (CvNone 204 [(B "x-a", B "1")]).
Proof. eapply cj_none; [cbn; lia|eapply parses; vm_compute; reflexivity|lia|reflexivity|intros [r H]; discriminate H]. Qed.
Lemma is_wiki : cjudge true wiki_resp CvChunked.
Proof. eapply cj_chunked; [cbn; lia|eapply parses; vm_compute; reflexivity|reflexivity|eexists; reflexivity]. Qed.
Lemma is_blocks : resp_block forty /\ resp_block done204 /\ resp_block wiki_resp.
Proof. split; [|split]; apply resp_blockb_ok; vm_compute; reflexivity. Qed.
Definition query : crequest := post_req two_hdrs hello_body.
Theorem C117_unread_refuted : exists s a1 w1 a2 w2,
  s = mkSrc [Data forty; Data forged; Data done204] Eof /\ reply (ev0 true) (forty ++ forged) (CvLength 200 [(B "content-length", B "45")] 45) forged /\
  reply (ev0 true) done204 (CvNone 204 [(B "x-a", B "1")]) [] /\
  connect (ev0 true) 200 query s (mkWtr [] []) = (w1, COk a1) /\ a_status a1 = 200%N /\
  connect (ev0 true) 200 query (br_src (fst (c_decode (ev0 true) s))) w1 = (w2, COk a2) /\ a_status a2 = 403%N.
Proof.
  eexists _, _, _, _, _. split; [reflexivity|].
  split; [exact (ry_length (ev0 true) forty _ _ forged (proj1 is_blocks) is_forty)|].
  split; [exact (ry_none (ev0 true) done204 _ _ (proj1 (proj2 is_blocks)) is_204)|].
  split; [vm_compute; reflexivity|]. split; [vm_compute; reflexivity|]. split; [vm_compute; reflexivity|]. vm_compute. reflexivity.
Qed.
Print Assumptions C117_unread_refuted.
(** So it goes with every response whose body arrives behind its head. *)
Theorem C117_unread : forall ev s lh lb rest w v, env_ok ev -> wf_src s -> s_evs s = lh ++ lb ++ rest -> avail false lh = (w, ObEnd) -> resp_block w ->
  cjudge (e_trim ev) w v -> v <> CvReject ->
  exists pads, calm false pads /\ evs_data pads = [] /\ (exists a, snd (c_decode ev s) = COk a) /\
    br_src (fst (c_decode ev s)) = mkSrc (pads ++ lb ++ rest) (s_tail s).
Proof. exact unread_stays. Qed.
Print Assumptions C117_unread.
Example C117_unread_case : let s := mkSrc [Data (firstn 9 forty); Pend true; Data (skipn 9 forty); Pend false; Data forged; Data done204] Eof in
  wf_src s /\ s_evs s = [Data (firstn 9 forty); Pend true; Data (skipn 9 forty); Pend false] ++ [Data forged] ++ [Data done204] /\
  avail false [Data (firstn 9 forty); Pend true; Data (skipn 9 forty); Pend false] = (forty, ObEnd) /\ resp_block forty /\
  cjudge true forty (CvLength 200 [(B "content-length", B "45")] 45).
Proof. cbv zeta. split; [repeat constructor; discriminate|]. split; [reflexivity|]. split; [vm_compute; reflexivity|]. split; [apply resp_blockb_ok; vm_compute; reflexivity|exact is_forty]. Qed.

(** What holds: when every body is read to its end, any number of calls on one transport are
    written in order, and each is answered by its own reply, whatever the pieces in which the
    replies come, as long as none arrives together with the end of the one before (a server that
    answers requests in order cannot do that: the request has not been written). [rest] is left
    alone. Missing from C117: bodies that are not read to the end, and the status and fields of
    chunked responses (C66). *)
Theorem C117_calls_partial : forall ev sz, env_ok ev -> (forall i, 0 < sz i)%nat -> forall qs, Forall askable qs ->
  exists ms, Forall2 asks qs ms /\
  forall xs ls rest tl w, length xs = length qs -> Forall (fun x => reply ev (fst (fst x)) (snd (fst x)) (snd x)) xs ->
    Forall2 (fun l (x : bytes * cverdict * bytes) => avail false l = (fst (fst x), ObEnd)) ls xs -> Forall (Forall wf_ev) ls -> Forall wf_ev rest -> accepting w ->
  exists F pads w' rs, w_out w' = w_out w ++ concat ms /\ calm false pads /\ evs_data pads = [] /\
    Forall2 (fun x r => returned ev (snd (fst x)) (snd x) r) xs rs /\
    forall fuel, (F <= fuel)%nat -> calls ev fuel sz qs (mkSrc (concat ls ++ rest) tl) w = (mkSrc (pads ++ rest) tl, w', rs).
Proof.
  intros ev sz He P qs HQ. destruct (calls_ok ev sz He P qs HQ) as (ms & M & H). exists ms. split; [exact M|]. intros xs ls rest tl w H1 H2 H3 H4 H5 H6.
  apply (H xs ls [] rest tl w); auto; constructor.
Qed.
Print Assumptions C117_calls_partial.
Definition three_replies : list (bytes * cverdict * bytes) :=
  [(forty ++ forged, CvLength 200 [(B "content-length", B "45")] 45, forged); (wiki_resp ++ wiki_wire, CvChunked, B "Wikipedia");
   (done204, CvNone 204 [(B "x-a", B "1")], [])].
Definition three_arrivals : list (list ev) :=
  [[Data forty; Pend false; Data (firstn 7 forged); Data (skipn 7 forged)]; [Pend true; Data (wiki_resp ++ firstn 5 wiki_wire); Data (skipn 5 wiki_wire); Pend false]; [Data done204]].
Example C117_case : env_ok (ev0 true) /\ Forall askable [query; post_req [] hello_body; query] /\
  Forall (fun x => reply (ev0 true) (fst (fst x)) (snd (fst x)) (snd x)) three_replies /\
  Forall2 (fun l (x : bytes * cverdict * bytes) => avail false l = (fst (fst x), ObEnd)) three_arrivals three_replies /\
  Forall (Forall wf_ev) three_arrivals /\ accepting slow.
Proof.
  split; [apply ev0_ok|]. split.
  { assert (WB : wf_src split_src /\ clean split_src) by (split; [apply split_wf|apply split_clean]).
    assert (Q2 : askable query) by (split; [apply post_wf, two_wf|split; [apply post_addressed|split; [eexists; reflexivity|exact WB]]]).
    assert (Q0 : askable (post_req [] hello_body)).
    { split; [apply post_wf; split; constructor|]. split; [split; eexists; [eapply tg_query; [discriminate|reflexivity]|eapply hf_port; reflexivity]|].
      split; [eexists; reflexivity|exact WB]. }
    constructor; [exact Q2|constructor; [exact Q0|constructor; [exact Q2|constructor]]]. }
  split.
  { constructor; [exact (ry_length (ev0 true) forty _ _ forged (proj1 is_blocks) is_forty)|].
    constructor; [exact (ry_chunked (ev0 true) wiki_resp _ _ _ (proj2 (proj2 is_blocks)) is_wiki wiki_fits)|].
    constructor; [exact (ry_none (ev0 true) done204 _ _ (proj1 (proj2 is_blocks)) is_204)|constructor]. }
  split; [repeat constructor; vm_compute; reflexivity|]. split; [repeat constructor; discriminate|apply slow_accepting].
Qed.
(** ... and what the caller sees then. *)
Example C117_run : let '(s, w, rs) := calls (ev0 true) 200 (fun i => S i) [query; post_req [] hello_body; query] (mkSrc (concat three_arrivals ++ [Data (B "HTTP")]) Eof) slow in
  s = mkSrc [Data (B "HTTP")] Eof /\ map (fun r => match r with (COk a, ROk p) => (a_status a, p) | _ => (0%N, []) end) rs = [(200%N, forged); (200%N, B "Wikipedia"); (204%N, [])].
Proof. vm_compute. auto. Qed.

(** The replies of a server of this crate are such. *)
Theorem C117_server : forall sev cev r, env_ok sev -> plain_value (e_date sev) -> env_ok cev -> answerable sev r ->
  exists head bt, response_head (e_date sev) r head /\ body_text (r_body r) bt /\ writes sev r (head ++ bt) /\
  ((N.of_nat (length head) < 8192)%N -> (b_len (r_body r) = None -> fitting (e_deccap cev) (src_data (b_src (r_body r))) [] bt) ->
   exists v p, told sev r v p /\ reply cev (head ++ bt) v p).
Proof. exact answer_reply. Qed.
Print Assumptions C117_server.
Example C117_server_case : answerable (ev0 true) streamed /\ plain_value (e_date (ev0 true)) /\
  (forall bt, body_text (r_body streamed) bt -> fitting (e_deccap (ev0 true)) (src_data (b_src (r_body streamed))) [] bt).
Proof.
  split; [|split; [apply ev0_plain|]].
  - destruct C102_case as (_ & _ & H & _). inversion H as [|? ? _ H2]; subst. inversion H2 as [|? ? [_ K] _]; subst. exact K.
  - intros bt BT. apply (C102_short_fits _ _ _ BT); [reflexivity|]. rewrite ev0_deccap. cbn. lia.
Qed.
