(** Property C129: the errors of [connect]. *)
From Verif Require Import ClientErr SpecText SpecHead SpecReq SpecResponse SpecClient SpecErr Lemmas Proofs_Client Proofs_ClientDec Proofs_ClientErr
  Examples_Response Examples_Dec Examples_Request Examples_Client Properties_Client.

(** C129. A failed call has an error, and its text names a reason that holds: it says which part
    of the address is missing (and nothing was written), that the request could not be written
    (what was written is the beginning of it), or what was wrong with the answer (and the request
    was written whole). *)
Theorem C129_says_partial : forall T ev fuel q s w w', env_wf ev -> (0 < e_bufcap ev)%nat -> creq_wf q -> wf_src (b_src (c_body q)) -> wf_src s ->
  connect ev fuel q s w = (w', CErr) ->
  exists e o, connect_why T ev fuel q s w = Some e /\ w_out w' = w_out w ++ o /\ complains T (e_trim ev) q s w o (error_text e).
Proof.
  intros T ev fuel q s w w' He Hc Wq Wb Ws H. pose proof (connect_why_iff T ev fuel q s w) as [_ X]. rewrite H in X. specialize (X eq_refl).
  destruct (connect_why T ev fuel q s w) as [e|] eqn:E; [|now elim X].
  destruct (connect_says _ _ _ _ _ _ _ He Hc Wq Wb Ws E) as (o & O & C). rewrite H in O. eauto.
Qed.
Print Assumptions C129_says_partial.

(** An error is returned by no other call. *)
Theorem C129_agrees : forall T ev fuel q s w, connect_why T ev fuel q s w <> None <-> snd (connect ev fuel q s w) = CErr.
Proof. exact connect_why_iff. Qed.
Print Assumptions C129_agrees.

Definition words : texts :=
  mkTexts (B "broken pipe") (B "connection reset") (B "invalid header value") (B "bad value") (B "bad name") (B "not text") (B "invalid digit found in string") (B "invalid status code").
Definition told (q : crequest) (s : src) (w : wtr) : bytes :=
  match connect_why words (ev0 true) 400 q s w with Some e => error_text e | None => [] end.
Definition low_status : bytes := lines ["HTTP/1.1 099 Low"]%string.
Definition old_resp : bytes := lines ["HTTP/1.0 200 OK"]%string.
Definition no_colon : bytes := lines ["HTTP/1.1 200 OK"; "x"]%string.
Definition ten_four : bytes := lines ["HTTP/1.1 200 OK"; "content-length: 1O"]%string.
Example C129_case : let q := post_req two_hdrs hello_body in
  env_wf (ev0 true) /\ (0 < e_bufcap (ev0 true))%nat /\ creq_wf q /\ wf_src (b_src (c_body q)) /\
  wf_src (arrives both_resp wiki_wire) /\ snd (connect (ev0 true) 400 q (arrives both_resp wiki_wire) slow) = CErr /\
  told nowhere (arrives five []) slow = B "Some(""Missing port"")" /\
  told q (mkSrc [] Eof) slow = B "Some(""Empty response"")" /\
  told q (mkSrc [Data (B "HTTP/1.1 2"); Fail] Eof) slow = B "None: connection reset" /\
  told q (arrives both_resp wiki_wire) slow = B "Some(""Unexpected Content-Length header"")" /\
  told q (arrives old_resp []) slow = B "Some(""Unsupported HTTP version"")" /\
  told q (arrives no_colon []) slow = B "None: invalid header value" /\
  told q (arrives ten_four []) slow = B "None: invalid digit found in string" /\
  told q (arrives low_status []) slow = B "None: invalid status code" /\
  told q (arrives five []) (mkWtr [WAcc 9; WFail] []) = B "Io Error: broken pipe".
Proof.
  cbv zeta. split; [apply ev0_wf|]. split; [vm_compute; lia|]. split; [apply post_wf, two_wf|]. split; [apply split_wf|]. split; [apply arrives_wf; vm_compute; lia|].
  repeat split; vm_compute; reflexivity.
Qed.

(** C129 is false of one text: a server that closes in the middle of the head is said to have
    sent an empty response. *)
Theorem C129_empty_refuted : exists T ev fuel q s w w' e, creq_wf q /\ wf_src s /\ clean s /\ connect ev fuel q s w = (w', CErr) /\
  connect_why T ev fuel q s w = Some e /\ error_text e = B "Some(""Empty response"")" /\ src_data s <> [].
Proof.
  exists words, (ev0 true), 400%nat, (post_req two_hdrs hello_body), (mkSrc [Data (B "HTTP/1.1 200 OK"); Data (CRLF ++ B "content-le")] Eof), slow. eexists _, _.
  split; [apply post_wf, two_wf|]. split; [repeat constructor; discriminate|]. split; [split; [repeat constructor; discriminate|reflexivity]|].
  split; [vm_compute; reflexivity|]. split; [vm_compute; reflexivity|]. split; [reflexivity|discriminate].
Qed.
Print Assumptions C129_empty_refuted.
