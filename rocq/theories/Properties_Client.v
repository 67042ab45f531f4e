(** Properties C63-C68 and C77-C85: the client. *)
From Verif Require Import Accept Client BodyRead SpecBody SpecChunked SpecHead SpecReq SpecResponse SpecServer SpecClient Lemmas Proofs_Head Proofs_Copy Proofs_Dec Proofs_DecMsg Proofs_DecReads Proofs_ServerDec Proofs_Accept Proofs_Request Proofs_Send
  Proofs_BodyRead Proofs_Client Proofs_ClientDec Proofs_RoundTrip Proofs_ClientUse Examples_Response Examples_Dec Examples_Request Examples_Client Proofs_Text.

(** Read sizes as [read_to_end] may choose them. *)
Local Definition growing (i : nat) : nat := (3 + i)%nat.
Local Ltac sizes := intros i; unfold growing; lia.

(** C63. What reaches the connection is the head due and then the body's bytes, whatever the
    write schedule and whatever the peer sends. The reply is read when all of it was written;
    otherwise the call fails, having written a part from the start. *)
Theorem C63_written : forall ev q n, (0 < e_bufcap ev)%nat -> creq_wf q -> addressed q -> b_len (c_body q) = Some n -> wf_src (b_src (c_body q)) ->
  exists h, creq_head q h /\ forall s w, exists w' p out, settles (fun fuel => connect ev fuel q s w) (w', out) /\ w_out w' = w_out w ++ p /\
    let m := h ++ src_data (b_src (c_body q)) in
    prefix p m /\ (p = m /\ clean (b_src (c_body q)) /\ out = snd (c_decode ev s) \/ out = CErr /\ ~ (clean (b_src (c_body q)) /\ accepting w)).
Proof. exact connect_written. Qed.
Print Assumptions C63_written.
Example C63_case : let q := post_req two_hdrs hello_body in
  creq_wf q /\ addressed q /\ wf_src (b_src (c_body q)) /\ clean (b_src (c_body q)) /\ accepting slow /\
  w_out (fst (connect (ev0 true) 200 q (arrives (lines ["HTTP/1.1 204 No Content"]%string) []) slow)) =
  lines ["POST /up?a=b HTTP/1.1"; "host: h.example:8080"; "content-length: 11"; "accept: */*"; "x-a: 1"; "x-a: 2"]%string ++ B "hello world".
Proof.
  cbv zeta. split; [apply post_wf, two_wf|]. split; [apply post_addressed|]. split; [apply split_wf|]. split; [apply split_clean|]. split; [apply slow_accepting|].
  vm_compute. reflexivity.
Qed.

(** C63, a request without a target or a host: an error, and nothing is written. *)
Theorem C63_unaddressed : forall ev fuel q s w, creq_wf q -> ~ addressed q -> connect ev fuel q s w = (w, CErr).
Proof. exact connect_unaddressed. Qed.
Print Assumptions C63_unaddressed.
Definition nowhere : crequest := mkCreq (B "CONNECT") (mkUri (Some (B "h.example")) None (B "/") None) [] hello_body.
Example C63_unaddressed_case : creq_wf nowhere /\ ~ addressed nowhere.
Proof.
  split.
  - repeat split; try discriminate; repeat constructor; vm_compute; discriminate.
  - intros [[t T] _]. inversion T as [h p _ _ X|X|x X]; [discriminate X|now elim X|now elim X].
Qed.

(** C64 is false: the server strips blanks around header values, which the http crate allows
    in values ... *)
Definition no_content : bytes := lines ["HTTP/1.1 204 No Content"]%string.
Definition trips (q : crequest) (q' : rhead) (b : rbody) : Prop :=
  exists fuel s0 w w' a s wt s' wt', connect (ev0 true) fuel q s0 w = (w', COk a) /\ w_out w = [] /\
    wf_src s /\ clean s /\ src_data s = w_out w' /\ decode (ev0 true) true s wt = (s', wt', OReq q' b).
Definition sendable (q : crequest) : Prop :=
  creq_wf q /\ addressed q /\ (exists r, u_path (c_uri q) = "/"%char :: r) /\ (length (hm_iter (c_hdrs q)) <= 14)%nat /\
  wf_src (b_src (c_body q)) /\ clean (b_src (c_body q)) /\ b_len (c_body q) = Some (N.of_nat (length (src_data (b_src (c_body q))))).
Lemma one_sendable n v : name_ok (B n) && forallb is_value_byte (B v) && negb (beq (B n) (B "host")) = true -> sendable (post_req [hdr n v] hello_body).
Proof.
  intros H. apply andb_true_iff in H as [H H3]. apply andb_true_iff in H as [H1 H2]. split; [|split].
  - apply post_wf. split; [repeat constructor; intros []|]. constructor; [|constructor]. split; [exact H1|]. split; [discriminate|]. now constructor.
  - split; eexists; [eapply tg_query; [discriminate|reflexivity]|eapply hf_port; try reflexivity]. unfold values, hdr; plain. cbn -[eq_ic B].
    unfold eq_ic. apply name_ok_tchar in H1 as (_ & _ & ->).
    change (lower (B "host")) with (B "host"). destruct (beq (B n) (B "host")); [discriminate|reflexivity].
  - split; [eexists; reflexivity|]. split; [cbn; lia|]. split; [apply split_wf|]. split; [apply split_clean|reflexivity].
Qed.
Theorem C64_blanks_refuted : exists q q' b, sendable q /\ trips q q' b /\ ~ arrived q q'.
Proof.
  exists (post_req [hdr "x-a" " 1"] hello_body). eexists _, _. split; [|split].
  - apply one_sendable. vm_compute. reflexivity.
  - eexists 200%nat, (arrives no_content []), slow, _, _, (arrives (lines ["POST /up?a=b HTTP/1.1"; "host: h.example:8080"; "content-length: 11"; "x-a:  1"]%string) (B "hello world")), slow, _, _.
    split; [vm_compute; reflexivity|]. split; [reflexivity|]. split; [apply arrives_wf; cbn; lia|]. split; [apply arrives_clean|]. split; [vm_compute; reflexivity|]. vm_compute. reflexivity.
  - intros (_ & _ & _ & _ & _ & H & _). assert (E : hm_get_all (lower (B "x-a")) [hdr "host" "h.example:8080"; hdr "content-length" "11"; hdr "x-a" "1"] = [B " 1"]); [|discriminate E].
    apply (H (B "x-a")); vm_compute; discriminate.
Qed.
Print Assumptions C64_blanks_refuted.
(** ... and it takes the caller's transfer-encoding for the framing of a body that is not. *)
Theorem C64_framing_refuted : exists q q' b fuel, sendable q /\ trips q q' b /\ into_bytes (ev0 true) fuel growing (msg_body (q_len q') b) = RErr.
Proof.
  exists (post_req [hdr "transfer-encoding" "chunked"] hello_body). eexists _, _, 20%nat. split; [|split].
  - apply one_sendable. vm_compute. reflexivity.
  - eexists 200%nat, (arrives no_content []), slow, _, _, (arrives (lines ["POST /up?a=b HTTP/1.1"; "host: h.example:8080"; "content-length: 11"; "transfer-encoding: chunked"]%string) (B "hello world")), slow, _, _.
    split; [vm_compute; reflexivity|]. split; [reflexivity|]. split; [apply arrives_wf; cbn; lia|]. split; [apply arrives_clean|]. split; [vm_compute; reflexivity|]. vm_compute. reflexivity.
  - vm_compute. reflexivity.
Qed.
Print Assumptions C64_framing_refuted.
(** What holds: with values without outer blanks and no framing fields of the caller's own, the
    server gets the request, on any segmentation. Missing from C64: other requests, and CONNECT. *)
Theorem C64_trip_partial : forall ev sev q, (0 < e_bufcap ev)%nat -> env_ok sev -> creq_wf q -> addressed q -> ordinary q ->
  exists m, (forall w s, accepting w -> exists F w', w_out w' = w_out w ++ m /\ forall fuel, (F <= fuel)%nat -> fst (connect ev fuel q s w) = w') /\
  forall tmo s extra wt, wf_src s -> fst (avail tmo (s_evs s)) = m ++ extra -> accepting wt -> prompt tmo wt ->
  exists s' wt' q' b, decode sev tmo s wt = (s', wt', OReq q' b) /\ arrived q q' /\
    forall sz, (forall i, 0 < sz i)%nat -> settles (fun fuel => into_bytes sev fuel sz (msg_body (q_len q') b)) (ROk (src_data (b_src (c_body q)))).
Proof. exact request_trip. Qed.
Print Assumptions C64_trip_partial.
Example C64_case : env_ok (ev0 true) /\ creq_wf (post_req two_hdrs hello_body) /\ addressed (post_req two_hdrs hello_body) /\ ordinary (post_req two_hdrs hello_body).
Proof. split; [apply ev0_ok|]. split; [apply post_wf, two_wf|]. split; [apply post_addressed|apply post_ordinary, two_plain]. Qed.

(** C65 is false: the client strips blanks around header values ... *)
Definition returns (r : response) (a : cresponse) : Prop :=
  exists fuel w w' m s b, send fuel (ev0 true) r w = (w', ROk m) /\ accepting w /\ w_out w = [] /\ wf_src s /\ clean s /\ src_data s = w_out w' /\ c_decode (ev0 true) s = (b, COk a).
Definition resp_blank : response := mkResp 200 HTTP_11 [hdr "x-a" "1 "] hello_body.
Theorem C65_blanks_refuted : exists r a, resp_wf r /\ b_len (r_body r) = Some (N.of_nat (length (src_data (b_src (r_body r))))) /\ clean (b_src (r_body r)) /\
  returns r a /\ hm_get_all (B "x-a") (a_hdrs a) <> hm_get_all (B "x-a") (r_headers r).
Proof.
  exists resp_blank. eexists. split; [split; [repeat constructor; intros []|repeat constructor; discriminate]|]. split; [reflexivity|]. split; [apply split_clean|]. split.
  - eexists 200%nat, slow, _, _, (arrives (lines ["HTTP/1.1 200 OK"; "content-length: 11"; "date: Thu, 01 Jan 1970 00:00:00 GMT"; "x-a: 1 "; "content-type: application/octet-stream"]%string) (B "hello world")), _.
    split; [vm_compute; reflexivity|]. split; [apply slow_accepting|]. split; [reflexivity|]. split; [apply arrives_wf; cbn; lia|]. split; [apply arrives_clean|]. split; [vm_compute; reflexivity|]. vm_compute. reflexivity.
  - vm_compute. discriminate.
Qed.
Print Assumptions C65_blanks_refuted.
(** ... and refuses the HTTP/1.0 responses the server can send. *)
Theorem C65_version_refuted : exists r fuel w w' m s b, resp_wf r /\ b_len (r_body r) = Some (N.of_nat (length (src_data (b_src (r_body r))))) /\ clean (b_src (r_body r)) /\
  send fuel (ev0 true) r w = (w', ROk m) /\ w_out w = [] /\ wf_src s /\ clean s /\ src_data s = w_out w' /\ c_decode (ev0 true) s = (b, CErr).
Proof.
  exists (mkResp 200 HTTP_10 [] hello_body). 
  eexists 200%nat, slow, _, _, (arrives (lines ["HTTP/1.0 200 OK"; "content-length: 11"; "date: Thu, 01 Jan 1970 00:00:00 GMT"; "content-type: application/octet-stream"]%string) (B "hello world")), _.
  split; [split; constructor|]. split; [reflexivity|]. split; [apply split_clean|].
  split; [vm_compute; reflexivity|]. split; [reflexivity|]. split; [apply arrives_wf; cbn; lia|]. split; [apply arrives_clean|]. split; [vm_compute; reflexivity|]. vm_compute. reflexivity.
Qed.
Print Assumptions C65_version_refuted.
(** What holds: an HTTP/1.1 response with values without outer blanks and a head below 8 KiB
    comes back with its status, its fields and the declared part of its body. Missing from C65:
    other versions and values, and more than 125 fields. *)
Theorem C65_trip_partial : forall sev cev r n, env_wf sev -> plain_value (e_date sev) -> (1 <= e_bufcap sev)%nat -> env_wf cev -> (0 < e_bufcap cev)%nat ->
  resp_wf r -> returnable r -> b_len (r_body r) = Some n -> wf_src (b_src (r_body r)) -> (n + N.of_nat (e_bufcap sev) < two64)%N ->
  (n <= N.of_nat (length (src_data (b_src (r_body r)))))%N -> (n = 0%N -> clean (b_src (r_body r))) ->
  exists m, (forall w, accepting w -> exists F w', w_out w' = w_out w ++ m /\ forall fuel, (F <= fuel)%nat -> send fuel sev r w = (w', ROk (N.of_nat (length m)))) /\
  ((N.of_nat (length m) < 8192 + n)%N -> forall s extra, wf_src s -> fst (avail false (s_evs s)) = m ++ extra ->
    exists b a fs, c_decode cev s = (b, COk a) /\ a_status a = r_status r /\ sent_fields (e_date sev) r fs /\ holds (a_hdrs a) fs /\ f_len (a_body a) = Some n /\
    forall sz, (forall i, 0 < sz i)%nat -> settles (fun fuel => into_bytes cev fuel sz (a_body a)) (ROk (firstn (N.to_nat n) (src_data (b_src (r_body r)))))).
Proof. exact response_trip. Qed.
Print Assumptions C65_trip_partial.
Example C65_case : env_wf (ev0 true) /\ plain_value (e_date (ev0 true)) /\ resp_wf (resp1 (Some 11%N)) /\ returnable (resp1 (Some 11%N)) /\
  wf_src split_src /\ (11 + N.of_nat (e_bufcap (ev0 true)) < two64)%N /\ N.of_nat (length (src_data split_src)) = 11%N.
Proof.
  split; [apply ev0_wf|]. split; [apply ev0_plain|].
  split; [apply resp1_wf|]. split.
  { split; [reflexivity|]. split; [cbn; lia|]. split; [cbn; lia|]. intros n v I. cbn in I. repeat destruct I as [[= <- <-]|I]; now apply visible_ok. }
  split; [apply split_wf|]. split; [now apply ev0_fits|reflexivity].
Qed.

(** C66 is false: every chunked response comes back as 200 without headers, whatever the
    server has sent; the body is right. *)
Definition wiki_resp : bytes := lines ["HTTP/1.1 404 Not Found"; "transfer-encoding: chunked"; "x-a: 1"]%string.
Theorem C66_head_refuted : exists s w code hs b a, delivers s w (wiki_wire ++ B "more") /\ resp_grammatical true 1 code hs w /\ c_decode (ev0 true) s = (b, COk a) /\
  a_status a <> code /\ hm_get_all (B "x-a") (a_hdrs a) <> values (B "x-a") hs.
Proof.
  exists (arrives wiki_resp (wiki_wire ++ B "more")), wiki_resp, 404%N, [(B "transfer-encoding", B "chunked"); (B "x-a", B "1")]. eexists _, _.
  split; [apply arrives_delivers; [cbn; lia|vm_compute; reflexivity]|]. split; [eapply parses; vm_compute; reflexivity|]. split; [vm_compute; reflexivity|]. split; vm_compute; discriminate.
Qed.
Print Assumptions C66_head_refuted.
(** What holds: the body is the payload, and the trailers arrive. Missing from C66: status and
    headers, which are always lost. *)
Theorem C66_chunked_partial : forall ev s w rest, env_ok ev -> delivers s w rest -> cjudge (e_trim ev) w CvChunked ->
  exists b f, c_decode ev s = (b, COk (mkCresp 200 [] f)) /\ f_len f = None /\
  forall p tr wire extra, src_data s = w ++ wire ++ extra -> fitting (e_deccap ev) p tr wire ->
    forall sz, (forall i, 0 < sz i)%nat -> settles (fun fuel => into_bytes ev fuel sz f) (ROk p) /\
      exists h, hm_wf h /\ (forall x, values x (hm_iter h) = values x tr) /\ settles (fun fuel => into_bytes_with_trailer ev fuel sz f) (TOk p (Some h)).
Proof. exact chunked_response. Qed.
Print Assumptions C66_chunked_partial.
Lemma wiki_fits : fitting (e_deccap (ev0 true)) (B "Wikipedia") [(B "Expires", B "never")] wiki_wire.
Proof.
  destruct wiki_message as (cw & z & tw & H1 & H2 & H3 & H4 & E).
  exists cw, (length cw), z, tw. repeat split; auto; [now apply chunks_small_load|]. rewrite ev0_deccap. rewrite <- app_length, <- E. cbn. lia.
Qed.
Example C66_case : let s := arrives wiki_resp (wiki_wire ++ B "more") in
  delivers s wiki_resp (wiki_wire ++ B "more") /\ cjudge (e_trim (ev0 true)) wiki_resp CvChunked /\
  src_data s = wiki_resp ++ wiki_wire ++ B "more" /\ fitting (e_deccap (ev0 true)) (B "Wikipedia") [(B "Expires", B "never")] wiki_wire.
Proof.
  cbv zeta. split; [apply arrives_delivers; [cbn; lia|vm_compute; reflexivity]|]. split; [|split; [apply arrives_data|exact wiki_fits]].
  eapply cj_chunked; [cbn; lia|eapply parses; vm_compute; reflexivity|reflexivity|eexists; reflexivity].
Qed.

(** C67. A response with both framing fields is refused; so is a head of 8192 bytes or more. *)
Theorem C67_both : forall ev s w rest code hs, env_wf ev -> (0 < e_bufcap ev)%nat -> delivers s w rest -> resp_grammatical (e_trim ev) 1 code hs w ->
  values (B "content-length") hs <> [] -> values (B "transfer-encoding") hs <> [] -> snd (c_decode ev s) = CErr.
Proof. exact reject_both. Qed.
Print Assumptions C67_both.
Definition both_resp : bytes := lines ["HTTP/1.1 200 OK"; "Content-Length: 4"; "Transfer-Encoding: chunked"]%string.
Example C67_both_case : delivers (arrives both_resp wiki_wire) both_resp wiki_wire /\
  resp_grammatical (e_trim (ev0 true)) 1 200 [(B "Content-Length", B "4"); (B "Transfer-Encoding", B "chunked")] both_resp /\
  values (B "content-length") [(B "Content-Length", B "4"); (B "Transfer-Encoding", B "chunked")] = [B "4"].
Proof. split; [apply arrives_delivers; [cbn; lia|vm_compute; reflexivity]|]. split; [eapply parses; vm_compute; reflexivity|reflexivity]. Qed.
Theorem C67_large : forall ev s w rest, (0 < e_bufcap ev)%nat -> delivers s w rest -> (8192 <= N.of_nat (length w))%N -> snd (c_decode ev s) = CErr.
Proof. intros ev s w rest Hc D L. exact (decode_long ev Hc s w rest D L). Qed.
Print Assumptions C67_large.
Definition large_block : bytes := B "HTTP/1.1 200 OK" ++ CRLF ++ B "x: " ++ pad 8168 ++ CRLF ++ CRLF.
Example C67_large_case : length large_block = N.to_nat 8192 /\ delivers (arrives large_block (B "y")) large_block (B "y").
Proof. split; [vm_compute; reflexivity|]. apply arrives_delivers; [apply Nat.ltb_lt; vm_compute; reflexivity|]. vm_compute. reflexivity. Qed.

(** C67 is false in its last part: a line without an end is buffered without bound. *)
Theorem C67_unbounded_refuted : forall ev, (0 < e_bufcap ev)%nat -> forall bound, exists s x, wf_src s /\ took s (fst (c_decode ev s)) x /\ (bound < length x)%nat.
Proof. exact decode_unbounded. Qed.
Print Assumptions C67_unbounded_refuted.
(** What holds: the bound is 8192 bytes, one buffer and the longest line. Missing from C67: a
    bound on lines. *)
Theorem C67_bounded_partial : forall ev k s, pieces_le k (evs_all (s_evs s)) ->
  exists x, took s (fst (c_decode ev s)) x /\ (N.of_nat (length x) <= 8192 + N.of_nat k + N.of_nat (e_bufcap ev))%N.
Proof. exact decode_taken. Qed.
Print Assumptions C67_bounded_partial.
Example C67_bounded_case : forall n, pieces_le 1 (evs_all (s_evs (mkSrc [Data (concat (repeat (B "a" ++ [LF]) n)); Fail; Data (B "b")] FailForever))).
Proof.
  intros n. cbn [s_evs evs_all]. rewrite app_nil_r.
  assert (G : forall n a x b, concat (repeat (B "a" ++ [LF]) n) ++ B "b" = a ++ x ++ b -> ~ In LF x -> (length x <= 1)%nat); [|intros a x b; apply G].
  clear n. induction n as [|n IH]; intros a x b E N.
  - cbn in E. apply (f_equal (@length ascii)) in E. unfold bytes, byte in *. rewrite !app_length in E. cbn in E. lia.
  - cbn [repeat concat app] in E. destruct a as [|c a].
    + destruct x as [|c x]; [cbn; lia|]. destruct x as [|d x]; [cbn; lia|]. exfalso. cbn in E. injection E as _ E2 _. apply N. right. left. symmetry. exact E2.
    + destruct a as [|d a].
      * destruct x as [|d x]; [cbn; lia|]. exfalso. cbn in E. injection E as _ E2 _. apply N. left. symmetry. exact E2.
      * cbn in E. injection E as _ _ E. exact (IH _ _ _ E N).
Qed.

(** C68 is false: the body is copied to its end, whatever length was declared. *)
Theorem C68_length_refuted : exists q w', creq_wf q /\ addressed q /\ b_len (c_body q) = Some 3%N /\ clean (b_src (c_body q)) /\
  (exists a, connect (ev0 true) 200 q (arrives no_content []) slow = (w', COk a)) /\
  w_out w' = lines ["POST /up?a=b HTTP/1.1"; "host: h.example:8080"; "content-length: 3"; "accept: */*"; "x-a: 1"; "x-a: 2"]%string ++ B "hello world".
Proof.
  exists (post_req two_hdrs (mkBody (Some 3%N) split_src)). eexists. split; [apply post_wf, two_wf|]. split; [apply post_addressed|]. split; [reflexivity|]. split; [apply split_clean|].
  split; [eexists; vm_compute; reflexivity|]. vm_compute. reflexivity.
Qed.
Print Assumptions C68_length_refuted.
(** What holds: all of the reader's bytes are written, so when their number is the declared one
    (as for the bodies made by [Body]'s constructors other than [from_reader]), exactly that
    many. Missing from C68: readers longer or shorter than declared. *)
Theorem C68_length_partial : forall ev q, (0 < e_bufcap ev)%nat -> creq_wf q -> addressed q -> wf_src (b_src (c_body q)) -> clean (b_src (c_body q)) ->
  b_len (c_body q) = Some (N.of_nat (length (src_data (b_src (c_body q))))) ->
  exists h, creq_head q h /\ forall s w, accepting w -> exists w' p out, settles (fun fuel => connect ev fuel q s w) (w', out) /\ w_out w' = w_out w ++ h ++ p /\
    b_len (c_body q) = Some (N.of_nat (length p)).
Proof.
  intros ev q Hc W A HS C HL. destruct (connect_written ev q _ Hc W A HL HS) as (h & HH & Q). exists h. split; [exact HH|]. intros s w Hw.
  destruct (Q s w) as (w' & p & out & S & O & _ & [(-> & _ & _)|[_ N]]); [|now elim N]. exists w', (src_data (b_src (c_body q))), out. auto.
Qed.
Print Assumptions C68_length_partial.
Example C68_case : let q := post_req two_hdrs hello_body in creq_wf q /\ addressed q /\ wf_src (b_src (c_body q)) /\ clean (b_src (c_body q)) /\
  b_len (c_body q) = Some (N.of_nat (length (src_data (b_src (c_body q))))).
Proof. cbv zeta. split; [apply post_wf, two_wf|]. split; [apply post_addressed|]. split; [apply split_wf|]. split; [apply split_clean|reflexivity]. Qed.

(** C77 is false: a body of unknown length panics, always. *)
Theorem C77_panics : forall ev fuel q s w, creq_wf q -> addressed q -> b_len (c_body q) = None -> connect ev fuel q s w = (w, CPanic).
Proof. exact connect_panics. Qed.
Print Assumptions C77_panics.
Theorem C77_panic_refuted : exists q, creq_wf q /\ addressed q /\ forall ev fuel s w, connect ev fuel q s w = (w, CPanic).
Proof.
  exists (post_req two_hdrs (mkBody None split_src)). split; [apply post_wf, two_wf|]. split; [apply post_addressed|]. intros ev fuel s w.
  apply connect_panics; [apply post_wf, two_wf|apply post_addressed|reflexivity].
Qed.
Print Assumptions C77_panic_refuted.
(** What holds: with a declared length it returns, with a response or an error, whatever the
    transport and the peer do. Missing from C77: bodies of unknown length. *)
Theorem C77_returns_partial : forall ev q s w, env_wf ev -> (0 < e_bufcap ev)%nat -> creq_wf q -> wf_src (b_src (c_body q)) -> wf_src s -> b_len (c_body q) <> None ->
  exists w' out, settles (fun fuel => connect ev fuel q s w) (w', out) /\ (out = CErr \/ exists a, out = COk a).
Proof. exact connect_returns. Qed.
Print Assumptions C77_returns_partial.
Example C77_case : snd (connect (ev0 true) 200 (post_req two_hdrs hello_body) (mkSrc [Data (B "HTTP/1.1 2"); Fail] Eof) slow) = CErr.
Proof. vm_compute. reflexivity. Qed.

(** C78 is false: an interim response is returned as the answer, and the final one is lost. *)
Definition interim : bytes := lines ["HTTP/1.1 100 Continue"]%string.
Definition final : bytes := lines ["HTTP/1.1 201 Created"; "content-length: 2"]%string.
Theorem C78_interim_refuted : exists s b a, delivers s interim (final ++ B "ok") /\ c_decode (ev0 true) s = (b, COk a) /\ a_status a = 100%N /\
  into_bytes (ev0 true) 10 growing (a_body a) = ROk [].
Proof.
  exists (arrives interim (final ++ B "ok")). eexists _, _. split; [apply arrives_delivers; [cbn; lia|vm_compute; reflexivity]|]. split; [vm_compute; reflexivity|].
  split; [vm_compute; reflexivity|]. vm_compute. reflexivity.
Qed.
Print Assumptions C78_interim_refuted.
(** What holds: the status and fields are those of the first head that arrives, so of the final
    response when it is the first. Missing from C78: interim responses. *)
Theorem C78_first_partial : forall ev s w rest code hs a, env_wf ev -> (0 < e_bufcap ev)%nat -> delivers s w rest -> resp_grammatical (e_trim ev) 1 code hs w -> ~ says_chunked hs ->
  snd (c_decode ev s) = COk a -> a_status a = code /\ holds (a_hdrs a) (dated (e_date ev) hs).
Proof. exact status_kept. Qed.
Print Assumptions C78_first_partial.
Example C78_case : delivers (arrives final (B "ok")) final (B "ok") /\ resp_grammatical (e_trim (ev0 true)) 1 201 [(B "content-length", B "2")] final /\
  ~ says_chunked [(B "content-length", B "2")] /\ exists a, snd (c_decode (ev0 true) (arrives final (B "ok"))) = COk a.
Proof.
  split; [apply arrives_delivers; [cbn; lia|vm_compute; reflexivity]|]. split; [eapply parses; vm_compute; reflexivity|]. split; [intros [r H]; discriminate H|].
  eexists. vm_compute. reflexivity.
Qed.

(** C79 is false: without content-length the body is taken to be empty, though the server may
    end it by closing the connection. *)
Definition closing : bytes := lines ["HTTP/1.1 200 OK"; "connection: close"]%string.
Theorem C79_dropped_refuted : exists s b a, delivers s closing (B "hello") /\ clean s /\ c_decode (ev0 true) s = (b, COk a) /\
  into_bytes (ev0 true) 10 growing (a_body a) = ROk [].
Proof.
  exists (arrives closing (B "hello")). eexists _, _. split; [apply arrives_delivers; [cbn; lia|vm_compute; reflexivity]|]. split; [apply arrives_clean|]. split; [vm_compute; reflexivity|]. vm_compute. reflexivity.
Qed.
Print Assumptions C79_dropped_refuted.
(** What holds: a response with neither framing field is returned with status, fields and an
    empty body; right when nothing follows. Missing from C79: all bodies ended by the close. *)
Theorem C79_empty_partial : forall ev s w rest code hs, env_wf ev -> (0 < e_bufcap ev)%nat -> delivers s w rest -> cjudge (e_trim ev) w (CvNone code hs) ->
  exists b m f, c_decode ev s = (b, COk (mkCresp code m f)) /\ holds m (dated (e_date ev) hs) /\
  forall sz, (forall i, 0 < sz i)%nat -> settles (fun fuel => into_bytes ev fuel sz f) (ROk []).
Proof. exact bare_response. Qed.
Print Assumptions C79_empty_partial.
Example C79_case : delivers (arrives closing []) closing [] /\ cjudge (e_trim (ev0 true)) closing (CvNone 200 [(B "connection", B "close")]).
Proof.
  split; [apply arrives_delivers; [cbn; lia|vm_compute; reflexivity]|]. eapply cj_none; [cbn; lia|eapply parses; vm_compute; reflexivity|lia|reflexivity|intros [r H]; discriminate H].
Qed.

(** C80 is false: of several content-lengths the first counts. *)
Definition lengths : bytes := lines ["HTTP/1.1 200 OK"; "content-length: 2"; "content-length: 5"]%string.
Theorem C80_conflict_refuted : exists s b a, delivers s lengths (B "hello") /\ c_decode (ev0 true) s = (b, COk a) /\ f_len (a_body a) = Some 2%N /\
  into_bytes (ev0 true) 10 growing (a_body a) = ROk (B "he").
Proof.
  exists (arrives lengths (B "hello")). eexists _, _. split; [apply arrives_delivers; [cbn; lia|vm_compute; reflexivity]|]. split; [vm_compute; reflexivity|]. split; [vm_compute; reflexivity|]. vm_compute. reflexivity.
Qed.
Print Assumptions C80_conflict_refuted.
(** What holds: a first content-length that is not a number below 2^64 is refused. Missing from
    C80: conflicts between well-formed values, and any malformed value but the first. *)
Theorem C80_malformed_partial : forall ev s w rest code hs v r, env_wf ev -> (0 < e_bufcap ev)%nat -> delivers s w rest -> resp_grammatical (e_trim ev) 1 code hs w ->
  values (B "content-length") hs = v :: r -> (forall n, ~ cl_value v n) -> snd (c_decode ev s) = CErr.
Proof.
  intros ev s w rest code hs v r He Hc D G E N. destruct (decode_verdict ev s w rest CvReject He Hc D (cj_length_bad _ _ _ _ _ _ G E N)) as [b X]. exact X.
Qed.
Print Assumptions C80_malformed_partial.
Definition two_power : bytes := lines ["HTTP/1.1 200 OK"; "content-length: 18446744073709551616"]%string.
Example C80_case : delivers (arrives two_power []) two_power [] /\ resp_grammatical (e_trim (ev0 true)) 1 200 [(B "content-length", B "18446744073709551616")] two_power /\
  forall n, ~ cl_value (B "18446744073709551616") n.
Proof.
  split; [apply arrives_delivers; [cbn; lia|vm_compute; reflexivity]|]. split; [eapply parses; vm_compute; reflexivity|]. intros n H. apply cl_value_iff in H. vm_compute in H. discriminate H.
Qed.

(** C81 is false: the coding is compared byte for byte, so "Chunked" is not recognised and the
    body is lost. *)
Definition upper : bytes := lines ["HTTP/1.1 200 OK"; "Transfer-Encoding: Chunked"]%string.
Theorem C81_case_refuted : exists s b a, delivers s upper wiki_wire /\ c_decode (ev0 true) s = (b, COk a) /\ into_bytes (ev0 true) 10 growing (a_body a) = ROk [].
Proof.
  exists (arrives upper wiki_wire). eexists _, _. split; [apply arrives_delivers; [cbn; lia|vm_compute; reflexivity]|]. split; [vm_compute; reflexivity|]. vm_compute. reflexivity.
Qed.
Print Assumptions C81_case_refuted.
(** Any first transfer-encoding that is not exactly "chunked" means an empty body. *)
Theorem C81_other_lost : forall ev s w rest code hs v r, env_wf ev -> (0 < e_bufcap ev)%nat -> delivers s w rest -> (N.of_nat (length w) < 8192)%N ->
  resp_grammatical (e_trim ev) 1 code hs w -> (100 <= code)%N -> values (B "content-length") hs = [] -> values (B "transfer-encoding") hs = v :: r -> v <> B "chunked" ->
  exists b m f, c_decode ev s = (b, COk (mkCresp code m f)) /\ forall sz, (forall i, 0 < sz i)%nat -> settles (fun fuel => into_bytes ev fuel sz f) (ROk []).
Proof.
  intros ev s w rest code hs v r He Hc D L G C H1 H2 N. destruct (bare_response ev s w rest code hs He Hc D) as (b & m & f & E & _ & Q); [|eauto].
  eapply cj_none; eauto. intros [x X]. rewrite X in H2. injection H2 as <- <-. now elim N.
Qed.
Print Assumptions C81_other_lost.
Example C81_lost_case : delivers (arrives upper wiki_wire) upper wiki_wire /\ resp_grammatical (e_trim (ev0 true)) 1 200 [(B "Transfer-Encoding", B "Chunked")] upper /\
  values (B "transfer-encoding") [(B "Transfer-Encoding", B "Chunked")] = [B "Chunked"].
Proof. split; [apply arrives_delivers; [cbn; lia|vm_compute; reflexivity]|]. split; [eapply parses; vm_compute; reflexivity|reflexivity]. Qed.
(** What holds: the coding "chunked" in lower case, under any spelling of the field name, gives
    the payload. Missing from C81: other spellings of the coding. *)
Theorem C81_lower_partial : forall ev s w rest code hs p tr wire extra, env_ok ev -> delivers s w rest -> (N.of_nat (length w) < 8192)%N ->
  resp_grammatical (e_trim ev) 1 code hs w -> values (B "content-length") hs = [] -> says_chunked hs -> src_data s = w ++ wire ++ extra -> fitting (e_deccap ev) p tr wire ->
  exists b a, c_decode ev s = (b, COk a) /\ forall sz, (forall i, 0 < sz i)%nat -> settles (fun fuel => into_bytes ev fuel sz (a_body a)) (ROk p).
Proof.
  intros ev s w rest code hs p tr wire extra He D L G C S E F. destruct (chunked_response ev s w rest He D) as (b & f & X & _ & Q); [eapply cj_chunked; eauto|].
  exists b. eexists. split; [exact X|]. intros sz P. now destruct (Q p tr wire extra E F sz P).
Qed.
Print Assumptions C81_lower_partial.
Definition spelled : bytes := lines ["HTTP/1.1 200 OK"; "TRANSFER-encoding: chunked"]%string.
Example C81_lower_case : delivers (arrives spelled wiki_wire) spelled wiki_wire /\ resp_grammatical (e_trim (ev0 true)) 1 200 [(B "TRANSFER-encoding", B "chunked")] spelled /\
  says_chunked [(B "TRANSFER-encoding", B "chunked")].
Proof. split; [apply arrives_delivers; [cbn; lia|vm_compute; reflexivity]|]. split; [eapply parses; vm_compute; reflexivity|eexists; reflexivity]. Qed.

(** C82 is false: a body cut short by an orderly close is returned as if it were whole. *)
Definition five : bytes := lines ["HTTP/1.1 200 OK"; "content-length: 5"]%string.
Theorem C82_short_refuted : exists s b a, delivers s five (B "hel") /\ clean s /\ c_decode (ev0 true) s = (b, COk a) /\ f_len (a_body a) = Some 5%N /\
  into_bytes (ev0 true) 10 growing (a_body a) = ROk (B "hel").
Proof.
  exists (arrives five (B "hel")). eexists _, _. split; [apply arrives_delivers; [cbn; lia|vm_compute; reflexivity]|]. split; [apply arrives_clean|]. split; [vm_compute; reflexivity|].
  split; [vm_compute; reflexivity|]. vm_compute. reflexivity.
Qed.
Print Assumptions C82_short_refuted.
(** What holds: the declared number of bytes is returned when they arrive, and a broken
    connection is an error. Missing from C82: orderly closes. *)
Theorem C82_length_partial : forall ev s w rest code hs n, env_wf ev -> (0 < e_bufcap ev)%nat -> delivers s w rest -> cjudge (e_trim ev) w (CvLength code hs n) ->
  exists b m f after, c_decode ev s = (b, COk (mkCresp code m f)) /\ holds m (dated (e_date ev) hs) /\ f_len f = Some n /\ src_data s = w ++ after /\
  forall sz, (forall i, 0 < sz i)%nat ->
    ((n <= N.of_nat (length after))%N \/ clean s -> settles (fun fuel => into_bytes ev fuel sz f) (ROk (firstn (N.to_nat n) after))) /\
    ((N.of_nat (length after) < n)%N -> ~ clean s -> settles (fun fuel => into_bytes ev fuel sz f) RErr).
Proof. exact length_response. Qed.
Print Assumptions C82_length_partial.
Definition broken : src := mkSrc [Data five; Data (B "he"); Fail] Eof.
Example C82_case : delivers broken five (B "he") /\ cjudge (e_trim (ev0 true)) five (CvLength 200 [(B "content-length", B "5")] 5) /\ ~ clean broken /\
  exists b a, c_decode (ev0 true) broken = (b, COk a) /\ into_bytes (ev0 true) 10 growing (a_body a) = RErr.
Proof.
  split; [split; [repeat constructor; discriminate|split; [apply resp_blockb_ok; vm_compute; reflexivity|reflexivity]]|]. split.
  { eapply cj_length; [cbn; lia|eapply parses; vm_compute; reflexivity|lia|reflexivity|reflexivity|]. apply cl_value_iff. reflexivity. }
  split. { intros [C _]. inversion C as [|? ? _ C1]; subst. inversion C1 as [|? ? _ C2]; subst. inversion C2; congruence. }
  eexists _, _. split; [vm_compute; reflexivity|]. vm_compute. reflexivity.
Qed.

(** C83 is false: a response to HEAD, or a 204 or 304, that states a content-length is given a
    body of that many of the following bytes. *)
Definition not_modified : bytes := lines ["HTTP/1.1 304 Not Modified"; "content-length: 9"]%string.
Theorem C83_body_refuted : exists ev fuel q s w w' a, c_meth q = B "HEAD" /\ creq_wf q /\ addressed q /\ delivers s not_modified (interim ++ final) /\
  connect ev fuel q s w = (w', COk a) /\ into_bytes ev 20 growing (a_body a) = ROk (B "HTTP/1.1 ").
Proof.
  exists (ev0 true), 200%nat, (mkCreq (B "HEAD") (mkUri (Some (B "h")) None (B "/") None) [] body_empty), (arrives not_modified (interim ++ final)), slow.
  eexists _, _. split; [reflexivity|]. split. { repeat split; try discriminate; repeat constructor; vm_compute; try discriminate; reflexivity. }
  split. { split; eexists; [apply tg_path; [discriminate|reflexivity]|eapply hf_uri; reflexivity]. }
  split; [apply arrives_delivers; [cbn; lia|vm_compute; reflexivity]|]. split; [vm_compute; reflexivity|]. vm_compute. reflexivity.
Qed.
Print Assumptions C83_body_refuted.
(** What holds: without content-length and "chunked" the body is empty, whatever follows.
    Missing from C83: such responses that do state them. *)
Theorem C83_bare_partial : forall ev s w rest code hs, env_wf ev -> (0 < e_bufcap ev)%nat -> delivers s w rest -> (N.of_nat (length w) < 8192)%N ->
  resp_grammatical (e_trim ev) 1 code hs w -> In code [204; 304]%N -> values (B "content-length") hs = [] -> ~ says_chunked hs ->
  exists b m f, c_decode ev s = (b, COk (mkCresp code m f)) /\ holds m (dated (e_date ev) hs) /\
  forall sz, (forall i, 0 < sz i)%nat -> settles (fun fuel => into_bytes ev fuel sz f) (ROk []).
Proof.
  intros ev s w rest code hs He Hc D L G I C S. apply (bare_response ev s w rest code hs He Hc D). eapply cj_none; eauto. destruct I as [<-|[<-|[]]]; lia.
Qed.
Print Assumptions C83_bare_partial.
Example C83_case : delivers (arrives no_content final) no_content final /\ resp_grammatical (e_trim (ev0 true)) 1 204 [] no_content.
Proof. split; [apply arrives_delivers; [cbn; lia|vm_compute; reflexivity]|]. eapply parses; vm_compute; reflexivity. Qed.

(** C84. The answer does not depend on how the response is cut into segments. *)
Theorem C84_segments : forall ev s1 s2, env_wf ev -> (0 < e_bufcap ev)%nat -> wf_src s1 -> wf_src s2 -> fst (avail false (s_evs s1)) = fst (avail false (s_evs s2)) ->
  same_answer (snd (c_decode ev s1)) (snd (c_decode ev s2)).
Proof. exact decode_segments. Qed.
Print Assumptions C84_segments.
Example C84_case : let s1 := arrives five (B "hello") in let s2 := mkSrc (map (fun c => Data [c]) (five ++ B "hello")) Eof in
  wf_src s1 /\ wf_src s2 /\ fst (avail false (s_evs s1)) = fst (avail false (s_evs s2)) /\ exists a, snd (c_decode (ev0 true) s1) = COk a.
Proof.
  cbv zeta. split; [apply arrives_wf; cbn; lia|]. split; [cbn; repeat constructor; discriminate|]. split; [vm_compute; reflexivity|]. eexists. vm_compute. reflexivity.
Qed.

(** C85. The client's verdict on a response, from the bytes of its head block alone; every block
    gets one. Without a block the call fails. *)
Theorem C85_verdict : forall ev s w rest v, env_wf ev -> (0 < e_bufcap ev)%nat -> delivers s w rest -> cjudge (e_trim ev) w v ->
  exists b, canswers ev v b (snd (c_decode ev s)).
Proof. exact decode_verdict. Qed.
Print Assumptions C85_verdict.
Theorem C85_total : forall trim w, exists v, cjudge trim w v.
Proof. exact judge_total. Qed.
Print Assumptions C85_total.
Theorem C85_nothing : forall ev s, (0 < e_bufcap ev)%nat -> wf_src s -> (forall w rest, ~ delivers s w rest) -> snd (c_decode ev s) = CErr.
Proof. intros ev s Hc. exact (decode_none ev Hc s). Qed.
Print Assumptions C85_nothing.
Example C85_case : delivers (arrives five (B "hello")) five (B "hello") /\ cjudge (e_trim (ev0 true)) five (CvLength 200 [(B "content-length", B "5")] 5).
Proof.
  split; [apply arrives_delivers; [cbn; lia|vm_compute; reflexivity]|].
  eapply cj_length; [cbn; lia|eapply parses; vm_compute; reflexivity|lia|reflexivity|reflexivity|]. apply cl_value_iff. reflexivity.
Qed.
Example C85_nothing_case : forall w rest, ~ delivers (mkSrc [Data (B "HTTP/1.1 200 OK")] Eof) w rest.
Proof.
  intros w rest (_ & [H _] & E). cbn [s_evs avail fst] in E. apply resp_end_lf in H as [p ->]. rewrite <- app_assoc in E. cbn [app] in E.
  assert (I : In LF (B "HTTP/1.1 200 OK" ++ [])) by (rewrite E; apply in_or_app; right; now left). cbn in I. repeat destruct I as [I|I]; try discriminate I. exact I.
Qed.

(** C118: a call that returns a response has written its whole request, and the reader of the
    request's body has ended without an error (C112: it has been flushed as well) ... *)
Theorem C118_whole : forall ev fuel q s w w' a, (0 < e_bufcap ev)%nat -> creq_wf q -> wf_src (b_src (c_body q)) ->
  connect ev fuel q s w = (w', COk a) ->
  exists h, creq_head q h /\ clean (b_src (c_body q)) /\ w_out w' = w_out w ++ h ++ src_data (b_src (c_body q)) /\ snd (c_decode ev s) = COk a.
Proof. exact connect_whole. Qed.
Print Assumptions C118_whole.
(** ... so that one whose body cannot be read to its end returns an error, whatever arrives. *)
Theorem C118_unread : forall ev q n, (0 < e_bufcap ev)%nat -> creq_wf q -> addressed q -> b_len (c_body q) = Some n -> wf_src (b_src (c_body q)) ->
  ~ clean (b_src (c_body q)) -> forall s w, exists w', settles (fun fuel => connect ev fuel q s w) (w', CErr).
Proof.
  intros ev q n Hc W A HL HS NC s w. destruct (connect_written ev q n Hc W A HL HS) as (h & _ & Q).
  destruct (Q s w) as (w' & p & out & S & _ & _ & [(_ & C & _)|[-> _]]); [now elim NC|now exists w'].
Qed.
Print Assumptions C118_unread.
Example C118_case : let q := post_req two_hdrs hello_body in
  (exists w' a, connect (ev0 true) 200 q (arrives no_content []) slow = (w', COk a)) /\
  (* the body's reader fails *)
  snd (connect (ev0 true) 200 (post_req two_hdrs (mkBody (Some 2%N) fail_src)) (arrives no_content []) slow) = CErr /\ ~ clean fail_src /\
  (* the transport fails, on a write or on the flush at the end *)
  snd (connect (ev0 true) 200 q (arrives no_content []) (mkWtr [WAcc 5; WFail] [])) = CErr /\
  snd (connect (ev0 true) 200 q (arrives no_content []) (mkWtr [WAcc 200; WAcc 200; WFail] [])) = CErr.
Proof. cbv zeta. split; [eexists _, _; vm_compute; reflexivity|]. split; [vm_compute; reflexivity|]. split; [exact fail_unclean|]. split; vm_compute; reflexivity. Qed.
