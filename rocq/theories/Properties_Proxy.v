(** Property C127: the answer of a server, through a proxy made of [connect] and the response
    writer, to the client behind it. *)
From Verif Require Import Forward Relay SpecIo SpecChunked SpecHead SpecReq SpecResponse SpecServer SpecBody SpecClient Lemmas Proofs_ServerDec Proofs_Request Proofs_ClientDec Proofs_RoundTrip
  Proofs_RelayReq Proofs_Proxy Examples_Response Examples_Dec Examples_Request Examples_Client Properties_Body Properties_Client Properties_Relay Properties_Call.

(** C127, answers with a declared length: [up] is the proxy's connection to the server, [hs] are
    the fields the proxy puts on its answer. The client gets the server's status and body. *)
Theorem C127_fixed : forall pev cev up w p rest code fs n hs, env_ok pev -> plain_value (e_date pev) -> env_ok cev ->
  delivers up w (p ++ rest) -> cjudge (e_trim pev) w (CvLength code fs n) -> N.of_nat (length p) = n -> (n + N.of_nat (e_bufcap pev) < two64)%N ->
  let r2 := announced code HTTP_11 hs (Some n) in resp_wf r2 -> returnable r2 ->
  exists a head, snd (c_decode pev up) = COk a /\ a_status a = code /\ holds (a_hdrs a) (dated (e_date pev) fs) /\ response_head (e_date pev) r2 head /\
    (forall wr, accepting wr -> exists wr', w_out wr' = w_out wr ++ head ++ p /\
       settles (fun fuel => relay fuel pev (relay_of (a_status a) HTTP_11 hs (a_body a)) wr) (wr', ROk (N.of_nat (length (head ++ p))))) /\
    ((N.of_nat (length head) < 8192)%N -> forall s extra, wf_src s -> fst (avail false (s_evs s)) = head ++ p ++ extra ->
     exists b2 a2 fs2, c_decode cev s = (b2, COk a2) /\ a_status a2 = code /\ sent_fields (e_date pev) r2 fs2 /\ holds (a_hdrs a2) fs2 /\ f_len (a_body a2) = Some n /\
      forall sz, (forall i, 0 < sz i)%nat -> settles (fun fuel => into_bytes cev fuel sz (a_body a2)) (ROk p)).
Proof. exact proxied_fixed. Qed.
Print Assumptions C127_fixed.
(** A 404 with five bytes of body and more behind it. *)
Definition missing : bytes := lines ["HTTP/1.1 404 Not Found"; "content-length: 5"; "x-b: 2"]%string.
Example C127_fixed_case : plain_value (e_date (ev0 true)) /\ delivers (arrives missing (B "hello" ++ B "HTTP")) missing (B "hello" ++ B "HTTP") /\
  cjudge (e_trim (ev0 true)) missing (CvLength 404 [(B "content-length", B "5"); (B "x-b", B "2")] 5) /\ returnable (announced 404 HTTP_11 two_hdrs (Some 5%N)) /\
  match c_decode (ev0 true) (arrives missing (B "hello" ++ B "HTTP")) with
  | (_, COk a) =>
      let wr := fst (relay 60 (ev0 true) (relay_of (a_status a) HTTP_11 two_hdrs (a_body a)) slow) in
      match c_decode (ev0 true) (arrives (firstn 40 (w_out wr)) (skipn 40 (w_out wr))) with
      | (_, COk a2) => a_status a2 = 404%N /\ hm_get_all (B "x-a") (a_hdrs a2) = [B "1"; B "2"] /\ into_bytes (ev0 true) 20 growing (a_body a2) = ROk (B "hello")
      | _ => False
      end
  | _ => False
  end.
Proof.
  split; [exact ev0_plain|]. split; [apply arrives_delivers; [cbn; lia|vm_compute; reflexivity]|]. split.
  { eapply cj_length; [cbn; lia|eapply parses; vm_compute; reflexivity|lia|reflexivity|reflexivity|]. apply cl_value_iff. reflexivity. }
  split; [|vm_compute; auto]. split; [reflexivity|]. split; [cbn; lia|]. split; [cbn; lia|]. intros n v I. now apply (proj1 two_plain) in I.
Qed.

(** C127 is false of the status of chunked answers: a 404 arrives as a 200 (the client drops
    the head of chunked responses, C66). *)
Definition answer404 : bytes := w_out (fst (send 60 (ev0 true) streamed (mkWtr [] []))).
Definition passed_on : bytes := match snd (c_decode (ev0 true) (mkSrc [Data answer404] Eof)) with
  | COk a => w_out (fst (relay 60 (ev0 true) (relay_of (a_status a) HTTP_11 [] (a_body a)) slow)) | _ => [] end.
Theorem C127_status_refuted : exists m up a wr' k s a2, w_out (fst (send 60 (ev0 true) streamed (mkWtr [] []))) = m /\ snd (send 60 (ev0 true) streamed (mkWtr [] [])) = ROk (N.of_nat (length m)) /\
  r_status streamed = 404%N /\ src_data up = m /\ clean up /\ snd (c_decode (ev0 true) up) = COk a /\
  relay 60 (ev0 true) (relay_of (a_status a) HTTP_11 [] (a_body a)) slow = (wr', ROk k) /\
  src_data s = w_out wr' /\ clean s /\ snd (c_decode (ev0 true) s) = COk a2 /\ a_status a2 = 200%N.
Proof.
  exists answer404, (mkSrc [Data answer404] Eof). eexists _, _, _. exists (mkSrc [Data passed_on] Eof). eexists. split; [unfold answer404; reflexivity|]. split; [vm_compute; reflexivity|]. split; [reflexivity|].
  split; [vm_compute; reflexivity|]. split; [split; [repeat constructor; discriminate|reflexivity]|].
  split; [vm_compute; reflexivity|]. split; [vm_compute; reflexivity|]. split; [vm_compute; reflexivity|]. split; [split; [repeat constructor; discriminate|reflexivity]|].
  split; vm_compute; reflexivity.
Qed.
Print Assumptions C127_status_refuted.

(** C127, chunked answers: the body arrives, whatever the chunks. [eos_window] is the defect
    of C08. *)
Theorem C127_chunked_partial : forall pev cev up w p tr wire rest hs, env_ok pev -> plain_value (e_date pev) -> env_ok cev ->
  delivers up w (wire ++ rest) -> cjudge (e_trim pev) w CvChunked -> fitting (e_deccap pev) p tr wire ->
  let r2 := announced 200 HTTP_11 hs None in resp_wf r2 -> returnable r2 ->
  exists a head, snd (c_decode pev up) = COk a /\ a_status a = 200%N /\ response_head (e_date pev) r2 head /\
    (~ (p = [] /\ eos_window (e_bufcap pev) (length head)) -> forall wr, accepting wr -> exists wr' cw, chunks plain_size_line p cw /\ w_out wr' = w_out wr ++ head ++ cw ++ last_chunk /\
       settles (fun fuel => relay fuel pev (relay_of (a_status a) HTTP_11 hs (a_body a)) wr) (wr', ROk (N.of_nat (length (head ++ cw ++ last_chunk)))) /\
     ((N.of_nat (length head) < 8192)%N -> fitting (e_deccap cev) p [] (cw ++ last_chunk) -> forall s extra, wf_src s -> fst (avail false (s_evs s)) = head ++ (cw ++ last_chunk) ++ extra ->
      exists b2 a2, c_decode cev s = (b2, COk a2) /\ a_status a2 = 200%N /\
       forall sz, (forall i, 0 < sz i)%nat -> settles (fun fuel => into_bytes cev fuel sz (a_body a2)) (ROk p))).
Proof. exact proxied_chunked. Qed.
Print Assumptions C127_chunked_partial.
(** Two chunks and a trailer; what the relay writes of it fits the client's buffer. *)
Example C127_chunked_case : delivers (arrives spelled (wiki_wire ++ B "HTTP")) spelled (wiki_wire ++ B "HTTP") /\ cjudge (e_trim (ev0 true)) spelled CvChunked /\
  fitting (e_deccap (ev0 true)) (B "Wikipedia") [(B "Expires", B "never")] wiki_wire /\ returnable (announced 200 HTTP_11 two_hdrs None) /\
  (forall cw, chunks plain_size_line (B "Wikipedia") cw -> fitting (e_deccap (ev0 true)) (B "Wikipedia") [] (cw ++ last_chunk)) /\
  match c_decode (ev0 true) (arrives spelled (wiki_wire ++ B "HTTP")) with
  | (_, COk a) =>
      let wr := fst (relay 60 (ev0 true) (relay_of (a_status a) HTTP_11 two_hdrs (a_body a)) slow) in
      match c_decode (ev0 true) (arrives (firstn 40 (w_out wr)) (skipn 40 (w_out wr))) with
      | (_, COk a2) => into_bytes (ev0 true) 40 growing (a_body a2) = ROk (B "Wikipedia")
      | _ => False
      end
  | _ => False
  end.
Proof.
  split; [apply arrives_delivers; [cbn; lia|vm_compute; reflexivity]|]. split; [apply C89_chunked_case|]. split; [exact wiki_fits|].
  split; [split; [reflexivity|]; split; [cbn; lia|]; split; [cbn; lia|]; intros n v I; now apply (proj1 two_plain) in I|].
  split; [|vm_compute; reflexivity]. intros cw C. set (b := mkBody None (bytes_src (B "Wikipedia"))).
  exact (C102_short_fits b (cw ++ last_chunk) (e_deccap (ev0 true)) (bt_chunked b cw eq_refl C) eq_refl ltac:(apply Nat.leb_le; vm_compute; reflexivity)).
Qed.

(** C127 with this server behind the proxy: three programs, from the response of the handler to
    the caller of the client. *)
Theorem C127_server : forall sev pev cev r n, env_ok sev -> plain_value (e_date sev) -> env_ok pev -> plain_value (e_date pev) -> env_ok cev ->
  resp_wf r -> returnable r -> b_len (r_body r) = Some n -> wf_src (b_src (r_body r)) ->
  (n + N.of_nat (e_bufcap sev) < two64)%N -> (n + N.of_nat (e_bufcap pev) < two64)%N ->
  (n <= N.of_nat (length (src_data (b_src (r_body r)))))%N -> (n = 0%N -> clean (b_src (r_body r))) ->
  let p := firstn (N.to_nat n) (src_data (b_src (r_body r))) in
  exists m, (forall w, accepting w -> exists w', w_out w' = w_out w ++ m /\ settles (fun fuel => send fuel sev r w) (w', ROk (N.of_nat (length m)))) /\
  ((N.of_nat (length m) < 8192 + n)%N -> forall up extra, wf_src up -> fst (avail false (s_evs up)) = m ++ extra ->
   exists a, snd (c_decode pev up) = COk a /\ a_status a = r_status r /\
   forall hs, let r2 := announced (a_status a) HTTP_11 hs (Some n) in resp_wf r2 -> returnable r2 ->
   exists m2, (forall w, accepting w -> exists w', w_out w' = w_out w ++ m2 /\
                 settles (fun fuel => relay fuel pev (relay_of (a_status a) HTTP_11 hs (a_body a)) w) (w', ROk (N.of_nat (length m2)))) /\
   ((N.of_nat (length m2) < 8192 + n)%N -> forall s extra2, wf_src s -> fst (avail false (s_evs s)) = m2 ++ extra2 ->
    exists b2 a2 fs, c_decode cev s = (b2, COk a2) /\ a_status a2 = r_status r /\ sent_fields (e_date pev) r2 fs /\ holds (a_hdrs a2) fs /\ f_len (a_body a2) = Some n /\
      forall sz, (forall i, 0 < sz i)%nat -> settles (fun fuel => into_bytes cev fuel sz (a_body a2)) (ROk p))).
Proof. exact proxied. Qed.
Print Assumptions C127_server.
(** [resp1] with a body in two parts, in two hops of this code. *)
Example C127_server_case : let r := resp1 (Some 11%N) in resp_wf r /\ returnable r /\ b_len (r_body r) = Some 11%N /\ wf_src (b_src (r_body r)) /\
  N.of_nat (length (src_data (b_src (r_body r)))) = 11%N /\
  let m := w_out (fst (send 60 (ev0 true) r slow)) in
  match c_decode (ev0 true) (arrives (firstn 40 m) (skipn 40 m)) with
  | (_, COk a) => returnable (announced (a_status a) HTTP_11 two_hdrs (Some 11%N)) /\
      let m2 := w_out (fst (relay 60 (ev0 true) (relay_of (a_status a) HTTP_11 two_hdrs (a_body a)) slow)) in
      match c_decode (ev0 true) (arrives (firstn 40 m2) (skipn 40 m2)) with
      | (_, COk a2) => a_status a2 = r_status r /\ into_bytes (ev0 true) 20 growing (a_body a2) = ROk (B "hello world")
      | _ => False
      end
  | _ => False
  end.
Proof.
  cbv zeta. destruct C65_case as (_ & _ & W & R & Ws & _ & L). split; [exact W|]. split; [exact R|]. split; [reflexivity|]. split; [exact Ws|]. split; [exact L|].
  assert (X : forall P : N -> Prop, P (r_status (resp1 (Some 11%N))) -> let m := w_out (fst (send 60 (ev0 true) (resp1 (Some 11%N)) slow)) in
    match c_decode (ev0 true) (arrives (firstn 40 m) (skipn 40 m)) with (_, COk a) => P (a_status a) | _ => False end) by (intros P HP; vm_compute; exact HP).
  pose proof (X (fun st => returnable (announced st HTTP_11 two_hdrs (Some 11%N)))) as Y. cbv zeta in Y. clear X.
  match goal with |- match ?d with _ => _ end => assert (Z : match d with (_, COk a) => let m2 := w_out (fst (relay 60 (ev0 true) (relay_of (a_status a) HTTP_11 two_hdrs (a_body a)) slow)) in
    match c_decode (ev0 true) (arrives (firstn 40 m2) (skipn 40 m2)) with
    | (_, COk a2) => a_status a2 = r_status (resp1 (Some 11%N)) /\ into_bytes (ev0 true) 20 growing (a_body a2) = ROk (B "hello world") | _ => False end | _ => False end) by (vm_compute; auto);
    destruct d as [? [a| | |]]; auto end.
  split; [|exact Z]. apply Y. split; [reflexivity|]. split; [cbn; lia|]. split; [cbn; lia|]. intros n v I. now apply (proj1 two_plain) in I.
Qed.
