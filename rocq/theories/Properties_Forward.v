(** Property C126: a request's body handed to the client ([connect]), as a proxy does. *)
From Verif Require Import Forward Accept SpecIo SpecChunked SpecHead SpecReq SpecServer SpecBody SpecClient Lemmas Proofs_ServerDec Proofs_Request Proofs_ClientDec Proofs_RelayReq Proofs_Forward
  Examples_Response Examples_Dec Examples_Request Examples_Client Properties_Body Properties_Client.

(** Forward.v agrees with Client.v on the bodies that Client.v has. *)
Theorem C126_own : forall ev fuel m u hs b s w, fconnect ev fuel (mkFreq m u hs (BodyRead.full b)) s w = connect ev fuel (mkCreq m u hs b) s w.
Proof. exact own_connect. Qed.
Print Assumptions C126_own.
Example C126_own_case : match fconnect (ev0 true) 200 (mkFreq (B "POST") (mkUri (Some (B "h.example")) (Some (B "8080")) (B "/up") None) two_hdrs (BodyRead.full hello_body)) (arrives no_content []) slow with
  | (w', COk a) => a_status a = 204%N /\ w_out w' = lines ["POST /up HTTP/1.1"; "host: h.example:8080"; "content-length: 11"; "accept: */*"; "x-a: 1"; "x-a: 2"]%string ++ B "hello world"
  | _ => False
  end.
Proof. vm_compute. auto. Qed.

(** C126, bodies of declared length. What is written is the head due and then the body, as far
    as it arrives. [connect] goes on to the response when the body is complete, or when the
    peer closed early (see [C126_short_refuted]); it fails when the connection the body comes
    from fails, or the one it goes to. *)
Theorem C126_fixed_partial : forall ev tmo s wt s' wt' q b n m u hs, env_ok ev -> wf_src s -> decode ev tmo s wt = (s', wt', OReq q b) -> q_len q = Some n ->
  let y := mkFreq m u hs (msg_body (q_len q) b) in creq_wf (fq_head y) -> addressed (fq_head y) ->
  exists w rest h, offers tmo s w /\ src_data s = w ++ rest /\ creq_head (fq_head y) h /\
  forall up wr, exists wr' p out, settles (fun fuel => fconnect ev fuel y up wr) (wr', out) /\ w_out wr' = w_out wr ++ p /\ prefix p (h ++ firstn (N.to_nat n) rest) /\
    (p = h ++ firstn (N.to_nat n) rest /\ (n <= N.of_nat (length rest) \/ clean s)%N /\ out = snd (c_decode ev up) \/
     out = CErr /\ ~ ((n <= N.of_nat (length rest) \/ clean s)%N /\ accepting wr)).
Proof.
  intros ev tmo s wt s' wt' q b n m u hs He Ws H Hn y Hq A. destruct (forward_request ev tmo s wt s' wt' q b n m u hs He Ws H Hn Hq A) as (w & rest & h & Q1 & Q2 & _ & Q3).
  exists w, rest, h. auto.
Qed.
Print Assumptions C126_fixed_partial.
Definition post_to (f : fbody) : frequest := mkFreq (B "POST") (mkUri (Some (B "h.example")) (Some (B "8080")) (B "/up") (Some (B "a=b"))) two_hdrs f.
Lemma post_to_wf f : creq_wf (fq_head (post_to f)) /\ addressed (fq_head (post_to f)).
Proof. split; [exact (post_wf two_hdrs _ two_wf)|exact (post_addressed _)]. Qed.
(** A request with five bytes of body and more behind it; and one whose connection fails. *)
Example C126_case : let broken := mkSrc [Data post_head; Data (B "he"); Fail] Eof in
  match decode (ev0 true) true (arrives post_head (B "hello, world")) slow, decode (ev0 true) true broken slow with
  | (_, _, OReq q b), (_, _, OReq q' b') => q_len q = Some 5%N /\ q_len q' = Some 5%N /\
      match fconnect (ev0 true) 200 (post_to (msg_body (q_len q) b)) (arrives no_content []) slow with
      | (wr, COk a) => a_status a = 204%N /\ w_out wr = lines ["POST /up?a=b HTTP/1.1"; "host: h.example:8080"; "content-length: 5"; "accept: */*"; "x-a: 1"; "x-a: 2"]%string ++ B "hello"
      | _ => False
      end /\ snd (fconnect (ev0 true) 200 (post_to (msg_body (q_len q') b')) (arrives no_content []) slow) = CErr
  | _, _ => False
  end.
Proof. vm_compute. auto. Qed.

(** C126, to the next server: it obtains the request with the body that was received. *)
Theorem C126_trip_partial : forall ev sev tmo s wt s' wt' q b n m u hs, env_ok ev -> env_ok sev -> wf_src s -> decode ev tmo s wt = (s', wt', OReq q b) -> q_len q = Some n ->
  let y := mkFreq m u hs (msg_body (q_len q) b) in
  exists w rest, offers tmo s w /\ src_data s = w ++ rest /\ let p := firstn (N.to_nat n) rest in let q0 := mkCreq m u hs (body_from_bytes p) in
  ((n <= N.of_nat (length rest))%N -> creq_wf q0 -> addressed q0 -> ordinary q0 ->
   exists t, (forall up wr, accepting wr -> exists wr', w_out wr' = w_out wr ++ t /\ settles (fun fuel => fconnect ev fuel y up wr) (wr', snd (c_decode ev up))) /\
   forall tm s2 extra w2, wf_src s2 -> fst (avail tm (s_evs s2)) = t ++ extra -> accepting w2 -> prompt tm w2 ->
   exists s3 w3 q2 b2, decode sev tm s2 w2 = (s3, w3, OReq q2 b2) /\ arrived q0 q2 /\
     forall sz, (forall i, 0 < sz i)%nat -> settles (fun fuel => into_bytes sev fuel sz (msg_body (q_len q2) b2)) (ROk p)).
Proof. exact forward_trip. Qed.
Print Assumptions C126_trip_partial.
Example C126_trip_case : let q0 := post_req two_hdrs (body_from_bytes (B "hello")) in
  creq_wf q0 /\ addressed q0 /\ ordinary q0 /\
  match decode (ev0 true) true (arrives post_head (B "hello, world")) slow with
  | (_, _, OReq q b) => q_len q = Some 5%N /\
      let wr := fst (fconnect (ev0 true) 200 (post_to (msg_body (q_len q) b)) (arrives no_content []) (mkWtr [] [])) in
      match decode (ev0 true) true (arrives (w_out wr) (B "more")) slow with
      | (_, _, OReq q2 b2) => q_meth q2 = B "POST" /\ into_bytes (ev0 true) 20 growing (msg_body (q_len q2) b2) = ROk (B "hello")
      | _ => False
      end
  | _ => False
  end.
Proof.
  cbv zeta. split; [exact (post_wf two_hdrs _ two_wf)|]. split; [exact (post_addressed _)|]. split; [|vm_compute; auto].
  destruct (post_ordinary two_hdrs two_plain) as (O1 & O2 & O3 & O4 & O5 & O6 & O7 & _). split; [exact O1|]. split; [exact O2|]. split; [exact O3|]. split; [exact O4|].
  split; [intros t T; inversion T as [h p X|_ X|x _ X]; [discriminate X|discriminate X|]; injection X as <-; cbn; lia|]. split; [exact O6|]. split; [exact O7|].
  split; [repeat constructor; discriminate|]. split; [split; [repeat constructor; discriminate|reflexivity]|]. split; [reflexivity|now vm_compute].
Qed.

(** C126 is false when the peer closes its connection before the body is complete: the request
    goes out with the full length and a shorter body, and [connect] returns a response. *)
Theorem C126_short_refuted : exists s wt s' wt' q b up wr', wf_src s /\ clean s /\ decode (ev0 true) true s wt = (s', wt', OReq q b) /\ q_len q = Some 5%N /\
  (exists a, fconnect (ev0 true) 200 (post_to (msg_body (q_len q) b)) up slow = (wr', COk a)) /\
  w_out wr' = lines ["POST /up?a=b HTTP/1.1"; "host: h.example:8080"; "content-length: 5"; "accept: */*"; "x-a: 1"; "x-a: 2"]%string ++ B "he".
Proof.
  exists (mkSrc [Data post_head; Data (B "he")] Eof), slow. eexists _, _, _, _. exists (arrives no_content []). eexists. split; [repeat constructor; discriminate|].
  split; [split; [repeat constructor; discriminate|reflexivity]|]. split; [vm_compute; reflexivity|]. split; [reflexivity|]. split; [eexists; vm_compute; reflexivity|vm_compute; reflexivity].
Qed.
Print Assumptions C126_short_refuted.

(** C126 is false for chunked bodies: [connect] panics on every one of them, and nothing is
    written. *)
Theorem C126_chunked_refuted : forall ev tmo s wt s' wt' q b m u hs fuel up wr, decode ev tmo s wt = (s', wt', OReq q b) -> q_len q = None ->
  let y := mkFreq m u hs (msg_body (q_len q) b) in creq_wf (fq_head y) -> addressed (fq_head y) -> fconnect ev fuel y up wr = (wr, CPanic).
Proof.
  intros ev tmo s wt s' wt' q b m u hs fuel up wr _ Hn y Hq A. subst y. rewrite Hn in *. exact (forward_chunked ev fuel m u hs b up wr Hq A).
Qed.
Print Assumptions C126_chunked_refuted.
Example C126_chunked_case : match decode (ev0 true) true (arrives chunk_head wiki_wire) slow with
  | (_, _, OReq q b) => q_len q = None /\ creq_wf (fq_head (post_to (msg_body (q_len q) b))) /\ addressed (fq_head (post_to (msg_body (q_len q) b)))
  | _ => False
  end.
Proof.
  assert (X : forall P Q : fbody -> Prop, (forall f, P f) -> (forall f, Q f) -> match decode (ev0 true) true (arrives chunk_head wiki_wire) slow with
    | (_, _, OReq q b) => q_len q = None /\ P (msg_body (q_len q) b) /\ Q (msg_body (q_len q) b) | _ => False end).
  { intros P Q HP HQ. assert (Y : match decode (ev0 true) true (arrives chunk_head wiki_wire) slow with (_, _, OReq q b) => q_len q = None | _ => False end) by (vm_compute; reflexivity).
    destruct (decode (ev0 true) true (arrives chunk_head wiki_wire) slow) as [[? ?] [q b| | | |]]; try contradiction. auto. }
  apply (X (fun f => creq_wf (fq_head (post_to f))) (fun f => addressed (fq_head (post_to f)))); intros f; apply post_to_wf.
Qed.
