(** Properties C86-C90: sending on a body that was received. [relay_of st v hs f] is a response
    with status [st] and fields [hs] whose body is [f]. *)
From Verif Require Import Relay Client Accept Reads SpecChunked SpecHead SpecResponse SpecReq SpecServer SpecBody SpecClient Lemmas Proofs_Copy Proofs_ServerEnc
  Proofs_Head Proofs_Send Proofs_Buf Proofs_ServerDec Proofs_Accept Proofs_Request Proofs_ClientDec Proofs_Relay Proofs_RelayReq Examples_Response Examples_Dec Examples_Request Examples_Client Properties_Body Properties_Client.

(** C86, bodies of declared length: a handler that answers with the request's body sends its
    declared length and exactly its bytes. *)
Theorem C86_fixed : forall ev tmo s wt s' wt' q b n st v hs, env_ok ev -> wf_src s ->
  decode ev tmo s wt = (s', wt', OReq q b) -> q_len q = Some n -> hm_wf hs -> (n + N.of_nat (e_bufcap ev) < two64)%N ->
  let y := relay_of st v hs (msg_body (q_len q) b) in
  exists w rest head, offers tmo s w /\ src_data s = w ++ rest /\ response_head (e_date ev) (announced st v hs (Some n)) head /\
  ((n <= N.of_nat (length rest))%N -> forall wr, accepting wr ->
   exists wr', settles (fun fuel => relay fuel ev y wr) (wr', ROk (N.of_nat (length head) + n)%N) /\
     w_out wr' = w_out wr ++ head ++ firstn (N.to_nat n) rest).
Proof.
  intros ev tmo s wt s' wt' q b n st v hs He Ws H Hn Hh HL y. subst y. destruct (request_reader ev tmo s wt s' wt' q b He Ws H) as (w & br & HO & HD & HW & _ & ->).
  rewrite Hn. cbn [body_reader]. exists w, (br_data br). eexists. split; [exact HO|]. split; [exact HD|]. split; [apply head_response; [exact Hh|apply He]|].
  intros L wr A. now apply fixed_relayed.
Qed.
Print Assumptions C86_fixed.
Example C86_fixed_case : exists s' wt' q b, decode (ev0 true) true (arrives post_head (B "hello")) slow = (s', wt', OReq q b) /\ q_len q = Some 5%N /\
  accepting slow /\ hm_wf [] /\ exists wr', relay 20 (ev0 true) (relay_of 200 HTTP_11 [] (msg_body (q_len q) b)) slow = (wr', ROk 120%N) /\ skipn 115 (w_out wr') = B "hello".
Proof.
  eexists _, _, _, _. split; [vm_compute; reflexivity|]. split; [reflexivity|]. split; [apply slow_accepting|]. split; [split; constructor|]. eexists.
  split; [vm_compute; reflexivity|]. vm_compute. reflexivity.
Qed.

(** C86, chunked bodies: the payload is sent in chunks, and ended, unless it is empty and the
    head has one of the lengths of C08. *)
Theorem C86_chunked : forall ev tmo s wt s' wt' q b st v hs, env_ok ev -> wf_src s ->
  decode ev tmo s wt = (s', wt', OReq q b) -> q_len q = None -> hm_wf hs ->
  let y := relay_of st v hs (msg_body (q_len q) b) in
  exists w rest head, offers tmo s w /\ src_data s = w ++ rest /\ response_head (e_date ev) (announced st v hs None) head /\
  forall p tr wire extra, fitting (e_deccap ev) p tr wire -> rest = wire ++ extra -> ~ (p = [] /\ eos_window (e_bufcap ev) (length head)) ->
  forall wr, accepting wr -> exists wr' cw, chunks plain_size_line p cw /\
    settles (fun fuel => relay fuel ev y wr) (wr', ROk (N.of_nat (length (head ++ cw ++ last_chunk)))) /\
    w_out wr' = w_out wr ++ head ++ cw ++ last_chunk.
Proof.
  intros ev tmo s wt s' wt' q b st v hs He Ws H Hn Hh y. subst y. destruct (request_reader ev tmo s wt s' wt' q b He Ws H) as (w & br & HO & HD & HW & _ & ->).
  rewrite Hn. cbn [body_reader]. exists w, (br_data br). eexists. split; [exact HO|]. split; [exact HD|]. split; [apply head_response; [exact Hh|apply He]|].
  intros p tr wire extra HF HE NW wr A. eapply chunked_relayed; eassumption.
Qed.
Print Assumptions C86_chunked.
Example C86_chunked_case : exists s' wt' q b, decode (ev0 true) true (arrives chunk_head (wiki_wire ++ B "GET /")) slow = (s', wt', OReq q b) /\ q_len q = None /\
  fitting (e_deccap (ev0 true)) (B "Wikipedia") [(B "Expires", B "never")] wiki_wire /\
  exists wr' k, relay 60 (ev0 true) (relay_of 200 HTTP_11 [] (msg_body (q_len q) b)) slow = (wr', ROk k) /\
    skipn 124 (w_out wr') = B "4" ++ CRLF ++ B "Wiki" ++ CRLF ++ B "5" ++ CRLF ++ B "pedia" ++ CRLF ++ B "0" ++ CRLF ++ CRLF.
Proof.
  eexists _, _, _, _. split; [vm_compute; reflexivity|]. split; [reflexivity|]. split; [exact wiki_fits|]. eexists _, _.
  split; [vm_compute; reflexivity|]. vm_compute. reflexivity.
Qed.

(** C87 is false. A request that declares more bytes than it sends before an orderly close makes
    the answer spin for ever: no amount of steps is enough, whatever the handler adds. *)
Theorem C87_short_hangs : forall ev tmo s wt s' wt' q b n st v hs, env_ok ev -> wf_src s -> clean s ->
  decode ev tmo s wt = (s', wt', OReq q b) -> q_len q = Some n -> (n + N.of_nat (e_bufcap ev) < two64)%N ->
  exists w rest, offers tmo s w /\ src_data s = w ++ rest /\
  ((N.of_nat (length rest) < n)%N -> forall wr, accepting wr -> forall fuel, snd (relay fuel ev (relay_of st v hs (msg_body (q_len q) b)) wr) = RFuel).
Proof.
  intros ev tmo s wt s' wt' q b n st v hs He Ws C H Hn HL. destruct (request_reader ev tmo s wt s' wt' q b He Ws H) as (w & br & HO & HD & HW & HC & ->).
  rewrite Hn. cbn [body_reader]. exists w, (br_data br). split; [exact HO|]. split; [exact HD|]. intros L wr A. apply (fixed_short ev n br st v hs He HW HL wr L A). now apply HC.
Qed.
Print Assumptions C87_short_hangs.
Theorem C87_returns_refuted : exists ev tmo s wt s' wt' q b, env_ok ev /\ wf_src s /\ clean s /\ decode ev tmo s wt = (s', wt', OReq q b) /\
  forall wr, accepting wr -> forall fuel, snd (relay fuel ev (relay_of 200 HTTP_11 [] (msg_body (q_len q) b)) wr) = RFuel.
Proof.
  assert (W : wf_src (arrives post_head (B "hel"))) by (apply arrives_wf; cbn; lia).
  assert (C : clean (arrives post_head (B "hel"))) by apply arrives_clean.
  assert (D : exists s' wt' q b, decode (ev0 true) true (arrives post_head (B "hel")) slow = (s', wt', OReq q b) /\ q_len q = Some 5%N)
    by (eexists _, _, _, _; split; [vm_compute; reflexivity|reflexivity]).
  destruct D as (s' & wt' & q & b & D & Hq). exists (ev0 true), true, (arrives post_head (B "hel")), slow, s', wt', q, b.
  split; [apply ev0_ok|]. split; [exact W|]. split; [exact C|]. split; [exact D|].
  destruct (C87_short_hangs _ _ _ _ _ _ _ _ _ 200 HTTP_11 [] (ev0_ok true) W C D Hq (ev0_fits true 5 eq_refl)) as (w & rest & HO & HD & Q).
  assert (w = post_head). { apply (offers_unique true (arrives post_head (B "hel"))); [exact HO|]. apply arrives_offers; [cbn; lia|vm_compute; reflexivity]. }
  subst w. assert (ER : rest = B "hel") by (apply (app_inv_head post_head); rewrite <- HD; vm_compute; reflexivity). rewrite ER in Q. apply Q. cbn. lia.
Qed.
Print Assumptions C87_returns_refuted.
(** A request that declares 2^64 - 1 bytes makes it panic, with or without overflow checks. *)
Definition max_head : bytes := lines ["POST /up HTTP/1.1"; "host: h"; "content-length: 18446744073709551615"]%string.
Theorem C87_panic_refuted : forall dbg, exists s wt s' wt' q b wr fuel, wf_src s /\ decode (ev0 dbg) true s wt = (s', wt', OReq q b) /\ accepting wr /\
  snd (relay fuel (ev0 dbg) (relay_of 200 HTTP_11 [] (msg_body (q_len q) b)) wr) = RPanic.
Proof.
  intros dbg. exists (arrives max_head (B "hello")), slow. destruct dbg; eexists _, _, _, _, slow, 20%nat;
  (split; [apply arrives_wf; cbn; lia|]; split; [vm_compute; reflexivity|]; split; [apply slow_accepting|]; vm_compute; reflexivity).
Qed.
Print Assumptions C87_panic_refuted.
(** What holds: it returns for complete bodies (C86), and with an error when the connection fails
    before the declared length ... Missing from C87: the two cases above. *)
Theorem C87_fails_partial : forall ev tmo s wt s' wt' q b n st v hs, env_ok ev -> wf_src s -> ~ clean s ->
  decode ev tmo s wt = (s', wt', OReq q b) -> q_len q = Some n -> hm_wf hs -> (n + N.of_nat (e_bufcap ev) < two64)%N ->
  let y := relay_of st v hs (msg_body (q_len q) b) in
  exists w rest head, offers tmo s w /\ src_data s = w ++ rest /\ response_head (e_date ev) (announced st v hs (Some n)) head /\
  ((N.of_nat (length rest) < n)%N -> forall wr, accepting wr ->
   exists wr' o, settles (fun fuel => relay fuel ev y wr) (wr', RErr) /\ w_out wr' = w_out wr ++ o /\ prefix o (head ++ rest)).
Proof.
  intros ev tmo s wt s' wt' q b n st v hs He Ws C H Hn Hh HL y. subst y. destruct (request_reader ev tmo s wt s' wt' q b He Ws H) as (w & br & HO & HD & HW & HC & ->).
  rewrite Hn. cbn [body_reader]. exists w, (br_data br). eexists. split; [exact HO|]. split; [exact HD|]. split; [apply head_response; [exact Hh|apply He]|].
  intros L wr A. apply (fixed_short ev n br st v hs He HW HL wr L A). tauto.
Qed.
Print Assumptions C87_fails_partial.
Definition snapped : src := mkSrc [Data post_head; Data (B "he"); Fail] Eof.
Example C87_fails_case : wf_src snapped /\ ~ clean snapped /\ exists s' wt' q b, decode (ev0 true) true snapped slow = (s', wt', OReq q b) /\ q_len q = Some 5%N /\
  snd (relay 20 (ev0 true) (relay_of 200 HTTP_11 [] (msg_body (q_len q) b)) slow) = RErr.
Proof.
  split; [repeat constructor; discriminate|]. split. { intros [C _]. inversion C as [|? ? _ C1]; subst. inversion C1 as [|? ? _ C2]; subst. inversion C2; congruence. }
  eexists _, _, _, _. split; [vm_compute; reflexivity|]. split; [reflexivity|]. vm_compute. reflexivity.
Qed.
(** ... and for every chunked body, well-formed or not, on any connection: what is written is the
    head and well-formed chunks, cut short unless it reports success. A panic needs a head of
    one of the lengths of C08. *)
Theorem C87_chunked_partial : forall ev tmo s wt s' wt' q b st v hs wr, env_ok ev -> wf_src s ->
  decode ev tmo s wt = (s', wt', OReq q b) -> q_len q = None -> hm_wf hs ->
  let y := relay_of st v hs (msg_body (q_len q) b) in
  exists head wr' x o, response_head (e_date ev) (announced st v hs None) head /\ settles (fun fuel => relay fuel ev y wr) (wr', x) /\ w_out wr' = w_out wr ++ o /\
  exists p cw, chunks plain_size_line p cw /\ prefix o (head ++ cw ++ last_chunk) /\
  match x with
  | ROk k => o = head ++ cw ++ last_chunk /\ k = N.of_nat (length o)
  | RErr => ~ accepting wr \/ prefix o (head ++ cw)
  | RPanic => eos_window (e_bufcap ev) (length head) /\ prefix o head
  | RFuel | RTimeout => False
  end.
Proof.
  intros ev tmo s wt s' wt' q b st v hs wr He Ws H Hn Hh y. subst y. destruct (request_reader ev tmo s wt s' wt' q b He Ws H) as (w & br & HO & HD & HW & HC & ->).
  rewrite Hn. cbn [body_reader]. destruct (chunked_returns ev br st v hs He wr) as (wr' & x & o & Q). eexists _, wr', x, o. split; [apply head_response; [exact Hh|apply He]|]. exact Q.
Qed.
Print Assumptions C87_chunked_partial.
Example C87_chunked_case : exists s' wt' q b, decode (ev0 true) true (arrives chunk_head (B "zz" ++ CRLF)) slow = (s', wt', OReq q b) /\ q_len q = None /\
  snd (relay 20 (ev0 true) (relay_of 200 HTTP_11 [] (msg_body (q_len q) b)) slow) = RErr.
Proof. eexists _, _, _, _. split; [vm_compute; reflexivity|]. split; [reflexivity|]. vm_compute. reflexivity. Qed.

(** C88 is false: a chunked body cut off by an orderly close is passed on as a complete one. *)
Theorem C88_cut_passes : forall ev tmo s wt s' wt' q b st v hs, env_ok ev -> wf_src s -> clean s ->
  decode ev tmo s wt = (s', wt', OReq q b) -> q_len q = None -> hm_wf hs ->
  let y := relay_of st v hs (msg_body (q_len q) b) in
  exists w rest head, offers tmo s w /\ src_data s = w ++ rest /\ response_head (e_date ev) (announced st v hs None) head /\
  forall p tr wire cut, fitting (e_deccap ev) p tr wire -> wire = rest ++ cut -> cut <> [] -> forall wr, accepting wr ->
  exists x, prefix x p /\ carried x rest /\ (~ (x = [] /\ eos_window (e_bufcap ev) (length head)) -> exists wr' cw, chunks plain_size_line x cw /\
    settles (fun fuel => relay fuel ev y wr) (wr', ROk (N.of_nat (length (head ++ cw ++ last_chunk)))) /\ w_out wr' = w_out wr ++ head ++ cw ++ last_chunk).
Proof.
  intros ev tmo s wt s' wt' q b st v hs He Ws C H Hn Hh y. subst y. destruct (request_reader ev tmo s wt s' wt' q b He Ws H) as (w & br & HO & HD & HW & HC & ->).
  rewrite Hn. cbn [body_reader]. exists w, (br_data br). eexists. split; [exact HO|]. split; [exact HD|]. split; [apply head_response; [exact Hh|apply He]|].
  intros p tr wire cut HF HE Hc wr A. eapply chunked_cut; eauto. now apply HC.
Qed.
Print Assumptions C88_cut_passes.
Theorem C88_whole_refuted : exists s wt s' wt' q b wr', wf_src s /\ clean s /\ decode (ev0 true) true s wt = (s', wt', OReq q b) /\
  fitting (e_deccap (ev0 true)) (B "Wikipedia") [(B "Expires", B "never")] (firstn 5 wiki_wire ++ skipn 5 wiki_wire) /\ src_data s = chunk_head ++ firstn 5 wiki_wire /\ skipn 5 wiki_wire <> [] /\
  exists k, relay 60 (ev0 true) (relay_of 200 HTTP_11 [] (msg_body (q_len q) b)) slow = (wr', ROk k) /\ skipn 124 (w_out wr') = B "2" ++ CRLF ++ B "Wi" ++ CRLF ++ B "0" ++ CRLF ++ CRLF.
Proof.
  exists (arrives chunk_head (firstn 5 wiki_wire)), slow. eexists _, _, _, _, _. split; [apply arrives_wf; cbn; lia|]. split; [apply arrives_clean|]. split; [vm_compute; reflexivity|].
  split; [rewrite firstn_skipn; exact wiki_fits|]. split; [vm_compute; reflexivity|]. split; [discriminate|]. eexists. split; [vm_compute; reflexivity|]. vm_compute. reflexivity.
Qed.
Print Assumptions C88_whole_refuted.
(** What holds: a malformed chunked body gives an error, and no last chunk is written. Missing
    from C88: orderly closes (for bodies of declared length see C87). *)
Theorem C88_malformed_partial : forall ev tmo s wt s' wt' q b st v hs, env_ok ev -> wf_src s ->
  decode ev tmo s wt = (s', wt', OReq q b) -> q_len q = None -> hm_wf hs ->
  let y := relay_of st v hs (msg_body (q_len q) b) in
  exists w rest head, offers tmo s w /\ src_data s = w ++ rest /\ response_head (e_date ev) (announced st v hs None) head /\
  forall p wire n extra, malformed (e_deccap ev) p wire n -> (n <= e_deccap ev)%nat -> rest = wire ++ extra -> forall wr, accepting wr ->
  exists wr' o x cw, prefix x p /\ chunks plain_size_line x cw /\ prefix o (head ++ cw) /\
    settles (fun fuel => relay fuel ev y wr) (wr', RErr) /\ w_out wr' = w_out wr ++ o.
Proof.
  intros ev tmo s wt s' wt' q b st v hs He Ws H Hn Hh y. subst y. destruct (request_reader ev tmo s wt s' wt' q b He Ws H) as (w & br & HO & HD & HW & HC & ->).
  rewrite Hn. cbn [body_reader]. exists w, (br_data br). eexists. split; [exact HO|]. split; [exact HD|]. split; [apply head_response; [exact Hh|apply He]|].
  intros p wire n extra HM HF HE wr A. eapply chunked_bad; eassumption.
Qed.
Print Assumptions C88_malformed_partial.
Example C88_malformed_case : malformed (e_deccap (ev0 true)) (B "Wiki") (B "4" ++ CRLF ++ B "Wikipe") 9 /\
  exists s' wt' q b, decode (ev0 true) true (arrives chunk_head (B "4" ++ CRLF ++ B "Wikipedia")) slow = (s', wt', OReq q b) /\ q_len q = None /\
  exists wr', relay 60 (ev0 true) (relay_of 200 HTTP_11 [] (msg_body (q_len q) b)) slow = (wr', RErr) /\ skipn 124 (w_out wr') = B "4" ++ CRLF ++ B "Wiki" ++ CRLF.
Proof.
  split.
  { refine (eq_ind _ (malformed (e_deccap (ev0 true)) (B "Wiki") (B "4" ++ CRLF ++ B "Wikipe")) (mal_end (e_deccap (ev0 true)) [] [] 0 (B "Wiki") (B "4" ++ CRLF) (B "pe") _ _ _ _ _) 9%nat _);
      try discriminate; [constructor| |reflexivity|vm_compute; reflexivity].
    exists (B "4"), []. split; [|split; [cbn; lia|split; [|reflexivity]]].
    - apply (hex_one (ascii_of_N 52) 4). now right.
    - exists [], []. repeat split; [constructor|now left]. }
  eexists _, _, _, _. split; [vm_compute; reflexivity|]. split; [reflexivity|]. eexists. split; [vm_compute; reflexivity|]. vm_compute. reflexivity.
Qed.

(** C89, bodies of declared length: a handler that answers with the body of a response it got as
    a client sends exactly the bytes the upstream server sent. *)
Theorem C89_fixed : forall ev s w rest code hs n st v hs', env_ok ev -> delivers s w rest -> cjudge (e_trim ev) w (CvLength code hs n) ->
  hm_wf hs' -> (n + N.of_nat (e_bufcap ev) < two64)%N ->
  exists b a after head, c_decode ev s = (b, COk a) /\ let y := relay_of st v hs' (a_body a) in src_data s = w ++ after /\ response_head (e_date ev) (announced st v hs' (Some n)) head /\
  ((n <= N.of_nat (length after))%N -> forall wr, accepting wr ->
   exists wr', settles (fun fuel => relay fuel ev y wr) (wr', ROk (N.of_nat (length head) + n)%N) /\
     w_out wr' = w_out wr ++ head ++ firstn (N.to_nat n) after).
Proof.
  intros ev s w rest code hs n st v hs' He D J Hh HL. assert (L : (N.of_nat (length w) < 8192)%N) by now inversion J.
  destruct (decode_short ev (proj1 He) (ok_cap ev He) s w rest D L) as (b & (HW & _ & HD & HC & _) & E & Q). destruct (Q _ J) as (m & _ & E2).
  destruct (c_decode ev s) as [b' out]. cbn [fst snd] in E, E2. subst b' out. eexists b, _, (br_data b), _. split; [reflexivity|]. cbn [a_body]. split; [exact HD|].
  split; [apply head_response; [exact Hh|apply He]|]. intros L2 wr A. now apply fixed_relayed.
Qed.
Print Assumptions C89_fixed.
Example C89_fixed_case : delivers (arrives five (B "hello")) five (B "hello") /\ cjudge (e_trim (ev0 true)) five (CvLength 200 [(B "content-length", B "5")] 5) /\
  exists b a wr', c_decode (ev0 true) (arrives five (B "hello")) = (b, COk a) /\ relay 20 (ev0 true) (relay_of 200 HTTP_11 [] (a_body a)) slow = (wr', ROk 120%N) /\ skipn 115 (w_out wr') = B "hello".
Proof.
  split; [apply arrives_delivers; [cbn; lia|vm_compute; reflexivity]|]. split.
  { eapply cj_length; [cbn; lia|eapply parses; vm_compute; reflexivity|lia|reflexivity|reflexivity|]. apply cl_value_iff. reflexivity. }
  eexists _, _, _. split; [vm_compute; reflexivity|]. split; [vm_compute; reflexivity|]. vm_compute. reflexivity.
Qed.
(** C89, chunked bodies. *)
Theorem C89_chunked : forall ev s w rest st v hs', env_ok ev -> delivers s w rest -> cjudge (e_trim ev) w CvChunked -> hm_wf hs' ->
  exists b a after head, c_decode ev s = (b, COk a) /\ let y := relay_of st v hs' (a_body a) in src_data s = w ++ after /\ response_head (e_date ev) (announced st v hs' None) head /\
  forall p tr wire extra, fitting (e_deccap ev) p tr wire -> after = wire ++ extra -> ~ (p = [] /\ eos_window (e_bufcap ev) (length head)) ->
  forall wr, accepting wr -> exists wr' cw, chunks plain_size_line p cw /\
    settles (fun fuel => relay fuel ev y wr) (wr', ROk (N.of_nat (length (head ++ cw ++ last_chunk)))) /\
    w_out wr' = w_out wr ++ head ++ cw ++ last_chunk.
Proof.
  intros ev s w rest st v hs' He D J Hh. assert (L : (N.of_nat (length w) < 8192)%N) by now inversion J.
  destruct (decode_short ev (proj1 He) (ok_cap ev He) s w rest D L) as (b & (HW & _ & HD & HC & _) & E & Q). pose proof (Q _ J) as E2. cbn [canswers] in E2.
  destruct (c_decode ev s) as [b' out]. cbn [fst snd] in E, E2. subst b' out. eexists b, _, (br_data b), _. split; [reflexivity|]. cbn [a_body]. split; [exact HD|].
  split; [apply head_response; [exact Hh|apply He]|]. intros p tr wire extra HF HE NW wr A. eapply chunked_relayed; eassumption.
Qed.
Print Assumptions C89_chunked.
Example C89_chunked_case : delivers (arrives spelled (wiki_wire ++ B "x")) spelled (wiki_wire ++ B "x") /\ cjudge (e_trim (ev0 true)) spelled CvChunked /\
  fitting (e_deccap (ev0 true)) (B "Wikipedia") [(B "Expires", B "never")] wiki_wire.
Proof.
  split; [apply arrives_delivers; [cbn; lia|vm_compute; reflexivity]|]. split; [|exact wiki_fits].
  eapply cj_chunked; [cbn; lia|eapply parses; vm_compute; reflexivity|reflexivity|eexists; reflexivity].
Qed.

(** C90 is false: when the upstream server closes before the declared length, the answer spins
    for ever. *)
Theorem C90_short_hangs : forall ev s w rest code hs n st v hs', env_ok ev -> clean s -> delivers s w rest -> cjudge (e_trim ev) w (CvLength code hs n) ->
  (N.of_nat (length (src_data s)) < N.of_nat (length w) + n)%N -> (n + N.of_nat (e_bufcap ev) < two64)%N ->
  exists b a, c_decode ev s = (b, COk a) /\ forall wr, accepting wr -> forall fuel, snd (relay fuel ev (relay_of st v hs' (a_body a)) wr) = RFuel.
Proof.
  intros ev s w rest code hs n st v hs' He C D J LS HL. assert (L : (N.of_nat (length w) < 8192)%N) by now inversion J.
  destruct (decode_short ev (proj1 He) (ok_cap ev He) s w rest D L) as (b & (HW & _ & HD & HC & _) & E & Q). destruct (Q _ J) as (m & _ & E2).
  destruct (c_decode ev s) as [b' out]. cbn [fst snd] in E, E2. subst b' out. eexists b, _. split; [reflexivity|]. cbn [a_body].
  intros wr A. apply (fixed_short ev n b st v hs' He HW HL wr); [|exact A|now apply HC]. rewrite HD, app_length in LS. lia.
Qed.
Print Assumptions C90_short_hangs.
Theorem C90_returns_refuted : exists ev s w rest b a, env_ok ev /\ clean s /\ delivers s w rest /\ c_decode ev s = (b, COk a) /\
  forall wr, accepting wr -> forall fuel, snd (relay fuel ev (relay_of 200 HTTP_11 [] (a_body a)) wr) = RFuel.
Proof.
  assert (D : delivers (arrives five (B "hel")) five (B "hel")) by (apply arrives_delivers; [cbn; lia|vm_compute; reflexivity]).
  assert (J : cjudge (e_trim (ev0 true)) five (CvLength 200 [(B "content-length", B "5")] 5)).
  { eapply cj_length; [cbn; lia|eapply parses; vm_compute; reflexivity|lia|reflexivity|reflexivity|]. apply cl_value_iff. reflexivity. }
  destruct (C90_short_hangs _ _ _ _ _ _ _ 200 HTTP_11 [] (ev0_ok true) (arrives_clean five (B "hel")) D J ltac:(vm_compute; reflexivity) (ev0_fits true 5 eq_refl)) as (b & a & E & Q).
  exists (ev0 true), (arrives five (B "hel")), five, (B "hel"), b, a. split; [apply ev0_ok|]. split; [apply arrives_clean|]. auto.
Qed.
Print Assumptions C90_returns_refuted.
(** What holds: a broken connection to the upstream server gives an error ... *)
Theorem C90_fails_partial : forall ev s w rest code hs n st v hs', env_ok ev -> ~ clean s -> delivers s w rest -> cjudge (e_trim ev) w (CvLength code hs n) ->
  (N.of_nat (length (src_data s)) < N.of_nat (length w) + n)%N -> (n + N.of_nat (e_bufcap ev) < two64)%N ->
  exists b a, c_decode ev s = (b, COk a) /\ forall wr, accepting wr -> exists wr', settles (fun fuel => relay fuel ev (relay_of st v hs' (a_body a)) wr) (wr', RErr).
Proof.
  intros ev s w rest code hs n st v hs' He C D J LS HL. assert (L : (N.of_nat (length w) < 8192)%N) by now inversion J.
  destruct (decode_short ev (proj1 He) (ok_cap ev He) s w rest D L) as (b & (HW & _ & HD & HC & _) & E & Q). destruct (Q _ J) as (m & _ & E2).
  destruct (c_decode ev s) as [b' out]. cbn [fst snd] in E, E2. subst b' out. eexists b, _. split; [reflexivity|]. cbn [a_body].
  intros wr A. destruct (fixed_short ev n b st v hs' He HW HL wr) as [_ X]; [rewrite HD, app_length in LS; lia|exact A|]. destruct X as (wr' & _ & X & _); [tauto|]. eauto.
Qed.
Print Assumptions C90_fails_partial.
Example C90_fails_case : ~ clean broken /\ delivers broken five (B "he") /\ (N.of_nat (length (src_data broken)) < N.of_nat (length five) + 5)%N.
Proof. destruct C82_case as (X & _ & Y & _). split; [exact Y|]. split; [exact X|]. vm_compute. reflexivity. Qed.
(** ... and every chunked body, well-formed or not, ends the answer. Missing from C90: bodies of
    declared length cut off by an orderly close. *)
Theorem C90_chunked_partial : forall ev s w rest st v hs' wr, env_ok ev -> delivers s w rest -> cjudge (e_trim ev) w CvChunked -> hm_wf hs' ->
  exists b a head wr' x, c_decode ev s = (b, COk a) /\ let y := relay_of st v hs' (a_body a) in response_head (e_date ev) (announced st v hs' None) head /\
  settles (fun fuel => relay fuel ev y wr) (wr', x) /\ ((exists k, x = ROk k) \/ x = RErr \/ x = RPanic /\ eos_window (e_bufcap ev) (length head)).
Proof.
  intros ev s w rest st v hs' wr He D J Hh. assert (L : (N.of_nat (length w) < 8192)%N) by now inversion J.
  destruct (decode_short ev (proj1 He) (ok_cap ev He) s w rest D L) as (b & (HW & _ & HD & HC & _) & E & Q). pose proof (Q _ J) as E2. cbn [canswers] in E2.
  destruct (c_decode ev s) as [b' out]. cbn [fst snd] in E, E2. subst b' out. destruct (chunked_returns ev b st v hs' He wr) as (wr' & x & o & X1 & _ & p & cw & _ & _ & X2).
  eexists b, _, _, wr', x. split; [reflexivity|]. cbn [a_body]. split; [apply head_response; [exact Hh|apply He]|]. split; [exact X1|].
  destruct x; try contradiction; [left; eauto|auto|right; right; tauto].
Qed.
Print Assumptions C90_chunked_partial.
Example C90_chunked_case : delivers (arrives spelled (B "zz" ++ CRLF)) spelled (B "zz" ++ CRLF) /\ exists b a, c_decode (ev0 true) (arrives spelled (B "zz" ++ CRLF)) = (b, COk a) /\
  snd (relay 20 (ev0 true) (relay_of 200 HTTP_11 [] (a_body a)) slow) = RErr.
Proof. split; [apply arrives_delivers; [cbn; lia|vm_compute; reflexivity]|]. eexists _, _. split; [vm_compute; reflexivity|]. vm_compute. reflexivity. Qed.
