(** Properties C17, C21-C31, C69, C70, C73: single requests on a server connection. *)
From Verif Require Import SpecText Accept Reads SpecChunked SpecHead SpecResponse SpecReq SpecServer Lemmas Proofs_Copy Proofs_Parse Proofs_Buf
  Proofs_Dec Proofs_DecReads Proofs_ReqHead Proofs_ReqParse Proofs_ServerDec Proofs_Send Proofs_Body Proofs_Accept Proofs_Request
  Examples_Response Examples_Dec Examples_Request.

Local Ltac by_verdict := apply verdict_judge; vm_compute; reflexivity.
Local Ltac offered := apply arrives_offers; [cbn; lia|vm_compute; reflexivity].

(** C21: two connections that offer the same bytes before the first obstacle (i/o error, firing
    timer, end), however split and with whatever pending polls, give the same request over the
    same following bytes, or the same failure, and the same bytes written. *)
Theorem C21_segmentation : forall ev tmo s1 s2 wt,
  (0 < e_bufcap ev)%nat -> wf_src s1 -> wf_src s2 ->
  avail tmo (s_evs s1) = avail tmo (s_evs s2) -> s_tail s1 = s_tail s2 ->
  snd (fst (decode ev tmo s1 wt)) = snd (fst (decode ev tmo s2 wt)) /\
  same_request tmo (snd (decode ev tmo s1 wt)) (snd (decode ev tmo s2 wt)).
Proof. exact segments. Qed.
Print Assumptions C21_segmentation.
Example C21_case : let s1 := arrives post_head (B "hello") in let s2 := mkSrc [Data (post_head ++ B "he"); Data (B "llo")] Eof in
  wf_src s1 /\ wf_src s2 /\ avail true (s_evs s1) = avail true (s_evs s2) /\ s_tail s1 = s_tail s2 /\
  exists q b, snd (decode (ev0 true) true s1 slow) = OReq q b.
Proof.
  split; [apply arrives_wf; cbn; lia|]. split; [repeat constructor; discriminate|]. split; [rewrite arrives_avail; vm_compute; reflexivity|].
  split; [reflexivity|]. eexists _, _. vm_compute. reflexivity.
Qed.

(** C22 *)
Theorem C22_fixed_body : forall ev tmo s wt s' wt' q b n,
  (0 < e_bufcap ev)%nat -> wf_src s -> decode ev tmo s wt = (s', wt', OReq q b) -> q_len q = Some n ->
  exists w rest, offers tmo s w /\ src_data s = w ++ rest /\
  (forall ms b' x k, Forall (fun m => 0 < m)%nat ms -> reads (body_read ev) ms b = (b', x, k) ->
     match k with
     | Going => prefix x (firstn (N.to_nat n) rest) /\ (length ms <= src_size s)%nat
     | Ended => x = firstn (N.to_nat n) rest /\ rest = x ++ unread b' /\ ((N.of_nat (length x) < n)%N -> clean s)
     | Failed => x = rest /\ (N.of_nat (length rest) < n)%N /\ ~ clean s
     | _ => False
     end) /\
  (forall ms b' x k, Forall (fun m => 0 < m)%nat ms -> reads_on (body_read ev) ms b = (b', x, k) ->
     prefix x (firstn (N.to_nat n) rest) /\ k <> Panicked /\ k <> Hung /\ (k <> Failed -> rest = x ++ unread b')).
Proof. exact fixed_body. Qed.
Print Assumptions C22_fixed_body.
Example C22_case : exists s' wt' q b, wf_src (arrives post_head (B "hello, world")) /\
  decode (ev0 true) true (arrives post_head (B "hello, world")) slow = (s', wt', OReq q b) /\ q_len q = Some 5%N /\
  let '(b', x, k) := reads (body_read (ev0 true)) [2; 2; 2; 2]%nat b in x = B "hello" /\ k = Ended /\ unread b' = B ", world".
Proof. eexists _, _, _, _. split; [apply arrives_wf; cbn; lia|]. split; [vm_compute; reflexivity|]. vm_compute. auto. Qed.

(** C17 is false: the peer closes after 2 of 5 bytes, and reading the body ends successfully. *)
Theorem C17_truncation_refuted : exists ev tmo s wt s' wt' q b n ms b' x,
  env_ok ev /\ wf_src s /\ decode ev tmo s wt = (s', wt', OReq q b) /\ q_len q = Some n /\
  Forall (fun m => 0 < m)%nat ms /\ reads (body_read ev) ms b = (b', x, Ended) /\ (N.of_nat (length x) < n)%N.
Proof.
  exists (ev0 true), true, (arrives post_head (B "he")), slow. eexists _, _, _, _, 5%N, [4; 4]%nat, _, (B "he").
  split; [apply ev0_ok|]. split; [apply arrives_wf; cbn; lia|]. split; [vm_compute; reflexivity|]. split; [reflexivity|].
  split; [repeat constructor|]. split; [vm_compute; reflexivity|]. reflexivity.
Qed.
Print Assumptions C17_truncation_refuted.
(** What holds: only an orderly close goes unnoticed. If the connection breaks before the last
    byte of the body, reading it does not end successfully. Missing from C17: the orderly close. *)
Theorem C17_broken_connection_partial : forall ev tmo s wt s' wt' q b n ms b' x,
  (0 < e_bufcap ev)%nat -> wf_src s -> decode ev tmo s wt = (s', wt', OReq q b) -> q_len q = Some n ->
  Forall (fun m => 0 < m)%nat ms -> reads (body_read ev) ms b = (b', x, Ended) -> ~ clean s -> N.of_nat (length x) = n.
Proof.
  intros ev tmo s wt s' wt' q b n ms b' x Hc Ws HD Hn HF HR HC.
  destruct (fixed_body ev tmo s wt s' wt' q b n Hc Ws HD Hn) as (w & rest & _ & _ & H & _).
  destruct (H ms b' x Ended HF HR) as (E & _ & K). destruct (N.lt_ge_cases (N.of_nat (length x)) n) as [L|L]; [destruct (HC (K L))|].
  apply (f_equal (@length _)) in E. rewrite firstn_length in E. lia.
Qed.
Print Assumptions C17_broken_connection_partial.
Example C17_case : exists s' wt' q b,
  decode (ev0 true) true (mkSrc [Data post_head; Data (B "hello"); Fail] Eof) slow = (s', wt', OReq q b) /\ q_len q = Some 5%N /\
  (exists b', reads (body_read (ev0 true)) [3; 3; 3]%nat b = (b', B "hello", Ended)) /\ ~ clean (mkSrc [Data post_head; Data (B "hello"); Fail] Eof).
Proof.
  eexists _, _, _, _. split; [vm_compute; reflexivity|]. split; [reflexivity|]. split; [eexists; vm_compute; reflexivity|].
  intros [C _]. cbn in C. inversion C as [|? ? _ C2]. inversion C2 as [|? ? _ C3]. inversion C3. congruence.
Qed.

(** C23: without a Host field the handler is never called; the answer is 400 unless the request
    has the fault of C24 or C25. *)
Theorem C23_no_host : forall ev o s w rl hs,
  env_ok ev -> offers (o_timeout o) s w -> grammatical (e_trim ev) rl hs w -> values (B "host") hs = [] ->
  exists c code, refused ev o s c code /\
    (l_minor rl = 1%N -> (forall x, In x hs -> ~ faulty x BadEncoding) -> code = 400%N).
Proof. exact no_host. Qed.
Print Assumptions C23_no_host.
(** With a Host field and nothing else wrong the request is obtained. *)
Theorem C23_with_host : forall ev tmo s w rl hs u c,
  env_ok ev -> offers tmo s w -> grammatical (e_trim ev) rl hs w -> l_minor rl = 1%N -> faultless hs ->
  values (B "host") hs <> [] -> parse_uri (e_uri ev) (l_target rl) = Some u -> continues hs c ->
  forall wt, accepting wt -> prompt tmo wt ->
  exists s' wt' q b len, decode ev tmo s wt = (s', wt', OReq q b) /\ framing hs len /\ presents q (l_method rl) u hs len.
Proof.
  intros ev tmo s w rl hs u c He HO G M F HH U C wt Ha Hp. destruct (framing_total hs F) as (len & FR).
  destruct (accept_decode ev tmo s w c _ u hs len He HO (j_accept _ _ _ rl hs c u len G M F C HH U FR) wt Ha Hp) as (s' & wt' & q & b & D & P & _).
  exists s', wt', q, b, len. auto.
Qed.
Print Assumptions C23_with_host.
Example C23_case : let w := lines ["GET / HTTP/1.1"; "x: y"]%string in
  offers true (arrives w []) w /\ grammatical (e_trim (ev0 true)) (mkRline (B "GET") (B "/") 1) [(B "x", B "y")] w /\
  values (B "host") [(B "x", B "y")] = [].
Proof.
  split; [offered|]. split; [|reflexivity]. apply grammatical_parse. eexists. split; [vm_compute; reflexivity|]. split; reflexivity.
Qed.
Example C23_case_with : exists rl hs u, grammatical (e_trim (ev0 true)) rl hs get_head /\ l_minor rl = 1%N /\ faultless hs /\
  values (B "host") hs = [B "example.org"] /\ parse_uri (e_uri (ev0 true)) (l_target rl) = Some u /\ continues hs false /\ offers true (arrives get_head []) get_head.
Proof.
  assert (J : judged (ev0 true) get_head false (snd (verdict_of (ev0 true) get_head))) by (apply verdict_judge; vm_compute; reflexivity).
  set (v := snd (verdict_of (ev0 true) get_head)) in J. vm_compute in v. subst v.
  inversion J as [| | | | | |rl hs' c' u' len' G M F C H' U FR]; subst. eexists rl, _, _. split; [exact G|]. split; [exact M|].
  split; [exact F|]. split; [reflexivity|]. split; [exact U|]. split; [exact C|]. offered.
Qed.

(** C24 *)
Theorem C24_http10 : forall ev o s w rl hs,
  env_ok ev -> offers (o_timeout o) s w -> grammatical (e_trim ev) rl hs w -> l_minor rl = 0%N -> refused ev o s false 505.
Proof. intros ev o s w rl hs He HO G M. eapply refuse; eauto. eapply j_version; eauto. Qed.
Print Assumptions C24_http10.
Example C24_case : let w := lines ["GET / HTTP/1.0"; "host: a"; "transfer-encoding: gzip"]%string in
  offers true (arrives w []) w /\
  grammatical (e_trim (ev0 true)) (mkRline (B "GET") (B "/") 0) [(B "host", B "a"); (B "transfer-encoding", B "gzip")] w.
Proof. split; [offered|]. apply grammatical_parse. eexists. split; [vm_compute; reflexivity|]. split; reflexivity. Qed.

(** C25: [refused] with 501 says that [accept] returns the error, whatever follows. *)
Theorem C25_encoding : forall ev o s w rl hs,
  env_ok ev -> offers (o_timeout o) s w -> grammatical (e_trim ev) rl hs w -> l_minor rl = 1%N -> first_fault hs BadEncoding ->
  refused ev o s false 501.
Proof. intros ev o s w rl hs He HO G M F. eapply refuse; eauto. eapply j_encoding; eauto. Qed.
Print Assumptions C25_encoding.
Example C25_case : let w := lines ["GET / HTTP/1.1"; "Transfer-Encoding: gzip, chunked"; "content-length: x"]%string in
  let hs := [(B "Transfer-Encoding", B "gzip, chunked"); (B "content-length", B "x")] in
  offers true (arrives w (B "GET / HTTP/1.1")) w /\ grammatical (e_trim (ev0 true)) (mkRline (B "GET") (B "/") 1) hs w /\ first_fault hs BadEncoding.
Proof.
  split; [offered|]. split; [apply grammatical_parse; eexists; split; [vm_compute; reflexivity|]; split; reflexivity|].
  exists [], (B "Transfer-Encoding", B "gzip, chunked"), [(B "content-length", B "x")]. split; [reflexivity|]. split; [intros ? ? []|].
  constructor; [reflexivity|discriminate|discriminate].
Qed.

(** C26 as stated is false of one form: a sign in front of the digits is accepted. *)
Theorem C26_signed_length_refuted : exists ev s w q b s' wt',
  env_ok ev /\ offers true s w /\ decode ev true s slow = (s', wt', OReq q b) /\
  hm_get_all (B "content-length") (q_hdrs q) = [B "+5"] /\ q_len q = Some 5%N /\ forall n, ~ decimal (B "+5") n.
Proof.
  exists (ev0 true), (arrives (lines ["GET / HTTP/1.1"; "host: a"; "content-length: +5"]%string) []), (lines ["GET / HTTP/1.1"; "host: a"; "content-length: +5"]%string).
  eexists _, _, _, _. split; [apply ev0_ok|]. split; [offered|]. split; [vm_compute; reflexivity|]. split; [reflexivity|]. split; [reflexivity|].
  intros n H. apply decimal_val in H as (_ & F & _). inversion F as [|? ? (d & Hd & E) _]. apply (f_equal bv) in E.
  rewrite digitc_bv in E by lia. change (bv "+"%char) with 43%N in E. destruct (d <? 10)%N; lia.
Qed.
Print Assumptions C26_signed_length_refuted.
(** Everything else: a content-length that is not a decimal number below 2^64, with or without a
    plus sign, and not preceded by the fault of C25. *)
Theorem C26_bad_length_partial : forall ev o s w rl a n v b,
  env_ok ev -> offers (o_timeout o) s w -> grammatical (e_trim ev) rl (a ++ (n, v) :: b) w -> l_minor rl = 1%N ->
  (forall x, In x a -> ~ faulty x BadEncoding) -> name_is n (B "content-length") -> (forall k, ~ cl_value v k) ->
  refused ev o s false 400.
Proof. exact bad_length. Qed.
Print Assumptions C26_bad_length_partial.
Example C26_case : let w := lines ["GET / HTTP/1.1"; "host: a"; "CONTENT-length: 18446744073709551616"; "transfer-encoding: gzip"]%string in
  offers true (arrives w []) w /\
  grammatical (e_trim (ev0 true)) (mkRline (B "GET") (B "/") 1)
    ([(B "host", B "a")] ++ (B "CONTENT-length", B "18446744073709551616") :: [(B "transfer-encoding", B "gzip")]) w /\
  (forall x, In x [(B "host", B "a")] -> ~ faulty x BadEncoding) /\ name_is (B "CONTENT-length") (B "content-length") /\
  (forall k, ~ cl_value (B "18446744073709551616") k).
Proof.
  split; [offered|]. split; [apply grammatical_parse; eexists; split; [vm_compute; reflexivity|]; split; reflexivity|].
  split; [intros x [<-|[]] F; inversion F; discriminate|]. split; [reflexivity|].
  intros k C. apply cl_value_iff in C. vm_compute in C. discriminate.
Qed.

(** C70 *)
Theorem C70_too_many_fields : forall ev o s x y rl hs,
  env_ok ev -> offers (o_timeout o) s (x ++ y) -> lhead (e_trim ev) rl hs x -> (16 < length hs)%nat -> refused ev o s false 400.
Proof. exact too_many. Qed.
Print Assumptions C70_too_many_fields.
Example C70_case : let w := lines ("GET / HTTP/1.1" :: repeat "host: a" 17)%string in
  offers true (arrives w []) (w ++ []) /\ lhead (e_trim (ev0 true)) (mkRline (B "GET") (B "/") 1) (repeat (B "host", B "a") 17) w.
Proof.
  split; [rewrite app_nil_r; offered|].
  assert (P : parse_request (e_trim (ev0 true)) 17 (lines ("GET / HTTP/1.1" :: repeat "host: a" 17)%string) =
              HDone (mkHreq (B "GET") (B "/") 1 (repeat (B "host", B "a") 17) [])) by (vm_compute; reflexivity).
  apply parse_request_iff in P as (x & E & L & _). cbn [q_rest q_method q_path q_version q_headers] in *. rewrite app_nil_r in E. now subst x.
Qed.

(** C27 is false: differing lengths are accepted and the last one decides. *)
Theorem C27_duplicate_length_refuted : exists ev s w s' wt' q b,
  env_ok ev /\ offers true s w /\ decode ev true s slow = (s', wt', OReq q b) /\
  hm_get_all (B "content-length") (q_hdrs q) = [B "5"; B "3"] /\ q_len q = Some 3%N.
Proof.
  exists (ev0 true), (arrives (lines ["POST / HTTP/1.1"; "host: a"; "content-length: 5"; "content-length: 3"]%string) (B "hello")),
    (lines ["POST / HTTP/1.1"; "host: a"; "content-length: 5"; "content-length: 3"]%string).
  eexists _, _, _, _. split; [apply ev0_ok|]. split; [offered|]. split; [vm_compute; reflexivity|]. split; reflexivity.
Qed.
Print Assumptions C27_duplicate_length_refuted.

(** C28: the declared length of an obtained request follows the framing rules of SpecReq.v. *)
Theorem C28_framing : forall ev tmo s wt s' wt' q b,
  (0 < e_bufcap ev)%nat -> wf_src s -> decode ev tmo s wt = (s', wt', OReq q b) ->
  exists w rl hs, offers tmo s w /\ grammatical (e_trim ev) rl hs w /\ framing hs (q_len q).
Proof.
  intros ev tmo s wt s' wt' q b Hc Ws H. destruct (obtained ev tmo s wt s' wt' q b Hc Ws H) as (w & rl & hs & HO & G & _ & _ & _ & _ & _ & _ & F & _).
  exists w, rl, hs. auto.
Qed.
Print Assumptions C28_framing.
(** ... and a request without declared length has its body decoded as a chunked message (one
    that fits the decoder's buffer, see C13); the bytes after the message are left alone. *)
Theorem C28_chunked_body : forall ev tmo s wt s' wt' q b,
  env_ok ev -> wf_src s -> decode ev tmo s wt = (s', wt', OReq q b) -> q_len q = None ->
  exists w rest, offers tmo s w /\ src_data s = w ++ rest /\
  forall p tr wire extra, fitting (e_deccap ev) p tr wire -> rest = wire ++ extra ->
  forall ms b' x k, Forall (fun m => 0 < m)%nat ms -> reads (body_read ev) ms b = (b', x, k) ->
     match k with
     | Going => prefix x p /\ (length ms <= length p + src_size s)%nat
     | Ended => x = p /\ unread b' = extra
     | _ => False
     end.
Proof. exact chunked_body. Qed.
Print Assumptions C28_chunked_body.
Lemma wiki_fitting : fitting (e_deccap (ev0 true)) (B "Wikipedia") [(B "Expires", B "never")] wiki_wire.
Proof.
  destruct wiki_message as (cw & z & tw & H1 & H2 & H3 & H4 & E).
  exists cw, (length cw), z, tw. ands; auto; [now apply chunks_small_load|]. rewrite ev0_deccap.
  rewrite <- app_length, <- E. cbn. lia.
Qed.
Example C28_case : exists s' wt' q b,
  decode (ev0 true) true (arrives chunk_head (wiki_wire ++ B "GET /")) slow = (s', wt', OReq q b) /\ q_len q = None /\
  fitting (e_deccap (ev0 true)) (B "Wikipedia") [(B "Expires", B "never")] wiki_wire /\
  hm_get_all (B "content-length") (q_hdrs q) = [B "3"] /\
  let '(b', x, k) := reads (body_read (ev0 true)) [3; 3; 3; 3; 3; 3; 3]%nat b in x = B "Wikipedia" /\ k = Ended /\ unread b' = B "GET /".
Proof.
  eexists _, _, _, _. split; [vm_compute; reflexivity|]. split; [reflexivity|]. split; [exact wiki_fitting|]. split; [reflexivity|]. vm_compute. auto.
Qed.

(** C29 *)
Theorem C29_headers : forall ev tmo s wt s' wt' q b,
  (0 < e_bufcap ev)%nat -> wf_src s -> decode ev tmo s wt = (s', wt', OReq q b) ->
  exists w rl hs, offers tmo s w /\ grammatical (e_trim ev) rl hs w /\
    q_meth q = l_method rl /\ parse_uri (e_uri ev) (l_target rl) = Some (q_uri q) /\
    (forall n, hm_get_all (lowered n) (q_hdrs q) = values n hs) /\
    forall k vs, In (k, vs) (q_hdrs q) -> exists n v, In (n, v) hs /\ lowered n = k.
Proof.
  intros ev tmo s wt s' wt' q b Hc Ws H.
  destruct (obtained ev tmo s wt s' wt' q b Hc Ws H) as (w & rl & hs & HO & G & _ & _ & _ & _ & U & M & _ & V & K).
  exists w, rl, hs. auto 8.
Qed.
Print Assumptions C29_headers.
Example C29_case : exists s' wt' q b, decode (ev0 true) true (arrives get_head []) slow = (s', wt', OReq q b) /\
  hm_get_all (B "x-a") (q_hdrs q) = [B "1"; B "2"] /\ map fst (q_hdrs q) = [B "host"; B "x-a"].
Proof. eexists _, _, _, _. split; [vm_compute; reflexivity|]. split; reflexivity. Qed.

(** C30 *)
Theorem C30_interim : forall ev tmo s w rl hs c,
  env_ok ev -> offers tmo s w -> grammatical (e_trim ev) rl hs w -> l_minor rl = 1%N -> faultless hs -> continues hs c ->
  forall wt s' wt' o, decode ev tmo s wt = (s', wt', o) ->
  exists p, w_out wt' = w_out wt ++ p /\ prefix p (if c then go_ahead else []) /\
    ((exists q b, o = OReq q b) -> p = if c then go_ahead else []) /\
    (accepting wt -> prompt tmo wt -> p = if c then go_ahead else []).
Proof. exact interim_exact. Qed.
Print Assumptions C30_interim.
Example C30_case : exists rl hs, offers true (arrives expect_head (B "hello")) expect_head /\
  grammatical (e_trim (ev0 true)) rl hs expect_head /\ l_minor rl = 1%N /\ faultless hs /\ continues hs true.
Proof.
  assert (J : judged (ev0 true) expect_head true (snd (verdict_of (ev0 true) expect_head))) by (apply verdict_judge; vm_compute; reflexivity).
  set (v := snd (verdict_of (ev0 true) expect_head)) in J. vm_compute in v. subst v.
  inversion J as [| | | | | |rl hs' c' u' len' G M F C H' U FR]; subst. eexists rl, _. split; [offered|]. split; [exact G|]. auto.
Qed.

(** C31 is false: a head ended by bare line feeds, with more bytes behind it before the next
    CRLF CRLF; these bytes are neither head nor body nor left for later. *)
Theorem C31_skipped_refuted : exists ev s wt s' wt' q b x y rl hs,
  env_ok ev /\ wf_src s /\ decode ev true s wt = (s', wt', OReq q b) /\ q_len q = Some 0%N /\
  src_data s = x ++ y /\ lhead (e_trim ev) rl hs x /\ y <> [] /\ unread b = [] /\ src_data s' = [].
Proof.
  set (x := B "GET / HTTP/1.1" ++ [LF] ++ B "host: a" ++ [LF; LF]). set (y := B "GET /2 HTTP/1.1" ++ CRLF ++ B "host: b" ++ CRLF ++ CRLF).
  exists (ev0 true), (mkSrc [Data (x ++ y)] Eof), slow. eexists _, _, _, _. exists x, y, (mkRline (B "GET") (B "/") 1), [(B "host", B "a")].
  split; [apply ev0_ok|]. split; [repeat constructor; discriminate|]. split; [vm_compute; reflexivity|]. split; [reflexivity|]. split; [reflexivity|].
  split.
  - assert (P : parse_request (e_trim (ev0 true)) 16 x = HDone (mkHreq (B "GET") (B "/") 1 [(B "host", B "a")] [])) by (vm_compute; reflexivity).
    apply parse_request_iff in P as (x' & E & L & _). cbn [q_rest q_method q_path q_version q_headers] in *. rewrite app_nil_r in E. now subst x'.
  - split; [discriminate|]. split; reflexivity.
Qed.
Print Assumptions C31_skipped_refuted.
(** What holds: behind a head with CRLF line ends nothing is skipped. (C22 and C28_chunked_body
    account for the bytes of the body. Heads with bare line feeds: below. Missing from C31: the
    bytes behind the body that the body's reader holds when it is dropped; see C33.) *)
Theorem C31_strict_partial : forall ev tmo s wt s' wt' q b m t minor hs w rest,
  (0 < e_bufcap ev)%nat -> wf_src s -> request_head m t minor hs w -> fst (avail tmo (s_evs s)) = w ++ rest ->
  decode ev tmo s wt = (s', wt', OReq q b) ->
  src_data s = w ++ unread b /\ q_meth q = m /\ parse_uri (e_uri ev) t = Some (q_uri q) /\
  forall n, hm_get_all (lowered n) (q_hdrs q) = values n hs.
Proof. exact strict_obtained. Qed.
Print Assumptions C31_strict_partial.
Example C31_case : request_head (B "GET") (B "/") 1 [(B "host", B "a")] (lines ["GET / HTTP/1.1"; "host: a"]%string) /\
  exists s' wt' q b, decode (ev0 true) true (arrives (lines ["GET / HTTP/1.1"; "host: a"]%string) (B "more")) slow = (s', wt', OReq q b).
Proof.
  split; [exact host_head|]. eexists _, _, _, _. vm_compute. reflexivity.
Qed.

(** What is skipped, for every request: the decoder takes the block [w] up to the first empty line
    that CRLF ends, twice; the head [x] it makes the request from is a beginning of it; the rest [y]
    of the block is dropped, and there is one exactly if the head does not end with CRLF CRLF. *)
Theorem C31_dropped_partial : forall ev tmo s wt s' wt' q b, (0 < e_bufcap ev)%nat -> wf_src s -> decode ev tmo s wt = (s', wt', OReq q b) ->
  exists x y rl hs, offers tmo s (x ++ y) /\ src_data s = x ++ y ++ unread b /\ lhead (e_trim ev) rl hs x /\ (length hs <= 16)%nat /\ (y = [] <-> head_end x) /\
    q_meth q = l_method rl /\ parse_uri (e_uri ev) (l_target rl) = Some (q_uri q) /\ forall n, hm_get_all (lowered n) (q_hdrs q) = values n hs.
Proof.
  intros ev tmo s wt s' wt' q b Hc Ws H. destruct (decode_req ev tmo s wt s' wt' q b Hc Ws H) as (w & br & c & m & u & hs & len & HO & HD & _ & -> & _ & _ & _ & J & PR & _).
  destruct PR as (P1 & P2 & _ & _ & P5). inversion J as [| | | | | |rl hs' c' u' len' (x & y & -> & G & L) M F C H' U FR]; subst. exists x, y, rl, hs. rewrite body_reader_unread.
  split; [exact HO|]. split; [now rewrite HD, <- app_assoc|]. split; [exact G|]. split; [exact L|]. split; [|auto]. destruct HO as (_ & (HE & HM) & _). split.
  - intros ->. now rewrite app_nil_r in HE.
  - intros X. destruct y as [|z y]; [reflexivity|]. now elim (HM x (z :: y) eq_refl ltac:(discriminate)).
Qed.
Print Assumptions C31_dropped_partial.
Example C31_dropped_case : let x := B "GET / HTTP/1.1" ++ [LF] ++ B "host: a" ++ [LF; LF] in let y := B "GET /2 HTTP/1.1" ++ CRLF ++ CRLF in
  match decode (ev0 true) true (arrives (x ++ y) (B "more")) slow with
  | (_, _, OReq q b) => unread b = B "more" /\ u_path (q_uri q) = B "/"
  | _ => False
  end.
Proof. vm_compute. auto. Qed.

(** C69 is false: for every bound there is a longer head that is read to its end and accepted. *)
Theorem C69_head_unbounded_refuted : forall bound, exists s w, offers true s w /\ (bound < length w)%nat /\
  forall ev wt, env_ok ev -> accepting wt -> prompt true wt ->
  exists s' wt' q b, decode ev true s wt = (s', wt', OReq q b).
Proof. exact long_heads. Qed.
Print Assumptions C69_head_unbounded_refuted.

(** C73 is false for chunked bodies: polling once more after the end takes the next request's
    bytes from the transport. *)
Theorem C73_read_after_end_refuted : exists ev s wt s' wt' q b ms b' n b'' r,
  env_ok ev /\ wf_src s /\ decode ev true s wt = (s', wt', OReq q b) /\ Forall (fun m => 0 < m)%nat ms /\
  reads (body_read ev) ms b = (b', B "Wikipedia", Ended) /\ src_data (body_src b') = get_head /\
  body_read ev n b' = (b'', r) /\ src_data (body_src b'') = [].
Proof.
  exists (ev0 true), (mkSrc [Data (chunk_head ++ wiki_wire); Data get_head] Eof), slow. eexists _, _, _, _.
  exists [20; 20; 20; 20]%nat. eexists. exists 20%nat. eexists _, _.
  split; [apply ev0_ok|]. split; [repeat constructor; discriminate|]. split; [vm_compute; reflexivity|]. split; [repeat constructor; lia|].
  split; [vm_compute; reflexivity|]. split; [vm_compute; reflexivity|]. split; [vm_compute; reflexivity|]. vm_compute. reflexivity.
Qed.
Print Assumptions C73_read_after_end_refuted.
(** A fixed-length body read to its declared length stays ended and leaves the connection alone.
    Missing from C73: chunked bodies. *)
Theorem C73_fixed_partial : forall ev tmo s wt s' wt' q b n ms b' x,
  (0 < e_bufcap ev)%nat -> wf_src s -> decode ev tmo s wt = (s', wt', OReq q b) -> q_len q = Some n ->
  Forall (fun m => 0 < m)%nat ms -> reads (body_read ev) ms b = (b', x, Ended) -> N.of_nat (length x) = n ->
  forall k, body_read ev k b' = (b', POk []).
Proof. exact fixed_stays. Qed.
Print Assumptions C73_fixed_partial.
Example C73_case : exists s' wt' q b, decode (ev0 true) true (arrives post_head (B "hello")) slow = (s', wt', OReq q b) /\ q_len q = Some 5%N /\
  exists b', reads (body_read (ev0 true)) [3; 3; 3]%nat b = (b', B "hello", Ended).
Proof. eexists _, _, _, _. split; [vm_compute; reflexivity|]. split; [reflexivity|]. eexists. vm_compute. reflexivity. Qed.
