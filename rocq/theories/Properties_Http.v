(** Properties C96-C99: parts of HTTP that the server leaves to its handlers. *)
From Verif Require Import Accept Cors Reads SpecChunked SpecHead SpecResponse SpecReq SpecServer SpecWriter SpecCors Lemmas Proofs_Copy Proofs_Buf
  Proofs_Head Proofs_ReqHead Proofs_ServerDec Proofs_Send Proofs_Body Proofs_Accept Proofs_Request Proofs_Turns Proofs_Causal Proofs_Cors
  Examples_Response Examples_Dec Examples_Request Examples_Accept Properties_Request Properties_Cors.

(** A request head with method [m] and the field lines [fs]. *)
Definition head_of (m : string) (fs : list string) : bytes := lines ((m ++ " /a HTTP/1.1")%string :: fs).

(** C96 is false: the answer to a HEAD request carries a body. *)
Theorem C96_head_refuted : exists ev o h s w u hs wt fuel r head bt s' wt', env_ok ev /\ offers (o_timeout o) s w /\
  judged ev w false (Accept (B "HEAD") u hs (Some 0%N)) /\ response_head (e_date ev) r head /\ bt <> [] /\
  turn fuel ev o h s wt = (s', wt', None) /\ w_out wt' = w_out wt ++ head ++ bt.
Proof.
  pose (w := head_of "HEAD" ["host: h"]%string). exists (ev0 true), default_opts, echo, (mkSrc [Data w] Eof), w. eexists _, _.
  exists (mkWtr [] []), 200%nat, (text_resp (B "/a")), (head_text (ev0 true) (text_resp (B "/a"))), (B "/a"). eexists _, _.
  split; [apply ev0_ok|]. split; [|split; [apply verdict_judge; vm_compute; reflexivity|]].
  { apply (offers_ok true _ w []); [repeat constructor; discriminate|vm_compute; reflexivity|]. cbn [s_evs avail fst]. now rewrite !app_nil_r. }
  split; [apply head_response; [split; constructor|apply ev0_wf]|]. split; [discriminate|]. split; vm_compute; reflexivity.
Qed.
Print Assumptions C96_head_refuted.
(** It is so for every method and every response: whatever the request's method and the response's
    status, the bytes of the response body follow its head. *)
Theorem C96_body_follows : forall ev o h r s wt l1 l2 w wb p c m u hs len,
  env_ok ev -> sendable ev r -> wf_src s -> s_evs s = l1 ++ l2 ->
  avail (o_timeout o) l1 = (w ++ wb, ObEnd) -> head_block w -> judged ev w c (Accept m u hs len) ->
  body_wire (e_deccap ev) len p wb -> (forall q, presents q m u hs len -> serves (o_verbose o) (chunked_len len) p r (h q)) -> accepting wt -> prompt (o_timeout o) wt ->
  exists head bt, response_head (e_date ev) r head /\ body_text (r_body r) bt /\
  exists F s' wt', w_out wt' = w_out wt ++ (if c then go_ahead else []) ++ head ++ bt /\
    forall fuel, (F <= fuel)%nat -> turn fuel ev o h s wt = (s', wt', None).
Proof.
  intros ev o h r s wt l1 l2 w wb p c m u hs len He Hr Ws E A Hb J BW HD Ha Hp.
  destruct (accepted_turn ev r He Hr) as (msg & (head & bt & H1 & H2 & ->) & HT).
  destruct (HT o h s wt l1 l2 w wb p c m u hs len Ws E A Hb J BW HD Ha Hp) as (pads & F & wt' & _ & _ & _ & TU & O & _).
  exists head, bt. split; [exact H1|]. split; [exact H2|]. eexists F, _, wt'. split; [exact O|exact TU].
Qed.
Print Assumptions C96_body_follows.
(** The part that holds: a response whose body has the declared length 0 is just its head. Missing:
    responses to HEAD, or with status 204 or 304, to which the handler has given a body. *)
Theorem C96_empty_partial : forall date r m, message date r m -> b_len (r_body r) = Some 0%N -> response_head date r m.
Proof.
  intros date r m (head & bt & H1 & H2 & ->) E. inversion H2 as [n Hn|cw Hn _]; rewrite E in Hn; [|discriminate].
  injection Hn as <-. cbn [N.to_nat firstn]. now rewrite app_nil_r.
Qed.
Print Assumptions C96_empty_partial.
Definition no_content : response := mkResp 204 HTTP_11 [] (body_from_string (B "gone")).
Example C96_case : exists u hs s' wt', (let w := head_of "HEAD" ["host: h"]%string in
    avail true [Data w] = (w ++ [], ObEnd) /\ head_block w /\ judged (ev0 true) w false (Accept (B "HEAD") u hs (Some 0%N))) /\
  turn 200 (ev0 true) default_opts (fun q => slurp (PSend no_content (fun _ => Rt None) (Rt glitch_ise))) (mkSrc [Data (head_of "GET" ["host: h"]%string)] Eof) (mkWtr [] [])
    = (s', wt', None) /\
  w_out wt' = lines ["HTTP/1.1 204 No Content"; "content-length: 4"; "date: Thu, 01 Jan 1970 00:00:00 GMT"; "content-type: application/octet-stream"]%string ++ B "gone".
Proof.
  eexists _, _, _, _. split; [|split; vm_compute; reflexivity]. cbv zeta.
  split; [vm_compute; reflexivity|]. split; [apply head_blockb_ok; vm_compute; reflexivity|apply verdict_judge; vm_compute; reflexivity].
Qed.
Example C96_empty_case : exists m, message (e_date (ev0 true)) (bare 204) m /\ b_len (r_body (bare 204)) = Some 0%N.
Proof.
  destruct (send_message (ev0 true) (bare 204) (ev0_ok true) (bare_sendable _ 204 (ev0_ok true))) as (m & Hm & _). exists m. split; [exact Hm|reflexivity].
Qed.

(** C97 is false: after a request with "connection: close" the connection goes on, and the next
    request is handed to the handler. *)
Theorem C97_close_refuted : exists ev o h s w u hs wt fuel s1 wt1 s2 wt2 q b, env_ok ev /\ offers (o_timeout o) s w /\
  judged ev w false (Accept (B "GET") u hs (Some 0%N)) /\ values (B "connection") hs = [B "close"] /\
  turn fuel ev o h s wt = (s1, wt1, None) /\ decode ev (o_timeout o) s1 wt1 = (s2, wt2, OReq q b) /\ q_meth q = B "DELETE".
Proof.
  pose (w := head_of "GET" ["host: h"; "connection: close"]%string). pose (w2 := head_of "DELETE" ["host: h"]%string).
  exists (ev0 true), default_opts, echo, (mkSrc [Data w; Data w2] Eof), w. eexists _, _. exists (mkWtr [] []), 200%nat. eexists _, _, _, _, _, _.
  split; [apply ev0_ok|]. split; [|split; [apply verdict_judge; vm_compute; reflexivity|]].
  { apply (offers_ok true _ w w2); [repeat constructor; discriminate|vm_compute; reflexivity|]. cbn [s_evs avail fst]. now rewrite !app_nil_r. }
  split; [reflexivity|]. split; [vm_compute; reflexivity|]. split; [vm_compute; reflexivity|reflexivity].
Qed.
Print Assumptions C97_close_refuted.
(** It is so for every request that is answered, whatever its fields say: the loop goes on with what
    follows it on the connection. *)
Theorem C97_goes_on : forall ev o h r s wt l1 l2 w wb p c m u hs len,
  env_ok ev -> sendable ev r -> wf_src s -> s_evs s = l1 ++ l2 ->
  avail (o_timeout o) l1 = (w ++ wb, ObEnd) -> head_block w -> judged ev w c (Accept m u hs len) ->
  In (B "close") (values (B "connection") hs) ->
  body_wire (e_deccap ev) len p wb -> (forall q, presents q m u hs len -> serves (o_verbose o) (chunked_len len) p r (h O q)) -> accepting wt -> prompt (o_timeout o) wt ->
  exists pads F wt', evs_data pads = [] /\
    forall n fuel, (F <= fuel)%nat ->
      accept_go (S n) fuel ev o h s wt = accept_go n fuel ev o (later h) (mkSrc (pads ++ l2) (s_tail s)) wt'.
Proof.
  intros ev o h r s wt l1 l2 w wb p c m u hs len He Hr Ws E A Hb J _ BW HD Ha Hp.
  destruct (accepted_turn ev r He Hr) as (msg & _ & HT).
  destruct (HT o (h O) s wt l1 l2 w wb p c m u hs len Ws E A Hb J BW HD Ha Hp) as (pads & F & wt' & _ & D & _ & TU & _).
  exists pads, F, wt'. split; [exact D|]. intros n fuel Hf. apply accept_step. now apply TU.
Qed.
Print Assumptions C97_goes_on.
Example C97_case : let w := head_of "GET" ["host: h"; "connection: close"]%string in
  exists u hs, avail true [Data w] = (w ++ [], ObEnd) /\ head_block w /\ judged (ev0 true) w false (Accept (B "GET") u hs (Some 0%N)) /\
  In (B "close") (values (B "connection") hs) /\ body_wire (e_deccap (ev0 true)) (Some 0%N) [] [].
Proof.
  cbv zeta. eexists _, _. split; [vm_compute; reflexivity|]. split; [apply head_blockb_ok; vm_compute; reflexivity|]. split; [apply verdict_judge; vm_compute; reflexivity|].
  split; [left; reflexivity|split; reflexivity].
Qed.

(** C98 is false: of a request with two Host fields the handler is called. *)
Theorem C98_hosts_refuted : exists ev tmo s w m u hs len wt s' wt' q b, env_ok ev /\ offers tmo s w /\
  judged ev w false (Accept m u hs len) /\ values (B "host") hs = [B "a.example"; B "b.example"] /\
  decode ev tmo s wt = (s', wt', OReq q b).
Proof.
  pose (w := head_of "GET" ["host: a.example"; "host: b.example"]%string).
  exists (ev0 true), true, (mkSrc [Data w] Eof), w. eexists _, _, _, _. exists (mkWtr [] []). eexists _, _, _, _.
  split; [apply ev0_ok|]. split; [|split; [apply verdict_judge; vm_compute; reflexivity|]].
  { apply (offers_ok true _ w []); [repeat constructor; discriminate|vm_compute; reflexivity|]. cbn [s_evs avail fst]. now rewrite !app_nil_r. }
  split; [reflexivity|]. vm_compute. reflexivity.
Qed.
Print Assumptions C98_hosts_refuted.
(** It is so whenever there is at least one Host field and nothing else is wrong; the handler sees
    all of them. *)
Theorem C98_accepted : forall ev tmo s w rl hs u c a b rest,
  env_ok ev -> offers tmo s w -> grammatical (e_trim ev) rl hs w -> l_minor rl = 1%N -> faultless hs ->
  values (B "host") hs = a :: b :: rest -> parse_uri (e_uri ev) (l_target rl) = Some u -> continues hs c ->
  forall wt, accepting wt -> prompt tmo wt ->
  exists s' wt' q bd, decode ev tmo s wt = (s', wt', OReq q bd) /\ hm_get_all (B "host") (q_hdrs q) = a :: b :: rest.
Proof.
  intros ev tmo s w rl hs u c a b rest He HO G M F HH U C wt Ha Hp.
  assert (NE : values (B "host") hs <> []) by (rewrite HH; discriminate).
  destruct (C23_with_host ev tmo s w rl hs u c He HO G M F NE U C wt Ha Hp) as (s' & wt' & q & bd & len & D & _ & (_ & _ & _ & _ & P)).
  exists s', wt', q, bd. split; [exact D|]. change (B "host") with (lower (B "host")) at 1. now rewrite P.
Qed.
Print Assumptions C98_accepted.
Example C98_case : let w := head_of "GET" ["host: a.example"; "host: b.example"]%string in
  exists rl hs u, offers true (arrives w []) w /\ grammatical (e_trim (ev0 true)) rl hs w /\ l_minor rl = 1%N /\ faultless hs /\
  values (B "host") hs = [B "a.example"; B "b.example"] /\ parse_uri (e_uri (ev0 true)) (l_target rl) = Some u /\ continues hs false.
Proof.
  intros w. assert (J : judged (ev0 true) w false (snd (verdict_of (ev0 true) w))) by (apply verdict_judge; vm_compute; reflexivity).
  set (v := snd (verdict_of (ev0 true) w)) in J. vm_compute in v. subst v.
  inversion J as [| | | | | |rl hs' c' u' len' G M F C H' U FR]; subst. eexists rl, _, _. split; [apply arrives_offers; [cbn; lia|vm_compute; reflexivity]|]. split; [exact G|]. split; [exact M|].
  split; [exact F|]. split; [reflexivity|]. split; [exact U|exact C].
Qed.

(** C99 is false: answers to different allowed origins differ in the origin they allow, but do not
    say that they depend on it: the Vary field is what it was without Cors, on simple requests
    and (absent) on preflights. *)
Theorem C99_vary_refuted : forall f cs c q o rest r, configured f cs c -> hm_wf (q_hdrs q) -> resp_wf r ->
  field q (B "origin") = o :: rest -> allows_origin f cs o -> q_meth q <> B "OPTIONS" ->
  exists r', validate c q r = (r', inl tt) /\ values (B "access-control-allow-origin") (hm_iter (r_headers r')) = [o] /\
    values (B "vary") (hm_iter (r_headers r')) = values (B "vary") (hm_iter (r_headers r)).
Proof.
  intros f cs c q o rest r HC HQ W E A M. destruct (C49_simple f cs c q o rest r HC HQ W E A M) as (r' & V & _ & _ & _ & _ & (K & _) & K').
  exists r'. split; [exact V|]. split; [exact K|]. apply K'. cbn. intuition discriminate.
Qed.
Print Assumptions C99_vary_refuted.
Theorem C99_preflight_refuted : forall f cs c q o rest r, configured f cs c -> hm_wf (q_hdrs q) ->
  field q (B "origin") = o :: rest -> allows_origin f cs o -> q_meth q = B "OPTIONS" -> asks_allowed cs q ->
  exists hs, validate c q r = (r, inr (mkGlitch (Some 200%N) (Some hs) None None None)) /\
    values (B "access-control-allow-origin") (hm_iter hs) = [o] /\ values (B "vary") (hm_iter hs) = [].
Proof.
  intros f cs c q o rest r HC HQ E A M K. destruct (C50_preflight f cs c q o rest r HC HQ E A M) as [H _].
  destruct (H K) as (hs & _ & ((P1 & _) & _ & _ & _ & P2) & V). exists hs. split; [exact V|]. split; [exact P1|]. apply P2. cbn. intuition discriminate.
Qed.
Print Assumptions C99_preflight_refuted.
Example C99_case : let q o := ask "POST" [hdr "origin" o] in
  configured plain_origin shop shop_cors /\ hm_wf (q_hdrs (q "https://shop.example"%string)) /\ resp_wf (resp1 None) /\
  field (q "https://shop.example"%string) (B "origin") = [B "https://shop.example"] /\ allows_origin plain_origin shop (B "https://shop.example") /\
  field (q "http://localhost:8000"%string) (B "origin") = [B "http://localhost:8000"] /\ allows_origin plain_origin shop (B "http://localhost:8000").
Proof.
  cbv zeta. split; [apply shop_configured|]. split; [split; repeat constructor; cbn; intuition discriminate|]. split; [apply resp1_wf|]. split; [reflexivity|]. split; [apply shop_origin|].
  split; [reflexivity|]. apply (origin_allowed _ _ _ shop_configured). reflexivity.
Qed.
