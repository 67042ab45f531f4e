(** Requests and responses handed through by a proxy. *)
From Verif Require Import Forward Relay SpecIo SpecChunked SpecHead SpecReq SpecResponse SpecServer SpecClient SpecBody Lemmas Proofs_Head Proofs_Send Proofs_ServerDec Proofs_Request Proofs_Client Proofs_ClientDec
  Proofs_RoundTrip Proofs_RelayReq Proofs_Forward.

(** What the server behind the proxy writes, as the proxy's client returns it. *)
Lemma answer_reader sev pev r n up p extra : env_wf sev -> plain_value (e_date sev) -> env_ok pev -> resp_wf r -> returnable r -> b_len (r_body r) = Some n -> (n < two64)%N ->
  (N.of_nat (length (head_text sev r)) < 8192)%N -> wf_src up -> fst (avail false (s_evs up)) = head_text sev r ++ p ++ extra ->
  exists b a x, c_decode pev up = (b, COk a) /\ a_status a = r_status r /\ a_body a = msg_body (Some n) (RFixed n b) /\ wf_brd b /\ br_data b = p ++ x.
Proof.
  intros We HD He Wr HR HB Hn HL Wf A.
  assert (D : delivers up (head_text sev r) (p ++ extra)) by (split; [exact Wf|]; split; [now apply head_resp_block|exact A]).
  destruct (decode_short pev (proj1 He) (ok_cap pev He) _ _ _ D HL) as (b & (B1 & B2 & B3 & B4 & _) & ED & HJ). pose proof (sent_ok sev r Wr We) as (FF & _).
  unfold framing_fields in FF. rewrite HB in FF. destruct FF as (v & V1 & V2 & V3).
  assert (CL : cl_value v n) by (split; [exists v; split; [now left|apply V2]|lia]).
  pose proof HR as (_ & HSt & HC & _).
  assert (J : cjudge (e_trim pev) (head_text sev r) (CvLength (r_status r) (head_fields sev r) n)).
  { eapply cj_length; try eassumption; [|lia]. exists (head_text sev r), []. rewrite app_nil_r. split; [reflexivity|]. split; [now apply head_lresp|now apply head_count]. }
  apply HJ in J. cbn [canswers] in J. destruct J as (m & HH & EO).
  destruct (avail_prefix false (s_evs up)) as (y & EY). rewrite A in EY. unfold src_data in B3 at 1. rewrite EY, <- !app_assoc in B3. apply app_inv_head in B3.
  exists b, (mkCresp (r_status r) m (msg_body (Some n) (RFixed n b))), (extra ++ y).
  split; [destruct (c_decode pev up); cbn [fst snd] in ED, EO; now rewrite ED, EO|]. auto.
Qed.

Lemma proxied sev pev cev r n : env_ok sev -> plain_value (e_date sev) -> env_ok pev -> plain_value (e_date pev) -> env_ok cev ->
  resp_wf r -> returnable r -> b_len (r_body r) = Some n -> wf_src (b_src (r_body r)) ->
  (n + N.of_nat (e_bufcap sev) < two64)%N -> (n + N.of_nat (e_bufcap pev) < two64)%N ->
  (n <= N.of_nat (length (src_data (b_src (r_body r)))))%N -> (n = 0%N -> clean (b_src (r_body r))) ->
  let p := firstn (N.to_nat n) (src_data (b_src (r_body r))) in
  exists m, (forall w, accepting w -> exists w', w_out w' = w_out w ++ m /\ settles (fun fuel => send fuel sev r w) (w', ROk (N.of_nat (length m)))) /\
  ((N.of_nat (length m) < 8192 + n)%N -> forall up extra, wf_src up -> fst (avail false (s_evs up)) = m ++ extra ->
   exists a, snd (c_decode pev up) = COk a /\ a_status a = r_status r /\
   forall hs, let r2 := announced (a_status a) HTTP_11 hs (Some n) in resp_wf r2 -> returnable r2 ->
   exists m2, (forall w, accepting w -> exists w', w_out w' = w_out w ++ m2 /\
                 settles (fun fuel => relay fuel pev (relay_of (a_status a) HTTP_11 hs (a_body a)) w) (w', ROk (N.of_nat (length m2)))) /\
   ((N.of_nat (length m2) < 8192 + n)%N -> forall s extra2, wf_src s -> fst (avail false (s_evs s)) = m2 ++ extra2 ->
    exists b2 a2 fs, c_decode cev s = (b2, COk a2) /\ a_status a2 = r_status r /\ sent_fields (e_date pev) r2 fs /\ holds (a_hdrs a2) fs /\ f_len (a_body a2) = Some n /\
      forall sz, (forall i, 0 < sz i)%nat -> settles (fun fuel => into_bytes cev fuel sz (a_body a2)) (ROk p))).
Proof.
  intros Hs Ds Hp Dp Hc Wr HR HB Ws N1 N2 Hle Hz p.
  assert (LP : N.of_nat (length p) = n) by (unfold p; rewrite firstn_length; lia).
  destruct (response_trip_text sev pev r n (proj1 Hs) Ds (ok_cap sev Hs) (proj1 Hp) (ok_cap pev Hp) Wr HR HB Ws N1 Hle Hz) as [T1 _].
  exists (head_text sev r ++ p). split.
  { intros w A. destruct (T1 w A) as (F & w' & W & S). exists w'. split; [exact W|]. exists F. exact S. }
  intros HM up extra Wu Au. rewrite app_length in HM. rewrite <- app_assoc in Au.
  destruct (answer_reader sev pev r n up p extra (proj1 Hs) Ds Hp Wr HR HB ltac:(lia) ltac:(lia) Wu Au) as (b & a & x & EA & ES & EB & Wb & Db).
  exists a. rewrite EA. split; [reflexivity|]. split; [exact ES|]. intros hs r2 W2 R2.
  set (r3 := mkResp (a_status a) HTTP_11 hs (body_from_bytes p)).
  assert (R3 : r_body r3 = mkBody (Some n) (bytes_src p)) by (unfold r3, body_from_bytes; cbn [r_body]; now rewrite LP).
  assert (H3 : head_text pev r3 = head_text pev r2) by (unfold r3, r2, announced, body_from_bytes; rewrite LP; reflexivity).
  assert (WP : wf_src (bytes_src p)) by (unfold bytes_src; destruct p; repeat constructor; discriminate).
  assert (DP : src_data (bytes_src p) = p) by (unfold bytes_src; destruct p; [reflexivity|cbn; now rewrite app_nil_r]).
  destruct (response_trip_text pev cev r3 n (proj1 Hp) Dp (ok_cap pev Hp) (proj1 Hc) (ok_cap cev Hc) W2 R2) as [_ T2]; rewrite ?R3; cbn [b_len b_src]; auto.
  { rewrite DP. lia. }
  { intros ->. destruct p; [split; [constructor|reflexivity]|discriminate LP]. }
  rewrite R3 in T2. cbn [b_src] in T2. rewrite DP, H3, firstn_all2 in T2 by lia.
  exists (head_text pev r2 ++ p). split.
  { intros w A. rewrite EB. destruct (fixed_relayed pev n b (a_status a) HTTP_11 hs Hp Wb N2 w) as (w' & S & W); [rewrite Db, app_length; lia|exact A|].
    exists w'. rewrite Db, firstn_app, (firstn_all2 p) in W by lia. replace (N.to_nat n - length p)%nat with 0%nat in W by lia. rewrite firstn_O, app_nil_r in W. split; [exact W|].
    rewrite app_length, Nat2N.inj_add, LP. exact S. }
  intros HM2 s extra2 W A. destruct (T2 HM2 s extra2 W A) as (b2 & a2 & fs & Q1 & Q2 & Q3 & Q4 & Q5 & Q6). exists b2, a2, fs. split; [exact Q1|]. rewrite <- ES. split; [exact Q2|].
  split; [|auto]. destruct Q3 as (F1 & F2 & F3 & F4). unfold framing_fields in F1. unfold type_fields in F3. rewrite R3 in F1, F3. split; [exact F1|]. split; [exact F2|]. split; [exact F3|exact F4].
Qed.

(** Any server behind the proxy. *)
Lemma proxied_fixed pev cev up w p rest code fs n hs : env_ok pev -> plain_value (e_date pev) -> env_ok cev ->
  delivers up w (p ++ rest) -> cjudge (e_trim pev) w (CvLength code fs n) -> N.of_nat (length p) = n -> (n + N.of_nat (e_bufcap pev) < two64)%N ->
  let r2 := announced code HTTP_11 hs (Some n) in resp_wf r2 -> returnable r2 ->
  exists a head, snd (c_decode pev up) = COk a /\ a_status a = code /\ holds (a_hdrs a) (dated (e_date pev) fs) /\ response_head (e_date pev) r2 head /\
    (forall wr, accepting wr -> exists wr', w_out wr' = w_out wr ++ head ++ p /\
       settles (fun fuel => relay fuel pev (relay_of (a_status a) HTTP_11 hs (a_body a)) wr) (wr', ROk (N.of_nat (length (head ++ p))))) /\
    ((N.of_nat (length head) < 8192)%N -> forall s extra, wf_src s -> fst (avail false (s_evs s)) = head ++ p ++ extra ->
     exists b2 a2 fs2, c_decode cev s = (b2, COk a2) /\ a_status a2 = code /\ sent_fields (e_date pev) r2 fs2 /\ holds (a_hdrs a2) fs2 /\ f_len (a_body a2) = Some n /\
      forall sz, (forall i, 0 < sz i)%nat -> settles (fun fuel => into_bytes cev fuel sz (a_body a2)) (ROk p)).
Proof.
  intros Hp Dp Hc D J LP N2 r2 W2 R2. assert (L : (N.of_nat (length w) < 8192)%N) by now inversion J.
  destruct (decode_short pev (proj1 Hp) (ok_cap pev Hp) up w (p ++ rest) D L) as (b & (Wb & _ & HD & HC & _) & E & Q). destruct (Q _ J) as (m & Hm & E2).
  destruct (c_decode pev up) as [b' out]. cbn [fst snd] in E, E2. subst b' out. cbn [snd].
  destruct D as (_ & _ & A). destruct (avail_prefix false (s_evs up)) as (y & EY). rewrite A in EY. unfold src_data in HD at 1. rewrite EY, <- !app_assoc in HD. apply app_inv_head in HD.
  symmetry in HD. eexists _, (head_text pev r2). split; [reflexivity|]. cbn [a_status a_hdrs a_body]. split; [reflexivity|]. split; [exact Hm|]. split; [apply head_response; [exact W2|apply Hp]|]. split.
  { intros wr Aw. destruct (fixed_relayed pev n b code HTTP_11 hs Hp Wb N2 wr) as (w' & S & W); [rewrite HD, app_length; lia|exact Aw|].
    exists w'. rewrite HD, firstn_app, (firstn_all2 p) in W by lia. replace (N.to_nat n - length p)%nat with 0%nat in W by lia. rewrite firstn_O, app_nil_r in W. split; [exact W|].
    rewrite app_length, Nat2N.inj_add, LP. exact S. }
  set (r3 := mkResp code HTTP_11 hs (body_from_bytes p)).
  assert (R3 : r_body r3 = mkBody (Some n) (bytes_src p)) by (unfold r3, body_from_bytes; cbn [r_body]; now rewrite LP).
  assert (H3 : head_text pev r3 = head_text pev r2) by (unfold r3, r2, announced, body_from_bytes; rewrite LP; reflexivity).
  assert (WP : wf_src (bytes_src p)) by (unfold bytes_src; destruct p; repeat constructor; discriminate).
  assert (DP : src_data (bytes_src p) = p) by (unfold bytes_src; destruct p; [reflexivity|cbn; now rewrite app_nil_r]).
  destruct (response_trip_text pev cev r3 n (proj1 Hp) Dp (ok_cap pev Hp) (proj1 Hc) (ok_cap cev Hc) W2 R2) as [_ T2]; rewrite ?R3; cbn [b_len b_src]; auto.
  { rewrite DP. lia. }
  { intros ->. destruct p; [split; [constructor|reflexivity]|discriminate]. }
  rewrite R3 in T2. cbn [b_src] in T2. rewrite DP, H3, firstn_all2 in T2 by lia.
  intros HM s extra W As. rewrite app_assoc in As. rewrite app_length in T2. destruct (T2 ltac:(lia) s extra W As) as (b2 & a2 & fs2 & Q1 & Q2 & Q3 & Q4 & Q5 & Q6). exists b2, a2, fs2. split; [exact Q1|].
  split; [exact Q2|]. split; [|auto]. destruct Q3 as (F1 & F2 & F3 & F4). unfold framing_fields in F1. unfold type_fields in F3. rewrite R3 in F1, F3. split; [exact F1|]. split; [exact F2|]. split; [exact F3|exact F4].
Qed.

Lemma proxied_chunked pev cev up w p tr wire rest hs : env_ok pev -> plain_value (e_date pev) -> env_ok cev ->
  delivers up w (wire ++ rest) -> cjudge (e_trim pev) w CvChunked -> fitting (e_deccap pev) p tr wire ->
  let r2 := announced 200 HTTP_11 hs None in resp_wf r2 -> returnable r2 ->
  exists a head, snd (c_decode pev up) = COk a /\ a_status a = 200%N /\ response_head (e_date pev) r2 head /\
    (~ (p = [] /\ eos_window (e_bufcap pev) (length head)) -> forall wr, accepting wr -> exists wr' cw, chunks plain_size_line p cw /\ w_out wr' = w_out wr ++ head ++ cw ++ last_chunk /\
       settles (fun fuel => relay fuel pev (relay_of (a_status a) HTTP_11 hs (a_body a)) wr) (wr', ROk (N.of_nat (length (head ++ cw ++ last_chunk)))) /\
     ((N.of_nat (length head) < 8192)%N -> fitting (e_deccap cev) p [] (cw ++ last_chunk) -> forall s extra, wf_src s -> fst (avail false (s_evs s)) = head ++ (cw ++ last_chunk) ++ extra ->
      exists b2 a2, c_decode cev s = (b2, COk a2) /\ a_status a2 = 200%N /\
       forall sz, (forall i, 0 < sz i)%nat -> settles (fun fuel => into_bytes cev fuel sz (a_body a2)) (ROk p))).
Proof.
  intros Hp Dp Hc D J HF r2 W2 R2. assert (L : (N.of_nat (length w) < 8192)%N) by now inversion J.
  destruct (decode_short pev (proj1 Hp) (ok_cap pev Hp) up w (wire ++ rest) D L) as (b & (Wb & _ & HD & HC & _) & E & Q). pose proof (Q _ J) as E2. cbn [canswers] in E2.
  destruct (c_decode pev up) as [b' out]. cbn [fst snd] in E, E2. subst b' out. cbn [snd].
  destruct D as (_ & _ & A). destruct (avail_prefix false (s_evs up)) as (y & EY). rewrite A in EY. unfold src_data in HD at 1. rewrite EY, <- !app_assoc in HD. apply app_inv_head in HD.
  symmetry in HD. eexists _, (head_text pev r2). split; [reflexivity|]. cbn [a_status a_body]. split; [reflexivity|]. split; [apply head_response; [exact W2|apply Hp]|].
  intros NW wr Aw. destruct (chunked_relayed pev b 200 HTTP_11 hs Hp p tr wire (rest ++ y) wr Wb HF HD Aw NW) as (wr' & cw & C & S & W).
  exists wr', cw. split; [exact C|]. split; [exact W|]. split; [exact S|]. intros HL HF2 s extra Ws As.
  destruct (chunked_trip pev cev r2 (cw ++ last_chunk) (proj1 Hp) Dp Hc W2 R2 eq_refl HL p HF2 s extra Ws As) as (b2 & f & Q1 & Q2 & Q3). exists b2, (mkCresp 200 [] f). auto.
Qed.
