(** Properties C01-C10: sending a response. *)
From Verif Require Import ServerEnc SpecChunked SpecHead SpecResponse Lemmas Proofs_Copy Proofs_ServerEnc
  Proofs_Head Proofs_Send Proofs_Begin Proofs_Vast Examples_Response.

(** C01. *)
Theorem C01_fixed_exact : forall ev r cl,
  env_wf ev -> resp_wf r -> wf_src (b_src (r_body r)) -> (1 <= e_bufcap ev)%nat ->
  b_len (r_body r) = Some cl -> (cl + N.of_nat (e_bufcap ev) < two64)%N ->
  (cl <= N.of_nat (length (src_data (b_src (r_body r)))))%N -> (cl = 0%N -> clean (b_src (r_body r))) ->
  exists head, response_head (e_date ev) r head /\
    forall w, accepting w -> exists F w', forall fuel, (F <= fuel)%nat ->
      send fuel ev r w = (w', ROk (N.of_nat (length head) + cl)%N) /\
      w_out w' = w_out w ++ head ++ firstn (N.to_nat cl) (src_data (b_src (r_body r))).
Proof.
  intros ev r cl He Hr Hs Hn Hc Hsz Hle Hz.
  destruct (fixed_all ev r He Hr Hs cl Hn Hc Hsz Hle Hz) as (head & Hh & H).
  exists head. split; [exact Hh|]. intros w Hw. destruct (H w) as (F & w' & x & p & S1 & S2 & S3 & [[-> ->]|[_ N]]); [|contradiction].
  exists F, w'. intros fuel Hf. split; [now apply S1|exact S2].
Qed.
Print Assumptions C01_fixed_exact.
Example C01_case : exists cl, env_wf (ev0 true) /\ resp_wf (resp1 (Some cl)) /\ wf_src split_src /\
  (cl + N.of_nat (e_bufcap (ev0 true)) < two64)%N /\ (0 < cl < N.of_nat (length (src_data split_src)))%N /\ accepting slow_w.
Proof.
  exists 7%N. exact (conj (ev0_wf true) (conj (resp1_wf _) (conj split_wf (conj (ev0_fits true 7 eq_refl)
    (conj (conj eq_refl eq_refl) slow_acc))))).
Qed.
Example C01_run : snd (send 20 (ev0 true) (resp1 (Some 7%N)) slow_w) = ROk 149%N.
Proof. vm_compute. reflexivity. Qed.

(** C02, with the strongest condition on the head length (see C08). *)
Theorem C02_chunked_exact : forall ev r,
  env_wf ev -> resp_wf r -> wf_src (b_src (r_body r)) ->
  (7 <= e_bufcap ev)%nat -> (N.of_nat (e_bufcap ev) < two64)%N -> hexlen_ok ev ->
  b_len (r_body r) = None -> clean (b_src (r_body r)) ->
  exists head, response_head (e_date ev) r head /\
    (~ (at_end (b_src (r_body r)) /\ eos_window (e_bufcap ev) (length head)) ->
     exists cw, chunks plain_size_line (src_data (b_src (r_body r))) cw /\
     forall w, accepting w -> exists F w', forall fuel, (F <= fuel)%nat ->
       send fuel ev r w = (w', ROk (N.of_nat (length (head ++ cw ++ last_chunk)))) /\
       w_out w' = w_out w ++ head ++ cw ++ last_chunk).
Proof.
  intros ev r He Hr Hs Hn H64 Hx Hc Hcl.
  destruct (chunked_all ev r He Hr Hs Hn H64 Hx Hc Hcl) as (head & Hh & H).
  exists head. split; [exact Hh|]. intros Hw. destruct (H Hw) as (cw & Hcw & H1). exists cw. split; [exact Hcw|].
  intros w Ha. destruct (H1 w) as (F & w' & x & p & S1 & S2 & S3 & [[-> ->]|[_ N]]); [|contradiction].
  exists F, w'. intros fuel Hf. split; [now apply S1|exact S2].
Qed.
Print Assumptions C02_chunked_exact.
Example C02_case : env_wf (ev0 true) /\ resp_wf (resp1 None) /\ wf_src split_src /\ (7 <= e_bufcap (ev0 true))%nat /\
  (N.of_nat (e_bufcap (ev0 true)) < two64)%N /\ hexlen_ok (ev0 true) /\ clean split_src /\ src_data split_src <> [] /\ accepting slow_w.
Proof.
  split; [exact (ev0_wf true)|]. split; [exact (resp1_wf None)|]. split; [exact split_wf|]. split; [exact (ev0_cap true)|].
  split; [exact (ev0_cap64 true)|]. split; [exact (ev0_hex true)|]. split; [exact split_clean|]. split; [discriminate|exact slow_acc].
Qed.
Example C02_run : skipn 151 (w_out (fst (send 40 (ev0 true) (resp1 None) slow_w))) =
  B "2" ++ CRLF ++ B "he" ++ CRLF ++ B "3" ++ CRLF ++ B "llo" ++ CRLF ++ B "6" ++ CRLF ++ B " world" ++ CRLF ++ B "0" ++ CRLF ++ CRLF.
Proof. vm_compute. reflexivity. Qed.

(** C03-C06: whatever [send] writes of a response, to any connection, begins with a head (or is a
    beginning of it, as long as the send has not succeeded) which, whatever follows it on the
    wire, reads back (by the independent reader of SpecHead.v) as: status line; exactly one
    framing field (C03); the handler's other fields in order (C04); the date rule (C05); the
    content-type rule (C06); and it ends exactly at its last byte. *)
Theorem C03_one_framing_header : forall ev r, env_wf ev -> resp_wf r -> (0 < e_bufcap ev)%nat ->
  exists head sl fs, sent_under ev r head /\ (forall rest, read_head (head ++ rest) = Some (sl, fs, rest)) /\ framing_fields r fs.
Proof. intros ev r He Hr Hn. destruct (head_response ev r Hr He) as (sl & fs & H1 & _ & H3 & _). exists (head_text ev r), sl, fs. exact (conj (send_opens ev r Hn) (conj H1 H3)). Qed.
Print Assumptions C03_one_framing_header.
Example C03_case : env_wf (ev0 true) /\ resp_wf (resp1 None) /\ hm_get (B "content-length") (r_headers (resp1 None)) <> None /\
  exists w' k, send 40 (ev0 true) (resp1 None) slow_w = (w', ROk k).
Proof. split; [exact (ev0_wf true)|]. split; [exact (resp1_wf None)|]. split; [discriminate|]. eexists _, _. vm_compute. reflexivity. Qed.

Theorem C04_head_integrity : forall ev r, env_wf ev -> resp_wf r -> (0 < e_bufcap ev)%nat ->
  exists head sl fs, sent_under ev r head /\ (forall rest, read_head (head ++ rest) = Some (sl, fs, rest)) /\
                     status_line r sl /\ other_fields r fs.
Proof. intros ev r He Hr Hn. destruct (head_response ev r Hr He) as (sl & fs & H1 & H2 & _ & _ & _ & H6). exists (head_text ev r), sl, fs. exact (conj (send_opens ev r Hn) (conj H1 (conj H2 H6))). Qed.
Print Assumptions C04_head_integrity.
(** Repeated fields, fields that are replaced (content-length) and fields that are not. *)
Example C04_case : resp_wf (resp1 (Some 5%N)) /\
  exists rest, read_head (w_out (fst (send 40 (ev0 true) (resp1 (Some 5%N)) slow_w))) = Some (B "HTTP/1.1 200 OK",
    [(B "content-length", B "5"); (B "date", e_date (ev0 true)); (B "content-type", B "text/html"); (B "x-a", B "1"); (B "set-cookie", B "a=b"); (B "set-cookie", B "c=d")], rest).
Proof. split; [exact (resp1_wf _)|]. eexists. vm_compute. reflexivity. Qed.

Theorem C05_date_once : forall ev r, env_wf ev -> resp_wf r -> (0 < e_bufcap ev)%nat ->
  exists head sl fs, sent_under ev r head /\ (forall rest, read_head (head ++ rest) = Some (sl, fs, rest)) /\
                     date_fields (e_date ev) r fs.
Proof. intros ev r He Hr Hn. destruct (head_response ev r Hr He) as (sl & fs & H1 & _ & _ & H4 & _). exists (head_text ev r), sl, fs. exact (conj (send_opens ev r Hn) (conj H1 H4)). Qed.
Print Assumptions C05_date_once.
Definition dated_resp : response := mkResp 404 HTTP_10 [(B "date", [B "now"; B "then"])] (mkBody (Some 2%N) split_src).
Example C05_case : resp_wf dated_resp /\
  exists sl fs rest, read_head (w_out (fst (send 40 (ev0 true) dated_resp slow_w))) = Some (sl, fs, rest) /\ values (B "Date") fs = [B "now"; B "then"].
Proof.
  split; [split; [cbn; repeat constructor; cbn; intuition congruence|repeat constructor; discriminate]|]. eexists _, _, _. split; vm_compute; reflexivity.
Qed.

Theorem C06_default_content_type : forall ev r, env_wf ev -> resp_wf r -> (0 < e_bufcap ev)%nat ->
  exists head sl fs, sent_under ev r head /\ (forall rest, read_head (head ++ rest) = Some (sl, fs, rest)) /\ type_fields r fs.
Proof. intros ev r He Hr Hn. destruct (head_response ev r Hr He) as (sl & fs & H1 & _ & _ & _ & H5 & _). exists (head_text ev r), sl, fs. exact (conj (send_opens ev r Hn) (conj H1 H5)). Qed.
Print Assumptions C06_default_content_type.
Example C06_case : exists sl fs rest, read_head (w_out (fst (send 40 (ev0 true) dated_resp slow_w))) = Some (sl, fs, rest) /\
  values (B "content-type") (hm_iter (r_headers dated_resp)) = [] /\ values (B "content-type") fs = [B "application/octet-stream"].
Proof. eexists _, _, _. split; [|split]; vm_compute; reflexivity. Qed.

(** C07 is false: a body shorter than its declared length makes [send] recurse for ever. *)
Theorem C07_short_body_never_ends : forall ev r cl w,
  wf_src (b_src (r_body r)) -> (1 <= e_bufcap ev)%nat ->
  b_len (r_body r) = Some cl -> (cl + N.of_nat (e_bufcap ev) < two64)%N ->
  clean (b_src (r_body r)) -> (N.of_nat (length (src_data (b_src (r_body r)))) < cl)%N -> accepting w ->
  forall fuel, snd (send fuel ev r w) = RFuel.
Proof. intros ev r cl w Hs. exact (short_hangs ev r Hs cl w). Qed.
Print Assumptions C07_short_body_never_ends.
Theorem C07_terminates_refuted : exists ev r w, env_wf ev /\ resp_wf r /\ clean (b_src (r_body r)) /\ accepting w /\
  forall fuel, snd (send fuel ev r w) = RFuel.
Proof.
  exists (ev0 true), (resp1 (Some 12%N)), slow_w.
  exact (conj (ev0_wf true) (conj (resp1_wf _) (conj split_clean (conj slow_acc
    (C07_short_body_never_ends (ev0 true) (resp1 (Some 12%N)) 12%N slow_w split_wf
       (ev0_cap1 true) eq_refl (ev0_fits true 12 eq_refl) split_clean eq_refl slow_acc))))).
Qed.
Print Assumptions C07_terminates_refuted.
Theorem C07_terminates_partial : forall ev r w,
  wf_src (b_src (r_body r)) -> (7 <= e_bufcap ev)%nat -> (N.of_nat (e_bufcap ev) < two64)%N -> hexlen_ok ev ->
  match b_len (r_body r) with
  | Some cl => (cl + N.of_nat (e_bufcap ev) < two64)%N /\
      ((cl <= N.of_nat (length (src_data (b_src (r_body r)))))%N \/ ~ clean (b_src (r_body r)))
  | None => True
  end ->
  exists F w' x, x <> RFuel /\ forall fuel, (F <= fuel)%nat -> send fuel ev r w = (w', x).
Proof. intros ev r w Hs. exact (terminates ev r Hs w). Qed.
Print Assumptions C07_terminates_partial.
Example C07_case : wf_src (b_src (r_body (resp2 (Some 12%N)))) /\ ~ clean (b_src (r_body (resp2 (Some 12%N)))).
Proof. exact (conj fail_wf fail_unclean). Qed.

(** C08 is false in two ways. *)
Theorem C08_no_panic_refuted : exists ev r w fuel, env_wf ev /\ resp_wf r /\ clean (b_src (r_body r)) /\
  accepting w /\ b_len (r_body r) = None /\ snd (send fuel ev r w) = RPanic.
Proof.
  exists (ev0 false), (resp_window 8060), (mkWtr [] []), 20%nat. split; [exact (ev0_wf false)|]. split; [|split; [|split; [|split]]].
  - split; [repeat constructor; intros []|]. constructor; [|constructor]. split; [reflexivity|]. split; [discriminate|].
    constructor; [vm_compute; reflexivity|constructor].
  - split; [constructor|reflexivity].
  - constructor.
  - reflexivity.
  - vm_compute. reflexivity.
Qed.
Print Assumptions C08_no_panic_refuted.
Theorem C08_no_panic_length_refuted : forall dbg, exists r w fuel, resp_wf r /\ clean (b_src (r_body r)) /\
  accepting w /\ b_len (r_body r) = Some (two64 - 1)%N /\ snd (send fuel (ev0 dbg) r w) = RPanic.
Proof.
  intros dbg. exists (resp1 (Some (two64 - 1)%N)), (mkWtr [] []), 20%nat.
  split; [exact (resp1_wf _)|]. split; [exact split_clean|]. split; [constructor|]. split; [reflexivity|].
  destruct dbg; vm_compute; reflexivity.
Qed.
Print Assumptions C08_no_panic_length_refuted.
(** Which lengths: the panic is certain where the length and the part of the head that shares
    its buffer with the body add up to 2^64 or more; without overflow checks (release builds)
    it happens for no other length. *)
Theorem C08_length_panics : forall ev r cl, env_wf ev -> resp_wf r -> (1 <= e_bufcap ev)%nat -> (N.of_nat (e_bufcap ev) < two64)%N ->
  b_len (r_body r) = Some cl -> (cl < two64)%N ->
  exists head, response_head (e_date ev) r head /\
  ((two64 <= cl + N.of_nat (length head mod e_bufcap ev))%N -> forall w, accepting w -> exists F w' p,
     (forall fuel, (F <= fuel)%nat -> send fuel ev r w = (w', RPanic)) /\ w_out w' = w_out w ++ p /\ prefix p head) /\
  (e_ovf ev = false -> (cl + N.of_nat (length head mod e_bufcap ev) < two64)%N -> forall w fuel, snd (send fuel ev r w) <> RPanic).
Proof.
  intros ev r cl He Hr Hn H64 Hc Hcl. exists (head_text ev r). split; [now apply head_response|]. split.
  - intros V w A. now apply (vast_panics ev r cl).
  - intros Ho V w fuel. now apply (vast_calm ev r cl).
Qed.
Print Assumptions C08_length_panics.
Example C08_length_case : forall dbg, let cl := (two64 - 30)%N in let r := resp1 (Some cl) in
  b_len (r_body r) = Some cl /\ (two64 <= cl + N.of_nat (length (head_text (ev0 dbg) r) mod e_bufcap (ev0 dbg)))%N /\
  snd (send 20 (ev0 dbg) r (mkWtr [] [])) = RPanic.
Proof. intros dbg. split; [reflexivity|]. destruct dbg; split; vm_compute; discriminate || reflexivity. Qed.
(** With overflow checks (debug builds) somewhat smaller lengths panic too, once the body arrives in
    pieces; release builds send the same pieces. *)
Theorem C08_profiles_refuted : exists r cl fuel, resp_wf r /\ clean (b_src (r_body r)) /\ b_len (r_body r) = Some cl /\
  (forall dbg, (cl + N.of_nat (length (head_text (ev0 dbg) r) mod e_bufcap (ev0 dbg)) < two64)%N) /\
  snd (send fuel (ev0 true) r (mkWtr [] [])) = RPanic /\ forall fuel', snd (send fuel' (ev0 false) r (mkWtr [] [])) <> RPanic.
Proof.
  set (cl := (two64 - 1 - N.of_nat (length (head_text (ev0 true) (resp1 (Some (two64 - 400)%N)))))%N).
  exists (resp1 (Some cl)), cl, 20%nat. split; [exact (resp1_wf _)|]. split; [exact split_clean|]. split; [reflexivity|].
  assert (V : forall dbg, (cl + N.of_nat (length (head_text (ev0 dbg) (resp1 (Some cl))) mod e_bufcap (ev0 dbg)) < two64)%N)
    by (intros dbg; destruct dbg; vm_compute; reflexivity).
  split; [exact V|]. split; [vm_compute; reflexivity|]. intros fuel'. apply (vast_calm _ _ cl); [vm_compute; lia|vm_compute; reflexivity|reflexivity|vm_compute; reflexivity|reflexivity|apply V].
Qed.
Print Assumptions C08_profiles_refuted.
Theorem C08_no_panic_partial : forall ev r, env_wf ev -> resp_wf r ->
  wf_src (b_src (r_body r)) -> (7 <= e_bufcap ev)%nat -> hexlen_ok ev ->
  exists head, response_head (e_date ev) r head /\
  (match b_len (r_body r) with
   | Some cl => (cl + N.of_nat (e_bufcap ev) < two64)%N
   | None => (N.of_nat (e_bufcap ev) < two64)%N /\
             ~ (at_end (b_src (r_body r)) /\ eos_window (e_bufcap ev) (length head))
   end -> forall w fuel, snd (send fuel ev r w) <> RPanic).
Proof. intros ev r He Hr Hs Hn Hx. exists (head_text ev r). split; [now apply head_response|]. exact (no_panic ev r Hs Hn Hx). Qed.
Print Assumptions C08_no_panic_partial.
(** The condition on chunked bodies is exact: where it is not met, sending panics. *)
Theorem C08_empty_panics : forall ev r, env_wf ev -> resp_wf r -> (7 <= e_bufcap ev)%nat -> b_len (r_body r) = None -> at_end (b_src (r_body r)) ->
  exists head, response_head (e_date ev) r head /\
  (eos_window (e_bufcap ev) (length head) -> forall w, accepting w -> exists F w' p,
     (forall fuel, (F <= fuel)%nat -> send fuel ev r w = (w', RPanic)) /\ w_out w' = w_out w ++ p /\ prefix p head).
Proof. intros ev r He Hr Hn Hc HA. exists (head_text ev r). split; [now apply head_response|]. exact (empty_panics ev r Hn Hc HA). Qed.
Print Assumptions C08_empty_panics.
Example C08_empty_case : resp_wf (resp_window 8060) /\ b_len (r_body (resp_window 8060)) = None /\ at_end (b_src (r_body (resp_window 8060))) /\
  eos_window (e_bufcap (ev0 true)) (length (head_text (ev0 true) (resp_window 8060))).
Proof.
  split. { split; [repeat constructor; intros []|]. constructor; [|constructor]. split; [reflexivity|]. split; [discriminate|].
    constructor; [vm_compute; reflexivity|constructor]. }
  split; [reflexivity|]. split; [split; reflexivity|]. vm_compute. auto.
Qed.
Example C08_case : env_wf (ev0 true) /\ resp_wf (resp1 None) /\ src_data (b_src (r_body (resp1 None))) <> [] /\
  resp_wf (resp1 (Some 11%N)) /\ (11 + N.of_nat (e_bufcap (ev0 true)) < two64)%N.
Proof. split; [exact (ev0_wf true)|]. split; [exact (resp1_wf None)|]. split; [discriminate|]. split; [exact (resp1_wf _)|]. exact (ev0_fits true 11 eq_refl). Qed.

(** C09. *)
Theorem C09_read_failure_fixed : forall ev r cl,
  env_wf ev -> resp_wf r -> wf_src (b_src (r_body r)) -> (1 <= e_bufcap ev)%nat ->
  b_len (r_body r) = Some cl -> (cl + N.of_nat (e_bufcap ev) < two64)%N ->
  ~ clean (b_src (r_body r)) -> (N.of_nat (length (src_data (b_src (r_body r)))) < cl)%N ->
  exists head, response_head (e_date ev) r head /\
  forall w, exists F w' p, (forall fuel, (F <= fuel)%nat -> send fuel ev r w = (w', RErr)) /\
    w_out w' = w_out w ++ p /\ prefix p (head ++ src_data (b_src (r_body r))).
Proof. intros ev r cl He Hr Hs. exact (read_failure_fixed ev r He Hr Hs cl). Qed.
Print Assumptions C09_read_failure_fixed.
Theorem C09_read_failure_chunked : forall ev r,
  env_wf ev -> resp_wf r -> wf_src (b_src (r_body r)) ->
  (7 <= e_bufcap ev)%nat -> (N.of_nat (e_bufcap ev) < two64)%N -> hexlen_ok ev ->
  b_len (r_body r) = None -> ~ clean (b_src (r_body r)) ->
  exists head, response_head (e_date ev) r head /\
  exists p0 cw, prefix p0 (src_data (b_src (r_body r))) /\ chunks plain_size_line p0 cw /\
  forall w, exists F w' p, (forall fuel, (F <= fuel)%nat -> send fuel ev r w = (w', RErr)) /\
    w_out w' = w_out w ++ p /\ prefix p (head ++ cw).
Proof. intros ev r He Hr Hs. exact (read_failure_chunked ev r He Hr Hs). Qed.
Print Assumptions C09_read_failure_chunked.
Example C09_case : ~ clean fail_src /\ wf_src fail_src /\ src_data fail_src = B "he" /\ resp_wf (resp2 (Some 12%N)).
Proof. exact (conj fail_unclean (conj fail_wf (conj eq_refl (resp2_wf _)))). Qed.
Example C09_chunked_case : b_len (r_body (resp2 None)) = None /\ ~ clean (b_src (r_body (resp2 None))) /\
  snd (send 40 (ev0 true) (resp2 None) slow_w) = RErr /\
  exists head rest, response_head (e_date (ev0 true)) (resp2 None) head /\ w_out (fst (send 40 (ev0 true) (resp2 None) slow_w)) = head ++ rest /\
    rest = B "2" ++ CRLF ++ B "he" ++ CRLF.
Proof.
  split; [reflexivity|]. split; [exact fail_unclean|]. split; [vm_compute; reflexivity|].
  exists (head_text (ev0 true) (resp2 None)). eexists. split; [apply head_response; [apply resp2_wf|apply ev0_wf]|]. split; vm_compute; reflexivity.
Qed.

(** C10: one wire image per response, whatever the writer does. *)
Theorem C10_write_failure_fixed : forall ev r cl,
  env_wf ev -> resp_wf r -> wf_src (b_src (r_body r)) -> (1 <= e_bufcap ev)%nat ->
  b_len (r_body r) = Some cl -> (cl + N.of_nat (e_bufcap ev) < two64)%N ->
  (cl <= N.of_nat (length (src_data (b_src (r_body r)))))%N -> (cl = 0%N -> clean (b_src (r_body r))) ->
  exists head, response_head (e_date ev) r head /\
    forall w, exists F w' x p,
      (forall fuel, (F <= fuel)%nat -> send fuel ev r w = (w', x)) /\
      w_out w' = w_out w ++ p /\ prefix p (head ++ firstn (N.to_nat cl) (src_data (b_src (r_body r)))) /\
      ((x = ROk (N.of_nat (length head) + cl)%N /\ p = head ++ firstn (N.to_nat cl) (src_data (b_src (r_body r)))) \/
       (x = RErr /\ ~ accepting w)).
Proof. intros ev r cl He Hr Hs. exact (fixed_all ev r He Hr Hs cl). Qed.
Print Assumptions C10_write_failure_fixed.
Theorem C10_write_failure_chunked : forall ev r,
  env_wf ev -> resp_wf r -> wf_src (b_src (r_body r)) ->
  (7 <= e_bufcap ev)%nat -> (N.of_nat (e_bufcap ev) < two64)%N -> hexlen_ok ev ->
  b_len (r_body r) = None -> clean (b_src (r_body r)) ->
  exists head, response_head (e_date ev) r head /\
    (~ (at_end (b_src (r_body r)) /\ eos_window (e_bufcap ev) (length head)) ->
     exists cw, chunks plain_size_line (src_data (b_src (r_body r))) cw /\
     forall w, exists F w' x p,
      (forall fuel, (F <= fuel)%nat -> send fuel ev r w = (w', x)) /\
      w_out w' = w_out w ++ p /\ prefix p (head ++ cw ++ last_chunk) /\
      ((x = ROk (N.of_nat (length (head ++ cw ++ last_chunk))) /\ p = head ++ cw ++ last_chunk) \/
       (x = RErr /\ ~ accepting w))).
Proof. intros ev r He Hr Hs. exact (chunked_all ev r He Hr Hs). Qed.
Print Assumptions C10_write_failure_chunked.
Example C10_case : snd (send 20 (ev0 true) (resp1 (Some 7%N)) (mkWtr [WAcc 10; WPend true; WFail] [])) = RErr /\
  w_out (fst (send 20 (ev0 true) (resp1 (Some 7%N)) (mkWtr [WAcc 10; WPend true; WFail] []))) = B "HTTP/1.1 2".
Proof. vm_compute. auto. Qed.
Example C10_chunked_case : let w := mkWtr [WAcc 155; WPend true; WFail] [] in ~ accepting w /\ b_len (r_body (resp1 None)) = None /\ clean (b_src (r_body (resp1 None))) /\
  ~ at_end (b_src (r_body (resp1 None))) /\
  snd (send 40 (ev0 true) (resp1 None) w) = RErr /\ skipn 151 (w_out (fst (send 40 (ev0 true) (resp1 None) w))) = B "2" ++ CRLF ++ B "h".
Proof.
  cbv zeta. split; [intros A; repeat match goal with H : accepting _ |- _ => inversion H; subst; clear H | H : Forall _ _ |- _ => inversion H; subst; clear H end; contradiction|].
  split; [reflexivity|]. split; [exact split_clean|]. split; [intros [X _]; discriminate X|]. split; vm_compute; reflexivity.
Qed.
