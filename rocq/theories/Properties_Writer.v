(** Properties C45-C46: the response writer. *)
From Verif Require Import Accept RespWriter SpecHead SpecResponse SpecServer SpecWriter Lemmas Proofs_Copy Proofs_Head Proofs_Send Proofs_Accept Proofs_Glitch Proofs_Writer
  Examples_Response Examples_Request.

(** C45: after any history of setter calls each part of the response is what the newest call
    about it says (SpecWriter.v), and parts no call is about are as they were. *)
Theorem C45_calls : forall cs r r', resp_wf r -> Forall call_typed cs -> rw_calls cs r = Some r' -> resp_wf r' /\ said r cs r'.
Proof. intros cs r r' W T E. exact (conj (calls_wf cs r r' W T E) (calls_said cs r r' W T E)). Qed.
Print Assumptions C45_calls.
(** ... a history panics exactly if it holds a call documented to panic. *)
Theorem C45_panics : forall cs r, rw_calls cs r = None <-> Exists call_panics cs.
Proof. exact calls_none. Qed.
Print Assumptions C45_panics.
(** ... and this is what goes over the wire when the response is sent. *)
Theorem C45_wire : forall cs r r' date m, resp_wf r -> Forall call_typed cs -> rw_calls cs r = Some r' -> message date r' m ->
  exists sl fs rest, read_head m = Some (sl, fs, rest) /\
    first_line (latest says_version (r_version r) (rev cs)) (latest says_status (r_status r) (rev cs)) sl /\
    (forall n, special n = false -> values n fs = header_said n (values n (hm_iter (r_headers r))) (rev cs)) /\
    body_text (latest says_body (r_body r) (rev cs)) rest.
Proof.
  intros cs r r' date m W T E (head & bt & (sl & fs & RH & HSL & _ & _ & _ & HO) & HB & ->).
  destruct (calls_said cs r r' W T E) as (S1 & S2 & S3 & S4). exists sl, fs, bt. rewrite <- S1, <- S2, <- S3. ands; auto.
  intros n Hn. rewrite (values_others n _ _ Hn HO). apply S4.
Qed.
Print Assumptions C45_wire.
(** A writer of which nothing was asked sends 200 OK: no body, and no fields but the length, 0,
    and the date. *)
Theorem C45_fresh : forall date m, message date rw_new m -> exists fs, read_head m = Some (B "HTTP/1.1 200 OK", fs, []) /\
  (exists v, values (B "content-length") fs = [v] /\ numeral v 0) /\ values (B "transfer-encoding") fs = [] /\
  values (B "content-type") fs = [] /\ forall n, special n = false -> values n fs = [].
Proof.
  intros date m (head & bt & (sl & fs & RH & HSL & HF & _ & HT & HO) & HB & ->). exists fs.
  assert (bt = []) as -> by (inversion HB as [n E|cw E]; [now injection E as <-|discriminate]).
  split; [rewrite RH; do 3 f_equal; exact (first_line_text _ _ _ HSL)|]. destruct HF as (v & F1 & F2 & F3). split; [eauto|]. split; [exact F3|]. split; [exact HT|].
  intros n Hn. now rewrite (values_others n _ _ Hn HO).
Qed.
Print Assumptions C45_fresh.
(** [send_code] sends the response with only its status changed; a code that is no status code
    panics before anything is written. *)
Theorem C45_send_code : forall fuel ev code r w,
  ((100 <= code < 1000)%N -> exists r', send_code fuel ev code r w = send fuel ev r' w /\ r_status r' = code /\ r_version r' = r_version r /\ r_headers r' = r_headers r /\ r_body r' = r_body r) /\
  (~ (100 <= code < 1000)%N -> send_code fuel ev code r w = (w, RPanic)).
Proof.
  intros fuel ev code r w. unfold send_code, rw_set_code, status_ok. destruct (N.leb_spec 100 code), (N.ltb_spec code 1000); cbn [andb]; split; intros; try lia; auto.
  eexists. split; [reflexivity|]. auto.
Qed.
Print Assumptions C45_send_code.
Definition edits : list call :=
  [CCode 404; CInsert (B "X-A") (B "1"); CAppend (B "x-a") (B "2"); CText (B "gone"); CAppend (B "Vary") (B "accept"); CInsert (B "Content-Type") (B "text/html"); CStatus 410].
Example C45_case : resp_wf rw_new /\ Forall call_typed edits /\ exists r', rw_calls edits rw_new = Some r' /\ r_status r' = 410%N /\ values (B "x-a") (hm_iter (r_headers r')) = [B "1"; B "2"] /\ values (B "content-type") (hm_iter (r_headers r')) = [B "text/html"] /\ w_out (fst (send 99 (ev0 true) r' (mkWtr [] []))) =
  lines ["HTTP/1.1 410 Gone"; "content-length: 4"; "date: Thu, 01 Jan 1970 00:00:00 GMT"; "x-a: 1"; "x-a: 2"; "content-type: text/html"; "vary: accept"]%string ++ B "gone".
Proof.
  split; [split; constructor|]. split; [repeat constructor|]. eexists. split; [reflexivity|]. split; [reflexivity|]. split; [reflexivity|]. split; [reflexivity|].
  vm_compute. reflexivity.
Qed.
Example C45_case_panic : Exists call_panics [CStatus 200; CCode 99].
Proof. right. left. cbn. lia. Qed.
Example C45_case_sse : exists r', rw_calls [CSse [SItem (B "data: 1"); SItem []; SPend false; SItem (B "data: 2")]] rw_new = Some r' /\ skipn 106 (w_out (fst (send 99 (ev0 true) r' (mkWtr [] [])))) = B "-stream" ++ CRLF ++ CRLF ++ B "7" ++ CRLF ++ B "data: 1" ++ CRLF ++ B "7" ++ CRLF ++ B "data: 2" ++ CRLF ++ B "0" ++ CRLF ++ CRLF.
Proof. eexists. split; [reflexivity|]. vm_compute. reflexivity. Qed.

(** C46 is false: [set_text] leaves the status as it is. *)
Theorem C46_text_ok_refuted : exists r t, resp_wf r /\ r_status (rw_set_text t r) <> 200%N.
Proof. exists (rw_set_status 404 rw_new), (B "hello"). split; [split; constructor|discriminate]. Qed.
Print Assumptions C46_text_ok_refuted.
(** It holds as long as no status has been set; the other two documented effects always hold. *)
Theorem C46_text_ok_partial : forall cs t r', Forall call_typed cs -> rw_calls (cs ++ [CText t]) rw_new = Some r' ->
  (Forall (fun c => says_status c = None) cs -> r_status r' = 200%N) /\
  values (B "content-type") (hm_iter (r_headers r')) = [B "text/plain"] /\
  r_body r' = mkBody (Some (N.of_nat (length t))) (bytes_src t).
Proof.
  intros cs t r' T E. assert (T' : Forall call_typed (cs ++ [CText t])) by (apply Forall_app; split; [exact T|repeat constructor]).
  destruct (calls_said _ rw_new r' (conj (NoDup_nil _) (Forall_nil _)) T' E) as (S1 & _ & S3 & S4). rewrite rev_app_distr in *. cbn [rev app] in *.
  split; [|split; [exact (S4 (B "content-type"))|exact S3]]. intros H. rewrite S1. cbn [latest says_status rw_new r_status].
  apply latest_none. now apply Forall_rev.
Qed.
Print Assumptions C46_text_ok_partial.
Example C46_case : exists r', rw_calls ([CAppend (B "x") (B "y")] ++ [CText (B "hi")]) rw_new = Some r'.
Proof. eexists. reflexivity. Qed.
