(** Properties C42-C44: glitches. *)
From Verif Require Import Accept SpecChunked SpecHead SpecResponse SpecReq SpecServer SpecGlitch Lemmas Proofs_Copy Proofs_ServerDec Proofs_Send Proofs_Accept Proofs_Request
  Proofs_Turns Proofs_Glitch Examples_Response Examples_Dec Examples_Request Examples_Accept.

(** C42: the bytes sent for a glitch (C39) read as a response with its status, version, headers
    and text; see [glitch_wire] in SpecGlitch.v. *)
Theorem C42_response : forall date verbose g m, (forall hs, g_headers g = Some hs -> hm_wf hs) ->
  message date (glitch_response verbose g) m -> glitch_wire date verbose g m.
Proof. exact glitch_message. Qed.
Print Assumptions C42_response.
(** ... and every glitch (of less than 2^64 bytes, give or take a buffer) can be sent. *)
Theorem C42_sent : forall ev verbose g w, env_ok ev -> (forall hs, g_headers g = Some hs -> hm_wf hs) ->
  (forall t, detail verbose g t -> N.of_nat (length t) + N.of_nat (e_bufcap ev) < two64)%N -> accepting w ->
  exists m F w', glitch_wire (e_date ev) verbose g m /\ w_out w' = w_out w ++ m /\
    forall fuel, (F <= fuel)%nat -> send fuel ev (glitch_response verbose g) w = (w', ROk (N.of_nat (length m))).
Proof.
  intros ev verbose g w He Hh Hl Ha. assert (SE : sendable ev (glitch_response verbose g)) by (apply glitch_sendable; [exact Hh|]; apply Hl; now apply detail_text).
  destruct (send_message ev _ He SE) as (m & Hm & HS). destruct (HS w) as (F & w' & x & p & S1 & O & _ & [[-> ->]|[_ X]]); [|contradiction].
  exists m, F, w'. split; [now apply glitch_message|]. auto.
Qed.
Print Assumptions C42_sent.
Definition teapot : glitch := mkGlitch (Some 418%N) (Some [hdr "x-tea" "earl grey"; hdr "content-type" "text/html"]) (Some HTTP_2) (Some (B "short")) (Some (B "and stout")).
Example C42_case : (forall hs, g_headers teapot = Some hs -> hm_wf hs) /\ (forall t, detail true teapot t -> N.of_nat (length t) + N.of_nat (e_bufcap (ev0 true)) < two64)%N /\
  w_out (fst (send 99 (ev0 true) (glitch_response true teapot) (mkWtr [] []))) =
  lines ["HTTP/2.0 418 I'm a teapot"; "content-length: 15"; "date: Thu, 01 Jan 1970 00:00:00 GMT"; "x-tea: earl grey"; "content-type: text/plain"]%string ++ B "short" ++ [LF] ++ B "and stout".
Proof.
  split; [|split; [intros t D; apply detail_text in D; subst t; vm_compute; reflexivity|vm_compute; reflexivity]].
  intros hs [= <-]. split; [cbn; repeat constructor; cbn; intuition congruence|repeat constructor; discriminate].
Qed.

(** C39 once more, by what is on the wire: the bytes written read as the glitch's response, and
    the loop goes on with the next handler behind what the failed one left unread. *)
Theorem C39_answered : forall ev o (h : nat -> handler) s wt s1 wt1 q b fuel0 b' g, env_ok ev ->
  decode ev (o_timeout o) s wt = (s1, wt1, OReq q b) -> run_reading fuel0 ev (h O q) b = (b', inl (PFail g)) ->
  (forall hs, g_headers g = Some hs -> hm_wf hs) ->
  (forall t, detail (o_verbose o) g t -> N.of_nat (length t) + N.of_nat (e_bufcap ev) < two64)%N -> accepting wt1 ->
  exists m F wt', glitch_wire (e_date ev) (o_verbose o) g m /\ w_out wt' = w_out wt1 ++ m /\
    forall n fuel, (F <= fuel)%nat -> accept_go (S n) fuel ev o h s wt = accept_go n fuel ev o (fun i => h (S i)) (body_src b') wt'.
Proof.
  intros ev o h s wt s1 wt1 q b fuel0 b' g He HD HR Hh Hl Ha.
  destruct (handler_fails ev o (h O) s wt s1 wt1 q b fuel0 b' g He HD HR Hh ltac:(apply Hl; now apply detail_text) Ha) as (m & F & wt' & Hm & HO & HT).
  exists m, F, wt'. split; [now apply glitch_message|]. split; [exact HO|]. intros n fuel Hf. cbn [accept_go]. now rewrite HT.
Qed.
Print Assumptions C39_answered.
Example C39_answered_case : exists s1 wt1 q b b', let h := fun (_ : nat) (_ : rhead) => slurp (PFail teapot) in
  decode (ev0 true) true (arrives post_head (B "hello")) slow = (s1, wt1, OReq q b) /\ run_reading 9 (ev0 true) (h O q) b = (b', inl (PFail teapot)) /\ accepting wt1.
Proof. eexists _, _, _, _, _. split; [vm_compute; reflexivity|]. split; [vm_compute; reflexivity|]. repeat constructor. Qed.

(** For glitches as handlers come by them: made by any of the constructors, conversions and macros,
    then changed by any sequence of setters, the response has the last status and message set
    and the error's text, and no header but its own framing, date and content type. *)
Theorem C42_built : forall date verbose a g l m st msg, g_made a = Some g -> message date (glitch_response verbose (fold_left g_set l g)) m ->
  status_due (start_status a) l st -> message_due (start_message a) l msg ->
  exists text sl fs cl, text_due verbose msg (start_trace a) text /\ read_head m = Some (sl, fs, text) /\
    first_line HTTP_11 st sl /\
    values (B "content-length") fs = [cl] /\ numeral cl (N.of_nat (length text)) /\ values (B "transfer-encoding") fs = [] /\
    values (B "content-type") fs = (match text with [] => [] | _ => [B "text/plain"] end) /\ values (B "date") fs = [date] /\
    forall n, special n = false -> values n fs = [].
Proof. exact glitch_built. Qed.
Print Assumptions C42_built.
(** Only [glitch_code!] can fail to make one, and does so (by a panic) exactly on codes that are not
    three digits. *)
Theorem C42_made : forall a, (exists g, g_made a = Some g) <-> forall code m, a = ByMacroCode code m -> (100 <= code <= 999)%N.
Proof. exact glitch_made. Qed.
Print Assumptions C42_made.
Example C42_built_case : exists g, let l := [SetMessage (B "one"); SetStatus 403; SetMessage (B "two")] in
  g_made (ByError (B "why")) = Some g /\ status_due (start_status (ByError (B "why"))) l 403 /\ message_due (start_message (ByError (B "why"))) l (B "two") /\
  w_out (fst (send 99 (ev0 true) (glitch_response true (fold_left g_set l g)) (mkWtr [] []))) =
  lines ["HTTP/1.1 403 Forbidden"; "content-length: 7"; "date: Thu, 01 Jan 1970 00:00:00 GMT"; "content-type: text/plain"]%string ++ B "two" ++ [LF] ++ B "why".
Proof. eexists. cbv zeta. split; [reflexivity|]. split; [repeat constructor|]. split; [repeat constructor|]. vm_compute. reflexivity. Qed.

(** C43: without [verbose_glitch], endpoints that differ only in the texts of the errors they
    fail with cannot be told apart by anything written to the connection, nor by how [accept]
    ends. *)
Theorem C43_private : forall ev o fuel n h1 h2 s w, o_verbose o = false -> handlers_alike h1 h2 ->
  accept_go n fuel ev o h1 s w = accept_go n fuel ev o h2 s w.
Proof. intros ev o fuel n h1 h2 s w V. now apply alike_accept. Qed.
Print Assumptions C43_private.
(** This is so without asking for it: [accept], given no options, keeps the texts to itself. *)
Theorem C43_default : forall ev fuel h1 h2 s w, handlers_alike h1 h2 -> accept fuel ev h1 s w = accept fuel ev h2 s w.
Proof. intros ev fuel h1 h2 s w. now apply C43_private. Qed.
Print Assumptions C43_default.
(** Such endpoints are those that come by their glitches in the same way from different errors. *)
Theorem C43_errors : forall a1 a2 g1 g2 l, same_but_error a1 a2 -> g_made a1 = Some g1 -> g_made a2 = Some g2 ->
  same_but_trace (fold_left g_set l g1) (fold_left g_set l g2).
Proof.
  assert (K : forall l g1 g2, same_but_trace g1 g2 -> same_but_trace (fold_left g_set l g1) (fold_left g_set l g2)).
  { induction l as [|x l IH]; intros g1 g2 H; [exact H|]. apply IH. destruct H as (H1 & H2 & H3 & H4). destruct x; repeat split; assumption. }
  intros a1 a2 g1 g2 l H E1 E2. apply K. destruct H; [rewrite E1 in E2; injection E2 as ->; repeat split|..]; injection E1 as <-; injection E2 as <-; repeat split.
Qed.
Print Assumptions C43_errors.
Example C43_errors_case : exists g1 g2, let l := [SetStatus 503] in let a e := ByResultCtx e 500 (B "try later") in
  same_but_error (a (B "no such table")) (a (B "disk full")) /\ g_made (a (B "no such table")) = Some g1 /\ g_made (a (B "disk full")) = Some g2 /\
  g_trace (fold_left g_set l g1) <> g_trace (fold_left g_set l g2).
Proof. eexists _, _. cbv zeta. split; [constructor|]. split; [reflexivity|]. split; [reflexivity|]. discriminate. Qed.
Example C43_case : o_verbose default_opts = false /\
  handlers_alike (fun _ _ => slurp (PFail (glitch_err (B "no such table: users")))) (fun _ _ => slurp (PFail (glitch_err (B "disk full")))) /\
  exists s' wt', accept_go 5 200 (ev0 true) default_opts (fun _ _ => slurp (PFail (glitch_err (B "disk full")))) (arrives get_head []) (mkWtr [] []) = (s', wt', AOk) /\
    (0 < length (w_out wt'))%nat.
Proof.
  split; [reflexivity|]. split.
  - intros i q. cofix CIH. rewrite (slurp_eq (PFail (glitch_err (B "no such table: users")))), (slurp_eq (PFail (glitch_err (B "disk full")))).
    constructor. intros [[|]|f| | |]; try apply CIH; constructor; apply pa_fail; repeat split.
  - eexists _, _. split; [vm_compute; reflexivity|]. cbn. apply Nat.lt_0_succ.
Qed.
(** ... with it, the error's text follows the message. *)
Theorem C43_verbose : forall date g m, (forall hs, g_headers g = Some hs -> hm_wf hs) -> message date (glitch_response true g) m ->
  forall t, g_trace g = Some t -> exists sl fs, read_head m = Some (sl, fs,
    match or_else (g_message g) [] with [] => t | x => x ++ [LF] ++ t end).
Proof.
  intros date g m Hh Hm t E. destruct (glitch_message date true g m Hh Hm) as (text & sl & fs & cl & DT & RH & _).
  exists sl, fs. rewrite RH. do 2 f_equal. inversion DT as [V|t' V E' M|m' t' V E' M NE]; subst; [destruct V; congruence|..].
  - rewrite M. congruence.
  - rewrite M. cbn [or_else]. destruct m'; [easy|]. congruence.
Qed.
Print Assumptions C43_verbose.

(** C44: [GlitchExt]. Successes pass through; a failure gives a glitch that is answered with the
    given status and context, and the error's text is nowhere but in the trace. *)
Definition holds {T} (st : N) (msg trace : option bytes) (x : T + glitch) : Prop :=
  exists g, x = inr g /\ g_status g = Some st /\ g_message g = msg /\ g_trace g = trace /\ g_headers g = None /\ g_version g = None.
Theorem C44_results : forall (T : Type) st ctx,
  (forall t : T, res_glitch (inl t) st = inl t /\ res_glitch_ctx (inl t) st ctx = inl t /\ forall f, res_glitch_with_ctx (inl t) st f = inl t) /\
  (forall e : bytes, @holds T st None None (res_glitch (inr e) st) /\ @holds T st (Some ctx) (Some e) (res_glitch_ctx (inr e) st ctx) /\
     forall f, @holds T st (Some (f tt)) (Some e) (res_glitch_with_ctx (inr e) st f)).
Proof. intros T st ctx. split; [auto|]. intros e. split; [|split; [|intros f]]; eexists; (split; [reflexivity|]); auto 6. Qed.
Print Assumptions C44_results.
Theorem C44_options : forall (T : Type) st ctx,
  (forall t : T, opt_glitch (Some t) st = inl t /\ opt_glitch_ctx (Some t) st ctx = inl t /\ forall f, opt_glitch_with_ctx (Some t) st f = inl t) /\
  (@holds T st None None (opt_glitch None st) /\ @holds T st (Some ctx) None (opt_glitch_ctx None st ctx) /\
     forall f, @holds T st (Some (f tt)) None (opt_glitch_with_ctx None st f)).
Proof. intros T st ctx. split; [auto|]. split; [|split; [|intros f]]; eexists; (split; [reflexivity|]); auto 6. Qed.
Print Assumptions C44_options.
(** On the wire: without [verbose_glitch] a failed result with context gives a response with
    exactly that status and the context as its body. *)
Theorem C44_wire : forall (T : Type) date st ctx e g m, res_glitch_ctx (inr e : T + bytes) st ctx = inr g ->
  message date (glitch_response false g) m ->
  exists sl fs, read_head m = Some (sl, fs, ctx) /\ first_line HTTP_11 st sl.
Proof.
  intros T date st ctx e g m [= <-] Hm. destruct (glitch_message date false (glitch_status_err_context st e ctx) m ltac:(discriminate) Hm) as (text & sl & fs & cl & DT & RH & HS & _).
  exists sl, fs. split; [|exact HS]. rewrite RH. do 2 f_equal. now inversion DT.
Qed.
Print Assumptions C44_wire.
Example C44_case : exists g, res_glitch_ctx (inr (B "oops") : nat + bytes) 404 (B "not here") = inr g /\
  w_out (fst (send 99 (ev0 true) (glitch_response false g) (mkWtr [] []))) =
  lines ["HTTP/1.1 404 Not Found"; "content-length: 8"; "date: Thu, 01 Jan 1970 00:00:00 GMT"; "content-type: text/plain"]%string ++ B "not here".
Proof. eexists. split; [reflexivity|]. vm_compute. reflexivity. Qed.
