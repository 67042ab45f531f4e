(** Properties C47-C52: Cors. [f] stands for the [headers] crate's parser of origins. *)
From Verif Require Import SpecText Cors SpecHead SpecResponse SpecServer SpecGlitch SpecWriter SpecCors Lemmas Proofs_Copy Proofs_Head Proofs_Send Proofs_Accept Proofs_Glitch Proofs_Cors
  Examples_Response Examples_Request Examples_Accept Proofs_Text.

(** The witness: an origin is its text. *)
Definition plain_origin (s t : bytes) : option bytes := Some (s ++ B "://" ++ t).
Definition shop : list bcall :=
  [BOrigin (B "http://old.example"); BAnyOrigin; BOrigin (B "https://shop.example"); BOrigins [B "http://localhost:8000"];
   BMethods [B "GET"; B "POST"]; BHeader (B "X-Token"); BHeaders [B "content-type"]; BExpose (B "X-Total"); BCredentials true; BAge 86400].
Definition shop_builder : builder := Eval vm_compute in match b_calls plain_origin shop cors_build with Some b => b | None => cors_build end.
Definition shop_cors : cors := cors_finish (@rev bytes) (fun l => l) (@rev bytes) shop_builder.
Lemma shop_configured : configured plain_origin shop shop_cors.
Proof.
  exists shop_builder, (@rev bytes), (fun l => l), (@rev bytes). split; [vm_compute; reflexivity|]. split; [intros; apply Permutation_sym, Permutation_rev|].
  split; [intros; apply Permutation_refl|]. split; [intros; apply Permutation_sym, Permutation_rev|reflexivity].
Qed.
Lemma shop_origin : allows_origin plain_origin shop (B "https://shop.example").
Proof. apply (origin_allowed _ _ _ shop_configured). reflexivity. Qed.
Lemma shop_not_origin : ~ allows_origin plain_origin shop (B "http://old.example").
Proof. intros H. apply (origin_allowed _ _ _ shop_configured) in H. discriminate H. Qed.
Definition ask (m : string) (hs : hmap) : rhead := mkRhead (B m) (mkUri None None (B "/cart") None) (hdr "host" "h" :: hs) (Some 0%N).

(** C47 *)
Theorem C47_not_cors : forall c q r, hm_wf (q_hdrs q) -> field q (B "origin") = [] -> validate c q r = (r, inl tt).
Proof. intros c q r W. now apply validate_none. Qed.
Print Assumptions C47_not_cors.
Theorem C47_endpoint : forall c h q, hm_wf (q_hdrs q) -> field q (B "origin") = [] -> with_cors c h q = h q rw_new.
Proof. intros c h q W E. unfold with_cors. now rewrite (validate_none c q W rw_new E). Qed.
Print Assumptions C47_endpoint.
Example C47_case : hm_wf (q_hdrs (ask "OPTIONS" [])) /\ field (ask "OPTIONS" []) (B "origin") = [].
Proof. split; [split; repeat constructor; cbn; intuition discriminate|reflexivity]. Qed.

(** C48: the response writer is untouched, the refusal is a 400 with no headers of its own. *)
Theorem C48_refused : forall f cs c q o rest r, configured f cs c -> hm_wf (q_hdrs q) ->
  field q (B "origin") = o :: rest -> ~ allows_origin f cs o -> exists x, validate c q r = (r, x) /\ refusal x.
Proof. intros f cs c q o rest r HC HQ. now apply (validate_refused f cs c HC q HQ). Qed.
Print Assumptions C48_refused.
(** ... whatever endpoint follows, it is not called. *)
Theorem C48_endpoint : forall f cs c q o rest h, configured f cs c -> hm_wf (q_hdrs q) ->
  field q (B "origin") = o :: rest -> ~ allows_origin f cs o -> exists g, refusal (inr g) /\ with_cors c h q = Rt (PFail g).
Proof.
  intros f cs c q o rest h HC HQ E A. destruct (validate_refused f cs c HC q HQ o rest rw_new E A) as (x & V & R). unfold refusal in R. subst x.
  eexists. split; [reflexivity|]. unfold with_cors. now rewrite V.
Qed.
Print Assumptions C48_endpoint.
(** On the wire: 400, empty, and no header but content-length and date. *)
Theorem C48_wire : forall g date verbose m, refusal (inr g) -> message date (glitch_response verbose g) m ->
  exists fs, read_head m = Some (B "HTTP/1.1 400 Bad Request", fs, []) /\ values (B "content-type") fs = [] /\ forall n, special n = false -> values n fs = [].
Proof.
  intros g date verbose m [= ->] Hm. destruct (glitch_message date verbose (mkGlitch (Some 400%N) None None None None) m ltac:(now intros ? [=]) Hm) as (text & sl & fs & cl & DT & RH & HS & H).
  apply detail_text in DT. assert (T : text = []) by (rewrite DT; now destruct verbose). subst text. rewrite T in *. exists fs. destruct H as (_ & _ & _ & HT & _ & HO).
  split; [|split; [exact HT|exact HO]]. rewrite RH. do 3 f_equal. exact (first_line_text _ _ _ HS).
Qed.
Print Assumptions C48_wire.
Example C48_case : configured plain_origin shop shop_cors /\ hm_wf (q_hdrs (ask "GET" [hdr "origin" "http://old.example"])) /\
  field (ask "GET" [hdr "origin" "http://old.example"]) (B "origin") = [B "http://old.example"] /\ ~ allows_origin plain_origin shop (B "http://old.example").
Proof. split; [apply shop_configured|]. split; [split; repeat constructor; cbn; intuition discriminate|]. split; [reflexivity|apply shop_not_origin]. Qed.

(** C49 *)
Theorem C49_simple : forall f cs c q o rest r, configured f cs c -> hm_wf (q_hdrs q) -> resp_wf r ->
  field q (B "origin") = o :: rest -> allows_origin f cs o -> q_meth q <> B "OPTIONS" ->
  exists r', validate c q r = (r', inl tt) /\ resp_wf r' /\ r_status r' = r_status r /\ r_version r' = r_version r /\ r_body r' = r_body r /\
    common cs o (fun n => values n (hm_iter (r_headers r))) (fun n => values n (hm_iter (r_headers r'))) /\
    forall n, ~ In (lowered n) [B "access-control-allow-origin"; B "access-control-allow-credentials"; B "access-control-expose-headers"] ->
      values n (hm_iter (r_headers r')) = values n (hm_iter (r_headers r)).
Proof.
  intros f cs c q o rest r HC HQ W E A M. assert (V : forallb is_value_byte o = true) by (apply (field_value q (B "origin") o HQ); rewrite E; now left).
  eexists. split; [apply (validate_simple f cs c HC q HQ o rest r E A M)|]. cbn [r_status r_version r_body r_headers]. split; [now apply (simple_wf f cs c HC)|]. do 3 (split; [reflexivity|]).
  apply (simple_common f cs c HC o (r_headers r) W V).
Qed.
Print Assumptions C49_simple.
Example C49_case : let q := ask "POST" [hdr "origin" "https://shop.example"] in
  configured plain_origin shop shop_cors /\ hm_wf (q_hdrs q) /\ resp_wf (resp1 None) /\ field q (B "origin") = [B "https://shop.example"] /\
  allows_origin plain_origin shop (B "https://shop.example") /\ q_meth q <> B "OPTIONS" /\
  w_out (fst (send 99 (ev0 true) (fst (validate shop_cors q rw_new)) (mkWtr [] []))) =
  lines ["HTTP/1.1 200 OK"; "content-length: 0"; "date: Thu, 01 Jan 1970 00:00:00 GMT"; "access-control-allow-credentials: true";
         "access-control-expose-headers: x-total"; "access-control-allow-origin: https://shop.example"]%string.
Proof.
  split; [apply shop_configured|]. split; [split; repeat constructor; cbn; intuition discriminate|]. split; [apply resp1_wf|]. split; [reflexivity|]. split; [apply shop_origin|].
  split; [discriminate|]. vm_compute. reflexivity.
Qed.

(** C50: the preflight decision ... *)
Theorem C50_preflight : forall f cs c q o rest r, configured f cs c -> hm_wf (q_hdrs q) ->
  field q (B "origin") = o :: rest -> allows_origin f cs o -> q_meth q = B "OPTIONS" ->
  (asks_allowed cs q -> exists hs, hm_wf hs /\ preflight_headers cs o (fun n => values n (hm_iter hs)) /\
     validate c q r = (r, inr (mkGlitch (Some 200%N) (Some hs) None None None))) /\
  (~ asks_allowed cs q -> exists x, validate c q r = (r, x) /\ refusal x).
Proof.
  intros f cs c q o rest r HC HQ E A M. assert (V : forallb is_value_byte o = true) by (apply (field_value q (B "origin") o HQ); rewrite E; now left).
  destruct (validate_preflight f cs c HC q HQ o rest r E A M) as [H1 H2]. split; [|exact H2]. intros K. exists (preflight_hs c o).
  split; [now apply (preflight_wf f cs c HC)|]. split; [now apply (preflight_holds f cs c HC)|now apply H1].
Qed.
Print Assumptions C50_preflight.
(** ... is taken without calling the endpoint behind, ... *)
Theorem C50_endpoint : forall f cs c q o rest h, configured f cs c -> hm_wf (q_hdrs q) ->
  field q (B "origin") = o :: rest -> q_meth q = B "OPTIONS" -> exists g, with_cors c h q = Rt (PFail g) /\ forall h', with_cors c h' q = Rt (PFail g).
Proof.
  intros f cs c q o rest h HC HQ E M. unfold with_cors, validate. rewrite (validate_first q HQ), E, M. cbn [hd_error]. change (beq (B "OPTIONS") (B "OPTIONS")) with true. cbv iota.
  destruct (negb (is_origin_allowed c o)); [eauto|]. destruct (negb (preflight_ok c (q_hdrs q))); eauto.
Qed.
Print Assumptions C50_endpoint.
(** ... and on the wire an accepted one is an empty 200 with the access-control headers. *)
Theorem C50_wire : forall cs o hs date verbose m, hm_wf hs -> preflight_headers cs o (fun n => values n (hm_iter hs)) ->
  message date (glitch_response verbose (mkGlitch (Some 200%N) (Some hs) None None None)) m ->
  exists fs, read_head m = Some (B "HTTP/1.1 200 OK", fs, []) /\ values (B "access-control-allow-origin") fs = [o] /\
    (forall n, special n = false -> values n fs = values n (hm_iter hs)).
Proof.
  intros cs o hs date verbose m W P Hm. destruct (glitch_message date verbose (mkGlitch (Some 200%N) (Some hs) None None None) m ltac:(now intros ? [= <-]) Hm) as (text & sl & fs & cl & DT & RH & HS & H).
  apply detail_text in DT. assert (T : text = []) by (rewrite DT; now destruct verbose). subst text. rewrite T in *. exists fs. destruct H as (_ & _ & _ & HT & _ & HO). cbn [g_headers] in HO.
  split; [|split; [|exact HO]].
  - rewrite RH. do 3 f_equal. exact (first_line_text _ _ _ HS).
  - rewrite HO by reflexivity. apply P.
Qed.
Print Assumptions C50_wire.
Example C50_case : let q := ask "OPTIONS" [hdr "origin" "http://localhost:8000"; hdr "access-control-request-method" "POST"; hdr "access-control-request-headers" "Content-Type,x-token"] in
  hm_wf (q_hdrs q) /\ field q (B "origin") = [B "http://localhost:8000"] /\ allows_origin plain_origin shop (B "http://localhost:8000") /\ q_meth q = B "OPTIONS" /\ asks_allowed shop q /\
  snd (validate shop_cors q rw_new) = inr (mkGlitch (Some 200%N) (Some
    [hdr "access-control-allow-credentials" "true"; hdr "access-control-expose-headers" "x-total"; hdr "access-control-allow-headers" "content-type, x-token";
     hdr "access-control-allow-methods" "POST, GET"; hdr "access-control-max-age" "86400"; hdr "access-control-allow-origin" "http://localhost:8000"]) None None None).
Proof.
  intros q. assert (W : hm_wf (q_hdrs q)) by (split; repeat constructor; cbn; intuition discriminate). split; [exact W|]. split; [reflexivity|].
  split; [apply (origin_allowed _ _ _ shop_configured); reflexivity|]. split; [reflexivity|]. split; [apply (preflight_asks _ _ _ shop_configured q W); vm_compute; reflexivity|].
  vm_compute. reflexivity.
Qed.

(** C51: false as stated. Two preflights asking for the same two allowed headers, one with a space
    after the comma: the first is accepted, the second refused. *)
Theorem C51_whitespace_refuted : exists cs c q1 q2 v1 v2 xs, configured plain_origin cs c /\ hm_wf (q_hdrs q1) /\ hm_wf (q_hdrs q2) /\
  q_meth q1 = B "OPTIONS" /\ q_meth q2 = B "OPTIONS" /\
  (forall n, lowered n <> B "access-control-request-headers" -> field q1 n = field q2 n) /\
  field q1 (B "access-control-request-headers") = [v1] /\ field q2 (B "access-control-request-headers") = [v2] /\ commas xs v1 /\ padded_list xs v2 /\
  (exists hs, snd (validate c q1 rw_new) = inr (mkGlitch (Some 200%N) (Some hs) None None None)) /\
  refusal (snd (validate c q2 rw_new)).
Proof.
  exists shop, shop_cors.
  exists (ask "OPTIONS" [hdr "origin" "http://localhost:8000"; hdr "access-control-request-method" "POST"; hdr "access-control-request-headers" "content-type,x-token"]).
  exists (ask "OPTIONS" [hdr "origin" "http://localhost:8000"; hdr "access-control-request-method" "POST"; hdr "access-control-request-headers" "content-type, x-token"]).
  exists (B "content-type,x-token"), (B "content-type, x-token"), [B "content-type"; B "x-token"].
  split; [apply shop_configured|]. do 2 (split; [split; repeat constructor; cbn; intuition discriminate|]). do 2 (split; [reflexivity|]). split.
  { intros n N. unfold field, values, ask; plain. cbn [q_hdrs hm_iter hdr]. unfold hm_iter, hdr. cbn [map flat_map app filter fst snd]. unfold eq_ic.
    destruct (beq_spec (lower (B "access-control-request-headers")) (lower n)) as [E|_]; [now elim N|]. reflexivity. }
  do 2 (split; [reflexivity|]). split; [apply split_on_commas; vm_compute; reflexivity|]. split.
  { exists [B "content-type"; B " x-token"]. split; [|apply split_on_commas; vm_compute; reflexivity]. constructor; [exists [], []; split; [reflexivity|constructor]|].
    constructor; [|constructor]. exists [" "%char], []. split; [reflexivity|]. constructor; [now left|constructor]. }
  split; [eexists; vm_compute; reflexivity|vm_compute; reflexivity].
Qed.
Print Assumptions C51_whitespace_refuted.
(** What holds: the same answer whenever the padding is empty; whenever some item is padded (or
    holds whitespace in any place) the preflight is refused, whatever is configured. *)
Theorem C51_whitespace_partial : forall f cs c q o rest r v rest' ys x a b, configured f cs c -> hm_wf (q_hdrs q) ->
  field q (B "origin") = o :: rest -> q_meth q = B "OPTIONS" ->
  field q (B "access-control-request-headers") = v :: rest' -> commas ys v -> In (a ++ x :: b) ys -> x = " "%char \/ x = "009"%char ->
  exists y, validate c q r = (r, y) /\ refusal y.
Proof. exact validate_space. Qed.
Print Assumptions C51_whitespace_partial.
Example C51_case : let q := ask "OPTIONS" [hdr "origin" "http://localhost:8000"; hdr "access-control-request-method" "POST"; hdr "access-control-request-headers" "content-type, x-token"] in
  hm_wf (q_hdrs q) /\ field q (B "origin") = [B "http://localhost:8000"] /\ q_meth q = B "OPTIONS" /\
  field q (B "access-control-request-headers") = [B "content-type, x-token"] /\ commas [B "content-type"; B " x-token"] (B "content-type, x-token").
Proof.
  cbv zeta. split; [split; repeat constructor; cbn; intuition discriminate|]. do 3 (split; [reflexivity|]). apply split_on_commas. vm_compute. reflexivity.
Qed.

(** C52: of the builder calls exactly those about origins after the last [allow_any_origin]
    decide, and they accumulate. An allowed origin passes and is echoed (C49, C50), another is
    refused: *)
Theorem C52_origins : forall f cs c q o rest r, configured f cs c -> hm_wf (q_hdrs q) ->
  field q (B "origin") = o :: rest -> q_meth q <> B "OPTIONS" ->
  (allows_origin f cs o <-> snd (validate c q r) = inl tt).
Proof. exact validate_passes. Qed.
Print Assumptions C52_origins.
(** [allow_origin] and [allow_origins] add to the origins listed before, ... *)
Theorem C52_accumulate : forall f cs k o, lists_origins k -> (allows_origin f (cs ++ [k]) o <->
  call_origin f o k \/ exists cs', since_any cs cs' /\ Exists (call_origin f o) cs').
Proof. exact allows_more. Qed.
Print Assumptions C52_accumulate.
(** ... [allow_any_origin] allows every origin, also after others were listed, ... *)
Theorem C52_any : forall f cs o, allows_origin f (cs ++ [BAnyOrigin]) o.
Proof. intros f cs o. exists []. split; [apply since_reset|left; constructor]. Qed.
Print Assumptions C52_any.
(** ... and without any call about origins every origin is allowed, credentials or not. *)
Theorem C52_default : forall f cs c q o rest r, configured f cs c -> Forall (fun c => ~ lists_origins c) cs -> hm_wf (q_hdrs q) -> resp_wf r ->
  field q (B "origin") = o :: rest -> q_meth q <> B "OPTIONS" ->
  exists r', validate c q r = (r', inl tt) /\ values (B "access-control-allow-origin") (hm_iter (r_headers r')) = [o] /\
    (credentials cs = true -> values (B "access-control-allow-credentials") (hm_iter (r_headers r')) = [B "true"]).
Proof.
  intros f cs c q o rest r HC N HQ W E M. destruct (C49_simple f cs c q o rest r HC HQ W E (allows_all f cs o N) M) as (r' & HV & _ & _ & _ & _ & (A & K & _) & _).
  exists r'. split; [exact HV|]. split; [exact A|]. intros C. now rewrite K, C.
Qed.
Print Assumptions C52_default.
Example C52_case : allows_origin plain_origin shop (B "https://shop.example") /\ allows_origin plain_origin shop (B "http://localhost:8000") /\
  ~ allows_origin plain_origin shop (B "http://old.example") /\
  exists c, configured plain_origin [BCredentials true] c /\
    snd (validate c (ask "GET" [hdr "origin" "https://anyone"]) rw_new) = inl tt.
Proof.
  split; [apply shop_origin|]. split; [apply (origin_allowed _ _ _ shop_configured); reflexivity|]. split; [apply shop_not_origin|].
  eexists. split; [eexists _, (fun l => l), (fun l => l), (fun l => l); split; [reflexivity|]; do 3 (split; [intros; apply Permutation_refl|]); reflexivity|vm_compute; reflexivity].
Qed.
