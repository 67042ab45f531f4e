(** Property C116: heads with a broken field line are refused, not repaired. *)
From Verif Require Import SpecText Accept Client SpecChunked SpecHead SpecResponse SpecReq SpecServer SpecClient Lemmas Proofs_Head Proofs_Text Proofs_Accept Proofs_Request Proofs_ReqParse Proofs_Broken
  Examples_Response Examples_Dec Examples_Request Examples_Client.

(** C116: see [broken_line] in SpecReq.v. No handler sees such a request, whatever it is and
    whatever comes after the line; the answer is an empty 400. *)
Theorem C116_refused : forall ev o s w, env_ok ev -> offers (o_timeout o) s w -> broken_head (e_trim ev) w -> refused ev o s false 400.
Proof. exact broken_refused. Qed.
Print Assumptions C116_refused.
(** The client gives its caller an error. *)
Theorem C116_client : forall ev s w rest, env_wf ev -> (0 < e_bufcap ev)%nat -> delivers s w rest -> broken_resp (e_trim ev) w -> snd (c_decode ev s) = CErr.
Proof. exact broken_reported. Qed.
Print Assumptions C116_client.

(** The lines in question: a blank between name and colon, ... *)
Theorem C116_blank : forall n ws r, token n -> ws <> [] -> Forall ows ws -> broken_line (n ++ ws ++ [COLON] ++ r).
Proof.
  intros n ws r [_ F] N W. destruct W as [|c ws [->| ->] _]; [easy| |]; (apply bk_name; [exact F|reflexivity|left; discriminate|now split]).
Qed.
Print Assumptions C116_blank.
(** ... a line that continues the one before (obs-fold), ... *)
Theorem C116_fold : forall c r, ows c -> broken_line (c :: r).
Proof. intros c r [->| ->]; (apply (bk_name [] _ r); [constructor|reflexivity|now right|intros _; split; discriminate]). Qed.
Print Assumptions C116_fold.
(** ... a line without a name, ... *)
Theorem C116_nameless : forall r, broken_line (COLON :: r).
Proof. intros r. apply (bk_name [] COLON r); [constructor|reflexivity|now right|intros _; split; discriminate]. Qed.
Print Assumptions C116_nameless.
(** ... a line without a colon, ... *)
Theorem C116_colonless : forall n nl r, token n -> line_end nl -> broken_line (n ++ nl ++ r).
Proof. intros n nl r [N F] [->| ->]; (apply (bk_name n _ _); [exact F|reflexivity|left; discriminate|now intros ->]). Qed.
Print Assumptions C116_colonless.
(** ... a carriage return in a value, ... *)
Theorem C116_bare_cr : forall n v d r, token n -> Forall value_char v -> d <> LF -> broken_line (n ++ [COLON] ++ v ++ CR :: d :: r).
Proof. intros n v d r T V N. apply bk_value; auto; [intros [[X _]|X]; [vm_compute in X; now elim X|discriminate]|discriminate|eauto]. Qed.
Print Assumptions C116_bare_cr.
(** ... or any other control character. *)
Theorem C116_control : forall n v c r, token n -> Forall value_char v -> (bv c < 32 \/ bv c = 127)%N -> c <> HT -> c <> CR -> c <> LF -> broken_line (n ++ [COLON] ++ v ++ c :: r).
Proof. intros n v c r T V C N1 N2 N3. apply bk_value; auto; [intros [X|X]; [lia|auto]|intros ->; easy]. Qed.
Print Assumptions C116_control.

(** Cases: the blank of a classic smuggling attempt, to a server and to a client. *)
Definition smuggled : bytes := lines ["POST /up HTTP/1.1"; "host: h"; "transfer-encoding : chunked"; "content-length: 5"]%string.
Example C116_case : let s := arrives smuggled (B "hello") in offers true s smuggled /\ broken_head (e_trim (ev0 true)) smuggled.
Proof.
  split; [apply arrives_offers; [cbn; lia|vm_compute; reflexivity]|].
  exists [], (B "POST"), (B "/up"), 1%N, (B "HTTP/1.1"), CRLF, [(B "host", B "h")], (B "host: h" ++ CRLF),
    (B "transfer-encoding" ++ [SP] ++ [COLON] ++ B " chunked" ++ CRLF ++ B "content-length: 5" ++ CRLF ++ CRLF).
  split; [reflexivity|]. split; [constructor|]. split; [split; [discriminate|repeat constructor]|]. split; [repeat constructor; discriminate|]. split; [now left|].
  split; [now left|]. split; [|apply C116_blank; [split; [discriminate|repeat constructor]|discriminate|repeat constructor]].
  rewrite <- (app_nil_r (B "host: h" ++ CRLF)). apply fields_lfields. constructor; [|constructor]. exists [SP]. split; [split; [discriminate|split; [repeat constructor|cbn; lia]]|].
  split; [|split; [repeat constructor|reflexivity]]. split; [apply Forall_cons; [left; cbn; lia|constructor]|].
  split; [intros c r [= <- <-] [X|X]; discriminate|]. intros c [|d r] E [X|X]; [injection E as E; subst; discriminate..|destruct r; discriminate|destruct r; discriminate].
Qed.
Definition bad_reply : bytes := lines ["HTTP/1.1 200 OK"; "content-length: 5"; " x"]%string.
Example C116_client_case : delivers (arrives bad_reply (B "hello")) bad_reply (B "hello") /\ broken_resp (e_trim (ev0 true)) bad_reply.
Proof.
  split; [apply arrives_delivers; [cbn; lia|vm_compute; reflexivity]|].
  exists [], 1%N, (B "HTTP/1.1"), (B "200"), 200%N, (B " OK"), CRLF, [(B "content-length", B "5")], (B "content-length: 5" ++ CRLF), (SP :: B "x" ++ CRLF ++ CRLF).
  split; [reflexivity|]. split; [constructor|]. split; [now left|]. split; [split; [exact (to_dec_decimal 200)|reflexivity]|].
  split; [right; exists (B "OK"); split; [reflexivity|]; repeat (apply Forall_cons; [left; cbn; lia|]); constructor|]. split; [now left|].
  split; [|apply C116_fold; now left].
  rewrite <- (app_nil_r (B "content-length: 5" ++ CRLF)). apply fields_lfields. constructor; [|constructor]. exists [SP].
  split; [split; [discriminate|split; [repeat constructor|cbn; lia]]|]. split; [|split; [repeat constructor|reflexivity]]. split; [apply Forall_cons; [left; cbn; lia|constructor]|].
  split; [intros c r [= <- <-] [X|X]; discriminate|]. intros c [|d r] E [X|X]; [injection E as E; subst; discriminate..|destruct r; discriminate|destruct r; discriminate].
Qed.
