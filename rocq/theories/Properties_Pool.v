(** Property C120: blocks recycled from other connections. *)
From Verif Require Import Client Relay Accept Reads SpecChunked SpecHead SpecResponse SpecReq SpecServer SpecBody SpecPool Lemmas
  Proofs_Dec Proofs_ServerDec Proofs_Accept Proofs_Pool Proofs_Head Examples_Response Examples_Dec Examples_Request Examples_Accept Properties_Robust.

(** Machines on which a recycled block holds [c] where a malformed body makes the decoder look. *)
Definition ev_left (c : byte) : env :=
  mkEnv (e_date (ev0 true)) (e_hexlen (ev0 true)) (e_uri (ev0 true)) (e_trim (ev0 true)) (e_ovf (ev0 true)) (e_bufcap (ev0 true)) (e_deccap (ev0 true))
    (e_grow (ev0 true)) (fun i => nth (i - 10) (B "1" ++ CRLF ++ [c]) SP).
(** Takes no notice of the second read's result and answers with what the third one delivers. *)
Definition nosy : handler := fun _ =>
  Rd 16 (fun _ => Rd 16 (fun _ => Rd 16 (fun r => Rt (PSend (text_resp (match r with POk x => x | _ => [] end)) (fun _ => Rt None) (Rt glitch_ise))))).
Lemma left_ok c : env_ok (ev_left c).
Proof. destruct (ev0_ok true) as (A & B & C & D & E). split; [exact A|]. split; [exact B|]. split; [exact C|]. split; [exact D|exact E]. Qed.

(** C120 is false: whoever sends a malformed chunked body to a handler that reads on after the
    error is answered with a byte that another connection has left in the pool, any byte [c]. *)
Theorem C120_leak_refuted : exists o h s wt n fuel, wf_src s /\ accepting wt /\
  forall c, exists ev msg, env_ok ev /\ same_but_pool (ev0 true) ev /\ message (e_date ev) (text_resp [c]) msg /\
    w_out (snd (fst (accept_go n fuel ev o h s wt))) = msg.
Proof.
  exists default_opts, (fun _ => nosy), (mkSrc [Data (chunk_head ++ stale_wire)] Eof), (mkWtr [] []), 9%nat, 200%nat.
  split; [repeat constructor; discriminate|]. split; [constructor|]. intros c. exists (ev_left c).
  exists (head_text (ev_left c) (text_resp [c]) ++ [c]). split; [apply left_ok|]. split; [repeat split|]. split.
  - exists (head_text (ev_left c) (text_resp [c])), [c]. split; [apply head_response; [split; constructor|apply left_ok]|]. split; [|reflexivity].
    exact (bt_fixed (body_from_string [c]) 1 eq_refl).
  - vm_compute. reflexivity.
Qed.
Print Assumptions C120_leak_refuted.

(** The part that holds: what recycled blocks hold makes no difference, neither to what is written
    on a connection nor to what is taken from it nor to how it ends, as long as the handlers do
    not read on after an error. Nothing is assumed of the connection, nor of what the handlers
    send; they may also answer with their request's body. Missing from C120: handlers that read
    on after an error. *)
Theorem C120_server_partial : forall ev1 ev2 o n fuel h s wt, same_but_pool ev1 ev2 ->
  (forall i q, safe_handler true (fun _ => True) (o_verbose o) (h i q)) ->
  accept_go n fuel ev2 o h s wt = accept_go n fuel ev1 o h s wt.
Proof. intros ev1 ev2 o n fuel h s wt E HS. rewrite (pool_same _ _ E). exact (p_accept _ _ _ fuel o n h s wt HS). Qed.
Print Assumptions C120_server_partial.

(** Reading a body as a whole stops at the first error, so the results never depend on the pool. *)
Theorem C120_whole : forall ev1 ev2 fuel sz f, same_but_pool ev1 ev2 ->
  into_bytes ev2 fuel sz f = into_bytes ev1 fuel sz f /\ into_string ev2 fuel sz f = into_string ev1 fuel sz f /\
  into_bytes_with_trailer ev2 fuel sz f = into_bytes_with_trailer ev1 fuel sz f /\
  into_string_with_trailer ev2 fuel sz f = into_string_with_trailer ev1 fuel sz f.
Proof.
  intros ev1 ev2 fuel sz f E. rewrite (pool_same _ _ E). split; [apply p_bytes|]. split; [apply p_string|]. split; [apply p_with|apply p_string_with].
Qed.
Print Assumptions C120_whole.

(** Nor does what is sent when a received body is handed on, be it malformed or not, nor what the
    client makes of a response. *)
Theorem C120_handed_on : forall ev1 ev2 fuel y wt, same_but_pool ev1 ev2 -> relay fuel ev2 y wt = relay fuel ev1 y wt.
Proof. intros ev1 ev2 fuel y wt E. rewrite (pool_same _ _ E). apply p_relay_whole. Qed.
Print Assumptions C120_handed_on.
Theorem C120_client : forall ev1 ev2 fuel q s wt, same_but_pool ev1 ev2 -> connect ev2 fuel q s wt = connect ev1 fuel q s wt.
Proof. intros ev1 ev2 fuel q s wt E. rewrite (pool_same _ _ E). reflexivity. Qed.
Print Assumptions C120_client.

(** The very request of [C120_leak_refuted] with handlers that heed the error, and its body read as
    a whole and handed on: the good part of it is passed on before the error shows. *)
Example C120_case : let s := mkSrc [Data (chunk_head ++ stale_wire); Data (get_head)] Eof in
  (forall c, same_but_pool (ev0 true) (ev_left c)) /\
  (forall i q, safe_handler true (fun _ => True) false ((fun i : nat => if Nat.even i then motto (B "hi") else parrot) i q)) /\
  (forall i q, safe_handler true (fun _ => True) false ((fun _ : nat => parrot) i q)) /\
  forall c, let f := msg_body None (RChunked [] (dec_new (ev_left c) (conn [Data stale_wire]))) in
    into_bytes (ev_left c) 9 (fun _ => 16%nat) f = RErr /\
    (let x := relay 40 (ev_left c) (relay_of 200 HTTP_11 [] f) (mkWtr [] []) in
     snd x = RErr /\ exists h, w_out (fst x) = h ++ B "5" ++ CRLF ++ B "hello" ++ CRLF) /\
    snd (accept_go 9 200 (ev_left c) default_opts (fun _ => parrot) s (mkWtr [] [])) = AOk.
Proof.
  cbv zeta. split; [repeat split|]. split; [intros i; destruct (Nat.even i); [apply motto_safe; [auto|cbn; lia]|now apply parrot_safe]|].
  split; [intros _; now apply parrot_safe|]. intros c. split; [vm_compute; reflexivity|]. split.
  - split; [vm_compute; reflexivity|]. set (f := msg_body _ _).
    exists (firstn (length (w_out (fst (relay 40 (ev_left c) (relay_of 200 HTTP_11 [] f) (mkWtr [] [])))) - 10) (w_out (fst (relay 40 (ev_left c) (relay_of 200 HTTP_11 [] f) (mkWtr [] []))))).
    vm_compute. reflexivity.
  - vm_compute. reflexivity.
Qed.
