(** Properties C100 and C101: whatever arrives on a connection. *)
From Verif Require Import Accept Reads SpecChunked SpecHead SpecResponse SpecReq SpecServer Lemmas Proofs_Copy Proofs_ServerEnc Proofs_Length
  Proofs_Dec Proofs_ServerDec Proofs_Send Proofs_Accept Proofs_Request Proofs_Robust
  Examples_Response Examples_Dec Examples_Request Examples_Accept.

(** A handler that ignores the results of its reads. *)
Fixpoint stubborn (k : nat) (fin : pre) : reading pre := match k with O => Rt fin | S k => Rd 16 (fun _ => stubborn k fin) end.

(** C100 is false: a malformed chunked body makes the server panic, if the handler reads on after
    the error. *)
Theorem C100_no_panic_refuted : exists ev o h s wt n fuel, env_ok ev /\ wf_src s /\ accepting wt /\
  (forall i q, always (fun x => x = PFail glitch_ise) (h i q)) /\ snd (accept_go n fuel ev o h s wt) = APanic.
Proof.
  exists (ev0 true), default_opts, (fun _ _ => stubborn 6 (PFail glitch_ise)), (mkSrc [Data (chunk_head ++ panic_wire)] Eof), (mkWtr [] []), 9%nat, 200%nat.
  split; [apply ev0_ok|]. split; [repeat constructor; discriminate|]. split; [constructor|].
  split; [intros _ _; repeat (constructor; intros)|]. vm_compute. reflexivity.
Qed.
Print Assumptions C100_no_panic_refuted.
(** The part that holds: no byte stream makes the server panic if the handlers, which may do
    anything else (also never stop), do not read on after an error and send responses that are
    not those of C08. They may also answer with what is left of their request's body. Nothing is
    assumed of the connection in either direction. Missing from C100:
    handlers that read on after an error, and the responses of C08. *)
Theorem C100_no_panic_partial : forall ev o n fuel h s wt,
  env_ok ev ->
  (forall i q, safe_handler true (harmless ev) (o_verbose o) (h i q)) ->
  snd (accept_go n fuel ev o h s wt) <> APanic.
Proof. intros ev o n fuel h s wt (He & H7 & H64 & HH & G) HS. exact (accept_no_panic ev He G H7 H64 HH true o fuel n h s wt HS). Qed.
Print Assumptions C100_no_panic_partial.

(** C101: when the peer sends what it likes and then closes, [accept] returns; provided that the
    handlers stop reading at the end of the body or at an error, and that what they send is
    neither shorter than declared (C07) nor a response of C08. They may also answer with what is
    left of their request's body, in chunks (with a declared length that can hang, C87). *)
Theorem C101_returns : forall ev o h s wt,
  env_ok ev ->
  (forall i q, safe_handler false (ending ev) (o_verbose o) (h i q)) -> wf_src s -> s_tail s = Eof ->
  exists F s' wt' a, (a = AOk \/ a = AErr) /\
    forall n fuel, (F <= n)%nat -> (F <= fuel)%nat -> accept_go n fuel ev o h s wt = (s', wt', a).
Proof.
  intros ev o h s wt (He & H7 & H64 & HH & G) HS W T. exact (accept_ends ev He G H7 H64 HH o (S (src_size s)) s wt h (Nat.lt_succ_diag_r _) W T HS).
Qed.
Print Assumptions C101_returns.

Lemma text_ending t : (length t < 1000)%nat -> ending (ev0 true) (text_resp t).
Proof.
  intros L. destruct (text_sendable true t L) as (Hr & W & K1 & K2 & _). split; [split; [exact Hr|split; [exact W|exact K1]]|]. left. exact K2.
Qed.
(** Sends a text first and reads the body afterwards. *)
CoFixpoint finish : reading (option glitch) := Rd 5 (fun r => match r with POk [] => Rt None | POk _ | PPend _ => finish | _ => Rt (Some glitch_ise) end).
Lemma finish_eq : finish = Rd 5 (fun r => match r with POk [] => Rt None | POk _ | PPend _ => finish | _ => Rt (Some glitch_ise) end).
Proof.
  assert (U : forall A (p : reading A), p = match p with Rd n k => Rd n k | Rt a => Rt a end) by (intros A [|]; reflexivity).
  exact (U _ finish).
Qed.
Definition motto (t : bytes) : handler := fun _ => Rt (PSend (text_resp t) (fun _ => finish) (Rt glitch_ise)).
Lemma motto_safe go (ok : response -> Prop) (t : bytes) : (forall r, ending (ev0 true) r -> ok r) -> (length t < 1000)%nat -> forall q, safe_handler go ok false (motto t q).
Proof.
  intros HO L q. assert (E : ok (glitch_response false glitch_ise)) by (apply HO; destruct (text_ending [] ltac:(cbn; lia)) as [H J]; split; [exact H|exact J]).
  constructor. cbn [safe_choice]. split; [apply HO, text_ending, L|]. split; [|constructor; exact E].
  intros _. cofix CIH. rewrite finish_eq. apply hd_read; [intros _; apply Nat.lt_0_succ|intros; apply CIH| | |].
  - intros [|c x] _; [constructor; exact I|apply CIH].
  - intros _. exists None. split; [reflexivity|exact I].
  - exists (Some glitch_ise). split; [reflexivity|exact E].
Qed.
Example C100_case : env_ok (ev0 true) /\
  (forall i q, safe_handler true (harmless (ev0 true)) false ((fun _ : nat => motto (B "hi")) i q)) /\
  snd (accept_go 9 200 (ev0 true) default_opts (fun _ => motto (B "hi")) (mkSrc [Data (chunk_head ++ panic_wire)] Eof) (mkWtr [] [])) = AOk.
Proof.
  split; [apply ev0_ok|].
  split; [intros _; apply motto_safe; [intros r [H _]; exact H|cbn; lia]|]. vm_compute. reflexivity.
Qed.
Example C101_case : env_ok (ev0 true) /\ (forall i q, safe_handler false (ending (ev0 true)) false ((fun _ : nat => motto (B "hi")) i q)) /\
  let s := mkSrc [Data (chunk_head ++ panic_wire); Pend false; Fail; Data get_head] Eof in wf_src s /\ s_tail s = Eof.
Proof.
  split; [apply ev0_ok|]. split; [intros _; apply motto_safe; [auto|cbn; lia]|]. cbv zeta. split; [repeat constructor; discriminate|reflexivity].
Qed.

(** Answers with the request's body, in chunks. *)
Definition parrot : handler := fun _ => Rt (PRelay 200 HTTP_11 [] None (fun _ => None) glitch_ise).
Lemma parrot_safe go (ok : response -> Prop) : (forall r, ending (ev0 true) r -> ok r) -> forall q, safe_handler go ok false (parrot q).
Proof.
  intros HO q. constructor. cbn [safe_choice]. split; [reflexivity|]. split; [reflexivity|]. split; [|split; [intros; exact I|]].
  - intros s Ws. apply HO. split; [|exact I]. assert (Hr : resp_wf (mkResp 200 HTTP_11 [] (mkBody None s))) by (split; constructor).
    split; [exact Hr|]. split; [exact Ws|]. cbn [r_body b_len]. rewrite (pinched_head _ _ (ev0_wf true) Hr). intros [_ X]. revert X.
    change (head_text (ev0 true) (mkResp 200 HTTP_11 [] (mkBody None s))) with (head_text (ev0 true) (mkResp 200 HTTP_11 [] (mkBody None (mkSrc [] Eof)))).
    vm_compute. intros [X|X]; discriminate.
  - apply HO. destruct (text_ending [] ltac:(cbn; lia)) as [H J]. split; [exact H|exact J].
Qed.
(** The malformed body of [C100_no_panic_refuted], handed on: the response breaks off, the handler
    fails, and the connection goes on. *)
Example C100_hand_case : (forall i q, safe_handler true (harmless (ev0 true)) false ((fun _ : nat => parrot) i q)) /\
  snd (accept_go 9 200 (ev0 true) default_opts (fun _ => parrot) (mkSrc [Data (chunk_head ++ panic_wire)] Eof) (mkWtr [] [])) = AOk.
Proof. split; [intros i; apply parrot_safe; intros r [H _]; exact H|]. vm_compute. reflexivity. Qed.
Example C101_hand_case : forall i q, safe_handler false (ending (ev0 true)) false ((fun _ : nat => parrot) i q).
Proof. intros i. apply parrot_safe. auto. Qed.
