(** Property C130: whatever a peer sends, the server writes answers to what has arrived. *)
From Verif Require Import Accept Reads SpecHead SpecResponse SpecReq SpecServer SpecAccount Lemmas Proofs_Copy Proofs_ServerEnc Proofs_Send
  Proofs_ServerDec Proofs_Accept Proofs_Request Proofs_Turns Proofs_Account Examples_Response Examples_Dec Examples_Request Examples_Accept.

(** C130: see [account] in SpecAccount.v. For any bytes, in any segments, with any i/o errors: at
    every moment the connection carries a beginning of the answers to heads that have arrived, in
    their order (and perhaps a 100 Continue); all of them in full once [accept] has returned. *)
Theorem C130_account : forall ev o n fuel h s wt s' wt' x, env_ok ev -> wf_src s ->
  (forall i q, always (one_reply ev (o_verbose o)) (h i q)) -> accepting wt -> prompt (o_timeout o) wt ->
  accept_go n fuel ev o h s wt = (s', wt', x) ->
  exists xs t p, account (e_trim ev) (parse_uri (e_uri ev)) (o_verbose o) h (arrived (s_evs s)) xs /\ transcript (e_date ev) xs t /\
    w_out wt' = w_out wt ++ p /\ prefix p (t ++ go_ahead) /\ (x = AOk \/ x = AErr -> p = t).
Proof.
  intros ev o n fuel h s wt s' wt' x He Ws Hh Ha Hp H.
  destruct (accept_account ev o He n fuel h s wt s' wt' x Ws Hh Ha Hp H) as (xs & t & p & H1 & H2 & H3 & H4 & H5).
  exists xs, t, p. split; [exact H1|]. split; [exact H2|]. split; [exact H3|]. split; [exact H4|]. intros [->| ->]; now apply H5.
Qed.
Print Assumptions C130_account.

(** So there are no more answers than heads: each takes its share of the bytes that arrive. *)
Theorem C130_no_more : forall trim uri_of verbose h d xs, account trim uri_of verbose h d xs -> (4 * length xs <= length d)%nat.
Proof.
  assert (K : forall w, head_block w -> (4 <= length w)%nat) by (intros w [(p & ->) _]; rewrite app_length; cbn; lia).
  intros trim uri_of verbose h d xs. induction 1 as [|h d xs _ IH|h y w z c code xs HB _ _ IH|h y w z c m u hs len q x r xs HB _ _ _ _ _ IH]; cbn [length]; rewrite ?app_length; try lia.
  - apply K in HB. lia.
  - apply K in HB. lia.
Qed.
Print Assumptions C130_no_more.

(** Noise, a request, an i/o error, and a second request of which a part is missing. *)
Definition noise : list ev :=
  [Data (B "%$!" ++ CRLF ++ CRLF); Pend false; Data get_head; Fail; Data get_head; Data (firstn 9 get_head)].
Definition ok_handler : nat -> handler := fun _ _ => slurp (PSend (text_resp (B "ok")) (fun _ => Rt None) (Rt glitch_ise)).
Example C130_case : env_ok (ev0 true) /\ wf_src (mkSrc noise Eof) /\ (forall i q, always (one_reply (ev0 true) false) (ok_handler i q)) /\
  accepting slow /\ prompt true slow /\
  exists s' wt', accept_go 9 200 (ev0 true) default_opts ok_handler (mkSrc noise Eof) slow = (s', wt', AOk) /\
  w_out wt' =
  lines ["HTTP/1.1 400 Bad Request"; "content-length: 0"; "date: Thu, 01 Jan 1970 00:00:00 GMT"]%string ++
  lines ["HTTP/1.1 200 OK"; "content-length: 2"; "date: Thu, 01 Jan 1970 00:00:00 GMT"; "content-type: application/octet-stream"]%string ++ B "ok" ++
  lines ["HTTP/1.1 200 OK"; "content-length: 2"; "date: Thu, 01 Jan 1970 00:00:00 GMT"; "content-type: application/octet-stream"]%string ++ B "ok".
Proof.
  split; [apply ev0_ok|]. split; [repeat constructor; discriminate|]. split.
  { intros i q. apply slurp_always; cbn [one_reply].
    - split; [apply text_sendable; cbn; lia|]. intros _. now constructor.
    - apply glitch_sendable; [discriminate|vm_compute; reflexivity]. }
  split; [apply slow_accepting|]. split; [apply (slow_prompt true)|]. eexists _, _. split; vm_compute; reflexivity.
Qed.
