(** Property C95: responses do not wait for the requests after theirs. *)
From Verif Require Import Accept Reads SpecChunked SpecHead SpecResponse SpecReq SpecServer Lemmas Proofs_Copy Proofs_Buf
  Proofs_ReqHead Proofs_ServerDec Proofs_Send Proofs_Body Proofs_Accept Proofs_Request Proofs_Turns Proofs_Causal
  Examples_Response Examples_Dec Examples_Request Examples_Accept.

(** After [length xs] turns every response due for the requests [l] has been written (and nothing
    else), and of what follows them ([rest], anything) nothing has been taken from the connection. *)
Theorem C95_answered_first : forall ev o tl h l xs, env_ok ev ->
  exchange (e_trim ev) (parse_uri (e_uri ev)) (e_deccap ev) o h l xs ->
  (forall x, In x xs -> sendable ev (snd x)) -> Forall wf_ev l ->
  exists t, transcript (e_date ev) xs t /\
  forall rest wt, Forall wf_ev rest -> accepting wt -> prompt (o_timeout o) wt ->
  exists F pads wt', w_out wt' = w_out wt ++ t /\ calm (o_timeout o) pads /\ evs_data pads = [] /\
    forall n fuel, (F <= fuel)%nat ->
      accept_go (length xs + n) fuel ev o h (mkSrc (l ++ rest) tl) wt =
      accept_go n fuel ev o (fun i => h (length xs + i)%nat) (mkSrc (pads ++ rest) tl) wt'.
Proof.
  intros ev o tl h l xs He HX HS HW. destruct (exchange_runs ev o tl He h l xs HX HS) as (t & HT & H).
  exists t. split; [exact HT|]. intros rest wt Wr Ha Hp.
  destruct (H [] rest wt) as (F & pads & wt' & O1 & _ & _ & C & D & R); auto; [constructor|].
  exists F, pads, wt'. auto.
Qed.
Print Assumptions C95_answered_first.
(** So whatever comes after the requests, and however the connection and later handler calls go
    on, the output starts with those responses. *)
Theorem C95_output : forall ev o tl h l xs, env_ok ev ->
  exchange (e_trim ev) (parse_uri (e_uri ev)) (e_deccap ev) o h l xs ->
  (forall x, In x xs -> sendable ev (snd x)) -> Forall wf_ev l ->
  exists t, transcript (e_date ev) xs t /\
  forall rest wt, Forall wf_ev rest -> accepting wt -> prompt (o_timeout o) wt ->
  exists F, forall n fuel s' wt' a, (length xs <= n)%nat -> (F <= fuel)%nat ->
    accept_go n fuel ev o h (mkSrc (l ++ rest) tl) wt = (s', wt', a) -> prefix (w_out wt ++ t) (w_out wt').
Proof.
  intros ev o tl h l xs He HX HS HW. destruct (C95_answered_first ev o tl h l xs He HX HS HW) as (t & HT & H).
  exists t. split; [exact HT|]. intros rest wt Wr Ha Hp. destruct (H rest wt Wr Ha Hp) as (F & pads & wt1 & O1 & _ & _ & R).
  exists F. intros n fuel s' wt' a Hn Hf E. replace n with (length xs + (n - length xs))%nat in E by lia.
  rewrite R in E by exact Hf. apply accept_out in E. now rewrite <- O1.
Qed.
Print Assumptions C95_output.
Example C95_case : env_ok (ev0 true) /\
  exchange (e_trim (ev0 true)) (parse_uri (e_uri (ev0 true))) (e_deccap (ev0 true)) default_opts (fun _ => echo) (talk1 ++ talk2 ++ [])
    [(true, text_resp (B "/up")); (false, bare 505)] /\
  (forall x, In x [(true, text_resp (B "/up")); (false, bare 505)] -> sendable (ev0 true) (snd x)) /\ Forall wf_ev (talk1 ++ talk2 ++ []) /\
  Forall wf_ev [Fail] /\ accepting slow /\ prompt (o_timeout default_opts) slow.
Proof.
  split; [apply ev0_ok|]. split; [|split; [intros x H; apply talk_sendable; unfold due; cbn in *; intuition|]].
  2:{ split; [vm_compute; repeat constructor; discriminate|]. split; [repeat constructor; discriminate|]. split; [apply slow_accepting|apply slow_prompt]. }
  assert (CA : forall tmo l, forallb (fun e => match e with Data _ | Pend false => true | _ => false end) l = true ->
    avail tmo l = (evs_data l, ObEnd)).
  { intros tmo. induction l as [|[d|[|]|] l IH]; cbn [forallb avail evs_data]; intros H; try discriminate; auto.
    - now rewrite (IH H).
    - rewrite andb_false_r. auto. }
  eapply xc_request with (w := up_head) (wb := B "hello") (p := B "hello") (len := Some 5%N).
  - rewrite CA by reflexivity. f_equal.
  - apply head_blockb_ok. vm_compute. reflexivity.
  - apply verdict_judge. vm_compute. reflexivity.
  - split; reflexivity.
  - intros q (_ & EU & _). unfold echo, echo_resp. rewrite EU. cbn [u_path]. eexists. split; [apply slurp_drains|apply rp_send; reflexivity].
  - eapply xc_refused with (w := bad_head).
    + rewrite CA by reflexivity. f_equal.
    + apply head_blockb_ok. vm_compute. reflexivity.
    + apply verdict_judge. vm_compute. reflexivity.
    + discriminate.
    + constructor.
Qed.
