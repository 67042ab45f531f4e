(** Property C133: debug builds and release builds. *)
From Verif Require Import Client Relay Accept Reads BodyRead Identity SpecServer SpecProfile Lemmas Proofs_Profile
  Examples_Response Examples_Dec Examples_Request Examples_Accept Examples_Identity.

(** A connection on which a debug build does not panic is served by a release build in the same
    way: the same is read and written and it ends alike, whatever the handlers do. *)
Theorem C133_server : forall e1 e2 o n fuel h s wt s' wt' a, debug_release e1 e2 ->
  accept_go n fuel e1 o h s wt = (s', wt', a) -> a <> APanic -> accept_go n fuel e2 o h s wt = (s', wt', a).
Proof.
  intros e1 e2 o n fuel h s wt s' wt' a E R NP. destruct (profile_envs _ _ E) as [E1 E2]. rewrite E1 in R. rewrite E2.
  destruct (f_accept e1 fuel o n h s wt) as [P|P]; rewrite R in P; [now destruct (NP P)|exact P].
Qed.
Print Assumptions C133_server.

(** The same of sending a response, of whatever kind of body. *)
Theorem C133_send : forall e1 e2 fuel wt, debug_release e1 e2 ->
  (forall r wt' x, send fuel e1 r wt = (wt', x) -> x <> RPanic -> send fuel e2 r wt = (wt', x)) /\
  (forall y wt' x, relay fuel e1 y wt = (wt', x) -> x <> RPanic -> relay fuel e2 y wt = (wt', x)).
Proof.
  intros e1 e2 fuel wt E. destruct (profile_envs _ _ E) as [E1 E2]. rewrite E1, E2. split.
  - intros r wt' x R NP. destruct (f_send e1 fuel r wt) as [P|P]; cbn in P; rewrite R in P; [now destruct (NP P)|exact P].
  - intros y wt' x R NP. destruct (f_relay e1 fuel y wt) as [P|P]; cbn in P; rewrite R in P; [now destruct (NP P)|exact P].
Qed.
Print Assumptions C133_send.

(** Reading bodies and the client do not depend on the profile at all. *)
Theorem C133_bodies : forall e1 e2 fuel sz f, debug_release e1 e2 ->
  into_bytes e2 fuel sz f = into_bytes e1 fuel sz f /\ into_string e2 fuel sz f = into_string e1 fuel sz f /\
  into_bytes_with_trailer e2 fuel sz f = into_bytes_with_trailer e1 fuel sz f /\
  into_string_with_trailer e2 fuel sz f = into_string_with_trailer e1 fuel sz f.
Proof. intros e1 e2 fuel sz f E. destruct (profile_envs _ _ E) as [E1 E2]. rewrite E1, E2. exact (f_bytes e1 fuel sz f). Qed.
Print Assumptions C133_bodies.
Theorem C133_client : forall e1 e2 fuel q s wt, debug_release e1 e2 -> connect e2 fuel q s wt = connect e1 fuel q s wt.
Proof. intros e1 e2 fuel q s wt E. destruct (profile_envs _ _ E) as [E1 E2]. rewrite E1, E2. exact (f_client e1 fuel q s wt). Qed.
Print Assumptions C133_client.

(** Nor does issuing a token, where a debug build does not panic ([None]). *)
Theorem C133_token : forall j now i user r r', set_auth_token j true now i user r = Some r' -> set_auth_token j false now i user r = Some r'.
Proof. intros j now i user r r' E. destruct (f_token j now i user r) as [P|P]; congruence. Qed.
Print Assumptions C133_token.

(** The other way round it fails: here a debug build panics (an addition overflows although the
    difference it is part of would not), and a release build goes on and reports the reader's
    error. *)
Definition vast : response := mkResp 200 HTTP_11 [] (mkBody (Some (two64 - 200)%N) (mkSrc [Data (repeat "a"%char 300)] FailForever)).
Theorem C133_converse_refuted : exists e1 e2 fuel r wt, debug_release e1 e2 /\
  snd (send fuel e1 r wt) = RPanic /\ snd (send fuel e2 r wt) = RErr.
Proof.
  exists (ev0 true), (ev0 false), 20%nat, vast, (mkWtr [] []). split; [repeat split|]. split; vm_compute; reflexivity.
Qed.
Print Assumptions C133_converse_refuted.

(** A connection with a request that is answered, in both builds. *)
Example C133_case : debug_release (ev0 true) (ev0 false) /\ exists s' wt',
  accept_go 9 200 (ev0 true) default_opts (fun _ => echo) (mkSrc [Data get_head] Eof) (mkWtr [] []) = (s', wt', AOk) /\ w_out wt' <> [].
Proof. split; [repeat split|]. eexists _, _. split; [vm_compute; reflexivity|]. vm_compute. discriminate. Qed.
Example C133_send_case : exists wt' k, send 200 (ev0 true) (text_resp (B "ok")) (mkWtr [] []) = (wt', ROk k) /\ w_out wt' <> [].
Proof. eexists _, _. split; [vm_compute; reflexivity|]. vm_compute. discriminate. Qed.
Example C133_token_case : exists r', set_auth_token toy true 1000 example_id (B "ann") rw_new = Some r'.
Proof. eexists. vm_compute. reflexivity. Qed.
