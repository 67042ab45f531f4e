(** Concrete requests and responses used as witnesses beside the theorems on the client. *)
From Verif Require Import Accept Client SpecChunked SpecHead SpecReq SpecResponse SpecServer SpecClient Lemmas Proofs_Dec Proofs_Accept Proofs_Request Proofs_Client Proofs_ClientDec
  Examples_Response Examples_Dec Examples_Request.

(** Deciding head blocks. *)
Definition resp_blockb (w : bytes) : bool := resp_endb w && forallb (fun k => negb (resp_endb (firstn k w))) (seq 0 (length w)).
Lemma resp_blockb_ok w : resp_blockb w = true -> resp_block w.
Proof.
  intros H. apply andb_true_iff in H as [H1 H2]. split; [now apply resp_end_iff|]. intros p q E N R. apply resp_end_iff in R. rewrite forallb_forall in H2.
  assert (L : In (length p) (seq 0 (length w))).
  { apply in_seq. rewrite E, app_length. destruct q; [now elim N|cbn; lia]. }
  apply H2 in L. rewrite E, firstn_app, firstn_all, Nat.sub_diag in L. cbn [firstn] in L. rewrite app_nil_r, R in L. discriminate.
Qed.
Lemma arrives_delivers w rest : (11 < length w)%nat -> resp_blockb w = true -> delivers (arrives w rest) w rest.
Proof. intros L H. split; [now apply arrives_wf|]. split; [now apply resp_blockb_ok|]. now rewrite arrives_avail. Qed.
Lemma parses trim minor code hs w y : parse_response trim c_max_headers w = HDone (mkHresp minor code hs y) -> resp_grammatical trim minor code hs w.
Proof. intros H. apply resp_parse. eauto. Qed.
Lemma arrives_clean w rest : clean (arrives w rest).
Proof. split; [repeat constructor; discriminate|reflexivity]. Qed.
Lemma arrives_data w rest : src_data (arrives w rest) = w ++ rest.
Proof.
  pose proof (arrives_avail false w rest) as H. unfold arrives, src_data in *. cbn [s_evs s_tail avail evs_data] in *. rewrite !andb_false_r in H. injection H as H. exact H.
Qed.

(** A request with query, host and port from the uri, two caller's headers, and a body that is
    read in pieces. *)
Definition post_req (hs : hmap) (b : body) : crequest := mkCreq (B "POST") (mkUri (Some (B "h.example")) (Some (B "8080")) (B "/up") (Some (B "a=b"))) hs b.
Definition two_hdrs : hmap := [hdr "accept" "*/*"; (B "x-a", [B "1"; B "2"])].
Definition hello_body : body := mkBody (Some 11%N) split_src.
Lemma post_wf hs b : hm_wf hs -> creq_wf (post_req hs b).
Proof. intros H. repeat split; try apply H; try discriminate; repeat constructor; vm_compute; try discriminate; reflexivity. Qed.
Lemma two_wf : hm_wf two_hdrs.
Proof. split; [cbn; repeat constructor; cbn; intuition congruence|repeat constructor; discriminate]. Qed.
Lemma post_addressed b : addressed (post_req two_hdrs b).
Proof. split; eexists; [eapply tg_query; [discriminate|reflexivity]|eapply hf_port; reflexivity]. Qed.
Lemma visible_ok v : forallb (fun c => 33 <=? bv c)%N v = true -> plain_value v.
Proof.
  intros H. rewrite forallb_forall in H. assert (X : forall c, In c v -> ~ ows c).
  { intros c I O. apply H in I. unfold ows in O. destruct O as [->| ->]; discriminate I. }
  split; intros c r ->; apply X; [now left|apply in_or_app; right; now left].
Qed.
Definition plain_hdrs (hs : hmap) : Prop :=
  (forall n v, In (n, v) (hm_iter hs) -> plain_value v /\ n <> B "content-length" /\ n <> B "transfer-encoding") /\ (length (hm_iter hs) <= 14)%nat.
Lemma two_plain : plain_hdrs two_hdrs.
Proof. split; [|cbn; lia]. intros n v I. cbn in I. repeat destruct I as [[= <- <-]|I]; try (split; [now apply visible_ok|split; discriminate]). destruct I. Qed.
Lemma post_ordinary hs : plain_hdrs hs -> ordinary (post_req hs hello_body).
Proof.
  intros [H1 H2]. split; [discriminate|]. split; [eexists; reflexivity|]. split; [now repeat constructor|].
  split; [intros x [= <-]; now repeat constructor|]. split.
  { intros t T. inversion T as [h p X|_ X|x _ X]; [discriminate X|discriminate X|]. injection X as <-. cbn. lia. }
  split; [exact H1|]. split; [exact H2|]. split; [apply split_wf|]. split; [apply split_clean|]. split; [reflexivity|]. vm_compute. reflexivity.
Qed.

Lemma ev0_plain : plain_value (e_date (ev0 true)).
Proof.
  split; intros c r E; [assert (X : hd_error (e_date (ev0 true)) = Some c) by (now rewrite E)|assert (X : hd_error (rev (e_date (ev0 true))) = Some c) by (now rewrite E, rev_app_distr)];
    vm_compute in X; injection X as <-; intros [H|H]; discriminate H.
Qed.
