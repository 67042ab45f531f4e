(** Concrete requests and connections used as witnesses beside the theorems on requests. *)
From Verif Require Import Accept Reads SpecChunked SpecHead SpecResponse SpecReq SpecServer Lemmas Proofs_Copy Proofs_ServerDec Proofs_Send
  Proofs_Dec Proofs_Accept Proofs_Request Examples_Response Examples_Dec.

Lemma ev0_ok dbg : env_ok (ev0 dbg).
Proof.
  split; [apply ev0_wf|]. split; [apply ev0_cap|]. split; [apply ev0_cap64|]. split; [apply ev0_hex|apply ev0_grow].
Qed.

(** A head from its lines. *)
Definition lines (ls : list string) : bytes := concat (map (fun l => B l ++ CRLF) ls) ++ CRLF.

(** A connection on which the head and what follows arrive in three segments with pending polls. *)
Definition arrives (w extra : bytes) : src :=
  mkSrc [Data (firstn 5 w); Pend false; Data (firstn 6 (skipn 5 w)); Pend false; Data (skipn 11 w ++ extra)] Eof.
Lemma arrives_wf w extra : (11 < length w)%nat -> wf_src (arrives w extra).
Proof.
  intros H. assert (X : forall l : bytes, (0 < length l)%nat -> Data l <> Data []) by (intros [|] ?; cbn in *; [lia|discriminate]).
  unfold wf_src, wf_ev. cbn [arrives s_evs]. repeat constructor; try discriminate.
  - apply X. rewrite firstn_length. lia.
  - apply X. rewrite firstn_length, skipn_length. lia.
  - apply X. rewrite app_length, skipn_length. lia.
Qed.
Lemma arrives_avail tmo w extra : avail tmo (s_evs (arrives w extra)) = (w ++ extra, ObEnd).
Proof.
  unfold arrives. cbn [s_evs avail]. rewrite !andb_false_r. rewrite app_nil_r. f_equal. rewrite !app_assoc. f_equal. rewrite <- !app_assoc.
  transitivity (firstn 5 w ++ firstn 6 (skipn 5 w) ++ skipn 6 (skipn 5 w)); [|now rewrite !firstn_skipn].
  do 2 f_equal. clear. rewrite skipn_skipn'. reflexivity.
Qed.
Lemma arrives_offers tmo w extra : (11 < length w)%nat -> head_blockb w = true -> offers tmo (arrives w extra) w.
Proof. intros L H. apply (offers_ok tmo _ w extra); [now apply arrives_wf|exact H|]. now rewrite arrives_avail. Qed.

(** A writer that takes a few bytes at a time, with pending polls. *)
Definition slow : wtr := mkWtr [WAcc 3; WPend false; WAcc 4; WAcc 200; WPend false; WAcc 7] [].
Lemma slow_accepting : accepting slow. Proof. repeat constructor; cbn; lia. Qed.
Lemma slow_prompt tmo : prompt tmo slow. Proof. intros _. repeat constructor; discriminate. Qed.

Definition get_head : bytes := lines ["GET /a?b=c HTTP/1.1"; "Host: example.org"; "X-A: 1"; "x-a: 2"]%string.
Definition post_head : bytes := lines ["POST /up HTTP/1.1"; "host: h"; "content-length: 5"]%string.
Definition chunk_head : bytes := lines ["PUT /c HTTP/1.1"; "Host: h"; "Content-Length: 3"; "Transfer-Encoding: Chunked"]%string.
Definition expect_head : bytes := lines ["POST /up HTTP/1.1"; "host: h"; "content-length: 5"; "expect: 100-continue"]%string.

Lemma host_head : request_head (B "GET") (B "/") 1 [(B "host", B "a")] (lines ["GET / HTTP/1.1"; "host: a"]%string).
Proof. exact (long_head_strict 1). Qed.
