(** Concrete chunked messages used as witnesses beside the decoder theorems. *)
From Verif Require Import ChunkedDec Reads SpecChunked SpecHead Lemmas Proofs_Buf Proofs_Dec Examples_Response.

Lemma ev0_grow dbg : grow_ok (ev0 dbg).
Proof. intros c. Transparent ev0. cbn [ev0 e_grow]. apply Nat.le_refl. Qed.
Global Opaque ev0.
Lemma ev0_deccap dbg : e_deccap (ev0 dbg) = N.to_nat 4096.
Proof. Transparent ev0. reflexivity. Qed.
Global Opaque ev0.

(** Small size lines. *)
Lemma hexdig_ok c v : (nth_error (B "0123456789ABCDEF") v = Some c \/ nth_error (B "0123456789abcdef") v = Some c) -> hexdig c v.
Proof. exact (fun H => H). Qed.
Lemma line1 c v x : hexdig c v -> chunk_ext x -> size_line (N.of_nat v) (c :: x ++ CRLF).
Proof. intros H Hx. exists [c], x. split; [now constructor|]. split; [cbn; lia|]. split; [exact Hx|reflexivity]. Qed.
Lemma no_ext : chunk_ext [].
Proof. exists [], []. repeat split; [constructor|now left]. Qed.

(** "Wiki", "pedia" with an extension, and one trailer field. *)
Definition wiki_wire : bytes :=
  B "4" ++ CRLF ++ B "Wiki" ++ CRLF ++ B "5 ;x=1" ++ CRLF ++ B "pedia" ++ CRLF ++ B "0" ++ CRLF ++
  B "Expires: never" ++ CRLF ++ CRLF.
Lemma wiki_fields : fields [(B "Expires", B "never")] (B "Expires: never" ++ CRLF).
Proof.
  apply (fields_cons (B "Expires") (B "never") (B "Expires: never" ++ CRLF) [] []); [|constructor].
  exists [SP]. split; [|split; [|split; [|reflexivity]]].
  - split; [discriminate|]. split; [repeat constructor|cbn; lia].
  - split; [|split].
    + apply Forall_forall. intros c H. left. cbn in H. intuition (subst; cbn; (lia || discriminate)).
    + intros c r E. injection E as <- _. intros [|]; discriminate.
    + intros c r E. change (B "never") with (B "neve" ++ [ascii_of_N 114]) in E.
      apply app_inj_tail in E as [_ <-]. intros [|]; discriminate.
  - repeat constructor.
Qed.
Lemma wiki_chunks : chunks size_line (B "Wiki" ++ B "pedia" ++ [])
  ((B "4" ++ CRLF) ++ B "Wiki" ++ CRLF ++ (B "5 ;x=1" ++ CRLF) ++ B "pedia" ++ CRLF ++ []).
Proof.
  constructor; [discriminate| |constructor; [discriminate| |constructor]].
  - apply (line1 (ascii_of_N 52) 4 []); [now right|exact no_ext].
  - apply (line1 (ascii_of_N 53) 5 (B " ;x=1")); [now right|]. exists [SP], (B ";x=1").
    split; [reflexivity|]. split; [repeat constructor|]. right. exists (B "x=1"). split; [reflexivity|]. cbn. intuition discriminate.
Qed.
Lemma line0 : size_line 0 (B "0" ++ CRLF).
Proof. apply (line1 (ascii_of_N 48) 0 []); [now right|exact no_ext]. Qed.
Lemma wiki_message : chunked_message (B "Wikipedia") [(B "Expires", B "never")] wiki_wire.
Proof.
  exists ((B "4" ++ CRLF) ++ B "Wiki" ++ CRLF ++ (B "5 ;x=1" ++ CRLF) ++ B "pedia" ++ CRLF ++ []), (B "0" ++ CRLF), (B "Expires: never" ++ CRLF).
  split; [exact wiki_chunks|]. split; [exact line0|]. split; [exact wiki_fields|]. split; [cbn; lia|reflexivity].
Qed.

(** The connection delivers it in three segments, followed by another request. *)
Definition conn (l : list ev) : brd := br_new (N.to_nat 8192) (mkSrc l Eof).
Definition wiki_conn : brd :=
  conn [Data (firstn 5 wiki_wire); Pend false; Data (firstn 20 (skipn 5 wiki_wire)); Data (skipn 25 wiki_wire ++ B "GET /")].
Lemma wiki_wf : wf_brd wiki_conn.
Proof. split; [repeat constructor; discriminate|]. cbn [wiki_conn conn br_new br_cap]. lia. Qed.
Lemma wiki_data : br_data wiki_conn = wiki_wire ++ B "GET /".
Proof. reflexivity. Qed.

(** A message of [k] small chunks. *)
Fixpoint wikis (k : nat) : bytes := match k with O => [] | S k => (B "4" ++ CRLF) ++ B "Wiki" ++ CRLF ++ wikis k end.
Fixpoint wikip (k : nat) : bytes := match k with O => [] | S k => B "Wiki" ++ wikip k end.
Lemma wikis_chunks k : chunks size_line (wikip k) (wikis k).
Proof.
  induction k; [constructor|]. cbn [wikip wikis]. constructor; [discriminate| |assumption].
  apply (line1 (ascii_of_N 52) 4 []); [now right|exact no_ext].
Qed.
Lemma wikis_message k : chunked_message (wikip k) [] (wikis k ++ (B "0" ++ CRLF) ++ [] ++ CRLF).
Proof.
  exists (wikis k), (B "0" ++ CRLF), []. split; [apply wikis_chunks|]. split; [exact line0|].
  split; [constructor|]. split; [cbn; lia|reflexivity].
Qed.

(** A chunk of 5 bytes with a chunk extension longer than the decoder's buffer, then garbage. *)
Definition xs (k : N) : bytes := repeat (ascii_of_N 120) (N.to_nat k).
Definition panic_wire : bytes := B "5;" ++ xs 4100 ++ CRLF ++ B "hello" ++ CRLF ++ B "zz" ++ CRLF.

(** A recycled block with somebody else's bytes in it. *)
Definition ev_stale : env :=
  mkEnv (e_date (ev0 true)) (e_hexlen (ev0 true)) (e_uri (ev0 true)) true true (e_bufcap (ev0 true)) (e_deccap (ev0 true))
    (e_grow (ev0 true)) (fun i => nth (i - 10) (B "1" ++ CRLF ++ B "S") SP).
Definition stale_wire : bytes := B "5" ++ CRLF ++ B "hello" ++ CRLF ++ B "zz" ++ CRLF.
