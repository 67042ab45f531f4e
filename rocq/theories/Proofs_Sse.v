(** Proofs: event streams. *)
From Verif Require Import Accept RespWriter SpecChunked SpecHead SpecResponse SpecServer SpecWriter Lemmas Proofs_Map Proofs_Head Proofs_Glitch Proofs_Copy
  Proofs_Stream Proofs_Writer.

Lemma stream_wf l : Forall wf_ev (stream_evs l).
Proof.
  induction l as [|[[|c d]|f|] l IH]; cbn [stream_evs]; auto; constructor; cbn; auto; discriminate.
Qed.
Lemma stream_data l : evs_data (stream_evs l) = events l.
Proof. induction l as [|[[|c d]|f|] l IH]; cbn [stream_evs evs_data events]; auto. now rewrite IH. Qed.
Lemma stream_clean l : clean_evs (stream_evs l) <-> ~ In SErr l.
Proof.
  unfold clean_evs. induction l as [|[[|c d]|f|] l IH]; cbn [stream_evs In].
  - split; [intros _ []|constructor].
  - rewrite IH. intuition discriminate.
  - rewrite Forall_cons_iff, IH. intuition discriminate.
  - rewrite Forall_cons_iff, IH. intuition discriminate.
  - split; [intros H; inversion H; congruence|tauto].
Qed.
Lemma stream_app l1 l2 : ~ In SErr l1 -> stream_evs (l1 ++ l2) = stream_evs l1 ++ stream_evs l2.
Proof.
  induction l1 as [|[[|c d]|f|] l1 IH]; cbn [app stream_evs In]; intros H; auto; try (rewrite IH by tauto; reflexivity). tauto.
Qed.

Lemma sse_wf l r : resp_wf r -> resp_wf (rw_set_sse l r).
Proof. intros W. unfold resp_wf, rw_set_sse. cbn. now apply hm_insert_wf. Qed.
Lemma sse_head date l r head : resp_wf r -> response_head date (rw_set_sse l r) head -> event_stream head.
Proof.
  intros W (sl & fs & R & _ & (F1 & F2) & _ & T & _). exists sl, fs. split; [exact R|]. split; [|auto]. rewrite T.
  destruct (call_said (CSse l) r (rw_set_sse l r) W I eq_refl) as (_ & _ & _ & Q). rewrite (Q (B "content-type")). reflexivity.
Qed.
