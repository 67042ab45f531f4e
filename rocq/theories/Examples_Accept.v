(** Concrete handlers and connections used as witnesses beside the theorems on connections. *)
From Verif Require Import Accept Reads SpecChunked SpecHead SpecResponse SpecReq SpecServer Lemmas Proofs_Copy Proofs_ServerDec Proofs_Send
  Proofs_Dec Proofs_Accept Proofs_Request Examples_Response Examples_Dec Examples_Request.

(** Reads the body to its end, then decides. *)
CoFixpoint slurp (fin : pre) : reading pre :=
  Rd 16 (fun r => match r with POk [] => Rt fin | POk _ | PPend _ => slurp fin | _ => Rt (PFail glitch_ise) end).
Lemma slurp_eq fin : slurp fin =
  Rd 16 (fun r => match r with POk [] => Rt fin | POk _ | PPend _ => slurp fin | _ => Rt (PFail glitch_ise) end).
Proof.
  assert (U : forall A (p : reading A), p = match p with Rd n k => Rd n k | Rt a => Rt a end) by (intros A [|]; reflexivity).
  exact (U _ (slurp fin)).
Qed.
Lemma slurp_drains must fin : forall l, drains must fin l (slurp fin).
Proof.
  cofix CIH. intros l. rewrite slurp_eq. constructor; [apply Nat.lt_0_succ|intros; apply CIH| |intros _; reflexivity].
  intros x l' Hx _ _. destruct x; [easy|]. apply CIH.
Qed.
Lemma slurp_always (P : pre -> Prop) fin : P fin -> P (PFail glitch_ise) -> always P (slurp fin).
Proof.
  intros H1 H2. cofix CIH. rewrite slurp_eq. constructor. intros [[|]|f| | |]; try apply CIH; constructor; assumption.
Qed.

(** Answers with the path of the request as text. *)
Definition echo_resp (q : rhead) : response := mkResp 200 HTTP_11 [] (body_from_string (u_path (q_uri q))).
Definition echo : handler := fun q => slurp (PSend (echo_resp q) (fun _ => Rt None) (Rt glitch_ise)).
(** The same without reading the body. *)
Definition quick : handler := fun q => Rt (PSend (echo_resp q) (fun _ => Rt None) (Rt glitch_ise)).

Definition text_resp (t : bytes) : response := mkResp 200 HTTP_11 [] (body_from_string t).
Lemma text_sendable dbg t : (length t < 1000)%nat -> sendable (ev0 dbg) (text_resp t).
Proof.
  intros L. split; [split; constructor|]. split; [unfold wf_src; destruct t; repeat constructor; discriminate|].
  cbn [text_resp r_body body_from_string b_len b_src]. split; [apply ev0_fits; lia|]. split.
  - unfold bytes_src, src_data. destruct t; cbn [s_evs evs_data]; rewrite ?app_nil_r; lia.
  - intros _. split; [|reflexivity]. destruct t; repeat constructor; discriminate.
Qed.

Definition bad_head : bytes := lines ["GET / HTTP/1.0"; "host: h"]%string.
Definition up_head : bytes := lines ["POST /up HTTP/1.1"; "host: h"; "content-length: 5"; "expect: 100-continue"]%string.

(** A request with a body in pieces, a refused one, another request, then the end. *)
Definition talk1 : list ev := [Data (firstn 7 up_head); Pend false; Data (skipn 7 up_head); Pend false; Data (B "hel"); Data (B "lo")].
Definition talk2 : list ev := [Pend false; Data bad_head].
Definition talk3 : list ev := [Data (firstn 30 get_head); Data (skipn 30 get_head)].
Definition talk : list ev := talk1 ++ talk2 ++ talk3 ++ [Pend false; Data (B "GET")].
Definition due : list (bool * response) := [(true, text_resp (B "/up")); (false, bare 505); (false, text_resp (B "/a"))].

Lemma talk_conversation o : conversation (e_trim (ev0 true)) (parse_uri (e_uri (ev0 true))) (e_deccap (ev0 true)) o Eof (fun _ => echo) talk due AOk.
Proof.
  assert (CA : forall tmo l, forallb (fun e => match e with Data _ | Pend false => true | _ => false end) l = true ->
    avail tmo l = (evs_data l, ObEnd)).
  { intros tmo. induction l as [|[d|[|]|] l IH]; cbn [forallb avail evs_data]; intros H; try discriminate; auto.
    - now rewrite (IH H).
    - rewrite andb_false_r. auto. }
  unfold talk, due.
  eapply cv_request with (w := up_head) (wb := B "hello") (p := B "hello") (len := Some 5%N).
  - rewrite CA by reflexivity. f_equal.
  - apply head_blockb_ok. vm_compute. reflexivity.
  - apply verdict_judge. vm_compute. reflexivity.
  - split; reflexivity.
  - intros q (_ & EU & _). unfold echo, echo_resp. rewrite EU. cbn [u_path]. eexists. split; [apply slurp_drains|apply rp_send; reflexivity].
  - eapply cv_refused with (w := bad_head).
    + rewrite CA by reflexivity. f_equal.
    + apply head_blockb_ok. vm_compute. reflexivity.
    + apply verdict_judge. vm_compute. reflexivity.
    + discriminate.
    + eapply cv_request with (w := get_head) (wb := []) (p := []) (len := Some 0%N).
      * rewrite CA by reflexivity. f_equal.
      * apply head_blockb_ok. vm_compute. reflexivity.
      * apply verdict_judge. vm_compute. reflexivity.
      * split; reflexivity.
      * intros q (_ & EU & _). unfold later, echo, echo_resp. rewrite EU. cbn [u_path]. eexists. split; [apply slurp_drains|apply rp_send; reflexivity].
      * apply cv_end; rewrite CA by reflexivity; [|auto]. cbn [fst]. intros p q E (p' & ->).
        apply (f_equal (@length _)) in E. rewrite !app_length in E. cbn in E. lia.
Qed.
Lemma talk_sendable : forall x, In x due -> sendable (ev0 true) (snd x).
Proof.
  intros x [<-|[<-|[<-|[]]]]; cbn [snd].
  - apply text_sendable. cbn. lia.
  - apply bare_sendable, ev0_ok.
  - apply text_sendable. cbn. lia.
Qed.
Lemma talk_wf : Forall wf_ev talk.
Proof. vm_compute. repeat constructor; discriminate. Qed.

(** A connection that is closed, or broken, or silent, in the middle of a head. *)
Definition cut_at (n : nat) (l : list ev) : list ev := [Data (firstn n get_head)] ++ l.
Lemma cut_no_head tmo n l : (n < length get_head)%nat -> fst (avail tmo l) = [] -> no_head (fst (avail tmo (cut_at n l))).
Proof.
  intros L E. unfold cut_at. cbn [app avail]. destruct (avail tmo l) as [x k]. cbn [fst] in *. subst x. rewrite app_nil_r.
  assert (HB : head_block get_head) by (apply head_blockb_ok; vm_compute; reflexivity).
  intros p q EP HE. destruct HB as [_ HB]. apply (HB p (q ++ skipn n get_head)); [|intros X; apply app_eq_nil in X as [_ X]|exact HE].
  - rewrite app_assoc, <- EP. symmetry. apply firstn_skipn.
  - apply (f_equal (@length _)) in X. rewrite skipn_length in X. cbn [length] in X. lia.
Qed.
