(** The response writer. *)
From Verif Require Import RespWriter SpecHead SpecResponse SpecServer SpecWriter Lemmas Proofs_Map Proofs_Head Proofs_Glitch.

Lemma latest_snoc {A B} (says : A -> option B) old l c :
  latest says old (l ++ [c]) = latest says (match says c with Some x => x | None => old end) l.
Proof. induction l as [|d l IH]; cbn; [reflexivity|]. now rewrite IH. Qed.
Lemma header_snoc n old l c : header_said n old (l ++ [c]) =
  header_said n (match says_header n c with Some (Sets vs) => vs | Some (Adds v) => old ++ [v] | None => old end) l.
Proof. induction l as [|d l IH]; cbn; [reflexivity|]. now rewrite IH. Qed.

Lemma eq_ic_lower a b : eq_ic a b = beq (lower a) (lower b).
Proof. reflexivity. Qed.

Lemma call_wf c r r' : resp_wf r -> call_typed c -> rw_call c r = Some r' -> resp_wf r'.
Proof.
  unfold resp_wf. destruct c as [st|code|b|n v|n v|t|l|r0]; cbn; intros W T E;
    unfold rw_set_code, rw_append_header, rw_insert_header in E.
  - injection E as <-. exact W.
  - destruct (status_ok code); [|discriminate]. injection E as <-. exact W.
  - injection E as <-. exact W.
  - destruct (header_name n) eqn:H; [|discriminate]. injection E as <-. cbn. apply hm_append_wf; auto. now apply header_name_ok in H.
  - destruct (header_name n) eqn:H; [|discriminate]. injection E as <-. cbn. apply hm_insert_wf; auto. now apply header_name_ok in H.
  - injection E as <-. cbn. now apply hm_insert_wf.
  - injection E as <-. cbn. now apply hm_insert_wf.
  - injection E as <-. exact T.
Qed.

Lemma call_said c r r' : resp_wf r -> call_typed c -> rw_call c r = Some r' -> said r [c] r'.
Proof.
  intros W T E. pose proof (call_wf c r r' W T E) as W'. unfold resp_wf in *. unfold said. cbn [rev app latest header_said].
  assert (V : forall n, values n (hm_iter (r_headers r')) = hm_get_all (lower n) (r_headers r')) by (intros; now apply values_get_all).
  assert (V0 : forall n, values n (hm_iter (r_headers r)) = hm_get_all (lower n) (r_headers r)) by (intros; now apply values_get_all).
  destruct c as [st|code|b|n v|n v|t|l|r0]; cbn in E; unfold rw_set_code, rw_append_header, rw_insert_header in E; cbn [says_status says_version says_body says_header].
  - injection E as <-. cbn. auto.
  - destruct (status_ok code); [|discriminate]. injection E as <-. cbn. auto.
  - injection E as <-. cbn. auto.
  - destruct (header_name n) eqn:H; [|discriminate]. apply header_name_ok in H as [-> _]. injection E as <-. cbn [r_status r_version r_body r_headers] in *. ands; auto.
    intros m. rewrite V, V0, get_all_append, eq_ic_lower. destruct (beq (lower n) (lower m)); [reflexivity|]. apply app_nil_r.
  - destruct (header_name n) eqn:H; [|discriminate]. apply header_name_ok in H as [-> _]. injection E as <-. cbn [r_status r_version r_body r_headers] in *. ands; auto.
    intros m. rewrite V, V0, get_all_insert, eq_ic_lower. destruct (beq (lower n) (lower m)); reflexivity.
  - injection E as <-. cbn [rw_set_text r_status r_version r_body r_headers] in *. ands; auto.
    intros m. rewrite V, V0, get_all_insert, eq_ic_lower. destruct (beq h_content_type (lower m)) eqn:X.
    + replace (lower (B "content-type")) with h_content_type by reflexivity. now rewrite X.
    + replace (lower (B "content-type")) with h_content_type by reflexivity. now rewrite X.
  - injection E as <-. cbn [rw_set_sse r_status r_version r_body r_headers] in *. ands; auto.
    intros m. rewrite V, V0, get_all_insert, eq_ic_lower. replace (lower (B "content-type")) with h_content_type by reflexivity.
    now destruct (beq h_content_type (lower m)).
  - injection E as <-. auto.
Qed.

Lemma calls_wf cs : forall r r', resp_wf r -> Forall call_typed cs -> rw_calls cs r = Some r' -> resp_wf r'.
Proof.
  induction cs as [|c cs IH]; cbn; intros r r' W T E; [injection E as <-; exact W|]. inversion T; subst.
  destruct (rw_call c r) as [r1|] eqn:C; [|discriminate]. exact (IH r1 r' (call_wf c r r1 W ltac:(assumption) C) ltac:(assumption) E).
Qed.

Lemma calls_said cs : forall r r', resp_wf r -> Forall call_typed cs -> rw_calls cs r = Some r' -> said r cs r'.
Proof.
  induction cs as [|c cs IH]; cbn [rw_calls]; intros r r' W T E; [injection E as <-; unfold said; cbn; auto|]. inversion T as [|? ? T1 T2]; subst.
  destruct (rw_call c r) as [r1|] eqn:C; [|discriminate]. destruct (call_said c r r1 W T1 C) as (S1 & S2 & S3 & S4).
  destruct (IH r1 r' (call_wf c r r1 W T1 C) T2 E) as (R1 & R2 & R3 & R4). unfold said. cbn [rev] in *.
  rewrite !latest_snoc. cbn [app latest header_said] in S1, S2, S3, S4. rewrite <- S1, <- S2, <- S3. ands; auto.
  intros n. rewrite header_snoc, R4. f_equal. exact (S4 n).
Qed.

Lemma call_none c r : rw_call c r = None <-> call_panics c.
Proof.
  destruct c as [st|code|b|n v|n v|t|l|r0]; cbn; try (split; [discriminate|intros []]).
  - unfold rw_set_code, status_ok. destruct (N.leb_spec 100 code), (N.ltb_spec code 1000); cbn; split; try discriminate; try reflexivity; lia.
  - unfold rw_append_header. destruct (header_name n); split; congruence.
  - unfold rw_insert_header. destruct (header_name n); split; congruence.
Qed.
Lemma calls_none cs : forall r, rw_calls cs r = None <-> Exists call_panics cs.
Proof.
  induction cs as [|c cs IH]; cbn; intros r; [split; [discriminate|intros H; inversion H]|]. rewrite Exists_cons, <- (call_none c r).
  destruct (rw_call c r) as [r1|]; [rewrite IH|]; intuition congruence.
Qed.
Lemma latest_none {A B} (says : A -> option B) old l : Forall (fun c => says c = None) l -> latest says old l = old.
Proof. intros H. induction H as [|c l H _ IH]; cbn [latest]; [reflexivity|]. rewrite H. exact IH. Qed.
