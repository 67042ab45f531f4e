(** The heads that show one response are all of the same length. *)
From Verif Require Import ServerEnc SpecText SpecHead SpecResponse SpecServer Lemmas Proofs_Text Proofs_Head.

Lemma cut_line_inv l : forall a b, cut_line l = Some (a, b) -> l = a ++ CRLF ++ b.
Proof.
  induction l as [|c l IH]; intros a b; [discriminate|]. destruct l as [|d l]; [discriminate|].
  change (cut_line (c :: d :: l)) with
    (if Ascii.eqb c CR && Ascii.eqb d LF then Some ([], l) else match cut_line (d :: l) with Some (x, y) => Some (c :: x, y) | None => None end).
  destruct (Ascii.eqb c CR && Ascii.eqb d LF) eqn:E.
  - apply andb_prop in E as [E1 E2]. apply Ascii.eqb_eq in E1, E2. injection 1 as <- <-. now subst.
  - destruct (cut_line (d :: l)) as [[x y]|] eqn:C; [|discriminate]. injection 1 as <- <-. now rewrite (IH _ _ eq_refl).
Qed.
Lemma read_field_inv l : forall n v, read_field l = Some (n, v) -> l = n ++ B ": " ++ v.
Proof.
  induction l as [|c l IH]; intros n v; [discriminate|]. cbn [read_field]. destruct (Ascii.eqb c COLON) eqn:E.
  - apply Ascii.eqb_eq in E. subst c. destruct l as [|d l]; [discriminate|]. destruct (Ascii.eqb d SP) eqn:F; [|discriminate].
    apply Ascii.eqb_eq in F. subst d. now injection 1 as <- <-.
  - destruct (read_field l) as [[x y]|]; [|discriminate]. injection 1 as <- <-. now rewrite (IH _ _ eq_refl).
Qed.

(** Bytes that the lines of fields take. *)
Definition line_size (nv : bytes * bytes) : nat := (length (fst nv) + length (snd nv) + 4)%nat.
Definition size (fs : list (bytes * bytes)) : nat := list_sum (map line_size fs).

Lemma read_fields_size fuel : forall l fs rest, read_fields fuel l = Some (fs, rest) -> length l = (size fs + 2 + length rest)%nat.
Proof.
  induction fuel as [|f IH]; intros l fs rest; [discriminate|]. cbn [read_fields]. destruct (cut_line l) as [[ln more]|] eqn:C; [|discriminate].
  apply cut_line_inv in C. subst l. destruct ln as [|c ln].
  - injection 1 as <- <-. rewrite !app_length. reflexivity.
  - destruct (read_field (c :: ln)) as [[n v]|] eqn:F; [|discriminate]. destruct (read_fields f more) as [[gs r]|] eqn:M; [|discriminate].
    injection 1 as <- <-. apply IH in M. apply read_field_inv in F. rewrite F, !app_length, M.
    change (size ((n, v) :: gs)) with (length n + length v + 4 + size gs)%nat. change (length (B ": ")) with 2%nat. change (length CRLF) with 2%nat. lia.
Qed.
Lemma read_head_size l sl fs rest : read_head l = Some (sl, fs, rest) -> length l = (length sl + 4 + size fs + length rest)%nat.
Proof.
  unfold read_head. destruct (cut_line l) as [[a r]|] eqn:C; [|discriminate]. apply cut_line_inv in C.
  destruct (read_fields (S (length l)) r) as [[gs q]|] eqn:F; [|discriminate]. injection 1 as <- <- <-. apply read_fields_size in F.
  subst l. rewrite !app_length, F. cbn [length CRLF]. lia.
Qed.

Lemma lowered_length l : length (lowered l) = length l.
Proof. apply map_length. Qed.
Lemma same_text_length a b : same_text a b = true -> length a = length b.
Proof. unfold same_text. rewrite beq_eq. intros E. now rewrite <- (lowered_length a), E, lowered_length. Qed.

Lemma size_values n fs : size (filter (fun nv => same_text (fst nv) n) fs) = list_sum (map (fun v => length n + length v + 4)%nat (values n fs)).
Proof.
  unfold values. induction fs as [|[k v] fs IH]; [reflexivity|]. cbn [filter fst]. destruct (same_text k n) eqn:E; [|exact IH].
  unfold size in *. cbn [map list_sum fold_right snd]. fold (list_sum (map line_size (filter (fun nv => same_text (fst nv) n) fs))).
  rewrite IH. unfold line_size at 1. cbn [fst snd]. now rewrite (same_text_length _ _ E).
Qed.

Lemma same_text_false k a b : lowered a <> lowered b -> same_text k a = true -> same_text k b = false.
Proof. unfold same_text. intros D E. rewrite beq_eq in E. destruct (beq (lowered k) (lowered b)) eqn:F; [|reflexivity]. rewrite beq_eq in F. congruence. Qed.

Lemma size_split fs : size fs = (size (filter (fun nv => negb (special (fst nv))) fs) +
  (size (filter (fun nv => same_text (fst nv) (B "content-length")) fs) + size (filter (fun nv => same_text (fst nv) (B "transfer-encoding")) fs) +
   size (filter (fun nv => same_text (fst nv) (B "date")) fs) + size (filter (fun nv => same_text (fst nv) (B "content-type")) fs)))%nat.
Proof.
  unfold size. induction fs as [|[k v] fs IH]; [reflexivity|]. cbn [filter fst map list_sum fold_right]. fold (list_sum (map line_size fs)). rewrite IH. unfold special.
  destruct (same_text k (B "content-length")) eqn:A1.
  { rewrite !(same_text_false k (B "content-length")) by (try exact A1; vm_compute; discriminate).
    cbn [orb negb map list_sum fold_right]. unfold list_sum. lia. }
  destruct (same_text k (B "transfer-encoding")) eqn:A2.
  { rewrite !(same_text_false k (B "transfer-encoding")) by (try exact A2; vm_compute; discriminate).
    cbn [orb negb map list_sum fold_right]. unfold list_sum. lia. }
  destruct (same_text k (B "date")) eqn:A3.
  { rewrite !(same_text_false k (B "date")) by (try exact A3; vm_compute; discriminate).
    cbn [orb negb map list_sum fold_right]. unfold list_sum. lia. }
  destruct (same_text k (B "content-type")) eqn:A4; cbn [orb negb map list_sum fold_right]; unfold list_sum; lia.
Qed.

Lemma head_length date r h h' : response_head date r h -> response_head date r h' -> length h = length h'.
Proof.
  intros (sl & fs & R & (c1 & p1 & N1 & P1 & E1) & F & D & T & O) (sl' & fs' & R' & (c2 & p2 & N2 & P2 & E2) & F' & D' & T' & O').
  specialize (R []). specialize (R' []). rewrite app_nil_r in R, R'. apply read_head_size in R, R'. rewrite R, R'.
  assert (ES : sl = sl').
  { apply numeral_text in N1, N2. apply reason_text in P1, P2. subst. reflexivity. }
  rewrite <- ES, (size_split fs), (size_split fs'), !size_values. red in D, D', T, T', O, O'. rewrite D, D', T, T', O, O'.
  enough (X : values (B "content-length") fs = values (B "content-length") fs' /\ values (B "transfer-encoding") fs = values (B "transfer-encoding") fs')
    by now destruct X as [-> ->].
  red in F, F'. destruct (b_len (r_body r)) as [n|].
  - destruct F as (v & V & N & Te), F' as (v' & V' & N' & Te'). apply numeral_text in N, N'. rewrite V, V', Te, Te'. now subst.
  - destruct F as [-> ->], F' as [-> ->]. auto.
Qed.

Lemma at_end_data s : at_end s -> src_data s = [].
Proof. intros [E _]. unfold src_data. now rewrite E. Qed.
Lemma pinched_head ev r : env_wf ev -> resp_wf r ->
  (pinched ev r <-> src_data (b_src (r_body r)) = [] /\ eos_window (e_bufcap ev) (length (head_text ev r))).
Proof.
  intros He Hr. split.
  - intros (h & H & D & X). split; [exact D|]. pose proof (head_length (e_date ev) r h (head_text ev r) H (head_response ev r Hr He)) as E. now rewrite <- E.
  - intros [D X]. exists (head_text ev r). split; [now apply head_response|]. auto.
Qed.
Lemma unpinched ev r : env_wf ev -> resp_wf r -> ~ pinched ev r -> ~ (at_end (b_src (r_body r)) /\ eos_window (e_bufcap ev) (length (head_text ev r))).
Proof. intros He Hr P [A X]. apply P, pinched_head; auto. split; [now apply at_end_data|exact X]. Qed.
