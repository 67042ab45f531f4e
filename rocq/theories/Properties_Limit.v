(** Property C94: the memory the framing of a chunked body can take. *)
From Verif Require Import ChunkedDec Reads SpecChunked SpecHead Lemmas Proofs_Buf Proofs_Dec Proofs_DecReads Proofs_Limit
  Examples_Response Examples_Dec.

(** The decoder's buffer never exceeds 512 MiB, whatever arrives, in whatever segments, also after
    errors and after the end; and it never holds more than that. *)
Theorem C94_bounded : forall ev br ns d' out k,
  (N.of_nat (e_deccap ev) <= 536870912)%N ->
  reads_through (dec_read ev) ns (dec_new ev br) = (d', out, k) ->
  (N.of_nat (k_len (d_blk d')) <= 536870912)%N /\ (N.of_nat (length (k_data (d_blk d'))) <= 536870912)%N.
Proof. intros ev br ns d' out k H R. exact (small_reads ev H ns (dec_new ev br) d' out k (small_fresh ev H) R). Qed.
Print Assumptions C94_bounded.
Example C94_bounded_case : (N.of_nat (e_deccap (ev0 true)) <= 536870912)%N /\
  k_len (d_blk (fst (fst (reads_through (dec_read (ev0 true)) [10]%nat (dec_new (ev0 true) (conn [Data panic_wire])))))) = N.to_nat 5120.
Proof. split; [rewrite ev0_deccap; lia|]. vm_compute. reflexivity. Qed.

(** A pool whose [realloc] grows a block like [Vec] does: at least to the double. *)
Definition ev_vec : env :=
  mkEnv (e_date (ev0 true)) (e_hexlen (ev0 true)) (e_uri (ev0 true)) true true (e_bufcap (ev0 true)) (e_deccap (ev0 true))
    (fun c => Nat.max (2 * c) (c + N.to_nat 1024)) (e_stale (ev0 true)).
Definition long_wire : bytes := (B "5;" ++ xs 5200 ++ CRLF) ++ B "hello" ++ CRLF ++ (B "0" ++ CRLF) ++ CRLF.

(** A well-formed message whose first size line is longer than 5120 bytes reads as an empty body,
    without an error: the limit is not reported. *)
Theorem C94_reported_refuted : exists ev br p wire ns d',
  grow_ok ev /\ chunked_message p [] wire /\ p <> [] /\ wf_brd br /\ br_data br = wire /\ Forall (fun n => 0 < n)%nat ns /\
  reads (dec_read ev) ns (dec_new ev br) = (d', [], Ended).
Proof.
  exists ev_vec, (conn [Data long_wire]), (B "hello"), long_wire, [10]%nat.
  exists (fst (fst (reads (dec_read ev_vec) [10]%nat (dec_new ev_vec (conn [Data long_wire]))))).
  split; [intros c; cbn [ev_vec e_grow]; lia|]. split; [|split; [discriminate|split; [|split; [|split; [repeat constructor|]]]]].
  - exists ((B "5;" ++ xs 5200 ++ CRLF) ++ B "hello" ++ CRLF ++ []), (B "0" ++ CRLF), [].
    split; [|split; [exact line0|split; [constructor|split; [cbn; lia|]]]].
    + apply (chunks_cons size_line (B "hello") (B "5;" ++ xs 5200 ++ CRLF) [] []); [discriminate| |constructor].
      change (N.of_nat (length (B "hello"))) with (N.of_nat 5).
      apply (line1 (ascii_of_N 53) 5 (ascii_of_N 59 :: xs 5200)); [now right|].
      exists [], (ascii_of_N 59 :: xs 5200). split; [reflexivity|]. split; [constructor|].
      right. exists (xs 5200). split; [reflexivity|]. unfold xs. intros H. apply repeat_spec in H. discriminate.
    + unfold long_wire. rewrite <- !app_assoc. reflexivity.
  - split; [|cbn [conn br_new br_cap]; lia]. repeat constructor. discriminate.
  - unfold conn, br_new, br_data. cbn [br_buf br_src s_evs app]. apply app_nil_r.
  - vm_compute. reflexivity.
Qed.
Print Assumptions C94_reported_refuted.

(** It is so for every pool that gives more than it was asked for ([Vec]'s amortised growth), and
    for every size line longer than the grown block. *)
Theorem C94_silent : forall ev br u extra ns d' out k,
  (e_deccap ev + N.to_nat 1024 < e_grow ev (e_deccap ev))%nat -> (N.of_nat (e_deccap ev) + 1024 <= 536870912)%N ->
  unfinished_line u -> (e_deccap ev + N.to_nat 1024 <= length u)%nat ->
  wf_brd br -> clean (br_src br) -> br_data br = u ++ extra -> Forall (fun n => 0 < n)%nat ns ->
  reads (dec_read ev) ns (dec_new ev br) = (d', out, k) ->
  out = [] /\
  match k with
  | Going => (length ns <= br_size br)%nat
  | Ended => d_chan d' = []
  | _ => False
  end.
Proof.
  intros ev br u extra ns d' out k G C U L W CL D F R.
  apply (amo_reads ev u extra U G C L ns (dec_new ev br)); [|assumption|assumption].
  split; [now apply fresh_line|]. split; [exact CL|]. split; [reflexivity|]. left. split; reflexivity.
Qed.
Print Assumptions C94_silent.
Lemma xs_line k : unfinished_line (B "5;" ++ xs k).
Proof.
  exists (B "5"), (xs k). split; [repeat constructor; exists 5%nat; now right|]. split; [cbn; lia|]. split; [|reflexivity].
  unfold xs. intros H. apply repeat_spec in H. discriminate.
Qed.
Example C94_silent_case : (e_deccap ev_vec + N.to_nat 1024 < e_grow ev_vec (e_deccap ev_vec))%nat /\
  (N.of_nat (e_deccap ev_vec) + 1024 <= 536870912)%N /\ unfinished_line (B "5;" ++ xs 5200) /\
  (e_deccap ev_vec + N.to_nat 1024 <= length (B "5;" ++ xs 5200))%nat.
Proof.
  cbn [ev_vec e_deccap e_grow]. rewrite ev0_deccap. split; [lia|]. split; [lia|]. split; [apply xs_line|].
  unfold xs. rewrite app_length, repeat_length. cbn [length B list_ascii_of_string]. lia.
Qed.

(** The part that holds: if the pool gives just what it is asked for, a size line of more than 512
    MiB is reported as an error, after more than 512 MiB - 1 KiB of it have been read (nothing
    shorter is refused), and nothing is delivered. Missing: pools that give more. *)
Theorem C94_reported_partial : forall ev br u extra ns d' out k,
  (forall c, e_grow ev c = c + N.to_nat 1024)%nat -> (N.of_nat (e_deccap ev) <= 536870912)%N ->
  unfinished_line u -> (536870912 <= N.of_nat (length u))%N ->
  wf_brd br -> br_data br = u ++ extra -> Forall (fun n => 0 < n)%nat ns ->
  reads (dec_read ev) ns (dec_new ev br) = (d', out, k) ->
  out = [] /\
  match k with
  | Going => (length ns <= br_size br)%nat
  | Failed => exists taken w, u = taken ++ w /\ br_data (d_in d') = w ++ extra /\
                (536870912 - 1024 < N.of_nat (length taken) <= 536870912)%N
  | _ => False
  end.
Proof.
  intros ev br u extra ns d' out k G C U L W D F R.
  apply (lim_reads ev u extra U G L ns (dec_new ev br)); [|assumption|assumption].
  split; [now apply fresh_line|]. split; [reflexivity|exact C].
Qed.
Print Assumptions C94_reported_partial.
Lemma ev0_exact : (forall c, e_grow (ev0 true) c = c + N.to_nat 1024)%nat.
Proof. Transparent ev0. reflexivity. Qed.
Opaque ev0.
Example C94_reported_case : let u := B "5;" ++ xs 536870912 in
  (forall c, e_grow (ev0 true) c = c + N.to_nat 1024)%nat /\ (N.of_nat (e_deccap (ev0 true)) <= 536870912)%N /\
  unfinished_line u /\ (536870912 <= N.of_nat (length u))%N /\ wf_brd (conn [Data u]) /\ br_data (conn [Data u]) = u ++ [].
Proof.
  cbv zeta. split; [exact ev0_exact|]. split; [rewrite ev0_deccap; lia|]. split; [apply xs_line|]. split; [|split].
  - unfold xs. rewrite app_length, repeat_length. lia.
  - split; [|cbn [conn br_new br_cap]; lia]. repeat constructor. discriminate.
  - reflexivity.
Qed.
