(** Properties C11-C20 and C71, C72: reading chunked request bodies. *)
From Verif Require Import ServerEnc ChunkedDec Reads SpecChunked SpecHead SpecResponse Lemmas Proofs_Copy Proofs_ServerEnc
  Proofs_Head Proofs_Send Proofs_Parse Proofs_Buf Proofs_Dec Proofs_DecMsg Proofs_DecReads
  Examples_Response Examples_Dec Properties_Response.

(** C11: whatever the sizes of message and buffers, also when reading on after the end. *)
Theorem C11_prefix_of_payload : forall ev br p tr wire extra ns d' out k,
  grow_ok ev -> chunked_message p tr wire -> br_data br = wire ++ extra ->
  reads_on (dec_read ev) ns (dec_new ev br) = (d', out, k) -> k <> Panicked /\ prefix out p.
Proof. exact fresh_prefix. Qed.
Print Assumptions C11_prefix_of_payload.
Example C11_case : grow_ok (ev0 true) /\ chunked_message (B "Wikipedia") [(B "Expires", B "never")] wiki_wire /\
  br_data wiki_conn = wiki_wire ++ B "GET /" /\
  snd (fst (reads_on (dec_read (ev0 true)) [3; 3; 3; 3]%nat (dec_new (ev0 true) wiki_conn))) = B "Wikiped".
Proof. split; [exact (ev0_grow true)|]. split; [exact wiki_message|]. split; [exact wiki_data|]. vm_compute. reflexivity. Qed.

(** C12: complete delivery of messages that fit into the decoder's buffer (the crate's: 4096);
    the number of reads before the end is bounded by the size of the connection's script. *)
Theorem C12_complete_small : forall ev br p tr wire extra ns d' out k,
  grow_ok ev -> chunked_message p tr wire -> (length wire <= e_deccap ev)%nat ->
  wf_brd br -> br_data br = wire ++ extra -> Forall (fun n => 0 < n)%nat ns ->
  reads (dec_read ev) ns (dec_new ev br) = (d', out, k) ->
  match k with
  | Going => prefix out p /\ (length ns <= br_size br)%nat
  | Ended => out = p
  | _ => False
  end.
Proof.
  intros ev br p tr wire extra ns d' out k G (cw & z & tw & HC & Hz & Ht & HL & ->) HF HW HB HN H.
  rewrite app_length in HF.
  pose proof (fresh_load ev br p tr cw _ z tw extra ns d' out k G (chunks_small_load _ _ _ HC) Hz Ht HL HF HW HB HN H) as P.
  destruct k; try contradiction; intuition.
Qed.
Print Assumptions C12_complete_small.
Example C12_case : grow_ok (ev0 true) /\ chunked_message (B "Wikipedia") [(B "Expires", B "never")] wiki_wire /\
  (length wiki_wire <= e_deccap (ev0 true))%nat /\ wf_brd wiki_conn /\ br_data wiki_conn = wiki_wire ++ B "GET /" /\
  let '(d, out, k) := reads (dec_read (ev0 true)) [3; 3; 3; 3; 3; 3; 3]%nat (dec_new (ev0 true) wiki_conn) in out = B "Wikipedia" /\ k = Ended.
Proof.
  split; [exact (ev0_grow true)|]. split; [exact wiki_message|]. split; [rewrite ev0_deccap; cbn; lia|]. split; [exact wiki_wf|].
  split; [exact wiki_data|]. vm_compute. split; reflexivity.
Qed.

(** C13 is false: 460 chunks of 4 bytes, delivered in one segment, end after 455 chunks. *)
Theorem C13_complete_refuted : exists ev br p tr wire ns d' out,
  grow_ok ev /\ chunked_message p tr wire /\ wf_brd br /\ clean (br_src br) /\ br_data br = wire /\
  Forall (fun n => 0 < n)%nat ns /\
  reads (dec_read ev) ns (dec_new ev br) = (d', out, Ended) /\ out <> p /\ d_chan d' = [].
Proof.
  exists (ev0 true), (conn [Data (wikis 460 ++ (B "0" ++ CRLF) ++ [] ++ CRLF)]), (wikip 460), [],
    (wikis 460 ++ (B "0" ++ CRLF) ++ [] ++ CRLF), (repeat 100%nat 2000).
  set (r := reads (dec_read (ev0 true)) (repeat 100%nat 2000) (dec_new (ev0 true) (conn [Data (wikis 460 ++ (B "0" ++ CRLF) ++ [] ++ CRLF)]))).
  exists (fst (fst r)), (snd (fst r)).
  split; [exact (ev0_grow true)|]. split; [exact (wikis_message 460)|].
  split; [split; [repeat constructor; discriminate|cbn [conn br_new br_cap]; lia]|].
  split; [split; [repeat constructor; discriminate|reflexivity]|].
  split; [vm_compute; reflexivity|].
  split; [apply Forall_forall; intros x Hx; apply repeat_spec in Hx; lia|].
  split; [|split].
  - assert (E : snd r = Ended) by (vm_compute; reflexivity). rewrite <- E. now destruct r as [[? ?] ?].
  - intros E. apply (f_equal (@length _)) in E. revert E. vm_compute. discriminate.
  - vm_compute. reflexivity.
Qed.
Print Assumptions C13_complete_refuted.
(** C13, the part that holds: any number of chunks of any size, as long as the framing and the
    data of chunks smaller than the buffer fit into it. *)
Theorem C13_complete_partial : forall ev br p tr cw n z tw extra ns d' out k,
  grow_ok ev -> chunks_load (e_deccap ev) p cw n -> size_line 0 z -> fields tr tw -> (length tr <= 16)%nat ->
  (n + length (z ++ tw ++ CRLF) <= e_deccap ev)%nat ->
  wf_brd br -> br_data br = (cw ++ z ++ tw ++ CRLF) ++ extra -> Forall (fun n => 0 < n)%nat ns ->
  reads (dec_read ev) ns (dec_new ev br) = (d', out, k) ->
  match k with
  | Going => prefix out p /\ (length ns <= br_size br)%nat
  | Ended => out = p
  | _ => False
  end.
Proof.
  intros ev br p tr cw n z tw extra ns d' out k G HC Hz Ht HL HF HW HB HN H.
  pose proof (fresh_load ev br p tr cw n z tw extra ns d' out k G HC Hz Ht HL HF HW HB HN H) as P.
  destruct k; try contradiction; intuition.
Qed.
Print Assumptions C13_complete_partial.
(** A chunk of 5000 bytes. *)
Example C13_case : chunks_load (e_deccap (ev0 true)) (xs 5000 ++ []) ((B "1388" ++ CRLF) ++ xs 5000 ++ CRLF ++ []) (6 + 2 + 0) /\
  size_line 0 (B "0" ++ CRLF) /\ (6 + 2 + 0 + length ((B "0" ++ CRLF) ++ [] ++ CRLF) <= e_deccap (ev0 true))%nat.
Proof.
  split; [|split; [exact line0|rewrite ev0_deccap; cbn; lia]].
  apply (load_big (e_deccap (ev0 true)) (xs 5000) (B "1388" ++ CRLF)); [discriminate| | |constructor].
  - rewrite ev0_deccap. unfold xs. rewrite repeat_length. lia.
  - exists (B "1388"), []. unfold xs. rewrite repeat_length. split; [|split; [cbn; lia|split; [exact no_ext|reflexivity]]].
    apply (hex_snoc (B "138") 312 (ascii_of_N 56) 8); [|now right].
    apply (hex_snoc (B "13") 19 (ascii_of_N 56) 8); [|now right].
    apply (hex_snoc (B "1") 1 (ascii_of_N 51) 3); [|now right]. apply (hex_one (ascii_of_N 49) 1). now right.
Qed.

(** C14 is false: a chunk-size line without any digit counts as size 0. *)
Theorem C14_malformed_refuted : exists ev br p cw u ns d' m,
  grow_ok ev /\ chunks size_line p cw /\ (forall n sl rest, size_line n sl -> u <> sl ++ rest) /\
  (length (cw ++ u) <= e_deccap ev)%nat /\ wf_brd br /\ br_data br = cw ++ u /\ Forall (fun n => 0 < n)%nat ns /\
  reads (dec_read ev) ns (dec_new ev br) = (d', p, Ended) /\ d_chan d' = [m].
Proof.
  exists (ev0 true), (conn [Data (wikis 1 ++ CRLF ++ CRLF)]), (wikip 1), (wikis 1), (CRLF ++ CRLF), [10; 10]%nat.
  set (r := reads (dec_read (ev0 true)) [10; 10]%nat (dec_new (ev0 true) (conn [Data (wikis 1 ++ CRLF ++ CRLF)]))).
  exists (fst (fst r)), []. split; [exact (ev0_grow true)|]. split; [exact (wikis_chunks 1)|].
  split; [|split; [rewrite ev0_deccap; cbn; lia|split; [split; [repeat constructor; discriminate|cbn [conn br_new br_cap]; lia]|
    split; [reflexivity|split; [repeat constructor|vm_compute; split; reflexivity]]]]].
  intros n sl rest (ds & x & HX & _ & _ & ->) E.
  assert (exists c l, ds = c :: l /\ is_hexdig c) as (c & l & -> & Hc).
  { clear -HX. induction HX as [c v H|l n c v H (c0 & l0 & -> & H0) Hc]; [exists c, []; split; [reflexivity|now exists v]|].
    exists c0, (l0 ++ [c]). auto. }
  destruct Hc as [v Hc]. apply hexdig_val in Hc. injection E as <- _. discriminate.
Qed.
Print Assumptions C14_malformed_refuted.
(** C14, the part that holds: malformed size lines with a digit, chunk data not followed by
    CRLF, and malformed trailers, within the decoder's buffer, are reported after exactly the
    payload before them; the number of reads until the report is bounded. *)
Theorem C14_malformed_partial : forall ev br p wire n extra ns d' out k,
  grow_ok ev -> malformed (e_deccap ev) p wire n -> (n <= e_deccap ev)%nat ->
  wf_brd br -> br_data br = wire ++ extra -> Forall (fun n => 0 < n)%nat ns ->
  reads (dec_read ev) ns (dec_new ev br) = (d', out, k) ->
  match k with
  | Going => prefix out p /\ d_chan d' = [] /\ (length ns <= br_size br)%nat
  | Failed => out = p
  | _ => False
  end.
Proof. exact fresh_bad. Qed.
Print Assumptions C14_malformed_partial.
(** Whatever the size, no byte after the malformation is delivered (before an error is
    reported; after it see C71). *)
Theorem C14_nothing_after : forall ev br p wire cap n extra ns d' out k,
  grow_ok ev -> malformed cap p wire n -> br_data br = wire ++ extra ->
  reads_on (dec_read ev) ns (dec_new ev br) = (d', out, k) -> k <> Panicked /\ prefix out p.
Proof. exact fresh_bad_prefix. Qed.
Print Assumptions C14_nothing_after.
Lemma C14_wiki_load k : chunks_load (e_deccap (ev0 true)) (wikip k) (wikis k) (length (wikis k)).
Proof. apply chunks_small_load, wikis_chunks. Qed.
Example C14_case_line : malformed (e_deccap (ev0 true)) (wikip 1) (wikis 1 ++ [] ++ B "z") (length (wikis 1) + 1).
Proof.
  apply (mal_line _ _ (wikis 1) (length (wikis 1)) ([] ++ B "z")); [exact (C14_wiki_load 1)|]. apply (bad_char [] (ascii_of_N 122)); [constructor|cbn; lia| |].
  - intros [v H]. apply hexdig_val in H. discriminate.
  - intros [[|]|[|]]; discriminate.
Qed.
Example C14_case_end : exists n, malformed (e_deccap (ev0 true)) (wikip 1 ++ B "Wiki") (wikis 1 ++ (B "4" ++ CRLF) ++ B "Wiki" ++ B "5" ++ [CR]) n /\
  (n <= e_deccap (ev0 true))%nat.
Proof.
  exists (length (wikis 1) + length (B "4" ++ CRLF) + (if (e_deccap (ev0 true) <=? length (B "Wiki"))%nat then 0 else length (B "Wiki")) + 2)%nat. split.
  - apply (mal_end _ _ (wikis 1) (length (wikis 1)) (B "Wiki") (B "4" ++ CRLF)); [exact (C14_wiki_load 1)|discriminate| |reflexivity|discriminate].
    apply (line1 (ascii_of_N 52) 4 []); [now right|exact no_ext].
  - rewrite ev0_deccap. destruct (N.to_nat 4096 <=? _)%nat eqn:E; [apply Nat.leb_le in E|]; cbn [length wikis app B list_ascii_of_string CRLF] in *; lia.
Qed.
Example C14_case_trailers : bad_trailers ([] ++ B "Expires" ++ [COLON] ++ [SP] ++ B "ne" ++ [ascii_of_N 1]).
Proof.
  apply (bad_value [] [] (B "Expires") [SP] (B "ne") (ascii_of_N 1)); try discriminate.
  - constructor.
  - cbn; lia.
  - split; [discriminate|]. split; [repeat constructor|cbn; lia].
  - repeat constructor.
  - apply Forall_forall. intros c H. left. cbn in H. intuition (subst; cbn; (lia || discriminate)).
  - left. reflexivity.
Qed.

(** C15. Trailers: none before the body has been delivered; at the end exactly those of the
    message; nothing more is sent afterwards. *)
Theorem C15_trailers : forall ev br p tr cw n z tw extra ns d' out k,
  grow_ok ev -> chunks_load (e_deccap ev) p cw n -> size_line 0 z -> fields tr tw -> (length tr <= 16)%nat ->
  (n + length (z ++ tw ++ CRLF) <= e_deccap ev)%nat ->
  wf_brd br -> br_data br = (cw ++ z ++ tw ++ CRLF) ++ extra -> Forall (fun n => 0 < n)%nat ns ->
  reads (dec_read ev) ns (dec_new ev br) = (d', out, k) ->
  match k with
  | Going => d_chan d' = []
  | Ended => (exists m, d_chan d' = [m] /\ hm_wf m /\ forall x, values x (hm_iter m) = values x tr) /\
             forall ns2 d2 o2 k2, reads_on (dec_read ev) ns2 d' = (d2, o2, k2) -> o2 = [] /\ d_chan d2 = d_chan d'
  | _ => False
  end.
Proof.
  intros ev br p tr cw n z tw extra ns d' out k G HC Hz Ht HL HF HW HB HN H.
  pose proof (fresh_load ev br p tr cw n z tw extra ns d' out k G HC Hz Ht HL HF HW HB HN H) as P.
  destruct k; try contradiction; intuition.
Qed.
Print Assumptions C15_trailers.
Example C15_case : fields [(B "Expires", B "never")] (B "Expires: never" ++ CRLF) /\
  d_chan (fst (fst (reads (dec_read (ev0 true)) [3; 3; 3; 3; 3; 3; 3]%nat (dec_new (ev0 true) wiki_conn)))) = [[(B "expires", [B "never"])]] /\
  d_chan (fst (fst (reads (dec_read (ev0 true)) [3; 3; 3; 3; 3]%nat (dec_new (ev0 true) wiki_conn)))) = [].
Proof. split; [exact wiki_fields|]. split; vm_compute; reflexivity. Qed.

(** C16 is false, at every truncation point: a message cut off anywhere before its last byte
    reads as a successful end, with the chunk data that arrived ([carried]), and the trailers never
    arrive. *)
Theorem C16_truncation_silent : forall ev p cw n z tr tw u rest,
  grow_ok ev -> chunks_load (e_deccap ev) p cw n -> size_line 0 z -> fields tr tw -> (length tr <= 16)%nat ->
  (n + length (z ++ tw ++ CRLF) <= e_deccap ev)%nat -> cw ++ z ++ tw ++ CRLF = u ++ rest -> rest <> [] ->
  exists q, prefix q p /\ carried q u /\
  forall br ns d' out k, wf_brd br -> clean (br_src br) -> br_data br = u -> Forall (fun n => 0 < n)%nat ns ->
  reads (dec_read ev) ns (dec_new ev br) = (d', out, k) ->
  match k with
  | Going => prefix out q /\ d_chan d' = [] /\ (length ns <= br_size br)%nat
  | Ended => out = q /\ d_chan d' = []
  | _ => False
  end.
Proof. exact fresh_cut. Qed.
Print Assumptions C16_truncation_silent.
Example C16_case : exists cw n z tw, chunks_load (e_deccap (ev0 true)) (B "Wikipedia") cw n /\ size_line 0 z /\ fields [(B "Expires", B "never")] tw /\
  (n + length (z ++ tw ++ CRLF) <= e_deccap (ev0 true))%nat /\ cw ++ z ++ tw ++ CRLF = firstn 5 wiki_wire ++ skipn 5 wiki_wire /\ skipn 5 wiki_wire <> [].
Proof.
  destruct wiki_message as (cw & z & tw & H1 & H2 & H3 & H4 & E). exists cw, (length cw), z, tw. split; [now apply chunks_small_load|]. split; [exact H2|]. split; [exact H3|].
  split; [rewrite ev0_deccap, <- app_length, <- E; cbn; lia|]. split; [rewrite firstn_skipn; now symmetry|discriminate].
Qed.
Theorem C16_truncation_refuted : exists ev br p tr wire rest ns d' out,
  grow_ok ev /\ chunked_message p tr wire /\ wire = br_data br ++ rest /\ rest <> [] /\
  wf_brd br /\ clean (br_src br) /\ Forall (fun n => 0 < n)%nat ns /\
  reads (dec_read ev) ns (dec_new ev br) = (d', out, Ended) /\ out <> p.
Proof.
  exists (ev0 true), (conn [Data (firstn 5 wiki_wire)]), (B "Wikipedia"), [(B "Expires", B "never")], wiki_wire, (skipn 5 wiki_wire), [10; 10; 10]%nat.
  set (r := reads (dec_read (ev0 true)) [10; 10; 10]%nat (dec_new (ev0 true) (conn [Data (firstn 5 wiki_wire)]))).
  exists (fst (fst r)), (B "Wi").
  split; [exact (ev0_grow true)|]. split; [exact wiki_message|]. split; [reflexivity|]. split; [discriminate|].
  split; [split; [repeat constructor; discriminate|cbn [conn br_new br_cap]; lia]|].
  split; [split; [repeat constructor; discriminate|reflexivity]|].
  split; [repeat constructor|]. split; [vm_compute; reflexivity|discriminate].
Qed.
Print Assumptions C16_truncation_refuted.

(** C18: every poll with a non-empty buffer finishes (the fuel of [dec_read] is enough, and
    more fuel changes nothing), in every state reached by any reads of any input, also after
    errors; and a whole read loop over a finite script ends. *)
Theorem C18_progress : forall ev br ns d' out k,
  Forall (fun n => 0 < n)%nat ns ->
  reads_through (dec_read ev) ns (dec_new ev br) = (d', out, k) ->
  k <> Hung /\ (k = Going -> forall n fuel, (0 < n)%nat -> (dec_fuel d' <= fuel)%nat ->
                snd (dec_poll fuel ev n d') <> PFuel /\ dec_poll fuel ev n d' = dec_read ev n d').
Proof.
  intros ev br ns d' out k HN H. split; [now apply any_progress in H|].
  intros -> n fuel Hn Hf. pose proof (going_ok _ _ _ _ _ (I : st_ok (d_st (dec_new ev br))) HN H) as HS.
  destruct (poll_mu ev n d' Hn HS) as (_ & P2 & P3). rewrite (P3 _ Hf). auto.
Qed.
Print Assumptions C18_progress.
Theorem C18_reading_ends : forall ev br ns d' out k,
  grow_ok ev -> Forall (fun n => 0 < n)%nat ns ->
  reads (dec_read ev) ns (dec_new ev br) = (d', out, k) ->
  (length out <= br_size br)%nat /\ (k = Going -> (length ns <= br_size br)%nat).
Proof.
  intros ev br ns d' out k G HN H. destruct (reads_end ev G _ _ _ _ _ (new_ok ev br) HN H) as (_ & _ & P & Q).
  unfold tot, dec_new, blk_fresh in *. cbn in *. split; [lia|]. intros E. destruct (Q E). lia.
Qed.
Print Assumptions C18_reading_ends.
Example C18_case : snd (reads_through (dec_read (ev0 true)) [10; 10; 10; 10]%nat (dec_new (ev0 true) (conn [Data stale_wire]))) = Going.
Proof. vm_compute. reflexivity. Qed.

(** C19 is false: reading on after an error may panic. *)
Theorem C19_no_panic_refuted : exists ev br ns d' out,
  grow_ok ev /\ wf_brd br /\ Forall (fun n => 0 < n)%nat ns /\
  reads_through (dec_read ev) ns (dec_new ev br) = (d', out, Panicked).
Proof.
  exists (ev0 true), (conn [Data panic_wire]), [10; 10; 10; 10]%nat.
  set (r := reads_through (dec_read (ev0 true)) [10; 10; 10; 10]%nat (dec_new (ev0 true) (conn [Data panic_wire]))).
  exists (fst (fst r)), (snd (fst r)). split; [exact (ev0_grow true)|].
  split; [split; [repeat constructor; discriminate|cbn [conn br_new br_cap]; lia]|]. split; [repeat constructor|].
  assert (E : snd r = Panicked) by (vm_compute; reflexivity). rewrite <- E. now destruct r as [[? ?] ?].
Qed.
Print Assumptions C19_no_panic_refuted.
(** C19, the part that holds: no panic up to and including the first error, nor after the end. *)
Theorem C19_no_panic_partial : forall ev br ns d' out k,
  grow_ok ev -> reads_on (dec_read ev) ns (dec_new ev br) = (d', out, k) -> k <> Panicked.
Proof. intros ev br ns d' out k G H. exact (any_no_panic ev G ns _ _ _ _ (new_np ev br) H). Qed.
Print Assumptions C19_no_panic_partial.
Example C19_case : snd (reads_on (dec_read (ev0 true)) [10; 10; 10; 10]%nat (dec_new (ev0 true) (conn [Data panic_wire]))) = Failed.
Proof. vm_compute. reflexivity. Qed.

(** C20: encoder and decoder together. *)
Theorem C20_round_trip : forall ev r,
  env_wf ev -> resp_wf r -> wf_src (b_src (r_body r)) ->
  (7 <= e_bufcap ev)%nat -> (N.of_nat (e_bufcap ev) < two64)%N -> hexlen_ok ev -> grow_ok ev ->
  b_len (r_body r) = None -> clean (b_src (r_body r)) ->
  exists head, response_head (e_date ev) r head /\
    (~ (at_end (b_src (r_body r)) /\ eos_window (e_bufcap ev) (length head)) ->
     exists bw, forall w, accepting w -> exists F w', forall fuel, (F <= fuel)%nat ->
       snd (send fuel ev r w) = ROk (N.of_nat (length (head ++ bw))) /\ fst (send fuel ev r w) = w' /\
       w_out w' = w_out w ++ head ++ bw /\
       ((length bw <= e_deccap ev)%nat ->
        forall br extra ns d' out k, wf_brd br -> br_data br = bw ++ extra -> Forall (fun n => 0 < n)%nat ns ->
        reads (dec_read ev) ns (dec_new ev br) = (d', out, k) ->
        match k with
        | Going => prefix out (src_data (b_src (r_body r))) /\ (length ns <= br_size br)%nat
        | Ended => out = src_data (b_src (r_body r))
        | _ => False
        end)).
Proof.
  intros ev r He Hr Hs Hn H64 Hx G Hc Hcl.
  destruct (C02_chunked_exact ev r He Hr Hs Hn H64 Hx Hc Hcl) as (head & Hh & H).
  exists head. split; [exact Hh|]. intros Hw. destruct (H Hw) as (cw & Hcw & H1). exists (cw ++ last_chunk).
  intros w Ha. destruct (H1 w Ha) as (F & w' & S1). exists F, w'. intros fuel Hf. destruct (S1 fuel Hf) as [S2 S3].
  rewrite S2. split; [reflexivity|]. split; [reflexivity|]. split; [exact S3|].
  intros HL br extra ns d' out k. apply C12_complete_small with (tr := []); auto. exact (plain_message _ _ Hcw).
Qed.
Print Assumptions C20_round_trip.
Example C20_case : resp_wf (resp1 None) /\ wf_src split_src /\ clean split_src /\ ~ at_end split_src /\
  match read_head (w_out (fst (send 40 (ev0 true) (resp1 None) slow_w))) with
  | Some (_, _, body) => snd (reads (dec_read (ev0 true)) [4; 4; 4; 4; 4; 4; 4; 4]%nat (dec_new (ev0 true) (conn [Data body; Data (B "GET /")]))) = Ended
  | None => False
  end.
Proof.
  split; [exact (resp1_wf None)|]. split; [exact split_wf|]. split; [exact split_clean|]. split; [intros [E _]; discriminate E|].
  vm_compute. reflexivity.
Qed.

(** C71 is false: after a failed read the decoder goes on with whatever its recycled buffer
    holds; it delivers bytes that never were on the connection, and then a successful end. *)
Theorem C71_sticky_error_refuted : exists ev br n d1 d2 d3 x,
  grow_ok ev /\ wf_brd br /\ (0 < n)%nat /\
  reads (dec_read ev) [n; n] (dec_new ev br) = (d1, B "hello", Failed) /\
  dec_read ev n d1 = (d2, POk [x]) /\ ~ In x (br_data br) /\ dec_read ev n d2 = (d3, POk []).
Proof.
  exists ev_stale, (conn [Data stale_wire]), 10%nat.
  set (r := reads (dec_read ev_stale) [10; 10]%nat (dec_new ev_stale (conn [Data stale_wire]))).
  set (r2 := dec_read ev_stale 10 (fst (fst r))).
  exists (fst (fst r)), (fst r2), (fst (dec_read ev_stale 10 (fst r2))), (ascii_of_N 83).
  split; [exact (ev0_grow true)|]. split; [split; [repeat constructor; discriminate|cbn [conn br_new br_cap]; lia]|]. split; [lia|].
  split; [vm_compute; reflexivity|]. split; [vm_compute; reflexivity|]. split; [|vm_compute; reflexivity].
  cbn. intuition discriminate.
Qed.
Print Assumptions C71_sticky_error_refuted.
(** C71, the part that holds: after the end of a well-formed message nothing more is
    delivered, whatever follows on the connection. *)
Theorem C71_sticky_end_partial : forall ev br p tr cw n z tw extra ns d' out,
  grow_ok ev -> chunks_load (e_deccap ev) p cw n -> size_line 0 z -> fields tr tw -> (length tr <= 16)%nat ->
  (n + length (z ++ tw ++ CRLF) <= e_deccap ev)%nat ->
  wf_brd br -> br_data br = (cw ++ z ++ tw ++ CRLF) ++ extra -> Forall (fun n => 0 < n)%nat ns ->
  reads (dec_read ev) ns (dec_new ev br) = (d', out, Ended) ->
  forall ns2 d2 o2 k2, reads_on (dec_read ev) ns2 d' = (d2, o2, k2) -> o2 = [] /\ d_chan d2 = d_chan d'.
Proof.
  intros ev br p tr cw n z tw extra ns d' out G HC Hz Ht HL HF HW HB HN H.
  exact (proj1 (proj2 (proj2 (fresh_load ev br p tr cw n z tw extra ns d' out Ended G HC Hz Ht HL HF HW HB HN H)))).
Qed.
Print Assumptions C71_sticky_end_partial.
Example C71_case : exists cw n z tw d', chunks_load (e_deccap (ev0 true)) (B "Wikipedia") cw n /\ size_line 0 z /\ fields [(B "Expires", B "never")] tw /\
  (n + length (z ++ tw ++ CRLF) <= e_deccap (ev0 true))%nat /\ wf_brd wiki_conn /\ br_data wiki_conn = (cw ++ z ++ tw ++ CRLF) ++ B "GET /" /\
  reads (dec_read (ev0 true)) [10; 10; 10; 10; 10]%nat (dec_new (ev0 true) wiki_conn) = (d', B "Wikipedia", Ended).
Proof.
  destruct wiki_message as (cw & z & tw & H1 & H2 & H3 & H4 & E). eexists cw, (length cw), z, tw, _. split; [now apply chunks_small_load|]. split; [exact H2|]. split; [exact H3|].
  split; [rewrite ev0_deccap, <- app_length, <- E; cbn; lia|]. split; [exact wiki_wf|]. split; [rewrite <- E; exact wiki_data|]. vm_compute. reflexivity.
Qed.

(** C72: a malformed trailer section is reported, after the whole body has been delivered. *)
Theorem C72_bad_trailers : forall ev br p cw n z u extra ns d' out k,
  grow_ok ev -> chunks_load (e_deccap ev) p cw n -> size_line 0 z -> bad_trailers u ->
  (n + length z + length u <= e_deccap ev)%nat ->
  wf_brd br -> br_data br = (cw ++ z ++ u) ++ extra -> Forall (fun n => 0 < n)%nat ns ->
  reads (dec_read ev) ns (dec_new ev br) = (d', out, k) ->
  match k with
  | Going => prefix out p /\ d_chan d' = [] /\ (length ns <= br_size br)%nat
  | Failed => out = p
  | _ => False
  end.
Proof.
  intros ev br p cw n z u extra ns d' out k G HC Hz HU. apply fresh_bad; [exact G|]. now apply mal_trailers.
Qed.
Print Assumptions C72_bad_trailers.
Example C72_case : let u := [] ++ B "Expires" ++ [COLON] ++ [SP] ++ B "ne" ++ [ascii_of_N 1] in
  chunks_load (e_deccap (ev0 true)) (wikip 2) (wikis 2) (length (wikis 2)) /\ size_line 0 (B "0" ++ CRLF) /\ bad_trailers u /\
  (length (wikis 2) + length (B "0" ++ CRLF) + length u <= e_deccap (ev0 true))%nat /\
  exists d', reads (dec_read (ev0 true)) [10; 10; 10; 10]%nat (dec_new (ev0 true) (conn [Data (wikis 2 ++ (B "0" ++ CRLF) ++ u)])) = (d', wikip 2, Failed).
Proof.
  cbv zeta. split; [exact (C14_wiki_load 2)|]. split; [exact line0|]. split; [exact C14_case_trailers|]. split; [rewrite ev0_deccap; cbn; lia|]. eexists. vm_compute. reflexivity.
Qed.
