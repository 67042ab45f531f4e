(** Properties C124 and C125: reading bodies through [AsyncBufRead]. *)
From Verif Require Import BufReads Client Accept BodyRead Reads SpecChunked SpecHead SpecReq SpecServer SpecBody SpecClient Lemmas
  Proofs_Buf Proofs_Dec Proofs_DecReads Proofs_ServerDec Proofs_Accept Proofs_Request Proofs_Body Proofs_BodyRead Proofs_ClientDec Proofs_RelayReq Proofs_BufReads Proofs_Lines
  Examples_Response Examples_Dec Examples_Request Examples_Client Properties_Body Properties_Client.

(** C124. Any mixture of plain reads, looks and looks with consumption obtains from a request's
    body what some plain reads obtain, ends as they do, and then leaves the body in the same state.
    If every step takes something there are as many of them. *)
Theorem C124_request : forall ev tmo s wt s' wt' q b os r out k, env_ok ev -> wf_src s -> decode ev tmo s wt = (s', wt', OReq q b) ->
  Forall (fun o => match o with Plain n => 0 < n | Peek _ => True end)%nat os -> steps ev os (RMsg b) = (r, out, k) ->
  exists ns b2, Forall (fun n => 0 < n)%nat ns /\ reads (body_read ev) ns b = (b2, out, k) /\ (k <> Going -> r = RMsg b2) /\ (length ns <= length os)%nat /\
    (k = Going -> ~ In (Peek 0) os -> length ns = length os).
Proof.
  intros ev tmo s wt s' wt' q b os r out k He Ws H HS E. destruct (request_reader ev tmo s wt s' wt' q b He Ws H) as (w & br & _ & _ & HW & _ & ->).
  pose proof He as (_ & _ & _ & _ & G). destruct (steps_plain ev _ os r out k (ok_cap ev He) G (reader_ok ev (q_len q) br HW) HS E) as (ns & r2 & A1 & A2 & A3 & A4 & A5).
  rewrite msg_reads in A2. destruct (reads (body_read ev) ns _) as [[b2 o] e] eqn:ER. injection A2 as <- <- <-. exists ns, b2. split; [exact A1|]. split; [exact ER|].
  split; [intros K; symmetry; auto|]. split; [exact A4|]. intros K N. apply (A5 K). rewrite Forall_forall in HS |- *. intros [n|[|m]] I; [exact (HS _ I)|contradiction|cbn; lia].
Qed.
Print Assumptions C124_request.
(** Looks of various lengths and reads, on a body in chunks and on one with a length. *)
Example C124_case :
  wf_src (arrives chunk_head wiki_wire) /\ wf_src (arrives post_head (B "hello")) /\
  match decode (ev0 true) true (arrives chunk_head wiki_wire) slow with
  | (_, _, OReq q b) => let '(_, out, k) := steps (ev0 true) [Peek 0; Peek 3; Plain 5; Peek 0; Plain 2; Peek 100; Peek 7] (RMsg b) in
      let '(_, out2, k2) := reads (body_read (ev0 true)) [3; 1; 2; 3; 7]%nat b in q_len q = None /\ out = B "Wikipedia" /\ k = Ended /\ out2 = out /\ k2 = k
  | _ => False
  end /\
  match decode (ev0 true) true (arrives post_head (B "hello")) slow with
  | (_, _, OReq q b) => let '(_, out, k) := steps (ev0 true) [Peek 2; Plain 2; Peek 0] (RMsg b) in q_len q = Some 5%N /\ out = B "hell" /\ k = Going
  | _ => False
  end.
Proof. split; [apply arrives_wf; cbn; lia|]. split; [apply arrives_wf; cbn; lia|]. vm_compute. auto 10. Qed.

(** C124, what that means for a complete body: its bytes in order, then the end. *)
Theorem C124_content : forall ev tmo s wt s' wt' q b, env_ok ev -> wf_src s -> decode ev tmo s wt = (s', wt', OReq q b) ->
  exists w rest, offers tmo s w /\ src_data s = w ++ rest /\
  forall os r out k, Forall (fun o => match o with Plain n => 0 < n | Peek _ => True end)%nat os -> steps ev os (RMsg b) = (r, out, k) ->
  (forall n, q_len q = Some n -> (n <= N.of_nat (length rest))%N ->
     match k with Going => prefix out (firstn (N.to_nat n) rest) | Ended => out = firstn (N.to_nat n) rest | _ => False end) /\
  (forall p tr wire extra, q_len q = None -> fitting (e_deccap ev) p tr wire -> rest = wire ++ extra ->
     match k with
     | Going => prefix out p
     | Ended => out = p /\ exists b2, r = RMsg b2 /\ exists h, body_trailers b2 = [h] /\ forall x, values x (hm_iter h) = values x tr
     | _ => False
     end).
Proof.
  intros ev tmo s wt s' wt' q b He Ws H. destruct (request_reader ev tmo s wt s' wt' q b He Ws H) as (w & br & HO & HD & HW & HC & ->).
  exists w, (br_data br). split; [exact HO|]. split; [exact HD|]. intros os r out k HS E. pose proof He as (_ & _ & _ & _ & G).
  destruct (steps_plain ev _ os r out k (ok_cap ev He) G (reader_ok ev (q_len q) br HW) HS E) as (ns & r2 & A1 & A2 & A3 & A4 & A5). split.
  - intros n Hn L. rewrite Hn in A2. pose proof (fixed_deliver ev n br HW (or_introl L) ns r2 out k A1 A2) as Q. destruct k; auto. apply Q.
  - intros p tr wire extra Hn F ER. rewrite Hn in A2. pose proof (chunked_deliver ev br p tr wire extra (ok_cap ev He) G F HW ER ns r2 out k A1 A2) as Q. destruct k; auto; [apply Q|].
    destruct Q as (-> & d' & -> & h & Q1 & Q2). split; [reflexivity|]. exists (RChunked [] d'). split; [symmetry; now apply A3|]. exists h. auto.
Qed.
Print Assumptions C124_content.

(** C124, the client: the body of a response. *)
Theorem C124_client : forall ev s w rest v b a os r out k, env_ok ev -> delivers s w rest -> (N.of_nat (length w) < 8192)%N -> cjudge (e_trim ev) w v ->
  c_decode ev s = (b, COk a) ->
  Forall (fun o => match o with Plain n => 0 < n | Peek _ => True end)%nat os -> steps ev os (f_rdr (a_body a)) = (r, out, k) ->
  exists ns r2, Forall (fun n => 0 < n)%nat ns /\ reads (rdr_poll ev) ns (f_rdr (a_body a)) = (r2, out, k) /\ (k <> Going -> r = r2) /\ (length ns <= length os)%nat.
Proof.
  intros ev s w rest v b a os r out k He D L J H HS E. destruct (decode_short ev (proj1 He) (ok_cap ev He) s w rest D L) as (b' & (HW & _) & E1 & Q). pose proof (Q _ J) as E2.
  rewrite H in E1, E2. cbn [fst snd] in E1, E2. subst b'. pose proof He as (_ & _ & _ & _ & G).
  assert (HO : rdr_ok (f_rdr (a_body a))).
  { destruct v as [| |code hs n|code hs]; cbn [canswers] in E2; [discriminate|injection E2 as ->; apply new_ok| |].
    - destruct E2 as (m & _ & E2). injection E2 as ->. exact HW.
    - destruct E2 as (m & _ & E2). injection E2 as ->. constructor. }
  destruct (steps_plain ev _ os r out k (ok_cap ev He) G HO HS E) as (ns & r2 & A1 & A2 & A3 & A4 & _). exists ns, r2. split; [exact A1|]. split; [exact A2|]. split; [intros K; symmetry; auto|exact A4].
Qed.
Print Assumptions C124_client.
Example C124_client_case : let s := mkSrc [Data wiki_resp; Data wiki_wire] Eof in
  delivers s wiki_resp wiki_wire /\ cjudge (e_trim (ev0 true)) wiki_resp CvChunked /\
  match c_decode (ev0 true) s with
  | (_, COk a) => let '(_, out, k) := steps (ev0 true) [Peek 3; Plain 5; Peek 0; Plain 2; Peek 100; Peek 7] (f_rdr (a_body a)) in out = B "Wikipedia" /\ k = Ended
  | _ => False
  end.
Proof.
  cbv zeta. split; [split; [repeat constructor; discriminate|split; [apply resp_blockb_ok; vm_compute; reflexivity|vm_compute; reflexivity]]|].
  split; [eapply cj_chunked; [cbn; lia|eapply parses; vm_compute; reflexivity|reflexivity|eexists; reflexivity]|]. vm_compute. auto.
Qed.

(** C124, a body made by the program, from bytes or from a reader. *)
Theorem C124_own : forall ev s os r out k, env_ok ev -> wf_src s ->
  Forall (fun o => match o with Plain n => 0 < n | Peek _ => True end)%nat os -> steps ev os (RSrc s) = (r, out, k) ->
  match k with Going => prefix out (src_data s) | Ended => out = src_data s /\ clean s | Failed => out = src_data s /\ ~ clean s | _ => False end.
Proof.
  intros ev s os r out k He W HS E. pose proof He as (_ & _ & _ & _ & G). destruct (steps_plain ev (RSrc s) os r out k (ok_cap ev He) G W HS E) as (ns & r2 & A1 & A2 & _).
  rewrite src_reads in A2. destruct (reads src_read ns s) as [[s' o] e] eqn:ER. injection A2 as <- <- <-. pose proof (plain_reads _ _ _ _ _ W A1 ER) as Q. destruct e; auto. apply Q.
Qed.
Print Assumptions C124_own.
Example C124_own_case : let s := mkSrc [Data (B "ab"); Pend false; Data (B "c")] Eof in let t := mkSrc [Data (B "ab"); Fail; Data (B "c")] Eof in
  wf_src s /\ wf_src t /\ (let '(_, out, k) := steps (ev0 true) [Peek 1; Peek 0; Plain 9; Peek 2; Plain 4; Peek 3] (RSrc s) in out = B "abc" /\ k = Ended) /\
  (let '(_, out, k) := steps (ev0 true) [Peek 1; Peek 0; Plain 9; Peek 2; Plain 4; Peek 3] (RSrc t) in out = B "ab" /\ k = Failed).
Proof. cbv zeta. repeat split; repeat constructor; discriminate. Qed.

(** C125. The lines of a complete body whose length was declared. *)
Theorem C125_fixed : forall ev tmo s wt s' wt' q b n, env_ok ev -> wf_src s -> decode ev tmo s wt = (s', wt', OReq q b) -> q_len q = Some n ->
  exists w rest, offers tmo s w /\ src_data s = w ++ rest /\
  ((n <= N.of_nat (length rest))%N -> exists ls, lines_of (firstn (N.to_nat n) rest) ls /\ settles (fun fuel => snd (body_lines fuel ev (RMsg b))) (ROk ls)).
Proof.
  intros ev tmo s wt s' wt' q b n He Ws H Hn. destruct (request_reader ev tmo s wt s' wt' q b He Ws H) as (w & br & HO & HD & HW & HC & ->).
  exists w, (br_data br). split; [exact HO|]. split; [exact HD|]. intros L. pose proof He as (_ & _ & _ & _ & G). rewrite Hn. exact (fixed_lines ev n br (ok_cap ev He) G HW L).
Qed.
Print Assumptions C125_fixed.
Example C125_fixed_case : let s := arrives post_head ([LF; "a"%char; LF] ++ B "bc" ++ get_head) in
  wf_src s /\ lines_of (firstn 5 ([LF; "a"%char; LF] ++ B "bc" ++ get_head)) [[LF]; ["a"%char; LF]; B "bc"] /\
  match decode (ev0 true) true s slow with
  | (_, _, OReq q b) => q_len q = Some 5%N /\ snd (body_lines 20 (ev0 true) (RMsg b)) = ROk [[LF]; ["a"%char; LF]; B "bc"]
  | _ => False
  end.
Proof.
  cbv zeta. split; [apply arrives_wf; cbn; lia|]. split; [|vm_compute; auto]. cbn [firstn app].
  apply (lines_more [] _ [["a"%char; LF]; B "bc"]); [intros []|]. apply (lines_more ["a"%char] _ [B "bc"]); [intros [Z|[]]; discriminate|].
  constructor; [discriminate|]. intros [Z|[Z|[]]]; discriminate.
Qed.

(** C125, bodies made by the program. *)
Theorem C125_own : forall ev s, env_ok ev -> wf_src s -> clean s ->
  exists ls, lines_of (src_data s) ls /\ settles (fun fuel => snd (body_lines fuel ev (RSrc s))) (ROk ls).
Proof. intros ev s He. pose proof He as (_ & _ & _ & _ & G). exact (src_lines ev s (ok_cap ev He) G). Qed.
Print Assumptions C125_own.
Example C125_own_case : let s := mkSrc [Data (B "ab"); Pend false; Data [LF; "c"%char]; Data (B "d")] Eof in
  wf_src s /\ clean s /\ lines_of (src_data s) [B "ab" ++ [LF]; B "cd"] /\ snd (body_lines 20 (ev0 true) (RSrc s)) = ROk [B "ab" ++ [LF]; B "cd"].
Proof.
  cbv zeta. split; [repeat constructor; discriminate|]. split; [split; [repeat constructor; discriminate|reflexivity]|]. split; [|vm_compute; reflexivity].
  apply (lines_more (B "ab") _ [B "cd"]); [intros [Z|[Z|[]]]; discriminate|]. constructor; [discriminate|]. intros [Z|[Z|[]]]; discriminate.
Qed.

(** C125 for chunked bodies, when the last line is complete. *)
Theorem C125_chunked_partial : forall ev tmo s wt s' wt' q b, env_ok ev -> wf_src s -> decode ev tmo s wt = (s', wt', OReq q b) -> q_len q = None ->
  exists w rest, offers tmo s w /\ src_data s = w ++ rest /\
  forall p tr wire extra, fitting (e_deccap ev) p tr wire -> rest = wire ++ extra -> p = [] \/ (exists l, p = l ++ [LF]) ->
  exists ls, lines_of p ls /\ settles (fun fuel => snd (body_lines fuel ev (RMsg b))) (ROk ls).
Proof.
  intros ev tmo s wt s' wt' q b He Ws H Hn. destruct (request_reader ev tmo s wt s' wt' q b He Ws H) as (w & br & HO & HD & HW & HC & ->).
  exists w, (br_data br). split; [exact HO|]. split; [exact HD|]. intros p tr wire extra F ER HP. pose proof He as (_ & _ & _ & _ & G). rewrite Hn.
  exact (chunked_lines ev br p tr wire extra (ok_cap ev He) G F HW ER HP).
Qed.
Print Assumptions C125_chunked_partial.
Definition lf_wire : bytes := (B "3" ++ CRLF) ++ (B "ab" ++ [LF]) ++ CRLF ++ (B "1" ++ CRLF) ++ [LF] ++ CRLF ++ (B "0" ++ CRLF) ++ [] ++ CRLF.
Lemma lf_fits : fitting (e_deccap (ev0 true)) (B "ab" ++ [LF; LF]) [] lf_wire.
Proof.
  set (cw := (B "3" ++ CRLF) ++ (B "ab" ++ [LF]) ++ CRLF ++ (B "1" ++ CRLF) ++ [LF] ++ CRLF ++ []).
  assert (HC : chunks size_line ((B "ab" ++ [LF]) ++ [LF] ++ []) cw).
  { unfold cw. constructor; [discriminate| |constructor; [discriminate| |constructor]].
    - apply (line1 (ascii_of_N 51) 3 []); [now right|exact no_ext].
    - apply (line1 (ascii_of_N 49) 1 []); [now right|exact no_ext]. }
  exists cw, (length cw), (B "0" ++ CRLF), []. split; [now apply chunks_small_load|]. split; [exact line0|]. split; [constructor|]. split; [cbn; lia|].
  split; [rewrite ev0_deccap; cbn; lia|reflexivity].
Qed.
Example C125_chunked_case : let s := arrives chunk_head (lf_wire ++ B "GET /") in
  wf_src s /\ fitting (e_deccap (ev0 true)) (B "ab" ++ [LF; LF]) [] lf_wire /\
  match decode (ev0 true) true s slow with
  | (_, _, OReq q b) => q_len q = None /\ snd (body_lines 20 (ev0 true) (RMsg b)) = ROk [B "ab" ++ [LF]; [LF]]
  | _ => False
  end.
Proof. cbv zeta. split; [apply arrives_wf; cbn; lia|]. split; [exact lf_fits|]. vm_compute. auto. Qed.

(** C125 is false for a chunked body whose last line has no LF: after it, [read_until] has to be
    called once more to see the end, and the decoder then reads from the connection
    ([C73_read_after_end_refuted]). If the connection fails there, the complete body gives an
    error; otherwise the next request is lost. [into_bytes] has neither effect. *)
Theorem C125_lines_refuted : exists ev s t wt sa wa qa ba sb wb qb bb,
  env_ok ev /\ wf_src s /\ wf_src t /\ fitting (e_deccap ev) (B "Wikipedia") [(B "Expires", B "never")] wiki_wire /\
  src_data s = chunk_head ++ wiki_wire /\ decode ev true s wt = (sa, wa, OReq qa ba) /\
  snd (body_lines 20 ev (RMsg ba)) = RErr /\ into_bytes ev 20 growing (msg_body (q_len qa) ba) = ROk (B "Wikipedia") /\
  src_data t = chunk_head ++ wiki_wire ++ get_head /\ decode ev true t wt = (sb, wb, OReq qb bb) /\
  (exists r, body_lines 20 ev (RMsg bb) = (RMsg r, ROk [B "Wikipedia"]) /\ src_data (body_src r) = []) /\
  (exists r, fst (read_to_end ev 20 growing (RMsg bb)) = RMsg r /\ src_data (body_src r) = get_head).
Proof.
  exists (ev0 true), (mkSrc [Data (chunk_head ++ wiki_wire); Fail] Eof), (mkSrc [Data (chunk_head ++ wiki_wire); Data get_head] Eof), slow. eexists _, _, _, _, _, _, _, _.
  split; [apply ev0_ok|]. split; [repeat constructor; discriminate|]. split; [repeat constructor; discriminate|]. split; [exact wiki_fits|].
  split; [vm_compute; reflexivity|]. split; [vm_compute; reflexivity|]. split; [vm_compute; reflexivity|]. split; [vm_compute; reflexivity|].
  split; [vm_compute; reflexivity|]. split; [vm_compute; reflexivity|]. split; (eexists; split; [vm_compute; reflexivity|]; vm_compute; reflexivity).
Qed.
Print Assumptions C125_lines_refuted.
