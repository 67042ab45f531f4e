(** Properties C61, C62, C75, C76: reading whole bodies. *)
From Verif Require Import Accept BodyRead SpecBody SpecChunked SpecHead SpecReq SpecServer Lemmas Proofs_Dec Proofs_DecMsg Proofs_DecReads Proofs_Accept Proofs_Request Proofs_BodyRead
  Examples_Response Examples_Dec Examples_Request.

(** Read sizes as [read_to_end] may choose them. *)
Definition growing (i : nat) : nat := (3 + i)%nat.
Local Ltac sizes := intros i; unfold growing; lia.

(** C61. A body made from bytes or text gives them back; as text only when it is text. *)
Theorem C61_round_trip : forall ev sz l f, (forall i, 0 < sz i)%nat ->
  In f [full (body_from_bytes l); full (body_from_string l); full (body_from_str l)] ->
  f_len f = Some (N.of_nat (length l)) /\ settles (fun fuel => into_bytes ev fuel sz f) (ROk l) /\
  ((N.of_nat (length l) <= isize_max)%N ->
   (is_text l -> settles (fun fuel => into_string ev fuel sz f) (ROk l)) /\ (~ is_text l -> settles (fun fuel => into_string ev fuel sz f) RErr)).
Proof. exact round_trip. Qed.
Print Assumptions C61_round_trip.
Definition snowman : bytes := map ascii_of_N [226; 152; 131]%N.
Example C61_text : is_text (B "snow: " ++ snowman) /\ ~ is_text (firstn 2 snowman).
Proof. split; [|intros H]; [apply text_iff|apply text_iff in H]; [vm_compute; reflexivity|vm_compute in H; discriminate]. Qed.
Example C61_case : (forall i, 0 < growing i)%nat /\ into_bytes (ev0 true) 10 growing (full (body_from_bytes (firstn 2 snowman))) = ROk (firstn 2 snowman) /\
  into_string (ev0 true) 10 growing (full (body_from_bytes (firstn 2 snowman))) = RErr /\
  into_string (ev0 true) 10 growing (full (body_from_str (B "snow: " ++ snowman))) = ROk (B "snow: " ++ snowman).
Proof. split; [sizes|]. vm_compute. auto. Qed.

(** C61, bodies over a caller's reader: all its bytes, or an error when the reader fails. *)
Theorem C61_reader : forall ev sz s len, (forall i, 0 < sz i)%nat -> wf_src s ->
  let f := full (body_from_reader s len) in
  (clean s -> settles (fun fuel => into_bytes ev fuel sz f) (ROk (src_data s))) /\ (~ clean s -> settles (fun fuel => into_bytes ev fuel sz f) RErr) /\
  ((forall n, len = Some n -> n <= isize_max)%N ->
   (clean s -> is_text (src_data s) -> settles (fun fuel => into_string ev fuel sz f) (ROk (src_data s))) /\
   (~ clean s \/ ~ is_text (src_data s) -> settles (fun fuel => into_string ev fuel sz f) RErr)).
Proof. exact reader_whole. Qed.
Print Assumptions C61_reader.
Example C61_reader_case : let s := mkSrc [Data (B "ab"); Pend false; Data (B "c")] Eof in let t := mkSrc [Data (B "ab"); Fail] Eof in
  wf_src s /\ clean s /\ is_text (src_data s) /\ wf_src t /\ ~ clean t /\
  into_bytes (ev0 true) 10 growing (full (body_from_reader s None)) = ROk (B "abc") /\ into_bytes (ev0 true) 10 growing (full (body_from_reader t None)) = RErr.
Proof.
  cbv zeta. repeat split; try (repeat constructor; discriminate); [now apply text_iff|]. intros [C _]. inversion C as [|? ? ? C2]. inversion C2. congruence.
Qed.

(** C75. The whole body of a request. Fixed length: the declared number of bytes (fewer after an
    early but orderly close, see C17), an error when the connection breaks before them. *)
Theorem C75_fixed : forall ev tmo s wt s' wt' q b n sz, (forall i, 0 < sz i)%nat -> (0 < e_bufcap ev)%nat -> wf_src s ->
  decode ev tmo s wt = (s', wt', OReq q b) -> q_len q = Some n ->
  exists w rest, offers tmo s w /\ src_data s = w ++ rest /\ let f := msg_body (q_len q) b in let x := firstn (N.to_nat n) rest in
    ((n <= N.of_nat (length rest))%N \/ clean s ->
       settles (fun fuel => into_bytes ev fuel sz f) (ROk x) /\
       ((n <= isize_max)%N -> is_text x -> settles (fun fuel => into_string ev fuel sz f) (ROk x)) /\
       ((n <= isize_max)%N -> ~ is_text x -> settles (fun fuel => into_string ev fuel sz f) RErr)) /\
    ((N.of_nat (length rest) < n)%N -> ~ clean s ->
       settles (fun fuel => into_bytes ev fuel sz f) RErr /\ ((n <= isize_max)%N -> settles (fun fuel => into_string ev fuel sz f) RErr)).
Proof.
  intros ev tmo s wt s' wt' q b n sz P Hc W H Hn. destruct (request_fixed ev tmo s wt s' wt' q b n sz P Hc W H Hn) as (w & rest & HO & HD & Q1 & Q2 & _).
  exists w, rest. split; [exact HO|]. split; [exact HD|]. split; [|exact Q2]. intros C. destruct (Q1 C) as (R1 & _ & R2 & R3). split; [exact R1|]. split; [|exact R3].
  intros L T. now destruct (R2 L T).
Qed.
Print Assumptions C75_fixed.
Example C75_fixed_case : exists s' wt' q b, wf_src (arrives post_head (B "hello, world")) /\
  decode (ev0 true) true (arrives post_head (B "hello, world")) slow = (s', wt', OReq q b) /\ q_len q = Some 5%N /\
  into_string (ev0 true) 10 growing (msg_body (q_len q) b) = ROk (B "hello").
Proof. eexists _, _, _, _. split; [apply arrives_wf; cbn; lia|]. split; [vm_compute; reflexivity|]. vm_compute. auto. Qed.

(** C75, chunked bodies: the payload of a complete message that the decoder's buffer can take
    (see C13); an error for a malformed one (see C14). *)
Theorem C75_chunked : forall ev tmo s wt s' wt' q b sz, (forall i, 0 < sz i)%nat -> env_ok ev -> wf_src s ->
  decode ev tmo s wt = (s', wt', OReq q b) -> q_len q = None ->
  exists w rest, offers tmo s w /\ src_data s = w ++ rest /\ let f := msg_body (q_len q) b in
  (forall p tr wire extra, fitting (e_deccap ev) p tr wire -> rest = wire ++ extra ->
     settles (fun fuel => into_bytes ev fuel sz f) (ROk p) /\
     (is_text p -> settles (fun fuel => into_string ev fuel sz f) (ROk p)) /\ (~ is_text p -> settles (fun fuel => into_string ev fuel sz f) RErr)) /\
  (forall p wire n extra, malformed (e_deccap ev) p wire n -> (n <= e_deccap ev)%nat -> rest = wire ++ extra ->
     settles (fun fuel => into_bytes ev fuel sz f) RErr /\ settles (fun fuel => into_string ev fuel sz f) RErr).
Proof.
  intros ev tmo s wt s' wt' q b sz P He W H Hn. destruct (request_chunked ev tmo s wt s' wt' q b sz P He W H Hn) as (w & rest & HO & HD & Q1 & Q2 & _).
  exists w, rest. split; [exact HO|]. split; [exact HD|]. split.
  - intros p tr wire extra F E. destruct (Q1 p tr wire extra F E) as (R1 & R2 & R3 & _). auto.
  - intros p wire n extra M L E. destruct (Q2 p wire n extra M L E) as (R1 & R2 & _). auto.
Qed.
Print Assumptions C75_chunked.
Lemma wiki_fits : fitting (e_deccap (ev0 true)) (B "Wikipedia") [(B "Expires", B "never")] wiki_wire.
Proof.
  destruct wiki_message as (cw & z & tw & H1 & H2 & H3 & H4 & E).
  exists cw, (length cw), z, tw. repeat split; auto; [now apply chunks_small_load|]. rewrite ev0_deccap. rewrite <- app_length, <- E. cbn. lia.
Qed.
Example C75_chunked_case : exists s' wt' q b,
  decode (ev0 true) true (arrives chunk_head (wiki_wire ++ B "GET /")) slow = (s', wt', OReq q b) /\ q_len q = None /\
  fitting (e_deccap (ev0 true)) (B "Wikipedia") [(B "Expires", B "never")] wiki_wire /\
  into_string (ev0 true) 10 growing (msg_body (q_len q) b) = ROk (B "Wikipedia").
Proof. eexists _, _, _, _. split; [vm_compute; reflexivity|]. split; [reflexivity|]. split; [exact wiki_fits|]. vm_compute. auto. Qed.

(** C75, any peer: [into_bytes] of a request's body returns, with bytes or an error. *)
Theorem C75_returns : forall ev tmo s wt s' wt' q b sz, (forall i, 0 < sz i)%nat -> env_ok ev -> wf_src s ->
  decode ev tmo s wt = (s', wt', OReq q b) ->
  exists x, settles (fun fuel => into_bytes ev fuel sz (msg_body (q_len q) b)) x /\ (x = RErr \/ exists l, x = ROk l).
Proof. exact request_settles. Qed.
Print Assumptions C75_returns.

(** C76 is false: [into_string] reserves the declared length, whatever the peer declares. *)
Definition huge_head : bytes := lines ["POST /up HTTP/1.1"; "host: h"; "content-length: 9223372036854775808"]%string.
Theorem C76_text_panic_refuted : exists ev tmo s wt s' wt' q b sz,
  env_ok ev /\ wf_src s /\ (forall i, 0 < sz i)%nat /\ decode ev tmo s wt = (s', wt', OReq q b) /\
  settles (fun fuel => into_string ev fuel sz (msg_body (q_len q) b)) RPanic.
Proof.
  exists (ev0 true), true, (arrives huge_head []), slow. eexists _, _, _, _, growing. split; [apply ev0_ok|]. split; [apply arrives_wf; cbn; lia|]. split; [sizes|].
  split; [vm_compute; reflexivity|]. exists 0%nat. reflexivity.
Qed.
Print Assumptions C76_text_panic_refuted.
(** What holds: no panic when the declared length is at most [isize::MAX], or the body is
    chunked. Missing from C76: larger declared lengths, which always panic. *)
Theorem C76_text_partial : forall ev tmo s wt s' wt' q b sz, (forall i, 0 < sz i)%nat -> env_ok ev -> wf_src s ->
  decode ev tmo s wt = (s', wt', OReq q b) -> (forall n, q_len q = Some n -> (n <= isize_max)%N) ->
  exists x, settles (fun fuel => into_string ev fuel sz (msg_body (q_len q) b)) x /\ (x = RErr \/ exists l, x = ROk l).
Proof.
  intros ev tmo s wt s' wt' q b sz P He W H L. destruct (request_settles ev tmo s wt s' wt' q b sz P He W H) as (x & S & Hx).
  exists (to_string x). split; [apply string_settle; [exact S|now apply short_body]|]. destruct Hx as [->|[l ->]]; cbn [to_string]; [now left|]. destruct (utf8_valid l); eauto.
Qed.
Print Assumptions C76_text_partial.
Example C76_case : exists s' wt' q b, decode (ev0 true) true (arrives post_head (B "hello")) slow = (s', wt', OReq q b) /\ q_len q = Some 5%N /\ (5 <= isize_max)%N /\
  into_string (ev0 true) 10 growing (msg_body (q_len q) b) = ROk (B "hello").
Proof. eexists _, _, _, _. split; [vm_compute; reflexivity|]. split; [reflexivity|]. split; [discriminate|]. vm_compute. reflexivity. Qed.
Theorem C76_huge_panics : forall ev tmo s wt s' wt' q b n sz, (forall i, 0 < sz i)%nat -> (0 < e_bufcap ev)%nat -> wf_src s ->
  decode ev tmo s wt = (s', wt', OReq q b) -> q_len q = Some n -> (isize_max < n)%N ->
  settles (fun fuel => into_string ev fuel sz (msg_body (q_len q) b)) RPanic.
Proof.
  intros ev tmo s wt s' wt' q b n sz P Hc W H Hn L. destruct (request_fixed ev tmo s wt s' wt' q b n sz P Hc W H Hn) as (w & rest & _ & _ & _ & _ & Q). auto.
Qed.
Print Assumptions C76_huge_panics.

(** C62 is false: reading with trailers never returns for any body of declared length, of a
    request ... *)
Theorem C62_fixed_hangs : forall ev tmo s wt s' wt' q b n sz, (forall i, 0 < sz i)%nat -> (0 < e_bufcap ev)%nat -> wf_src s -> clean s ->
  decode ev tmo s wt = (s', wt', OReq q b) -> q_len q = Some n ->
  settles (fun fuel => into_bytes_with_trailer ev fuel sz (msg_body (q_len q) b)) THangs.
Proof.
  intros ev tmo s wt s' wt' q b n sz P Hc W C H Hn. destruct (request_fixed ev tmo s wt s' wt' q b n sz P Hc W H Hn) as (w & rest & _ & _ & Q & _). now destruct (Q (or_intror C)).
Qed.
Print Assumptions C62_fixed_hangs.
(** ... or made by the caller ... *)
Theorem C62_own_hangs : forall ev sz s len, (forall i, 0 < sz i)%nat -> wf_src s -> clean s ->
  settles (fun fuel => into_bytes_with_trailer ev fuel sz (full (body_from_reader s len))) THangs.
Proof. exact own_hangs. Qed.
Print Assumptions C62_own_hangs.
(** ... nor for a chunked body whose message is cut off. *)
Theorem C62_truncated_hangs : forall ev tmo s wt s' wt' q b sz, (forall i, 0 < sz i)%nat -> env_ok ev -> wf_src s -> clean s ->
  decode ev tmo s wt = (s', wt', OReq q b) -> q_len q = None ->
  exists w rest, offers tmo s w /\ src_data s = w ++ rest /\
  forall p tr wire cut, fitting (e_deccap ev) p tr wire -> wire = rest ++ cut -> cut <> [] ->
  settles (fun fuel => into_bytes_with_trailer ev fuel sz (msg_body (q_len q) b)) THangs.
Proof.
  intros ev tmo s wt s' wt' q b sz P He W C H Hn. destruct (request_chunked ev tmo s wt s' wt' q b sz P He W H Hn) as (w & rest & HO & HD & _ & _ & Q).
  exists w, rest. split; [exact HO|]. split; [exact HD|]. intros p tr wire cut F E N. now destruct (Q p tr wire cut F E N C) as (x & _ & _ & R).
Qed.
Print Assumptions C62_truncated_hangs.
Theorem C62_returns_refuted : exists ev tmo s wt s' wt' q b sz,
  env_ok ev /\ wf_src s /\ clean s /\ (forall i, 0 < sz i)%nat /\ decode ev tmo s wt = (s', wt', OReq q b) /\
  settles (fun fuel => into_bytes ev fuel sz (msg_body (q_len q) b)) (ROk (B "hello")) /\
  settles (fun fuel => into_bytes_with_trailer ev fuel sz (msg_body (q_len q) b)) THangs.
Proof.
  assert (W : wf_src (arrives post_head (B "hello"))) by (apply arrives_wf; cbn; lia).
  assert (C : clean (arrives post_head (B "hello"))) by (split; [repeat constructor; discriminate|reflexivity]).
  assert (P : forall i, (0 < growing i)%nat) by sizes. assert (Hc : (0 < e_bufcap (ev0 true))%nat) by exact (ok_cap _ (ev0_ok true)).
  exists (ev0 true), true, (arrives post_head (B "hello")), slow. eexists _, _, _, _, growing.
  split; [apply ev0_ok|]. split; [exact W|]. split; [exact C|]. split; [exact P|]. split; [vm_compute; reflexivity|].
  match goal with |- settles (fun f => into_bytes _ _ _ (msg_body _ ?b)) _ /\ _ => set (bb := b) end.
  assert (D : exists s' wt' q, decode (ev0 true) true (arrives post_head (B "hello")) slow = (s', wt', OReq q bb) /\ q_len q = Some 5%N)
    by (eexists _, _, _; split; [vm_compute; reflexivity|reflexivity]).
  destruct D as (s' & wt' & q & D & Hq). split.
  - destruct (request_fixed _ _ _ _ _ _ _ _ _ growing P Hc W D Hq) as (w & rest & HO & HD & Q & _). destruct (Q (or_intror C)) as (R & _). rewrite Hq in R.
    assert (w = post_head).
    { apply (offers_unique true (arrives post_head (B "hello"))); [exact HO|]. apply arrives_offers; [cbn; lia|vm_compute; reflexivity]. }
    subst w. assert (ER : rest = B "hello") by (apply (app_inv_head post_head); rewrite <- HD; vm_compute; reflexivity). rewrite ER in R. exact R.
  - pose proof (C62_fixed_hangs _ _ _ _ _ _ _ _ _ growing P Hc W C D Hq) as R. rewrite Hq in R. exact R.
Qed.
Print Assumptions C62_returns_refuted.
(** What holds: for a complete chunked body it returns the payload and the trailers ... Missing
    from C62: everything above. *)
Theorem C62_complete_partial : forall ev tmo s wt s' wt' q b sz, (forall i, 0 < sz i)%nat -> env_ok ev -> wf_src s ->
  decode ev tmo s wt = (s', wt', OReq q b) -> q_len q = None ->
  exists w rest, offers tmo s w /\ src_data s = w ++ rest /\
  forall p tr wire extra, fitting (e_deccap ev) p tr wire -> rest = wire ++ extra ->
  exists h, hm_wf h /\ (forall x, values x (hm_iter h) = values x tr) /\
    settles (fun fuel => into_bytes_with_trailer ev fuel sz (msg_body (q_len q) b)) (TOk p (Some h)) /\
    (is_text p -> settles (fun fuel => into_string_with_trailer ev fuel sz (msg_body (q_len q) b)) (TOk p (Some h))).
Proof.
  intros ev tmo s wt s' wt' q b sz P He W H Hn. destruct (request_chunked ev tmo s wt s' wt' q b sz P He W H Hn) as (w & rest & HO & HD & Q & _).
  exists w, rest. split; [exact HO|]. split; [exact HD|]. intros p tr wire extra F E. now destruct (Q p tr wire extra F E) as (_ & _ & _ & R).
Qed.
Print Assumptions C62_complete_partial.
Example C62_case : exists s' wt' q b,
  decode (ev0 true) true (arrives chunk_head (wiki_wire ++ B "GET /")) slow = (s', wt', OReq q b) /\ q_len q = None /\
  fitting (e_deccap (ev0 true)) (B "Wikipedia") [(B "Expires", B "never")] wiki_wire /\
  into_string_with_trailer (ev0 true) 10 growing (msg_body (q_len q) b) = TOk (B "Wikipedia") (Some [(B "expires", [B "never"])]).
Proof. eexists _, _, _, _. split; [vm_compute; reflexivity|]. split; [reflexivity|]. split; [exact wiki_fits|]. vm_compute. auto. Qed.
(** ... and for a body of the caller's whose sender of trailers has been taken and dropped, it
    returns that there are none (taking it twice panics). *)
Theorem C62_taken_partial : forall ev sz s len f, (forall i, 0 < sz i)%nat -> wf_src s -> clean s -> send_trailers (full (body_from_reader s len)) = Some f ->
  settles (fun fuel => into_bytes_with_trailer ev fuel sz f) (TOk (src_data s) None) /\ send_trailers f = None.
Proof. exact taken_ends. Qed.
Print Assumptions C62_taken_partial.
Example C62_taken_case : exists f, send_trailers (full (body_from_bytes (B "abc"))) = Some f /\ into_bytes_with_trailer (ev0 true) 5 growing f = TOk (B "abc") None.
Proof. eexists. split; [reflexivity|]. vm_compute. reflexivity. Qed.
