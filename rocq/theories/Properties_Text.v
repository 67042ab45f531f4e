(** Properties C106-C108: names, values and header maps; request targets; status lines. *)
From Verif Require Import Accept SpecText SpecHead SpecChunked SpecReq SpecResponse SpecServer Lemmas Proofs_Text Proofs_Head Proofs_Map Proofs_ServerDec
  Proofs_Accept Proofs_Request Proofs_Begin Proofs_Vocab Examples_Response Examples_Dec Examples_Request.

(** C106: header names are the non-empty tokens of at most 65535 bytes; they are kept in small letters. *)
Theorem C106_names : forall l n, header_name l = Some n <->
  l <> [] /\ Forall (fun c => In c tchars) l /\ (N.of_nat (length l) <= 65535)%N /\ Forall2 small_of l n.
Proof. exact header_name_spelt. Qed.
Print Assumptions C106_names.
(** Methods are the non-empty tokens; they are kept as they are. *)
Theorem C106_methods : forall l m, method_of l = Some m <-> l <> [] /\ Forall (fun c => In c tchars) l /\ m = l.
Proof. exact method_spelt. Qed.
Print Assumptions C106_methods.
(** Values: any bytes but controls other than the tab; text: the same within ASCII. *)
Theorem C106_values : forall l v, header_value l = Some v <-> v = l /\ Forall (fun c => (32 <= bv c /\ bv c <> 127)%N \/ c = HT) l.
Proof. exact header_value_spelt. Qed.
Print Assumptions C106_values.
Theorem C106_text : forall l v, value_to_str l = Some v <-> v = l /\ Forall (fun c => (32 <= bv c <= 126)%N \/ c = HT) l.
Proof. exact to_str_spelt. Qed.
Print Assumptions C106_text.
(** Comparison up to the case of ASCII letters, of the model and of the specifications. *)
Theorem C106_compare : forall a b, (eq_ic a b = true <-> equal_text a b) /\ (same_text a b = true <-> equal_text a b).
Proof. intros a b. split; apply eq_ic_spelt. Qed.
Print Assumptions C106_compare.
(** The specifications' classes of characters, spelt out. *)
Theorem C106_classes : forall c, (tchar c = true <-> In c tchars) /\ (value_byte c = true <-> (32 <= bv c /\ bv c <> 127)%N \/ c = HT) /\
  forall l n, Forall2 small_of l n <-> n = lowered l.
Proof. intros c. split; [apply tchar_spelt|]. split; [apply value_byte_iff|exact lower_spelt]. Qed.
Print Assumptions C106_classes.
(** Control characters and punctuation are the ASCII ones. *)
Theorem C106_punctuation : CR = "013"%char /\ LF = "010"%char /\ HT = "009"%char /\ SP = " "%char /\ COLON = ":"%char /\
  CRLF = [CR; LF] /\ two64 = (2 ^ 64)%N /\ forall c, bv c = N_of_ascii c.
Proof. repeat split. Qed.
Print Assumptions C106_punctuation.
(** Header maps: [append] adds a value behind those of its name, [insert] replaces them, names of any
    other spelling are the same name, all other names keep their values. *)
Theorem C106_append : forall x k k' v m, hm_wf m -> header_name k = Some k' -> forallb value_byte v = true ->
  hm_wf (hm_append k' v m) /\ values x (hm_iter (hm_append k' v m)) = values x (hm_iter m) ++ (if same_text k x then [v] else []).
Proof. exact map_append. Qed.
Print Assumptions C106_append.
Theorem C106_insert : forall x k k' v m, hm_wf m -> header_name k = Some k' -> forallb value_byte v = true ->
  hm_wf (hm_insert k' v m) /\ values x (hm_iter (hm_insert k' v m)) = if same_text k x then [v] else values x (hm_iter m).
Proof. exact map_insert. Qed.
Print Assumptions C106_insert.
(** Looking up gives all values, the first, or whether there is one. *)
Theorem C106_lookup : forall x k m, hm_wf m -> header_name x = Some k ->
  hm_get_all k m = values x (hm_iter m) /\ hm_get k m = hd_error (values x (hm_iter m)) /\ (hm_contains k m = true <-> values x (hm_iter m) <> []).
Proof. exact map_look. Qed.
Print Assumptions C106_lookup.
Example C106_case : header_name (B "X-Token") = Some (B "x-token") /\ header_name (B "x token") = None /\ method_of (B "M-SEARCH") = Some (B "M-SEARCH") /\
  header_value (B "a b") = Some (B "a b") /\ header_value [LF] = None /\ eq_ic (B "Content-Length") (B "cONTENT-lENGTH") = true /\ eq_ic (B "a@") (B "a`") = false /\
  hm_wf [(B "x-a", [B "1"; B "2"])] /\ hm_iter (hm_append (B "x-b") (B "3") (hm_append (B "x-a") (B "2") (hm_append (B "x-a") (B "1") []))) =
    [(B "x-a", B "1"); (B "x-a", B "2"); (B "x-b", B "3")].
Proof. repeat (split; [vm_compute; reflexivity|]). split; [split; repeat constructor; cbn; intuition discriminate|vm_compute; reflexivity]. Qed.

(** C107: the target of a request in origin form is split into path and query at the first
    question mark, and a fragment is dropped; it is accepted exactly if it has this form. *)
Theorem C107_target : forall other r u, parse_uri other ("/"%char :: r) = Some u <->
  u_host u = None /\ u_port u = None /\ readable_target ("/"%char :: r) (u_path u) (u_query u).
Proof. exact parse_uri_iff. Qed.
Print Assumptions C107_target.
(** ... so of the requests that come off a connection, ... *)
Theorem C107_request : forall ev tmo s wt s' wt' q b, (0 < e_bufcap ev)%nat -> wf_src s -> decode ev tmo s wt = (s', wt', OReq q b) ->
  exists w rl hs, offers tmo s w /\ grammatical (e_trim ev) rl hs w /\
    forall r, l_target rl = "/"%char :: r ->
      u_host (q_uri q) = None /\ u_port (q_uri q) = None /\ readable_target (l_target rl) (u_path (q_uri q)) (u_query (q_uri q)).
Proof. exact target_read. Qed.
Print Assumptions C107_request.
(** ... and a request whose target begins with a slash but has no such form is refused with 400. *)
Theorem C107_refused : forall ev o s w rl hs c r, env_ok ev -> offers (o_timeout o) s w -> grammatical (e_trim ev) rl hs w -> l_minor rl = 1%N -> faultless hs ->
  continues hs c -> values (B "host") hs <> [] -> l_target rl = "/"%char :: r -> (forall p x, ~ readable_target (l_target rl) p x) -> refused ev o s c 400.
Proof. exact target_refused. Qed.
Print Assumptions C107_refused.
Example C107_case : parse_uri (fun _ => None) (B "/a/b?x=1?y#z") = Some (mkUri None None (B "/a/b") (Some (B "x=1?y"))) /\
  readable_target (B "/a/b?x=1?y#z") (B "/a/b") (Some (B "x=1?y")) /\
  forall p x, ~ readable_target (B "/a`b") p x.
Proof.
  split; [vm_compute; reflexivity|]. split.
  - apply (fun H => proj2 (proj2 (proj1 (C107_target (fun _ => None) (B "a/b?x=1?y#z") (mkUri None None (B "/a/b") (Some (B "x=1?y")))) H))). vm_compute. reflexivity.
  - intros p x H. assert (E : parse_uri (fun _ => None) ("/"%char :: B "a`b") = Some (mkUri None None p x)) by (apply C107_target; auto). vm_compute in E. discriminate E.
Qed.
Example C107_wire_case : exists s' wt' q b, decode (ev0 true) true (arrives get_head []) slow = (s', wt', OReq q b) /\ q_uri q = mkUri None None (B "/a") (Some (B "b=c")).
Proof. eexists _, _, _, _. split; [vm_compute; reflexivity|]. reflexivity. Qed.

(** C108: the status line of every response carries the version, the code in decimal and the
    phrase registered for it. *)
Theorem C108_status_line : forall ev r, env_wf ev -> resp_wf r -> (0 < e_bufcap ev)%nat ->
  exists head sl fs, sent_under ev r head /\ (forall rest, read_head (head ++ rest) = Some (sl, fs, rest)) /\ first_line (r_version r) (r_status r) sl.
Proof. intros ev r He Hr Hn. destruct (head_response ev r Hr He) as (sl & fs & H1 & H2 & _). exists (head_text ev r), sl, fs. exact (conj (send_opens ev r Hn) (conj H1 H2)). Qed.
Print Assumptions C108_status_line.
(** There is exactly one such line. *)
Theorem C108_unique : forall v n, exists sl, forall x, first_line v n x <-> x = sl.
Proof.
  intros v n. eexists. intros x. split; [apply first_line_text|]. intros ->.
  exists (to_dec n). eexists. split; [apply to_dec_numeral|]. split; [apply reason_known|]. now destruct v.
Qed.
Print Assumptions C108_unique.
Example C108_case : first_line HTTP_11 404 (B "HTTP/1.1 404 Not Found") /\ first_line HTTP_10 799 (B "HTTP/1.0 799 <unknown status code>") /\
  ~ first_line HTTP_11 404 (B "HTTP/1.1 404 Lost").
Proof.
  split; [exists (B "404"), (B "Not Found"); split; [exact (to_dec_numeral 404)|]; split; [exact (reason_known 404)|reflexivity]|]. split.
  - exists (B "799"), (B "<unknown status code>"). split; [exact (to_dec_numeral 799)|]. split; [exact (reason_known 799)|reflexivity].
  - intros H. apply first_line_text in H. discriminate H.
Qed.
