(** Properties C56 and C57 on the wire: the cookie of a login, from the response that sets it to
    the request that sends it back. *)
From Verif Require Import SpecText Identity SpecChunked SpecHead SpecResponse SpecReq SpecServer SpecWriter SpecCors SpecIdentity Lemmas Proofs_Head Proofs_Map Proofs_Send
  Proofs_Accept Proofs_Request Proofs_Glitch Proofs_Identity Examples_Response Examples_Dec Examples_Request Examples_Identity Properties_Identity.

Lemma cookie_on_wire r r' v date m : sets_cookie r r' v -> message date r' m -> values (B "set-cookie") (hm_iter (r_headers r)) = [] ->
  exists sl fs rest, read_head m = Some (sl, fs, rest) /\ values (B "set-cookie") fs = [v].
Proof.
  intros (_ & _ & _ & _ & V) (head & bt & (sl & fs & RH & _ & _ & _ & _ & OF) & _ & ->) N. exists sl, fs, bt. split; [apply RH|].
  rewrite (values_others (B "set-cookie") fs (hm_iter (r_headers r')) eq_refl OF), V, N. reflexivity.
Qed.
Lemma request_cookies ev tmo s wt s' wt' q b m t minor hs w rest : (0 < e_bufcap ev)%nat -> wf_src s -> request_head m t minor hs w ->
  fst (avail tmo (s_evs s)) = w ++ rest -> decode ev tmo s wt = (s', wt', OReq q b) -> hm_wf (q_hdrs q) /\ field q (B "cookie") = values (B "cookie") hs.
Proof.
  intros Hc Ws R A H. destruct (decode_req ev tmo s wt s' wt' q b Hc Ws H) as (_ & _ & _ & _ & _ & _ & _ & _ & _ & _ & _ & _ & _ & _ & _ & (_ & _ & _ & W & _) & _).
  split; [exact W|]. unfold field. rewrite values_get_all by exact W. destruct (strict_obtained ev tmo s wt s' wt' q b m t minor hs w rest Hc Ws R A H) as (_ & _ & _ & V). apply V.
Qed.

Lemma pair_of_unique v p1 p2 : pair_of v p1 -> pair_of v p2 -> p1 = p2.
Proof.
  assert (K : forall p, pair_of v p -> p = until ";"%char v).
  { intros p (N & E). assert (U : forall x r, ~ In ";"%char x -> until ";"%char (x ++ ";"%char :: r) = x /\ until ";"%char x = x).
    { induction x as [|c x IH]; intros r HN; cbn [until app]; [split; reflexivity|].
      destruct (Ascii.eqb_spec c ";"%char) as [->|]; [now destruct HN; left|]. destruct (IH r) as [-> ->]; [|split; reflexivity]. intros HI. apply HN. now right. }
    destruct E as [->|(r & ->)]; symmetry; now apply (U p []) || apply (U p r N). }
  intros H1 H2. now rewrite (K p1 H1), (K p2 H2).
Qed.

(** C56: a client is told one cookie by the response to a login; whoever sends it back, in
    whatever request and however it arrives, is recognised as the one who logged in - until the
    login expires, and not afterwards. *)
Theorem C56_wire : forall signs j ovf now i u r r' date m, jwt_ok signs j -> is_cookie_name (i_cookie i) -> resp_wf r -> (now < 2 ^ 63)%N ->
  values (B "set-cookie") (hm_iter (r_headers r)) = [] -> set_auth_token j ovf now i u r = Some r' -> message date r' m ->
  exists sl fs rest v p, read_head m = Some (sl, fs, rest) /\ values (B "set-cookie") fs = [v] /\ pair_of v p /\
    forall ev tmo s wt s' wt' q b meth t minor hs w more later, (0 < e_bufcap ev)%nat -> wf_src s ->
      request_head meth t minor hs w -> values (B "cookie") hs = [p] -> fst (avail tmo (s_evs s)) = w ++ more ->
      decode ev tmo s wt = (s', wt', OReq q b) ->
      authorized_user j later i q = if (later <=? now + i_expiration i)%N then Some u else None.
Proof.
  intros signs j ovf now i u r r' date m J C W Hn N S M.
  destruct (login signs j ovf now i u r r' J C W Hn S) as (v & p & SC & PO & K).
  destruct (login_ends signs j ovf now i u r r' J C W Hn S) as (v2 & p2 & SC2 & PO2 & K2).
  assert (v2 = v). { destruct SC as (_ & _ & _ & _ & V), SC2 as (_ & _ & _ & _ & V2). specialize (V (B "set-cookie")). rewrite V2 in V. apply app_inv_head in V. now injection V. }
  subst v2. assert (p2 = p) by (eapply pair_of_unique; eauto). subst p2.
  destruct (cookie_on_wire r r' v date m SC M N) as (sl & fs & rest & RH & VF). exists sl, fs, rest, v, p. do 3 (split; [assumption|]).
  intros ev tmo s wt s' wt' q b meth t minor hs w more later Hc Ws R CK A D. destruct (request_cookies ev tmo s wt s' wt' q b meth t minor hs w more Hc Ws R A D) as (WQ & F).
  rewrite CK in F. destruct (N.leb_spec later (now + i_expiration i)); [now apply K|now apply K2].
Qed.
Print Assumptions C56_wire.

(** C57: whoever sends back the cookie of a logout is nobody. *)
Theorem C57_wire : forall signs j ovf now i r r' date m, jwt_ok signs j -> is_cookie_name (i_cookie i) -> resp_wf r ->
  values (B "set-cookie") (hm_iter (r_headers r)) = [] -> forget j ovf now i r = Some r' -> message date r' m ->
  exists sl fs rest v p, read_head m = Some (sl, fs, rest) /\ values (B "set-cookie") fs = [v] /\ pair_of v p /\
    forall ev tmo s wt s' wt' q b meth t minor hs w more later, (0 < e_bufcap ev)%nat -> wf_src s ->
      request_head meth t minor hs w -> values (B "cookie") hs = [p] -> fst (avail tmo (s_evs s)) = w ++ more ->
      decode ev tmo s wt = (s', wt', OReq q b) -> (0 < later)%N -> authorized_user j later i q = None.
Proof.
  intros signs j ovf now i r r' date m J C W N S M.
  destruct (logout signs j ovf now i r r' J C W S) as (v & p & SC & PO & K).
  destruct (cookie_on_wire r r' v date m SC M N) as (sl & fs & rest & RH & VF). exists sl, fs, rest, v, p. do 3 (split; [assumption|]).
  intros ev tmo s wt s' wt' q b meth t minor hs w more later Hc Ws R CK A D L. destruct (request_cookies ev tmo s wt s' wt' q b meth t minor hs w more Hc Ws R A D) as (WQ & F).
  rewrite CK in F. now apply K.
Qed.
Print Assumptions C57_wire.

Definition ann_cookie : bytes := B "jwt=" ++ toy_sign (B "secret_server_key") (mkClaims 1030 (B "tophat") (B "ann")).
Definition ann_head : bytes := B "GET / HTTP/1.1" ++ CRLF ++ B "host: a" ++ CRLF ++ B "Cookie: " ++ ann_cookie ++ CRLF ++ CRLF.
Lemma ann_strict : request_head (B "GET") (B "/") 1 [(B "host", B "a"); (B "Cookie", ann_cookie)] ann_head.
Proof.
  assert (V : forall v, forallb (fun c => (33 <=? bv c)%N && (bv c <? 127)%N) v = true -> field_value v).
  { intros v H. rewrite forallb_forall in H. split; [|split].
    - apply Forall_forall. intros c HI. specialize (H c HI). left. lia.
    - intros c r -> X. specialize (H c (or_introl eq_refl)). destruct X as [X|X]; rewrite X in H; discriminate.
    - intros c r -> X. specialize (H c (in_elt c r [])). destruct X as [X|X]; rewrite X in H; discriminate. }
  exists (B "HTTP/1.1"), (B "host: a" ++ CRLF ++ B "Cookie: " ++ ann_cookie ++ CRLF). split; [unfold ann_head; now rewrite <- !app_assoc|].
  split; [split; [discriminate|repeat constructor]|]. split; [repeat constructor; discriminate|]. split; [now left|].
  replace (B "host: a" ++ CRLF ++ B "Cookie: " ++ ann_cookie ++ CRLF) with ((B "host: a" ++ CRLF) ++ (B "Cookie: " ++ ann_cookie ++ CRLF) ++ [])
    by now rewrite app_nil_r, <- app_assoc.
  constructor; [|constructor; [|constructor]]; exists [SP]; (split; [split; [discriminate|split; [repeat constructor|cbn; lia]]|]);
    (split; [apply V; vm_compute; reflexivity|]); split; try reflexivity; repeat constructor.
Qed.
Example C56_wire_case : exists r' m s' wt' q b, set_auth_token toy true 1000 example_id (B "ann") rw_new = Some r' /\ message (e_date (ev0 true)) r' m /\
  decode (ev0 true) true (arrives ann_head []) slow = (s', wt', OReq q b) /\ authorized_user toy 1030 example_id q = Some (B "ann") /\
  authorized_user toy 1031 example_id q = None.
Proof.
  destruct (C56_sets _ toy true 1000 example_id (B "ann") rw_new toy_ok) as (r' & E); [split; [discriminate|reflexivity]|reflexivity..|].
  assert (SR : sendable (ev0 true) r').
  { vm_compute in E. injection E as <-. split; [split; repeat constructor; vm_compute; intuition discriminate|]. split; [repeat constructor|].
    split; [apply ev0_fits; cbn; lia|]. split; [cbn; lia|]. intros _. split; [constructor|reflexivity]. }
  destruct (send_message (ev0 true) r' (ev0_ok true) SR) as (m & Hm & _). exists r', m. do 4 eexists. split; [exact E|]. split; [exact Hm|].
  split; [vm_compute; reflexivity|]. split; vm_compute; reflexivity.
Qed.
