(** Properties C56-C60 and C74: the identity service. The signature scheme is an oracle with the
    contract [jwt_ok] (SpecIdentity.v), which [toy] (Examples_Identity.v) meets. *)
From Verif Require Import SpecText Identity SpecHead SpecResponse SpecWriter SpecCors SpecIdentity Lemmas Proofs_Head Proofs_Send Proofs_Accept Proofs_Writer Proofs_Identity
  Examples_Response Examples_Identity.

(** C56: [set_auth_token] at [now] adds one Set-Cookie header; the client that sends that cookie back is recognised
    as [u] exactly until [now] plus the expiration time. *)
Theorem C56_login : forall signs j ovf now i u r r', jwt_ok signs j -> is_cookie_name (i_cookie i) -> resp_wf r -> (now < 2 ^ 63)%N ->
  set_auth_token j ovf now i u r = Some r' ->
  exists v p, sets_cookie r r' v /\ pair_of v p /\
    forall q later, hm_wf (q_hdrs q) -> field q (B "cookie") = [p] -> (later <= now + i_expiration i)%N -> authorized_user j later i q = Some u.
Proof. exact login. Qed.
Print Assumptions C56_login.
(** It does not panic for expirations and clocks below 2^63 seconds and printable paths. *)
Theorem C56_sets : forall signs j ovf now i u r, jwt_ok signs j -> is_cookie_name (i_cookie i) -> forallb value_byte (i_path i) = true ->
  (now < 2 ^ 63)%N -> (i_expiration i < 2 ^ 63)%N -> exists r', set_auth_token j ovf now i u r = Some r'.
Proof. exact login_sets. Qed.
Print Assumptions C56_sets.
Example C56_case : jwt_ok (fun k c t => t = toy_sign k c) toy /\ is_cookie_name (i_cookie example_id) /\ resp_wf rw_new /\
  (exists r', set_auth_token toy true 1000 example_id (B "ann") rw_new = Some r' /\
    values (B "Set-Cookie") (hm_iter (r_headers r')) = [B "jwt=" ++ toy_sign (B "secret_server_key") (mkClaims 1030 (B "tophat") (B "ann")) ++ B "; HttpOnly; Path=/; Max-Age=30"]) /\
  let q := cookie_req [B "jwt=" ++ toy_sign (B "secret_server_key") (mkClaims 1030 (B "tophat") (B "ann"))] in
  hm_wf (q_hdrs q) /\ authorized_user toy 1030 example_id q = Some (B "ann") /\ authorized_user toy 1031 example_id q = None.
Proof.
  split; [apply toy_ok|]. split; [split; [discriminate|reflexivity]|]. split; [split; constructor|]. split; [eexists; split; vm_compute; reflexivity|].
  split; [split; repeat constructor; vm_compute; intuition discriminate|]. split; vm_compute; reflexivity.
Qed.

(** C57: the cookie set by [forget] authorises nobody, at any time after the first second of 1970; *)
Theorem C57_forget : forall signs j ovf now i r r', jwt_ok signs j -> is_cookie_name (i_cookie i) -> resp_wf r ->
  forget j ovf now i r = Some r' ->
  exists v p, sets_cookie r r' v /\ pair_of v p /\
    forall q later, hm_wf (q_hdrs q) -> field q (B "cookie") = [p] -> (0 < later)%N -> authorized_user j later i q = None.
Proof. exact logout. Qed.
Print Assumptions C57_forget.
Theorem C57_forgets : forall signs j ovf now i r, jwt_ok signs j -> is_cookie_name (i_cookie i) -> forallb value_byte (i_path i) = true ->
  exists r', forget j ovf now i r = Some r'.
Proof. exact logout_sets. Qed.
Print Assumptions C57_forgets.
(** a login is not accepted any more once the clock is past its expiration; *)
Theorem C57_expiry : forall signs j ovf now i u r r', jwt_ok signs j -> is_cookie_name (i_cookie i) -> resp_wf r -> (now < 2 ^ 63)%N ->
  set_auth_token j ovf now i u r = Some r' ->
  exists v p, sets_cookie r r' v /\ pair_of v p /\
    forall q later, hm_wf (q_hdrs q) -> field q (B "cookie") = [p] -> (now + i_expiration i < later)%N -> authorized_user j later i q = None.
Proof. exact login_ends. Qed.
Print Assumptions C57_expiry.
(** and whatever a request carries, who is authorised is the subject of a token that has not expired. *)
Theorem C57_never_expired : forall signs j now i q u, jwt_ok signs j -> hm_wf (q_hdrs q) -> authorized_user j now i q = Some u ->
  exists c t, signs (i_key i) c t /\ c_sub c = u /\ (now <= c_exp c)%N.
Proof.
  intros signs j now i q u J W H. apply (authorized signs j now i q u J W) in H as (l1 & v & l2 & t & c & H). exists c, t. tauto.
Qed.
Print Assumptions C57_never_expired.
Example C57_case : exists r', forget toy true 1000 example_id rw_new = Some r' /\
  values (B "Set-Cookie") (hm_iter (r_headers r')) = [B "jwt=" ++ toy_sign (B "secret_server_key") (mkClaims 0 (B "tophat") []) ++ B "; HttpOnly; Path=/; Max-Age=0"] /\
  authorized_user toy 1 example_id (cookie_req [B "jwt=" ++ toy_sign (B "secret_server_key") (mkClaims 0 (B "tophat") [])]) = None.
Proof. eexists. split; [vm_compute; reflexivity|]. split; vm_compute; reflexivity. Qed.
Example C57_expiry_case : exists r', set_auth_token toy true 1000 example_id (B "ann") rw_new = Some r' /\ (1000 < 2 ^ 63)%N /\ (1000 + i_expiration example_id < 1031)%N /\
  authorized_user toy 1031 example_id (cookie_req [B "jwt=" ++ toy_sign (B "secret_server_key") (mkClaims 1030 (B "tophat") (B "ann"))]) = None.
Proof. eexists. split; [vm_compute; reflexivity|]. split; [vm_compute; reflexivity|]. split; vm_compute; reflexivity. Qed.

(** C58: a request is authorised only by a cookie with the configured name whose value is a token made with the server key. *)
Theorem C58_forged : forall signs j now i q, jwt_ok signs j -> hm_wf (q_hdrs q) ->
  (forall v t c, In v (field q (B "cookie")) -> first_pair v (i_cookie i) t -> ~ signs (i_key i) c t) -> authorized_user j now i q = None.
Proof.
  intros signs j now i q J W N. destruct (authorized_user j now i q) as [u|] eqn:E; [|reflexivity]. exfalso.
  apply (authorized signs j now i q u J W) in E as (l1 & v & l2 & t & c & E & F & _ & S & _). apply (N v t c); [rewrite E; apply in_elt|exact F|exact S].
Qed.
Print Assumptions C58_forged.
Example C58_case : let q := cookie_req [B "jwt=" ++ toy_sign (B "other key") (mkClaims 1030 (B "tophat") (B "ann"))] in
  hm_wf (q_hdrs q) /\ forall v t c, In v (field q (B "cookie")) -> first_pair v (i_cookie example_id) t -> t <> toy_sign (i_key example_id) c.
Proof.
  cbv zeta. split; [split; repeat constructor; vm_compute; intuition discriminate|]. intros v t c [<-|[]] F ->.
  pose proof (own_pair (B "jwt") (toy_sign (B "other key") (mkClaims 1030 (B "tophat") (B "ann"))) ltac:(split; [discriminate|reflexivity]) (proj2 (proj2 toy_ok) (B "other key") (mkClaims 1030 (B "tophat") (B "ann")))) as G.
  pose proof (proj1 F) as S. apply (parse_first _ _ _ S) in F. apply (parse_first _ _ _ S) in G. rewrite G in F.
  apply (f_equal (fun o => match o with Some (_, t) => unenc t | None => None end)) in F. cbn iota beta in F. unfold toy_sign in F. rewrite !enc_ok in F.
  injection F as F _. discriminate F.
Qed.

(** C59 is false: only the first cookie of a Cookie header is looked at. *)
Theorem C59_second_cookie_refuted : exists signs j now i q a c t, jwt_ok signs j /\ hm_wf (q_hdrs q) /\
  field q (B "cookie") = [a ++ B "; " ++ i_cookie i ++ B "=" ++ t] /\ first_pair a (B "theme") (B "dark") /\ signs (i_key i) c t /\ (now < c_exp c)%N /\
  authorized_user j now i q = None.
Proof.
  exists (fun k c t => t = toy_sign k c), toy, 1000%N, example_id.
  exists (cookie_req [B "theme=dark" ++ B "; " ++ B "jwt" ++ B "=" ++ toy_sign (B "secret_server_key") (mkClaims 1030 (B "tophat") (B "ann"))]).
  exists (B "theme=dark"), (mkClaims 1030 (B "tophat") (B "ann")), (toy_sign (B "secret_server_key") (mkClaims 1030 (B "tophat") (B "ann"))).
  split; [apply toy_ok|]. split; [split; repeat constructor; vm_compute; intuition discriminate|]. split; [reflexivity|]. split; [apply parse_first; reflexivity|].
  split; [reflexivity|]. split; [reflexivity|]. vm_compute. reflexivity.
Qed.
Print Assumptions C59_second_cookie_refuted.
(** What holds: a request is recognised exactly if the identity cookie is the first cookie of a
    Cookie header all of whose predecessors begin with a cookie of another name (and the token is good). *)
Theorem C59_first_cookie_partial : forall signs j now i q u, jwt_ok signs j -> hm_wf (q_hdrs q) -> (authorized_user j now i q = Some u <->
  exists l1 v l2 t c, field q (B "cookie") = l1 ++ v :: l2 /\ first_pair v (i_cookie i) t /\ Forall (fun w => exists n y, first_pair w n y /\ n <> i_cookie i) l1 /\
    signs (i_key i) c t /\ (now <= c_exp c)%N /\ c_sub c = u).
Proof. exact authorized. Qed.
Print Assumptions C59_first_cookie_partial.
Example C59_case : let t := toy_sign (B "secret_server_key") (mkClaims 1030 (B "tophat") (B "ann")) in
  authorized_user toy 1000 example_id (cookie_req [B "theme=dark"; B " jwt =" ++ t ++ B " ; theme=light"]) = Some (B "ann") /\
  authorized_user toy 1000 example_id (cookie_req [B "theme"; B "jwt=" ++ t]) = None.
Proof. split; vm_compute; reflexivity. Qed.

(** C60 is false: a token of another issuer is accepted ... *)
Theorem C60_issuer_refuted : exists signs j now i q c t, jwt_ok signs j /\ hm_wf (q_hdrs q) /\ i_issuer i = Some (B "tophat") /\
  field q (B "cookie") = [i_cookie i ++ B "=" ++ t] /\ signs (i_key i) c t /\ c_iss c = B "someone else" /\ authorized_user j now i q = Some (c_sub c).
Proof.
  exists (fun k c t => t = toy_sign k c), toy, 1000%N, example_id.
  exists (cookie_req [B "jwt" ++ B "=" ++ toy_sign (B "secret_server_key") (mkClaims 1030 (B "someone else") (B "ann"))]), (mkClaims 1030 (B "someone else") (B "ann")), (toy_sign (B "secret_server_key") (mkClaims 1030 (B "someone else") (B "ann"))).
  split; [apply toy_ok|]. split; [split; repeat constructor; vm_compute; intuition discriminate|]. do 4 (split; [reflexivity|]). vm_compute. reflexivity.
Qed.
Print Assumptions C60_issuer_refuted.
(** ... since the configured issuer has no influence on who is authorised. It is written into the tokens. *)
Theorem C60_issuer_partial : forall signs j i i' q now, i_key i = i_key i' -> i_cookie i = i_cookie i' -> 
  authorized_user j now i q = authorized_user j now i' q /\
  (forall ovf u r r', jwt_ok signs j -> resp_wf r -> set_auth_token j ovf now i u r = Some r' ->
    exists v c t rest, sets_cookie r r' v /\ v = i_cookie i ++ B "=" ++ t ++ rest /\ signs (i_key i) c t /\ c_sub c = u /\
      c_iss c = match i_issuer i with Some x => x | None => [] end).
Proof. exact issuer. Qed.
Print Assumptions C60_issuer_partial.
Example C60_case : let other := ib_finish (ib_calls [ICookie (B "jwt"); IIssuer (B "elsewhere")] (ib_new (B "secret_server_key"))) in
  i_key other = i_key example_id /\ i_cookie other = i_cookie example_id /\ i_issuer other <> i_issuer example_id /\
  let q := cookie_req [B "jwt=" ++ toy_sign (B "secret_server_key") (mkClaims 1030 (B "tophat") (B "ann"))] in
  authorized_user toy 1000 example_id q = Some (B "ann") /\ authorized_user toy 1000 other q = Some (B "ann").
Proof. cbv zeta. do 2 (split; [reflexivity|]). split; [discriminate|]. split; vm_compute; reflexivity. Qed.

(** C74: the cookie's attributes are the configured ones, ... *)
Theorem C74_attributes : forall signs j ovf now i u r r', jwt_ok signs j -> resp_wf r -> set_auth_token j ovf now i u r = Some r' ->
  exists v c t items, sets_cookie r r' v /\ signs (i_key i) c t /\ v = i_cookie i ++ B "=" ++ t ++ concat (map (fun a => B "; " ++ a) items) /\ attributes i (i_expiration i) items.
Proof. exact login_attributes. Qed.
Print Assumptions C74_attributes.
Theorem C74_forget : forall signs j ovf now i r r', jwt_ok signs j -> resp_wf r -> forget j ovf now i r = Some r' ->
  exists v c t items, sets_cookie r r' v /\ signs (i_key i) c t /\ v = i_cookie i ++ B "=" ++ t ++ concat (map (fun a => B "; " ++ a) items) /\ attributes i 0 items.
Proof. exact logout_attributes. Qed.
Print Assumptions C74_forget.
(** ... where the newest builder call about each counts, and without one: named jwt, for all
    paths, secure, http-only, and valid for a day. *)
Theorem C74_builder : forall key cs, let i := ib_finish (ib_calls cs (ib_new key)) in
  i_key i = key /\ i_cookie i = latest says_cookie (B "jwt") (rev cs) /\ i_path i = latest says_path (B "/") (rev cs) /\
  i_secure i = latest says_secure true (rev cs) /\ i_http_only i = latest says_http_only true (rev cs) /\
  i_issuer i = latest says_issuer None (rev cs) /\ i_expiration i = latest says_expires 86400%N (rev cs).
Proof. exact built. Qed.
Print Assumptions C74_builder.
Example C74_case : exists r', set_auth_token toy true 1000 default_id (B "ann") rw_new = Some r' /\
  values (B "Set-Cookie") (hm_iter (r_headers r')) = [B "jwt=" ++ toy_sign (B "secret_server_key") (mkClaims 87400 [] (B "ann")) ++ B "; HttpOnly; Secure; Path=/; Max-Age=86400"].
Proof. eexists. split; vm_compute; reflexivity. Qed.
