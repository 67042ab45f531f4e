(** Properties C53-C55: the router. [find] stands for path-tree's lookup, of which only the
    contract [path_tree] (SpecRouter.v) is assumed; [ref_find] (Examples_Router.v) meets it. *)
From Verif Require Import Router SpecHead SpecResponse SpecServer SpecRouter Lemmas Proofs_Head Proofs_Send Proofs_Accept Proofs_Glitch Proofs_Router Examples_Request Examples_Router.

(** C53: false for methods with a star and for paths that do not begin with a slash, which the
    types allow: the method is part of the pattern. A route registered for the method [*] gets GET requests. *)
Theorem C53_star_method_refuted : exists (find : list (bytes * endpoint bytes) -> bytes -> option (endpoint bytes * params)) err cs q e,
  path_tree find /\ is_method (q_meth q) /\ cs = [RAt (B "*") (B "/admin") e] /\ is_method (B "*") /\ q_meth q = B "GET" /\
  exists x', route find err (rb_finish (rb_calls cs rb_new)) q no_exts rw_new = e q x' rw_new.
Proof.
  exists ref_find, [], [RAt (B "*") (B "/admin") hello_user], (to "GET" "/x"), hello_user. split; [apply ref_find_ok|]. split; [split; [discriminate|reflexivity]|]. split; [reflexivity|].
  split; [split; [discriminate|reflexivity]|]. split; [reflexivity|]. eexists. reflexivity.
Qed.
Print Assumptions C53_star_method_refuted.
(** A catch-all registered for GET without a slash in front gets requests of the method GETX. *)
Theorem C53_no_slash_refuted : exists (find : list (bytes * endpoint bytes) -> bytes -> option (endpoint bytes * params)) err cs q e,
  path_tree find /\ is_method (q_meth q) /\ cs = [RAt (B "GET") (B "*any") e] /\ q_meth q = B "GETX" /\
  exists x', route find err (rb_finish (rb_calls cs rb_new)) q no_exts rw_new = e q x' rw_new.
Proof.
  exists ref_find, [], [RAt (B "GET") (B "*any") hello_user], (to "GETX" "/x"), hello_user. split; [apply ref_find_ok|]. split; [split; [discriminate|reflexivity]|].
  do 2 (split; [reflexivity|]). eexists. reflexivity.
Qed.
Print Assumptions C53_no_slash_refuted.
(** With all other registrations: the request goes, with the writer untouched, to an endpoint
    registered for exactly its method and a pattern matching its path, ... *)
Theorem C53_routed_partial : forall V find err (cs : list (rcall V)) q x r, path_tree find -> Forall regular cs -> is_method (q_meth q) -> is_path (u_path (q_uri q)) ->
  route find err (rb_finish (rb_calls cs rb_new)) q x r = Rt (PSend (rw_set_status 404 r) (fun _ => Rt None) (Rt (glitch_err err))) \/
  exists e ps x', route find err (rb_finish (rb_calls cs rb_new)) q x r = e q x' r /\ answers cs (q_meth q) (u_path (q_uri q)) e ps.
Proof.
  intros V find err cs q x r PT R QM QP. destruct (route_cases find err cs q x r PT R QM QP) as [H|(e & ps & x' & H & A & _)]; [now left|right; eauto].
Qed.
Print Assumptions C53_routed_partial.
(** ... if there is none the answer is a 404, no endpoint having been called, ... *)
Theorem C53_not_found_partial : forall V find err (cs : list (rcall V)) q x r, path_tree find -> Forall regular cs -> is_method (q_meth q) -> is_path (u_path (q_uri q)) ->
  (forall e ps, ~ answers cs (q_meth q) (u_path (q_uri q)) e ps) ->
  exists kerr r', route find err (rb_finish (rb_calls cs rb_new)) q x r = Rt (PSend r' (fun _ => Rt None) kerr) /\
    r_status r' = 404%N /\ r_version r' = r_version r /\ r_headers r' = r_headers r /\ r_body r' = r_body r.
Proof. intros V find err cs q x r PT R QM QP N. eexists _, _. split; [now apply (route_none find err cs q x r)|]. auto. Qed.
Print Assumptions C53_not_found_partial.
(** ... and as the endpoint of a connection it answers such a request, on the wire, with an empty 404. *)
Theorem C53_wire_partial : forall V find err (cs : list (rcall V)) q, path_tree find -> Forall regular cs -> is_method (q_meth q) -> is_path (u_path (q_uri q)) ->
  (forall e ps, ~ answers cs (q_meth q) (u_path (q_uri q)) e ps) ->
  exists fin r, route_handler find err (rb_finish (rb_calls cs rb_new)) q = Rt fin /\ (forall verbose, replies verbose fin r) /\
    (forall ev, (N.of_nat (e_bufcap ev) < two64)%N -> sendable ev r) /\
    forall date m, message date r m -> exists fs, read_head m = Some (B "HTTP/1.1 404 Not Found", fs, []) /\
      values (B "content-length") fs = [B "0"] /\ forall n, special n = false -> values n fs = [].
Proof.
  intros V find err cs q PT R QM QP N. eexists _, _. split; [now apply (route_none find err cs q no_exts rw_new)|]. split; [intros v; now constructor|]. split.
  - intros ev H. split; [constructor; constructor|]. split; [constructor|]. split; [cbn; lia|]. split; [cbn; lia|]. intros _. split; [constructor|reflexivity].
  - intros date m (head & bt & (sl & fs & RH & HSL & FR & _ & _ & HO) & HB & ->).
    exists fs. inversion HB as [n Q E|cw Q]; [|discriminate Q]. cbn [rw_set_status rw_new r_body body_empty b_len] in Q. injection Q as <-.
    split; [rewrite RH, (first_line_text _ _ _ HSL); reflexivity|]. split; [|intros n Hn; now rewrite (values_others n _ _ Hn HO)]. destruct FR as (v & FV & FN & _). apply numeral_text in FN. rewrite FV, FN. reflexivity.
Qed.
Print Assumptions C53_wire_partial.
Example C53_case : @path_tree (endpoint bytes) ref_find /\ Forall regular site /\ is_method (B "GET") /\ is_path (B "/ann") /\ answers site (B "GET") (B "/ann") hello_user [(B "name", B "ann")] /\
  route_handler ref_find [] (rb_finish (rb_calls site rb_new)) (to "GET" "/ann") = say (B "Hello, name = ann and Data from datastore") /\
  (forall e ps, ~ answers site (B "PUT") (B "/ann") e ps) /\
  route_handler ref_find [] (rb_finish (rb_calls site rb_new)) (to "PUT" "/ann") = Rt (PSend (bare 404) (fun _ => Rt None) (Rt (glitch_err []))) /\
  route_handler ref_find [] (rb_finish (rb_calls site rb_new)) (to "POST" "/files/a/b") = say (B "Hello, path = a/b and Data from datastore").
Proof.
  split; [apply ref_find_ok|]. split; [apply site_regular|]. split; [split; [discriminate|reflexivity]|]. split; [right; right; apply begins_cons; now left|]. split.
  { exists (B "/:name"), (parse_pat None (B "/:name")). split; [do 3 right; now left|]. split; [apply parse_pat_ok|now apply match_pat_fits]. }
  split; [reflexivity|]. split; [|split; reflexivity].
  intros e ps (p & k & I & _). cbn in I. intuition discriminate.
Qed.

(** C54: the key under which a route is stored determines its method and its path, ... *)
Theorem C54_keys : forall m1 p1 m2 p2, is_method m1 -> is_method m2 -> begins ["/"%char] p1 -> begins ["/"%char] p2 ->
  forall V (e1 e2 : endpoint V), map fst (rb_tree (rb_at m1 p1 e1 rb_new)) = map fst (rb_tree (rb_at m2 p2 e2 rb_new)) -> m1 = m2 /\ p1 = p2.
Proof. intros m1 p1 m2 p2 M1 M2 P1 P2 V e1 e2 E. cbn [rb_at rb_tree rb_new app map fst] in E. injection E as E. now apply key_injective; [..|rewrite E]. Qed.
Print Assumptions C54_keys.
(** ... no request is matched by routes of different methods, ... *)
Theorem C54_methods : forall m1 p1 m2 p2 k1 k2 t ps1 ps2, is_method m1 -> is_method m2 -> ~ In "*"%char m1 -> ~ In "*"%char m2 ->
  begins ["/"%char] p1 -> begins ["/"%char] p2 -> pattern (m1 ++ p1) k1 -> pattern (m2 ++ p2) k2 -> fits k1 t ps1 -> fits k2 t ps2 -> m1 = m2.
Proof. exact methods_disjoint. Qed.
Print Assumptions C54_methods.
(** ... and a path without parameters matches itself only. *)
Theorem C54_literals : forall V (cs : list (rcall V)) m p1 p2 e, ~ In ":"%char p1 -> ~ In "*"%char p1 -> cs = [RAt m p1 e] ->
  forall e' ps, answers cs m p2 e' ps -> p2 = p1 /\ ps = [].
Proof.
  intros V cs m p1 p2 e N1 N2 -> e' ps (p & k & [E|[]] & P & F). injection E as -> _. now apply (literal_fits p k p2 ps).
Qed.
Print Assumptions C54_literals.
Example C54_case : is_method (B "GET") /\ is_method (B "GETX") /\ ~ In "*"%char (B "GETX") /\ begins ["/"%char] (B "/:a") /\
  pattern (B "GET" ++ B "/:a/b") (parse_pat None (B "GET/:a/b")) /\ fits (parse_pat None (B "GET/:a/b")) (B "GET/x/b") [(B "a", B "x")] /\
  answers [RAt (B "GET") (B "/x") blank] (B "GET") (B "/x") blank [].
Proof.
  do 2 (split; [split; [discriminate|reflexivity]|]). split; [cbn; intuition discriminate|]. split; [apply begins_cons; now left|]. split; [apply parse_pat_ok|]. split; [now apply match_pat_fits|].
  exists (B "/x"), (parse_pat None (B "/x")). split; [now left|]. split; [apply parse_pat_ok|now apply match_pat_fits].
Qed.

(** C55: what the endpoint finds in its request. *)
Theorem C55_endpoint : forall V find err (cs : list (rcall V)) q x r, path_tree find -> Forall regular cs -> is_method (q_meth q) -> is_path (u_path (q_uri q)) ->
  route find err (rb_finish (rb_calls cs rb_new)) q x r = Rt (PSend (rw_set_status 404 r) (fun _ => Rt None) (Rt (glitch_err err))) \/
  exists e ps x', route find err (rb_finish (rb_calls cs rb_new)) q x r = e q x' r /\ answers cs (q_meth q) (u_path (q_uri q)) e ps /\ sees cs x x' ps.
Proof. intros V. exact route_cases. Qed.
Print Assumptions C55_endpoint.
(** In particular on a connection (where requests come without extensions): the newest value
    registered for a type, and nothing for other types. *)
Theorem C55_connection : forall V find err (cs : list (rcall V)) q, path_tree find -> Forall regular cs -> is_method (q_meth q) -> is_path (u_path (q_uri q)) ->
  forall e ps, find (rb_tree (rb_calls cs rb_new)) (B "/" ++ q_meth q ++ u_path (q_uri q)) = Some (e, ps) ->
  exists x', route_handler find err (rb_finish (rb_calls cs rb_new)) q = e q x' rw_new /\ (forall t, newest (registers t) cs (req_data t x')) /\
    req_params x' = Some ps /\ forall k, first_under k ps (req_get_param k x').
Proof.
  intros V find err cs q PT R QM QP e ps E. unfold route_handler, route. cbn [rb_finish rt_tree rt_data]. rewrite E. eexists. split; [reflexivity|].
  split; [|split; [reflexivity|intros k; apply first_param_under]]. intros t. unfold req_data. cbn [x_data]. pose proof (proj2 (data_calls cs) t) as D. now destruct (rb_data (rb_calls cs rb_new)).
Qed.
Print Assumptions C55_connection.
Example C55_case : exists x', route_handler ref_find [] (rb_finish (rb_calls site rb_new)) (to "GET" "/ann") = hello_user (to "GET" "/ann") x' rw_new /\
  req_data (TBase 1) x' = Some (B "Data from datastore") /\ req_data (TBase 2) x' = Some (B "two") /\ req_data (TBase 3) x' = None /\
  newest (registers (TBase 1)) site (Some (B "Data from datastore")) /\ newest (registers (TBase 3)) site None /\
  req_get_param (B "name") x' = Some (B "ann") /\ req_get_param (B "nam") x' = None /\
  first_param (B "a") [(B "b", B "1"); (B "a", B "2"); (B "a", B "3")] = Some (B "2").
Proof.
  eexists. split; [reflexivity|]. do 3 (split; [reflexivity|]). split.
  { change site with (firstn 4 site ++ nth 4 site (RData (TBase 0) []) :: skipn 5 site). apply nw_some; [reflexivity|]. repeat constructor. }
  split; [apply nw_none; repeat constructor|]. repeat split; reflexivity.
Qed.
