(** Properties C48, C49 and C50 over a connection: from the bytes of a cross-origin request to the
    bytes of its answer. *)
From Verif Require Import SpecText Accept Cors RespWriter SpecChunked SpecHead SpecResponse SpecReq SpecServer SpecWriter SpecCors Lemmas Proofs_Copy Proofs_Head Proofs_Map Proofs_Send Proofs_Accept
  Proofs_Request Proofs_Glitch Proofs_Writer Proofs_Turns Proofs_Cors Examples_Response Examples_Dec Examples_Request Properties_Writer Properties_Cors.

Lemma request_fields ev tmo s wt s' wt' q b m t minor hs w rest : (0 < e_bufcap ev)%nat -> wf_src s -> request_head m t minor hs w ->
  fst (avail tmo (s_evs s)) = w ++ rest -> decode ev tmo s wt = (s', wt', OReq q b) -> hm_wf (q_hdrs q) /\ q_meth q = m /\ forall n, field q n = values n hs.
Proof.
  intros Hc Ws R A H. destruct (decode_req ev tmo s wt s' wt' q b Hc Ws H) as (_ & _ & _ & _ & _ & _ & _ & _ & _ & _ & _ & _ & _ & _ & _ & (_ & _ & _ & W & _) & _).
  split; [exact W|]. destruct (strict_obtained ev tmo s wt s' wt' q b m t minor hs w rest Hc Ws R A H) as (_ & M & _ & V). split; [exact M|].
  intros n. unfold field. rewrite values_get_all by exact W. apply V.
Qed.

(** C48: a request from an origin that is not allowed is answered 400, whatever the endpoint
    would do: no body, and no fields but the length and the date. *)
Theorem C48_connection : forall ev oo f cs c h s wt s1 wt1 q b meth t minor hs w more o rest, env_ok ev -> configured f cs c -> wf_src s ->
  request_head meth t minor hs w -> fst (avail (o_timeout oo) (s_evs s)) = w ++ more -> values (B "origin") hs = o :: rest -> ~ allows_origin f cs o ->
  decode ev (o_timeout oo) s wt = (s1, wt1, OReq q b) -> accepting wt1 ->
  exists m fs F wt', read_head m = Some (B "HTTP/1.1 400 Bad Request", fs, []) /\ values (B "content-type") fs = [] /\ (forall n, special n = false -> values n fs = []) /\
    w_out wt' = w_out wt1 ++ m /\ forall fuel, (F <= fuel)%nat -> turn fuel ev oo (with_cors c h) s wt = (body_src b, wt', None).
Proof.
  intros ev oo f cs c h s wt s1 wt1 q b meth t minor hs w more o rest He HC Ws R A V N D Ha.
  destruct (request_fields _ _ _ _ _ _ _ _ _ _ _ _ _ _ (ok_cap ev He) Ws R A D) as (WQ & _ & FQ). rewrite <- FQ in V.
  destruct (C48_endpoint f cs c q o rest h HC WQ V N) as (g & RG & E).
  destruct (handler_fails ev oo (with_cors c h) s wt s1 wt1 q b 0 b g He D) as (m & F & wt' & M & O & T); auto.
  - rewrite E. reflexivity.
  - injection RG as ->. discriminate.
  - injection RG as ->. unfold glitch_text. destruct (o_verbose oo); cbn; apply He.
  - destruct (C48_wire g _ _ m RG M) as (fs & RH & CT & OT). exists m, fs, F, wt'. auto.
Qed.
Print Assumptions C48_connection.
(** C50: a preflight is answered by Cors alone. What it asks for is read off the wire. *)
Definition wire_asks (cs : list bcall) (hs : list (bytes * bytes)) : Prop :=
  (exists m r, values (B "access-control-request-method") hs = m :: r /\ allows_method cs m) /\
  (values (B "access-control-request-headers") hs = [] \/
   exists v r xs, values (B "access-control-request-headers") hs = v :: r /\ commas xs v /\ forall x, In x xs -> allows_header cs x).
Theorem C50_connection : forall ev oo f cs c h s wt s1 wt1 q b t minor hs w more o rest, env_ok ev -> configured f cs c -> wf_src s ->
  request_head (B "OPTIONS") t minor hs w -> fst (avail (o_timeout oo) (s_evs s)) = w ++ more -> values (B "origin") hs = o :: rest -> allows_origin f cs o ->
  decode ev (o_timeout oo) s wt = (s1, wt1, OReq q b) -> accepting wt1 ->
  exists m sl fs F wt', read_head m = Some (sl, fs, []) /\
    (wire_asks cs hs -> sl = B "HTTP/1.1 200 OK" /\ exists new, preflight_headers cs o new /\ forall n, special n = false -> values n fs = new n) /\
    (~ wire_asks cs hs -> sl = B "HTTP/1.1 400 Bad Request" /\ forall n, special n = false -> values n fs = []) /\
    w_out wt' = w_out wt1 ++ m /\ forall fuel, (F <= fuel)%nat -> turn fuel ev oo (with_cors c h) s wt = (body_src b, wt', None).
Proof.
  intros ev oo f cs c h s wt s1 wt1 q b t minor hs w more o rest He HC Ws R A V N D Ha.
  destruct (request_fields _ _ _ _ _ _ _ _ _ _ _ _ _ _ (ok_cap ev He) Ws R A D) as (WQ & MQ & FQ). rewrite <- FQ in V.
  assert (AS : asks_allowed cs q <-> wire_asks cs hs) by (unfold asks_allowed, wire_asks; now rewrite !FQ).
  destruct (C50_preflight f cs c q o rest rw_new HC WQ V N MQ) as [P1 P2].
  assert (OR : preflight_ok c (q_hdrs q) = true \/ preflight_ok c (q_hdrs q) = false) by (destruct (preflight_ok c (q_hdrs q)); auto).
  pose proof (preflight_asks f cs c HC q WQ) as PA. 
  assert (DEC : asks_allowed cs q \/ ~ asks_allowed cs q) by (destruct OR as [X|X]; [left; now apply PA|right; intros Y; apply PA in Y; congruence]).
  destruct DEC as [Y|Y].
  - destruct (P1 Y) as (hs' & W' & PH & VE). 
    destruct (handler_fails ev oo (with_cors c h) s wt s1 wt1 q b 0 b (mkGlitch (Some 200%N) (Some hs') None None None) He D) as (m & F & wt' & M & O & T); auto.
    + unfold with_cors. rewrite VE. reflexivity.
    + cbn. intros ? [= <-]. exact W'.
    + unfold glitch_text. destruct (o_verbose oo); cbn; apply He.
    + destruct (C50_wire cs o hs' _ _ m W' PH M) as (fs & RH & _ & OT). exists m, (B "HTTP/1.1 200 OK"), fs, F, wt'. split; [exact RH|]. split; [|tauto].
      intros _. split; [reflexivity|]. eexists. split; [exact PH|]. exact OT.
  - destruct (P2 Y) as (x & VE & RX). unfold refusal in RX. subst x.
    destruct (handler_fails ev oo (with_cors c h) s wt s1 wt1 q b 0 b (mkGlitch (Some 400%N) None None None None) He D) as (m & F & wt' & M & O & T); auto.
    + unfold with_cors. rewrite VE. reflexivity.
    + discriminate.
    + unfold glitch_text. destruct (o_verbose oo); cbn; apply He.
    + destruct (C48_wire _ _ _ m eq_refl M) as (fs & RH & _ & OT). exists m, (B "HTTP/1.1 400 Bad Request"), fs, F, wt'. split; [exact RH|]. tauto.
Qed.
Print Assumptions C50_connection.

(** C49: any other request from an allowed origin reaches the endpoint, and whatever the endpoint
    makes of its writer, as long as it leaves the three fields alone, they are in what it sends. *)
Definition three : list bytes := [B "access-control-allow-origin"; B "access-control-allow-credentials"; B "access-control-expose-headers"].
Theorem C49_connection : forall ev tmo f cs c h s wt s1 wt1 q b meth t minor hs w more o rest, env_ok ev -> configured f cs c -> wf_src s ->
  request_head meth t minor hs w -> fst (avail tmo (s_evs s)) = w ++ more -> values (B "origin") hs = o :: rest -> allows_origin f cs o -> meth <> B "OPTIONS" ->
  decode ev tmo s wt = (s1, wt1, OReq q b) ->
  exists r, with_cors c h q = h q r /\ resp_wf r /\
    forall ws r' date m, Forall call_typed ws -> (forall n k, In n three -> In k ws -> says_header n k = None) -> rw_calls ws r = Some r' -> message date r' m ->
      exists sl fs text, read_head m = Some (sl, fs, text) /\ common cs o (fun _ => []) (fun n => values n fs) /\
        first_line (latest says_version (r_version rw_new) (rev ws)) (latest says_status 200%N (rev ws)) sl /\
        body_text (latest says_body (r_body rw_new) (rev ws)) text /\
        forall n, special n = false -> ~ In (lowered n) three -> values n fs = header_said n [] (rev ws).
Proof.
  intros ev tmo f cs c h s wt s1 wt1 q b meth t minor hs w more o rest He HC Ws R A V N NO D.
  destruct (request_fields _ _ _ _ _ _ _ _ _ _ _ _ _ _ (ok_cap ev He) Ws R A D) as (WQ & MQ & FQ). rewrite <- FQ in V.
  assert (W0 : resp_wf rw_new) by (split; constructor).
  destruct (C49_simple f cs c q o rest rw_new HC WQ W0 V N ltac:(now rewrite MQ)) as (r & VE & WR & SR & VR & BR & CR & OR).
  exists r. split; [unfold with_cors; now rewrite VE|]. split; [exact WR|]. intros ws r' date m T K E M.
  destruct (C45_wire ws r r' date m WR T E M) as (sl & fs & text & RH & FL & HV & BT). exists sl, fs, text. split; [exact RH|].
  rewrite SR, VR, BR in *.
  assert (NS : forall n old l, (forall k, In k l -> says_header n k = None) -> header_said n old l = old).
  { intros n old l. induction l as [|k l IH]; intros HN; [reflexivity|]. cbn [header_said]. rewrite (HN k (or_introl eq_refl)). apply IH. intros k' HI. apply HN. now right. }
  assert (S3 : forall n, In n three -> values n fs = values n (hm_iter (r_headers r))).
  { intros n HI. rewrite HV by (destruct HI as [<-|[<-|[<-|[]]]]; reflexivity). apply NS. intros k HK. apply K; [exact HI|]. now apply in_rev. }
  split; [|split; [exact FL|split; [exact BT|]]].
  - unfold common in *. rewrite !S3 by (cbn; tauto). exact CR.
  - intros n Hn HI. rewrite HV by exact Hn. f_equal. rewrite OR by exact HI. reflexivity.
Qed.
Print Assumptions C49_connection.

(** Cases: heads written out from their parts. *)
Definition written (m : bytes) (hs : list (bytes * bytes)) : bytes :=
  m ++ [SP] ++ B "/cart" ++ [SP] ++ B "HTTP/1.1" ++ CRLF ++ concat (map (fun f => fst f ++ [COLON] ++ [SP] ++ snd f ++ CRLF) hs) ++ CRLF.
Definition writable (f : bytes * bytes) : bool :=
  negb (length (fst f) =? 0)%nat && forallb tchar (fst f) && (N.of_nat (length (fst f)) <=? 65535)%N && forallb (fun c => (33 <=? bv c)%N && (bv c <? 127)%N) (snd f).
Lemma written_head m hs : m <> [] -> forallb tchar m = true -> forallb writable hs = true -> request_head m (B "/cart") 1 hs (written m hs).
Proof.
  intros M0 M1 HW. exists (B "HTTP/1.1"), (concat (map (fun f => fst f ++ [COLON] ++ [SP] ++ snd f ++ CRLF) hs)). split; [reflexivity|].
  rewrite forallb_forall in M1. split; [split; [exact M0|now apply Forall_forall]|]. split; [repeat constructor; discriminate|]. split; [now left|].
  induction hs as [|[n v] hs IH]; [constructor|]. cbn [forallb] in HW. apply andb_true_iff in HW as [H1 H2]. cbn [map concat fst snd]. constructor; [|now apply IH].
  unfold writable in H1. cbn [fst snd] in H1. apply andb_true_iff in H1 as [H1 HV]. apply andb_true_iff in H1 as [H1 HL]. apply andb_true_iff in H1 as [HN HT].
  rewrite forallb_forall in HT, HV. exists [SP]. split; [split; [now destruct n|split; [now apply Forall_forall|lia]]|]. split; [|split; [repeat constructor|reflexivity]].
  split; [|split].
  - apply Forall_forall. intros c HI. specialize (HV c HI). left. lia.
  - intros c r -> X. specialize (HV c (or_introl eq_refl)). destruct X as [X|X]; rewrite X in HV; discriminate.
  - intros c r -> X. specialize (HV c (in_elt c r [])). destruct X as [X|X]; rewrite X in HV; discriminate.
Qed.
Definition from (o : string) : list (bytes * bytes) := [(B "Host", B "h"); (B "Origin", B o)].
Definition wants (l : list (bytes * bytes)) : list (bytes * bytes) := from "http://localhost:8000" ++ l.
Definition meets (m : bytes) (hs : list (bytes * bytes)) : Prop :=
  let s := arrives (written m hs) [] in env_ok (ev0 true) /\ configured plain_origin shop shop_cors /\ wf_src s /\ request_head m (B "/cart") 1 hs (written m hs) /\
  fst (avail true (s_evs s)) = written m hs ++ [] /\ exists s1 wt1 q b, decode (ev0 true) true s slow = (s1, wt1, OReq q b) /\ accepting wt1.
Ltac meet := split; [apply ev0_ok|]; split; [apply shop_configured|]; split; [apply arrives_wf; cbn; lia|]; split; [apply written_head; [discriminate|reflexivity|reflexivity]|];
  split; [now rewrite arrives_avail|]; do 4 eexists; split; [vm_compute; reflexivity|repeat constructor; cbn; lia].
Example C48_connection_case : meets (B "POST") (from "http://old.example") /\ values (B "origin") (from "http://old.example") = [B "http://old.example"] /\
  ~ allows_origin plain_origin shop (B "http://old.example").
Proof. split; [meet|]. split; [reflexivity|apply shop_not_origin]. Qed.
Example C49_connection_case : meets (B "POST") (from "https://shop.example") /\ values (B "origin") (from "https://shop.example") = [B "https://shop.example"] /\
  allows_origin plain_origin shop (B "https://shop.example") /\
  w_out (snd (fst (turn 300 (ev0 true) default_opts (with_cors shop_cors (fun _ r => Rt (PSend r (fun _ => Rt None) (Rt glitch_ise)))) (arrives (written (B "POST") (from "https://shop.example")) []) (mkWtr [] [])))) =
  lines ["HTTP/1.1 200 OK"; "content-length: 0"; "date: Thu, 01 Jan 1970 00:00:00 GMT"; "access-control-allow-credentials: true";
         "access-control-expose-headers: x-total"; "access-control-allow-origin: https://shop.example"]%string.
Proof. split; [meet|]. split; [reflexivity|]. split; [apply shop_origin|vm_compute; reflexivity]. Qed.
Definition may : list (bytes * bytes) := wants [(B "Access-Control-Request-Method", B "POST"); (B "Access-Control-Request-Headers", B "Content-Type,x-token")].
Definition may_not : list (bytes * bytes) := wants [(B "Access-Control-Request-Method", B "DELETE")].
Example C50_connection_case : meets (B "OPTIONS") may /\ wire_asks shop may /\ meets (B "OPTIONS") may_not /\ ~ wire_asks shop may_not /\
  values (B "origin") may = [B "http://localhost:8000"] /\ values (B "origin") may_not = [B "http://localhost:8000"] /\ allows_origin plain_origin shop (B "http://localhost:8000").
Proof.
  split; [meet|]. split.
  { pose (q := ask "OPTIONS" [hdr "origin" "http://localhost:8000"; hdr "access-control-request-method" "POST"; hdr "access-control-request-headers" "Content-Type,x-token"]).
    assert (W : hm_wf (q_hdrs q)) by (split; repeat constructor; cbn; intuition discriminate). 
    assert (K : asks_allowed shop q) by (apply (preflight_asks _ _ _ shop_configured q W); vm_compute; reflexivity). exact K. }
  split; [meet|]. split.
  { pose (q := ask "OPTIONS" [hdr "origin" "http://localhost:8000"; hdr "access-control-request-method" "DELETE"]).
    assert (W : hm_wf (q_hdrs q)) by (split; repeat constructor; cbn; intuition discriminate). 
    assert (K : ~ asks_allowed shop q) by (intros X; apply (preflight_asks _ _ _ shop_configured q W) in X; discriminate X). exact K. }
  do 2 (split; [reflexivity|]). apply (origin_allowed _ _ _ shop_configured). reflexivity.
Qed.
