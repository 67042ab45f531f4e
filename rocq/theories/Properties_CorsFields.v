(** Property C132: configurations written into the builder's public fields. *)
From Verif Require Import SpecText Cors SpecReq SpecHead SpecResponse SpecServer SpecGlitch SpecWriter SpecCors SpecCorsFields Lemmas Proofs_Head Proofs_Glitch Proofs_Cors Proofs_CorsFields
  Examples_Response Examples_Request Examples_Accept Proofs_Text Properties_Cors.

(** Whatever the types of the fields allow is a configuration that builder calls make, and the
    calls say what the fields say; so C47-C52 hold for it. *)
Theorem C132_fields : forall b oh oe om, filled b -> order oh -> order oe -> order om ->
  exists f cs, configured f cs (cors_finish oh oe om b) /\
    (forall m, allows_method cs m <-> In m (cb_methods b)) /\
    (forall n, allows_header cs n <-> In (lowered n) (cb_headers b)) /\
    (forall n, exposes_header cs n <-> In (lowered n) (cb_exposed b)) /\
    credentials cs = cb_credentials b /\ age cs = cb_age b /\
    (forall o, allows_origin f cs o <-> lets_in b o).
Proof. intros b oh oe om F P1 P2 P3. exists field_origin, (filling b). split; [now apply fields_configured|]. now apply fields_say. Qed.
Print Assumptions C132_fields.

(** The builder's own methods stay within the types. *)
Theorem C132_types : filled cors_build /\ forall f c b b', filled b -> b_call f c b = Some b' -> filled b'.
Proof. split; [repeat split; constructor|exact filled_call]. Qed.
Print Assumptions C132_types.

(** In terms of requests and answers: an origin not among those of the fields is refused ... *)
Theorem C132_refused : forall b oh oe om q o rest r, filled b -> order oh -> order oe -> order om -> hm_wf (q_hdrs q) ->
  field q (B "origin") = o :: rest -> ~ lets_in b o -> exists x, validate (cors_finish oh oe om b) q r = (r, x) /\ refusal x.
Proof.
  intros b oh oe om q o rest r F P1 P2 P3 W E N. apply (C48_refused field_origin (filling b) _ q o rest r (fields_configured b oh oe om F P1 P2 P3) W E).
  intros A. apply N. now apply (fields_say b F).
Qed.
Print Assumptions C132_refused.

(** ... a request other than OPTIONS from one of them passes, and its answer carries what the
    fields say ... *)
Theorem C132_simple : forall b oh oe om q o rest r, filled b -> order oh -> order oe -> order om -> hm_wf (q_hdrs q) -> resp_wf r ->
  field q (B "origin") = o :: rest -> lets_in b o -> q_meth q <> B "OPTIONS" ->
  exists r', validate (cors_finish oh oe om b) q r = (r', inl tt) /\ resp_wf r' /\ r_status r' = r_status r /\ r_version r' = r_version r /\ r_body r' = r_body r /\
    let old n := values n (hm_iter (r_headers r)) in
    let new n := values n (hm_iter (r_headers r')) in
    new (B "access-control-allow-origin") = [o] /\
    new (B "access-control-allow-credentials") = (if cb_credentials b then [B "true"] else old (B "access-control-allow-credentials")) /\
    (cb_exposed b = [] /\ new (B "access-control-expose-headers") = old (B "access-control-expose-headers") \/
     exists l, new (B "access-control-expose-headers") = [l] /\ lists_all (fun n => In n (cb_exposed b)) l) /\
    forall n, ~ In (lowered n) [B "access-control-allow-origin"; B "access-control-allow-credentials"; B "access-control-expose-headers"] -> new n = old n.
Proof.
  intros b oh oe om q o rest r F P1 P2 P3 W R E A M.
  destruct (C49_simple field_origin (filling b) _ q o rest r (fields_configured b oh oe om F P1 P2 P3) W R E) as (r' & V & R' & S & VE & BO & C & O); [now apply (fields_say b F)|exact M|].
  exists r'. destruct (common_fields b o _ _ F C) as (C1 & C2 & C3). cbv zeta. ands; assumption.
Qed.
Print Assumptions C132_simple.

(** ... and a preflight from one of them is granted exactly when it asks for a method and for
    headers that the fields hold; the grant lists them all. *)
Theorem C132_preflight : forall b oh oe om q o rest r, filled b -> order oh -> order oe -> order om -> hm_wf (q_hdrs q) ->
  field q (B "origin") = o :: rest -> lets_in b o -> q_meth q = B "OPTIONS" ->
  (asks_within b q -> exists hs, hm_wf hs /\ validate (cors_finish oh oe om b) q r = (r, inr (mkGlitch (Some 200%N) (Some hs) None None None)) /\
     let new n := values n (hm_iter hs) in
     new (B "access-control-allow-origin") = [o] /\
     new (B "access-control-allow-credentials") = (if cb_credentials b then [B "true"] else []) /\
     (exists l, new (B "access-control-allow-methods") = [l] /\ lists_all (fun m => In m (cb_methods b)) l) /\
     (exists l, new (B "access-control-allow-headers") = [l] /\ lists_all (fun n => In n (cb_headers b)) l) /\
     match cb_age b with
     | Some a => exists d, new (B "access-control-max-age") = [d] /\ numeral d a
     | None => new (B "access-control-max-age") = []
     end) /\
  (~ asks_within b q -> exists x, validate (cors_finish oh oe om b) q r = (r, x) /\ refusal x).
Proof.
  intros b oh oe om q o rest r F P1 P2 P3 W E A M. destruct (fields_say b F) as (SM & SH & SE & SC & SA & SO). pose proof F as ((_ & FH) & _).
  assert (AA : asks_allowed (filling b) q <-> asks_within b q).
  { unfold asks_allowed, asks_within. split; (intros [(m & t & E1 & E2) K]; split; [exists m, t; split; [exact E1|now apply SM]|]); (destruct K as [K|(v & t' & xs & K1 & K2 & K3)]; [now left|right]); exists v, t', xs; (split; [exact K1|split; [exact K2|]]); intros x I; now apply SH, K3. }
  destruct (C50_preflight field_origin (filling b) _ q o rest r (fields_configured b oh oe om F P1 P2 P3) W E) as [G N]; [now apply SO|exact M|].
  split; [|intros K; apply N; now rewrite AA].
  intros K. apply AA in K. destruct (G K) as (hs & WH & (C & (lm & M1 & M2) & (lh & H1 & H2) & AG & _) & V). exists hs. split; [exact WH|]. split; [exact V|]. cbv zeta.
  destruct (common_fields b o _ _ F C) as (C1 & C2 & _). split; [exact C1|]. split; [exact C2|].
  split; [exists lm; split; [exact M1|revert M2; apply lists_same; exact SM]|]. split; [|now rewrite SA in AG].
  exists lh. split; [exact H1|]. revert H2. apply lists_same. intros n. rewrite SH. now apply small_in.
Qed.
Print Assumptions C132_preflight.

(** The case: an opaque origin, which no url names, set in the field itself. *)
Definition opaque : builder := mkBuilder true [B "x-token"; B "content-type"] [B "x-total"] None [B "GET"; B "PURGE"] (Some [B "null"; B "https://shop.example"]).
Lemma opaque_filled : filled opaque.
Proof.
  unfold filled, opaque, small_name, token. cbn [cb_headers cb_exposed cb_methods cb_origins].
  split; [|split; [|split]]; (split; [repeat constructor; cbn; intuition discriminate|]); repeat constructor; try discriminate; try (vm_compute; split; discriminate); vm_compute; discriminate.
Qed.
Example C132_case : filled opaque /\ order (@rev bytes) /\
  (let q := ask "GET" [hdr "origin" "null"] in hm_wf (q_hdrs q) /\ field q (B "origin") = [B "null"] /\ lets_in opaque (B "null") /\ q_meth q <> B "OPTIONS") /\
  (let q := ask "GET" [hdr "origin" "http://old.example"] in field q (B "origin") = [B "http://old.example"] /\ ~ lets_in opaque (B "http://old.example")) /\
  (let q := ask "OPTIONS" [hdr "origin" "null"; hdr "access-control-request-method" "PURGE"; hdr "access-control-request-headers" "X-Token,content-type"] in
   hm_wf (q_hdrs q) /\ field q (B "origin") = [B "null"] /\ asks_within opaque q).
Proof.
  split; [exact opaque_filled|]. split; [intros l; apply Permutation_sym, Permutation_rev|].
  split; [split; [split; repeat constructor; cbn; intuition discriminate|]; split; [reflexivity|]; split; [now left|discriminate]|].
  split; [split; [reflexivity|]; cbn; intuition discriminate|].
  split; [split; repeat constructor; cbn; intuition discriminate|]. split; [reflexivity|]. split.
  - exists (B "PURGE"), []. split; [reflexivity|]. right. now left.
  - right. exists (B "X-Token,content-type"), [], [B "X-Token"; B "content-type"]. split; [reflexivity|]. split.
    + change (B "X-Token,content-type") with (B "X-Token" ++ B "," ++ B "content-type"). constructor; [cbn; intuition discriminate|]. constructor. cbn; intuition discriminate.
    + intros x [<-|[<-|[]]]; [now left|right; now left].
Qed.
