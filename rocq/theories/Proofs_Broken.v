(** Heads with a broken field line are no heads. *)
From Verif Require Import Accept Client SpecText SpecChunked SpecHead SpecResponse SpecReq SpecServer SpecClient Lemmas Proofs_Parse Proofs_ReqParse Proofs_Text Proofs_Accept Proofs_Request Proofs_ClientDec Proofs_ClientUse.

Lemma name_broken n c r : Forall (fun c => tchar c = true) n -> tchar c = false -> c <> COLON -> hp_name (n ++ c :: r) = HErr.
Proof.
  intros F T NC. plain. induction F as [|d n Hd _ IH]; cbn [app hp_name].
  - apply Ascii.eqb_neq in NC. now rewrite NC, T.
  - destruct (Ascii.eqb_spec d COLON) as [->|]; [discriminate|]. now rewrite Hd, IH.
Qed.
Lemma value_broken v c r : Forall value_char v -> ~ value_char c -> c <> LF -> (c = CR -> exists d r', r = d :: r' /\ d <> LF) -> hp_value (v ++ c :: r) = HErr.
Proof.
  intros F N NL NC. induction F as [|d v Hd _ IH]; cbn [app hp_value].
  - unfold is_hp_value. destruct (is_value_byte c) eqn:E; [now elim N; apply value_char_iff|]. unfold parse_newline. destruct (Ascii.eqb_spec c CR) as [->|].
    + destruct (NC eq_refl) as (d & r' & -> & ND). apply Ascii.eqb_neq in ND. now rewrite ND.
    + apply Ascii.eqb_neq in NL. now rewrite NL.
  - apply value_char_iff in Hd. unfold is_hp_value. now rewrite Hd, IH.
Qed.
Lemma skip_broken v c r : ~ value_char c -> Forall value_char v -> exists v', Forall value_char v' /\ skip_ws (v ++ c :: r) = v' ++ c :: r.
Proof.
  intros N. induction 1 as [|d v Hd F IH]; cbn [app skip_ws].
  - exists []. split; [constructor|]. destruct (is_ws c) eqn:E; [|reflexivity]. elim N. apply ows_iff in E. destruct E as [->| ->]; [left; cbn; lia|now right].
  - destruct (is_ws d); [exact IH|]. exists (d :: v). split; [now constructor|reflexivity].
Qed.
Lemma line_broken trim u : broken_line u -> forall k, hp_headers trim k u = HErr.
Proof.
  intros HB k. inversion HB as [n c r F T C0 N0 E|n v c r [Nn Fn] FV N NL NC E]; subst.
  - destruct n as [|d n].
    + destruct (N0 eq_refl) as [N1 N2]. plain. apply Ascii.eqb_neq in N1, N2. cbn [app]. destruct k; cbn [hp_headers]; now rewrite N1, N2, T.
    + assert (NC : c <> COLON) by (destruct C0; [assumption|discriminate]). pose proof (name_broken _ _ r F T NC) as P. inversion F as [|? ? Td]; subst. plain.
      cbn [app] in *. destruct k; cbn [hp_headers]; rewrite (tchar_not_nl d Td), Td; [reflexivity|]. now rewrite P.
  - destruct n as [|d n]; [easy|]. inversion Fn as [|? ? Td]; subst.
    assert (PN : hp_name ((d :: n) ++ [COLON] ++ v ++ c :: r) = HDone (d :: n, v ++ c :: r)) by (apply hp_name_iff; auto).
    destruct (skip_broken v c r N FV) as (v' & FV' & PS). plain. cbn [app] in *. destruct k; cbn [hp_headers]; rewrite (tchar_not_nl d Td), Td; [reflexivity|].
    rewrite PN. cbn [hbind fst snd]. rewrite PS, value_broken by assumption. reflexivity.
Qed.
Lemma fields_broken trim hs fw u : lfields trim hs fw -> broken_line u -> forall k, hp_headers trim k (fw ++ u) = HErr.
Proof.
  intros L HB. induction L as [|n v l hs fw LF1 L IH]; intros k; [now apply line_broken|].
  destruct (lfield_cons _ _ _ _ LF1) as (c & t & Ec & Tc).
  destruct LF1 as (ws & raw & ws2 & nl1 & -> & [Nn Fn] & Fw & FV & Hraw & Hn1 & E2 & F2 & H2).
  set (rest := fw ++ u) in *.
  assert (PV : hp_value (raw ++ nl1 ++ rest) = HDone (raw, rest)) by (apply hp_value_iff; exists nl1; auto).
  assert (PN : hp_name (n ++ [COLON] ++ ws ++ raw ++ nl1 ++ rest) = HDone (n, ws ++ raw ++ nl1 ++ rest)) by (apply hp_name_iff; auto).
  assert (PS : skip_ws (ws ++ raw ++ nl1 ++ rest) = raw ++ nl1 ++ rest).
  { apply skip_ws_unique; [assumption|]. intros d y E. destruct raw as [|x raw].
    - destruct (nl_cons _ Hn1) as (x & t' & -> & Hx). injection E as -> _. intros [->| ->]; destruct Hx; discriminate.
    - injection E as -> _. now apply (Hraw d raw). }
  replace (((n ++ [COLON] ++ ws ++ raw ++ nl1) ++ fw) ++ u) with (n ++ [COLON] ++ ws ++ raw ++ nl1 ++ rest) by (unfold rest; rewrite <- !app_assoc; reflexivity).
  destruct n as [|c' n']; [easy|]. injection Ec as -> _. cbn [app] in *. destruct k; cbn [hp_headers]; rewrite (tchar_not_nl c Tc), Tc; [reflexivity|].
  rewrite PN. cbn [hbind fst snd]. rewrite PS, PV. cbn [hbind fst snd]. now rewrite IH.
Qed.
Lemma head_broken trim slots w : broken_head trim w -> parse_request trim slots w = HErr.
Proof.
  intros (bl & m & u & v & ver & nl & hs & fw & br & -> & Hb & Tm & Fu & Hv & Hn & LFS & HB). unfold parse_request.
  set (l5 := fw ++ br). set (l4 := nl ++ l5). set (l3 := ver ++ l4). set (l2 := u ++ [SP] ++ l3). set (l1 := m ++ [SP] ++ l2).
  assert (P1 : skip_empty_lines (bl ++ l1) = HDone l1).
  { apply skip_empty_iff. exists bl. ands; auto. destruct Tm as [Nm Fm]. destruct m as [|c m]; [easy|]. inversion Fm; subst.
    exists c, (m ++ [SP] ++ l2). ands; auto; intros ->; discriminate. }
  rewrite P1. cbn [hbind fst snd].
  assert (P2 : hp_method l1 = HDone (m, l2)) by (apply hp_method_iff; auto). rewrite P2. cbn [hbind fst snd].
  assert (P3 : hp_uri l2 = HDone (u, l3)) by (apply hp_uri_iff; auto). rewrite P3. cbn [hbind fst snd].
  assert (P4 : hp_version l3 = HDone (v, l4)) by (apply hp_version_iff; eauto). rewrite P4. cbn [hbind fst snd].
  assert (P5 : parse_newline l4 = HDone l5) by (apply nl_iff; eauto). rewrite P5. cbn [hbind fst snd].
  assert (P6 : hp_headers trim slots l5 = HErr) by exact (fields_broken trim hs fw br LFS HB slots). now rewrite P6.
Qed.
Lemma broken_not_grammatical trim w rl hs : broken_head trim w -> ~ grammatical trim rl hs w.
Proof.
  intros HB (x & y & -> & L & _). pose proof (head_broken trim (length hs) _ HB) as P.
  assert (P1 : parse_request trim (length hs) (x ++ y) = HDone (mkHreq (l_method rl) (l_target rl) (l_minor rl) hs y)).
  { apply parse_request_iff. exists x. cbn. destruct rl. auto. }
  congruence.
Qed.
Lemma broken_refused ev o s w : env_ok ev -> offers (o_timeout o) s w -> broken_head (e_trim ev) w -> refused ev o s false 400.
Proof. intros He HO HB. eapply refuse; eauto. apply j_syntax. intros rl hs. now apply broken_not_grammatical. Qed.

(** ** Responses *)
Lemma resp_broken trim slots w : broken_resp trim w -> parse_response trim slots w = HErr.
Proof.
  intros (bl & v & ver & cw & cd & rsn & nl & hs & fw & br & -> & Hb & Hv & Hc & HR & Hn & LFS & HB). unfold parse_response.
  set (l5 := fw ++ br). set (l4 := nl ++ l5). set (l3 := rsn ++ l4). set (l2 := cw ++ l3). set (l1 := ver ++ [SP] ++ l2).
  assert (P1 : skip_empty_lines (bl ++ l1) = HDone l1).
  { apply skip_empty_iff. exists bl. ands; auto. destruct Hv as [[_ ->]|[_ ->]]; eexists _, _; (split; [reflexivity|]); split; discriminate. }
  rewrite P1. cbn [hbind fst snd].
  assert (P2 : hp_version l1 = HDone (v, [SP] ++ l2)) by (apply hp_version_iff; eauto). rewrite P2. cbn [hbind fst snd app].
  change (Ascii.eqb SP SP) with true. cbv iota. cbn [hbind fst snd].
  assert (P3 : hp_code l2 = HDone (cd, l3)) by (apply hp_code_iff; eauto). rewrite P3. cbn [hbind fst snd].
  assert (P6 : hp_headers trim slots l5 = HErr) by exact (fields_broken trim hs fw br LFS HB slots).
  assert (P5 : match l3 with [] => HPart | x :: r => if Ascii.eqb x SP then hp_reason r else parse_newline l3 end = HDone l5).
  { unfold l3. destruct HR as [->|(t & -> & F)].
    - cbn [app]. assert (K : parse_newline l4 = HDone l5) by (apply nl_iff; eauto). unfold l4 in *.
      destruct (nl_cons _ Hn) as (c & t & -> & Hcr). cbn [app] in *. replace (Ascii.eqb c SP) with false by (destruct Hcr as [->| ->]; reflexivity). exact K.
    - cbn [app]. change (Ascii.eqb SP SP) with true. cbv iota. apply hp_reason_iff. exists t, nl. auto. }
  etransitivity; [apply (f_equal (fun x => hbind x _)), P5|]. cbn [hbind fst snd]. now rewrite P6.
Qed.
Lemma broken_no_resp trim w minor code hs : broken_resp trim w -> ~ resp_grammatical trim minor code hs w.
Proof.
  intros HB G. apply resp_parse in G as (y & P). rewrite resp_broken in P by exact HB. discriminate.
Qed.
Lemma broken_reported ev s w rest : env_wf ev -> (0 < e_bufcap ev)%nat -> delivers s w rest -> broken_resp (e_trim ev) w -> snd (c_decode ev s) = CErr.
Proof.
  intros He Hc D HB. destruct (decode_verdict ev s w rest CvReject He Hc D) as (b & R); [|exact R].
  apply cj_syntax. intros minor code hs. now apply broken_no_resp.
Qed.
