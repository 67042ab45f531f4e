(** The httparse model: incremental behaviour, and what it does on the grammars of
    SpecChunked. *)
From Verif Require Import Httparse SpecChunked Lemmas Proofs_Text.

(** A parser that completes on a buffer is, on every prefix of the buffer, either partial or
    complete with the same value. *)
Definition streams {A} (P : bytes -> hres (A * bytes)) : Prop :=
  forall l1 l2 v r, P (l1 ++ l2) = HDone (v, r) ->
    P l1 = HPart \/ exists r1, P l1 = HDone (v, r1) /\ r = r1 ++ l2.

(** The remainder is shorter than the input. *)
Definition consumes {A} (P : bytes -> hres (A * bytes)) : Prop :=
  forall l v r, P l = HDone (v, r) -> exists u, u <> [] /\ l = u ++ r.

Lemma chunk_size_streams m c s : streams (chunk_size_go m c s).
Proof.
  intros l1. revert m c s. induction l1 as [|x l1 IH]; intros m c s l2 v r H; [now left|].
  cbn [app chunk_size_go] in *.
  destruct (hex_val x) as [h|] eqn:Hx.
  - destruct m.
    + destruct (15 <? c)%nat; [discriminate|]. now apply IH.
    + destruct (Ascii.eqb x CR).
      * destruct l1 as [|y l1']; [now left|]. cbn [app] in H.
        destruct (Ascii.eqb y LF); [|discriminate]. inversion H; subst. right; eauto.
      * destruct (Ascii.eqb x (ascii_of_N 59)); [now apply IH|]. destruct (is_ws x); [now apply IH|discriminate].
    + destruct (Ascii.eqb x CR).
      * destruct l1 as [|y l1']; [now left|]. cbn [app] in H.
        destruct (Ascii.eqb y LF); [|discriminate]. inversion H; subst. right; eauto.
      * now apply IH.
  - destruct m; (destruct (Ascii.eqb x CR);
      [destruct l1 as [|y l1']; [now left|]; cbn [app] in H;
        destruct (Ascii.eqb y LF); [|discriminate]; inversion H; subst; right; eauto
      |]); try (now apply IH);
    (destruct (Ascii.eqb x (ascii_of_N 59)); [now apply IH|]; destruct (is_ws x); [now apply IH|discriminate]).
Qed.

Lemma chunk_size_consumes m c s : consumes (chunk_size_go m c s).
Proof.
  intros l. revert m c s. induction l as [|x l IH]; intros m c s v r H; [discriminate|].
  cbn [chunk_size_go] in H.
  assert (K : forall m c s, chunk_size_go m c s l = HDone (v, r) -> exists u, u <> [] /\ x :: l = u ++ r).
  { intros m' c' s' H'. apply IH in H' as (u & Hu & ->). exists (x :: u). split; [discriminate|reflexivity]. }
  assert (C : match l with [] => HPart | c' :: r' => if Ascii.eqb c' LF then HDone (s, r') else HErr end = HDone (v, r) ->
              exists u, u <> [] /\ x :: l = u ++ r).
  { destruct l as [|y l']; [discriminate|]. destruct (Ascii.eqb y LF); [|discriminate].
    intros E; inversion E; subst. exists [x; y]. split; [discriminate|reflexivity]. }
  destruct (hex_val x) as [h|] eqn:Hx.
  - destruct m.
    + destruct (15 <? c)%nat; [discriminate|]. eauto.
    + destruct (Ascii.eqb x CR); [eauto|].
      destruct (Ascii.eqb x (ascii_of_N 59)); [eauto|]. destruct (is_ws x); [eauto|discriminate].
    + destruct (Ascii.eqb x CR); eauto.
  - destruct m; (destruct (Ascii.eqb x CR); [now auto|]); eauto;
    (destruct (Ascii.eqb x (ascii_of_N 59)); [now eauto|]; destruct (is_ws x); [now eauto|discriminate]).
Qed.

(** ** Header sections *)
Definition streams1 (P : bytes -> hres bytes) : Prop :=
  forall l1 l2 r, P (l1 ++ l2) = HDone r ->
    P l1 = HPart \/ exists r1, P l1 = HDone r1 /\ r = r1 ++ l2.

Lemma newline_streams : streams1 parse_newline.
Proof.
  intros l1 l2 r H. destruct l1 as [|x l1]; [now left|]. cbn [app parse_newline] in *.
  destruct (Ascii.eqb x CR).
  - destruct l1 as [|y l1]; [now left|]. cbn [app] in H. destruct (Ascii.eqb y LF); [|discriminate].
    inversion H; subst. right; eauto.
  - destruct (Ascii.eqb x LF); [|discriminate]. inversion H; subst. right; eauto.
Qed.

Lemma newline_consumes l r : parse_newline l = HDone r -> exists u, u <> [] /\ l = u ++ r.
Proof.
  destruct l as [|x l]; [discriminate|]. cbn [parse_newline]. destruct (Ascii.eqb x CR).
  - destruct l as [|y l]; [discriminate|]. destruct (Ascii.eqb y LF); [|discriminate].
    intros H; inversion H; subst. exists [x; y]. split; [discriminate|reflexivity].
  - destruct (Ascii.eqb x LF); [|discriminate]. intros H; inversion H; subst.
    exists [x]. split; [discriminate|reflexivity].
Qed.

Lemma hp_name_streams : streams hp_name.
Proof.
  intros l1. induction l1 as [|x l1 IH]; intros l2 v r H; [now left|].
  cbn [app hp_name] in *. destruct (Ascii.eqb x COLON).
  - inversion H; subst. right; eauto.
  - destruct (is_tchar x); [|discriminate].
    destruct (hp_name (l1 ++ l2)) as [[v' r']| |] eqn:E; try discriminate. cbn in H. inversion H; subst.
    destruct (IH _ _ _ E) as [->|(r1 & -> & ->)]; [now left|]. right. eexists; split; reflexivity.
Qed.
Lemma hp_name_consumes : consumes hp_name.
Proof.
  intros l. induction l as [|x l IH]; intros v r H; [discriminate|]. cbn [hp_name] in H.
  destruct (Ascii.eqb x COLON).
  - inversion H; subst. exists [x]. split; [discriminate|reflexivity].
  - destruct (is_tchar x); [|discriminate].
    destruct (hp_name l) as [[v' r']| |] eqn:E; try discriminate. cbn in H. inversion H; subst.
    destruct (IH _ _ eq_refl) as (u & Hu & ->). exists (x :: u). split; [discriminate|reflexivity].
Qed.

Lemma hp_value_streams : streams hp_value.
Proof.
  intros l1. induction l1 as [|x l1 IH]; intros l2 v r H; [now left|].
  change ((x :: l1) ++ l2) with (x :: (l1 ++ l2)) in H. cbn [hp_value] in *. destruct (is_hp_value x).
  - destruct (hp_value (l1 ++ l2)) as [[v' r']| |] eqn:E; try discriminate. cbn in H. inversion H; subst.
    destruct (IH _ _ _ E) as [->|(r1 & -> & ->)]; [now left|]. right. eexists; split; reflexivity.
  - change (x :: (l1 ++ l2)) with ((x :: l1) ++ l2) in H.
    destruct (parse_newline ((x :: l1) ++ l2)) as [r'| |] eqn:E; try discriminate. cbn in H. inversion H; subst.
    destruct (newline_streams _ _ _ E) as [->|(r1 & -> & ->)]; [now left|]. right. eexists; split; reflexivity.
Qed.
Lemma hp_value_consumes : consumes hp_value.
Proof.
  intros l. induction l as [|x l IH]; intros v r H; [discriminate|]. cbn [hp_value] in H.
  destruct (is_hp_value x).
  - destruct (hp_value l) as [[v' r']| |] eqn:E; try discriminate. cbn in H. inversion H; subst.
    destruct (IH _ _ eq_refl) as (u & Hu & ->). exists (x :: u). split; [discriminate|reflexivity].
  - destruct (parse_newline (x :: l)) as [r'| |] eqn:E; try discriminate. cbn in H. inversion H; subst.
    now apply newline_consumes in E.
Qed.

Lemma skip_ws_app l1 l2 : skip_ws l1 = [] \/ skip_ws (l1 ++ l2) = skip_ws l1 ++ l2.
Proof.
  induction l1 as [|x l1 IH]; [now left|]. cbn [app skip_ws]. destruct (is_ws x); [assumption|now right].
Qed.
Lemma skip_ws_suffix l : exists u, l = u ++ skip_ws l.
Proof.
  induction l as [|x l [u IH]]; [now exists []|]. cbn [skip_ws]. destruct (is_ws x).
  - exists (x :: u). cbn. now f_equal.
  - now exists [].
Qed.
Lemma skip_ws_streams : streams (fun l => hp_value (skip_ws l)).
Proof.
  intros l1 l2 v r H. cbv beta in *. destruct (skip_ws_app l1 l2) as [E|E].
  - left. now rewrite E.
  - rewrite E in H. now apply hp_value_streams.
Qed.

Lemma hp_headers_streams trim k : streams (hp_headers trim k).
Proof.
  induction k as [|k IH]; intros l1 l2 v r H; destruct l1 as [|x l1]; try (now left);
  change ((x :: l1) ++ l2) with (x :: (l1 ++ l2)) in H; cbn [hp_headers] in *;
  (destruct (Ascii.eqb x CR || Ascii.eqb x LF);
   [change (x :: (l1 ++ l2)) with ((x :: l1) ++ l2) in H;
    destruct (parse_newline ((x :: l1) ++ l2)) as [r'| |] eqn:E; try discriminate; cbn [hbind] in H; inversion H; subst;
    destruct (newline_streams _ _ _ E) as [->|(r1 & -> & ->)]; [now left|right; eexists; split; reflexivity]
   |]); (destruct (is_tchar x); [|discriminate]); [discriminate|].
  change (x :: (l1 ++ l2)) with ((x :: l1) ++ l2) in H.
  destruct (hp_name ((x :: l1) ++ l2)) as [[n r1]| |] eqn:E1; try discriminate. cbn [hbind fst snd] in H.
  destruct (hp_name_streams _ _ _ _ E1) as [->|(r1' & -> & ->)]; [now left|]. cbn [hbind fst snd].
  destruct (hp_value (skip_ws (r1' ++ l2))) as [[w r2]| |] eqn:E2; try discriminate. cbn [hbind fst snd] in H.
  destruct (skip_ws_streams _ _ _ _ E2) as [E2'|(r2' & E2' & ->)]; cbv beta in E2'; rewrite E2'; [now left|]. cbn [hbind fst snd].
  destruct (hp_headers trim k (r2' ++ l2)) as [[hs r3]| |] eqn:E3; try discriminate. cbn [hbind fst snd] in H.
  inversion H; subst.
  destruct (IH _ _ _ _ E3) as [->|(r3' & -> & ->)]; [now left|]. right. eexists; split; reflexivity.
Qed.

Lemma hp_headers_consumes trim k : consumes (hp_headers trim k).
Proof.
  induction k as [|k IH]; intros l v r H; destruct l as [|x l]; try discriminate; cbn [hp_headers] in H;
  (destruct (Ascii.eqb x CR || Ascii.eqb x LF);
   [destruct (parse_newline (x :: l)) as [r'| |] eqn:E; try discriminate; cbn [hbind] in H; inversion H; subst;
    now apply newline_consumes in E|]); (destruct (is_tchar x); [|discriminate]); [discriminate|].
  destruct (hp_name (x :: l)) as [[n r1]| |] eqn:E1; try discriminate. cbn [hbind fst snd] in H.
  destruct (hp_value (skip_ws r1)) as [[w r2]| |] eqn:E2; try discriminate. cbn [hbind fst snd] in H.
  destruct (hp_headers trim k r2) as [[hs r3]| |] eqn:E3; try discriminate. cbn [hbind fst snd] in H.
  inversion H; subst.
  apply hp_name_consumes in E1 as (u1 & Hu1 & ->). apply hp_value_consumes in E2 as (u2 & Hu2 & E2).
  apply IH in E3 as (u3 & Hu3 & ->). destruct (skip_ws_suffix r1) as [u1' E1']. rewrite E1', E2.
  exists (u1 ++ u1' ++ u2 ++ u3). split; [|now rewrite <- !app_assoc].
  destruct u1; [congruence|discriminate].
Qed.

(** ** The grammars of SpecChunked *)
Lemma hexdig_val c v : hexdig c v -> hex_val c = Some (N.of_nat v).
Proof.
  unfold hexdig. intros [H|H].
  all: do 16 (destruct v as [|v]; [injection H as <-; reflexivity|]); destruct v; discriminate.
Qed.

(** Digits are read one by one. *)
Lemma chunk_digits l n : hexnum l n -> forall c s rest, (c + length l <= 16)%nat ->
  chunk_size_go CsSize c s (l ++ rest) =
  chunk_size_go CsSize (c + length l) (s * 16 ^ N.of_nat (length l) + n) rest.
Proof.
  induction 1 as [x v Hx|l n x v Hl IH Hx]; intros c s rest Hc.
  - cbn [app chunk_size_go length] in *. rewrite (hexdig_val _ _ Hx).
    destruct (15 <? c)%nat eqn:E; [lia|].
    change (N.of_nat 1) with 1%N. rewrite N.pow_1_r. now replace (c + 1)%nat with (S c) by lia.
  - rewrite app_length in *. cbn [length] in *. rewrite <- app_assoc. rewrite IH by lia.
    cbn [app chunk_size_go]. rewrite (hexdig_val _ _ Hx).
    destruct (15 <? c + length l)%nat eqn:E; [lia|].
    replace (c + (length l + 1))%nat with (S (c + length l)) by lia. f_equal.
    rewrite Nat.add_1_r, Nat2N.inj_succ, N.pow_succ_r'. lia.
Qed.

Lemma chunk_ext_run t rest s c : ~ In CR t ->
  chunk_size_go CsExt c s (t ++ CRLF ++ rest) = HDone (s, rest).
Proof.
  induction t as [|x t IH]; intros H; [reflexivity|]. cbn [app chunk_size_go].
  assert (Hx : Ascii.eqb x CR = false).
  { apply Ascii.eqb_neq. intros ->. apply H. now left. }
  rewrite Hx. rewrite IH by (intros ?; apply H; now right). now destruct (hex_val x).
Qed.

Lemma ws_facts c : c = SP \/ c = HT ->
  hex_val c = None /\ Ascii.eqb c CR = false /\ Ascii.eqb c (ascii_of_N 59) = false /\ is_ws c = true.
Proof. intros [->| ->]; repeat split; reflexivity. Qed.

Lemma chunk_tail_run m e rest s c : m <> CsExt ->
  (e = [] \/ exists t, e = ascii_of_N 59 :: t /\ ~ In CR t) ->
  chunk_size_go m c s (e ++ CRLF ++ rest) = HDone (s, rest).
Proof.
  intros Hm [->|(t & -> & Ht)].
  - destruct m; [reflexivity..|congruence].
  - change ((ascii_of_N 59 :: t) ++ CRLF ++ rest) with (ascii_of_N 59 :: (t ++ CRLF ++ rest)).
    destruct m; [| |congruence]; cbn [chunk_size_go]; change (hex_val (ascii_of_N 59)) with (@None N);
    change (Ascii.eqb (ascii_of_N 59) CR) with false; change (Ascii.eqb (ascii_of_N 59) (ascii_of_N 59)) with true;
    cbv match; now apply chunk_ext_run.
Qed.

Lemma chunk_ws_run ws e rest m s c : m <> CsExt -> Forall (fun c => c = SP \/ c = HT) ws ->
  (e = [] \/ exists t, e = ascii_of_N 59 :: t /\ ~ In CR t) ->
  chunk_size_go m c s (ws ++ e ++ CRLF ++ rest) = HDone (s, rest).
Proof.
  intros Hm HW He. revert m Hm. induction HW as [|x ws Hx HW IH]; intros m Hm; [now apply chunk_tail_run|].
  cbn [app chunk_size_go]. destruct (ws_facts x Hx) as (E1 & E2 & E3 & E4). rewrite E1, E2, E3, E4.
  destruct m; [apply IH; discriminate|apply IH; discriminate|congruence].
Qed.

Lemma size_line_parse n sl rest : size_line n sl -> parse_chunk_size (sl ++ rest) = HDone (n, rest).
Proof.
  intros (digits & ext & HX & HL & (ws & e & -> & HW & He) & ->).
  unfold parse_chunk_size. rewrite <- !app_assoc, (chunk_digits _ _ HX) by lia.
  cbn [N.mul]. rewrite chunk_ws_run; [|discriminate|assumption|assumption].
  now rewrite N.add_0_l.
Qed.

Lemma size_line_len n sl : size_line n sl -> (3 <= length sl)%nat.
Proof.
  intros (digits & ext & HX & HL & _ & ->). rewrite !app_length. cbn [CRLF length].
  inversion HX; subst; rewrite ?app_length; cbn [length]; lia.
Qed.

(** Header fields. *)
Lemma tchar_not_colon c : is_tchar c = true -> Ascii.eqb c COLON = false.
Proof.
  intros H. destruct (Ascii.eqb c COLON) eqn:E; [|reflexivity]. apply Ascii.eqb_eq in E. subst. discriminate.
Qed.
Lemma tchar_not_nl c : is_tchar c = true -> (Ascii.eqb c CR || Ascii.eqb c LF)%bool = false.
Proof.
  intros H. destruct (Ascii.eqb c CR) eqn:E; [apply Ascii.eqb_eq in E; subst; discriminate|].
  destruct (Ascii.eqb c LF) eqn:E2; [apply Ascii.eqb_eq in E2; subst; discriminate|reflexivity].
Qed.

Lemma hp_name_run n rest : Forall (fun c => is_tchar c = true) n ->
  hp_name (n ++ COLON :: rest) = HDone (n, rest).
Proof.
  induction 1 as [|c n Hc Hn IH]; [reflexivity|]. cbn [app hp_name].
  rewrite (tchar_not_colon _ Hc), Hc, IH. reflexivity.
Qed.

Lemma hp_value_run v rest : forallb is_value_byte v = true ->
  hp_value (v ++ CRLF ++ rest) = HDone (v, rest).
Proof.
  induction v as [|c v IH]; intros H; [reflexivity|]. cbn [forallb] in H. apply andb_prop in H as [H1 H2].
  cbn [app hp_value]. unfold is_hp_value. rewrite H1. cbn [app] in IH. now rewrite IH.
Qed.

Lemma skip_ws_run ws l : Forall ows ws -> (forall c r, l = c :: r -> ~ ows c) -> skip_ws (ws ++ l) = l.
Proof.
  intros HW HL. induction HW as [|x ws Hx HW IH].
  - destruct l as [|c r]; [reflexivity|]. cbn [app skip_ws].
    destruct (is_ws c) eqn:E; [|reflexivity]. exfalso. apply (HL c r eq_refl).
    unfold is_ws in E. unfold ows.
    destruct (Ascii.eqb c SP) eqn:E1; [apply Ascii.eqb_eq in E1; auto|].
    destruct (Ascii.eqb c HT) eqn:E2; [apply Ascii.eqb_eq in E2; auto|]. discriminate.
  - cbn [app skip_ws]. now destruct (ws_facts x Hx) as (_ & _ & _ & ->).
Qed.

Lemma value_bytes v : Forall (fun c => (32 <= bv c /\ bv c <> 127)%N \/ c = HT) v -> forallb is_value_byte v = true.
Proof.
  induction 1 as [|c v Hc Hv IH]; [reflexivity|]. cbn [forallb]. rewrite IH, Bool.andb_true_r.
  unfold is_value_byte. destruct Hc as [[H1 H2]| ->]; [|reflexivity].
  apply Bool.orb_true_iff. left. apply Bool.andb_true_iff. split; [lia|].
  destruct (bv c =? 127)%N eqn:E; [lia|reflexivity].
Qed.

Lemma rtrim_id v : (forall c r, v = r ++ [c] -> ~ ows c) -> rtrim_ws v = v.
Proof.
  intros H. unfold rtrim_ws. rewrite <- (rev_involutive v) at 2. f_equal.
  change (skip_ws (rev v)) with (skip_ws ([] ++ rev v)). apply skip_ws_run; [constructor|].
  intros c r E. apply (H c (rev r)). rewrite <- (rev_involutive v), E. reflexivity.
Qed.

Lemma fields_parse trim hs w rest k : fields hs w -> (length hs <= k)%nat ->
  hp_headers trim k (w ++ CRLF ++ rest) = HDone (hs, rest).
Proof.
  intros HF. revert k. induction HF as [|n v l hs w (ws & Hn & Hv & HW & ->) HF IH]; intros k Hk.
  - destruct k; reflexivity.
  - cbn [length] in Hk. destruct k as [|k]; [lia|]. destruct Hn as (Hne & Hn & _). destruct Hv as (Hv & Hv1 & Hv2).
    destruct n as [|c n]; [congruence|]. rewrite <- !app_assoc. cbn [app hp_headers].
    inversion Hn; subst. plain. rewrite (tchar_not_nl _ H1), H1.
    change (c :: n ++ [COLON] ++ ws ++ v ++ CRLF ++ w ++ CRLF ++ rest)
      with ((c :: n) ++ COLON :: (ws ++ v ++ CRLF ++ w ++ CRLF ++ rest)).
    change (CR :: LF :: w ++ CR :: LF :: rest) with (CRLF ++ w ++ CRLF ++ rest).
    change (c :: n ++ COLON :: ws ++ v ++ CRLF ++ w ++ CRLF ++ rest)
      with ((c :: n) ++ COLON :: (ws ++ v ++ CRLF ++ w ++ CRLF ++ rest)).
    rewrite (hp_name_run _ _ Hn). cbn [hbind fst snd].
    rewrite (skip_ws_run ws (v ++ CRLF ++ w ++ CRLF ++ rest) HW).
    2:{ intros x r E. destruct v as [|y v].
        - cbn in E. inversion E; subst. intros [|]; discriminate.
        - cbn in E. inversion E; subst. eapply Hv1; reflexivity. }
    rewrite (hp_value_run _ _ (value_bytes _ Hv)). cbn [hbind fst snd].
    rewrite IH by lia. cbn [hbind fst snd].
    destruct trim; [now rewrite (rtrim_id _ Hv2)|reflexivity].
Qed.

(** ** Malformed input *)
(** A decision (complete or error) is not changed by more input. *)
Definition firm {A} (P : bytes -> hres A) : Prop := forall l1 l2, P l1 = HErr -> P (l1 ++ l2) = HErr.

Lemma chunk_size_firm m c s : firm (chunk_size_go m c s).
Proof.
  intros l1. revert m c s. induction l1 as [|x l1 IH]; intros m c s l2 H; [discriminate|].
  cbn [app chunk_size_go] in *.
  assert (C : match l1 with [] => HPart | c' :: r' => if Ascii.eqb c' LF then HDone (s, r') else HErr end = HErr ->
              match l1 ++ l2 with [] => HPart | c' :: r' => if Ascii.eqb c' LF then HDone (s, r') else HErr end = HErr).
  { destruct l1 as [|y l1']; [discriminate|]. cbn [app]. now destruct (Ascii.eqb y LF). }
  destruct (hex_val x) as [h|] eqn:Hx.
  - destruct m.
    + destruct (15 <? c)%nat; [reflexivity|]. now apply IH.
    + destruct (Ascii.eqb x CR); [now apply C|]. destruct (Ascii.eqb x (ascii_of_N 59)); [now apply IH|].
      destruct (is_ws x); [now apply IH|reflexivity].
    + destruct (Ascii.eqb x CR); [now apply C|now apply IH].
  - destruct m; (destruct (Ascii.eqb x CR); [now apply C|]); try (now apply IH);
    (destruct (Ascii.eqb x (ascii_of_N 59)); [now apply IH|]; destruct (is_ws x); [now apply IH|reflexivity]).
Qed.

Lemma newline_firm : firm parse_newline.
Proof.
  intros [|x l1] l2 H; [discriminate|]. cbn [app parse_newline] in *. destruct (Ascii.eqb x CR).
  - destruct l1 as [|y l1]; [discriminate|]. cbn [app]. now destruct (Ascii.eqb y LF).
  - now destruct (Ascii.eqb x LF).
Qed.

Lemma newline_more l1 l2 r : parse_newline l1 = HDone r -> parse_newline (l1 ++ l2) = HDone (r ++ l2).
Proof.
  destruct l1 as [|x l1]; [discriminate|]. cbn [app parse_newline] in *. destruct (Ascii.eqb x CR).
  - destruct l1 as [|y l1]; [discriminate|]. cbn [app]. destruct (Ascii.eqb y LF); [|discriminate]. intros H; now inversion H.
  - destruct (Ascii.eqb x LF); [|discriminate]. intros H; now inversion H.
Qed.

Lemma hp_name_firm : firm hp_name.
Proof.
  intros l1. induction l1 as [|x l1 IH]; intros l2 H; [discriminate|]. cbn [app hp_name] in *.
  destruct (Ascii.eqb x COLON); [discriminate|]. destruct (is_tchar x); [|reflexivity].
  destruct (hp_name l1) as [[v r]| |] eqn:E; try discriminate. now rewrite IH.
Qed.
Lemma hp_name_more l1 l2 v r : hp_name l1 = HDone (v, r) -> hp_name (l1 ++ l2) = HDone (v, r ++ l2).
Proof.
  revert v r. induction l1 as [|x l1 IH]; intros v r H; [discriminate|]. cbn [app hp_name] in *.
  destruct (Ascii.eqb x COLON); [now inversion H|]. destruct (is_tchar x); [|discriminate].
  destruct (hp_name l1) as [[v' r']| |] eqn:E; try discriminate. rewrite (IH _ _ eq_refl). now inversion H.
Qed.
Lemma hp_value_firm : firm hp_value.
Proof.
  intros l1. induction l1 as [|x l1 IH]; intros l2 H; [discriminate|].
  change ((x :: l1) ++ l2) with (x :: (l1 ++ l2)). cbn [hp_value] in *. destruct (is_hp_value x).
  - destruct (hp_value l1) as [[v r]| |] eqn:E; try discriminate. now rewrite IH.
  - destruct (parse_newline (x :: l1)) as [r| |] eqn:E; try discriminate.
    change (x :: l1 ++ l2) with ((x :: l1) ++ l2). now rewrite (newline_firm _ l2 E).
Qed.
Lemma hp_value_more l1 l2 v r : hp_value l1 = HDone (v, r) -> hp_value (l1 ++ l2) = HDone (v, r ++ l2).
Proof.
  revert v r. induction l1 as [|x l1 IH]; intros v r H; [discriminate|].
  change ((x :: l1) ++ l2) with (x :: (l1 ++ l2)). cbn [hp_value] in *. destruct (is_hp_value x).
  - destruct (hp_value l1) as [[v' r']| |] eqn:E; try discriminate. rewrite (IH _ _ eq_refl). now inversion H.
  - destruct (parse_newline (x :: l1)) as [r'| |] eqn:E; try discriminate.
    change (x :: l1 ++ l2) with ((x :: l1) ++ l2). rewrite (newline_more _ l2 _ E). now inversion H.
Qed.
Lemma hp_headers_firm trim k : firm (hp_headers trim k).
Proof.
  assert (S1 : forall l1 l2, hp_value (skip_ws l1) = HErr -> hp_value (skip_ws (l1 ++ l2)) = HErr).
  { intros l1 l2 H. destruct (skip_ws_app l1 l2) as [E|E]; [rewrite E in H; discriminate|]. rewrite E. now apply hp_value_firm. }
  assert (S2 : forall l1 l2 v r, hp_value (skip_ws l1) = HDone (v, r) -> hp_value (skip_ws (l1 ++ l2)) = HDone (v, r ++ l2)).
  { intros l1 l2 v r H. destruct (skip_ws_app l1 l2) as [E|E]; [rewrite E in H; discriminate|]. rewrite E. now apply hp_value_more. }
  induction k as [|k IH]; intros l1 l2 H; destruct l1 as [|x l1]; try discriminate;
  change ((x :: l1) ++ l2) with (x :: (l1 ++ l2)); cbn [hp_headers] in *;
  (destruct (Ascii.eqb x CR || Ascii.eqb x LF);
   [change (x :: (l1 ++ l2)) with ((x :: l1) ++ l2);
    destruct (parse_newline (x :: l1)) as [r'| |] eqn:E; try discriminate; now rewrite (newline_firm _ l2 E)
   |]); (destruct (is_tchar x); [|reflexivity]); [reflexivity|].
  change (x :: (l1 ++ l2)) with ((x :: l1) ++ l2).
  destruct (hp_name (x :: l1)) as [[n r1]| |] eqn:E1; [|discriminate|now rewrite (hp_name_firm _ l2 E1)].
  rewrite (hp_name_more _ l2 _ _ E1). cbn [hbind fst snd] in *.
  destruct (hp_value (skip_ws r1)) as [[w r2]| |] eqn:E2; [|discriminate|now rewrite (S1 _ l2 E2)].
  rewrite (S2 _ l2 _ _ E2). cbn [hbind fst snd] in *.
  destruct (hp_headers trim k r2) as [[hs r3]| |] eqn:E3; try discriminate. now rewrite (IH _ l2 E3).
Qed.

Definition grows {A} (P : bytes -> hres (A * bytes)) : Prop :=
  forall l1 l2 v r, P l1 = HDone (v, r) -> P (l1 ++ l2) = HDone (v, r ++ l2).

Lemma chunk_size_grows m c s : grows (chunk_size_go m c s).
Proof.
  intros l1. revert m c s. induction l1 as [|x l1 IH]; intros m c s l2 v r H; [discriminate|].
  cbn [app chunk_size_go] in *.
  assert (C : match l1 with [] => HPart | c' :: r' => if Ascii.eqb c' LF then HDone (s, r') else HErr end = HDone (v, r) ->
              match l1 ++ l2 with [] => HPart | c' :: r' => if Ascii.eqb c' LF then HDone (s, r') else HErr end = HDone (v, r ++ l2)).
  { destruct l1 as [|y l1']; [discriminate|]. cbn [app]. destruct (Ascii.eqb y LF); [|discriminate]. intros E; now inversion E. }
  destruct (hex_val x) as [h|] eqn:Hx.
  - destruct m.
    + destruct (15 <? c)%nat; [discriminate|]. now apply IH.
    + destruct (Ascii.eqb x CR); [now apply C|]. destruct (Ascii.eqb x (ascii_of_N 59)); [now apply IH|].
      destruct (is_ws x); [now apply IH|discriminate].
    + destruct (Ascii.eqb x CR); [now apply C|now apply IH].
  - destruct m; (destruct (Ascii.eqb x CR); [now apply C|]); try (now apply IH);
    (destruct (Ascii.eqb x (ascii_of_N 59)); [now apply IH|]; destruct (is_ws x); [now apply IH|discriminate]).
Qed.

Lemma hp_headers_grows trim k : grows (hp_headers trim k).
Proof.
  assert (S2 : forall l1 l2 v r, hp_value (skip_ws l1) = HDone (v, r) -> hp_value (skip_ws (l1 ++ l2)) = HDone (v, r ++ l2)).
  { intros l1 l2 v r H. destruct (skip_ws_app l1 l2) as [E|E]; [rewrite E in H; discriminate|]. rewrite E. now apply hp_value_more. }
  induction k as [|k IH]; intros l1 l2 v r H; destruct l1 as [|x l1]; try discriminate;
  change ((x :: l1) ++ l2) with (x :: (l1 ++ l2)); cbn [hp_headers] in *;
  (destruct (Ascii.eqb x CR || Ascii.eqb x LF);
   [change (x :: (l1 ++ l2)) with ((x :: l1) ++ l2);
    destruct (parse_newline (x :: l1)) as [r'| |] eqn:E; try discriminate; rewrite (newline_more _ l2 _ E); now inversion H
   |]); (destruct (is_tchar x); [|discriminate]); [discriminate|].
  change (x :: (l1 ++ l2)) with ((x :: l1) ++ l2).
  destruct (hp_name (x :: l1)) as [[n r1]| |] eqn:E1; [|discriminate|discriminate].
  rewrite (hp_name_more _ l2 _ _ E1). cbn [hbind fst snd] in *.
  destruct (hp_value (skip_ws r1)) as [[w r2]| |] eqn:E2; [|discriminate|discriminate].
  rewrite (S2 _ l2 _ _ E2). cbn [hbind fst snd] in *.
  destruct (hp_headers trim k r2) as [[hs r3]| |] eqn:E3; try discriminate. rewrite (IH _ l2 _ _ E3).
  cbn [hbind fst snd] in *. now inversion H.
Qed.

(** Partial on an input, then partial on all its prefixes. *)
Lemma part_prefix {A} (P : bytes -> hres (A * bytes)) : firm P -> grows P ->
  forall a b, P (a ++ b) = HPart -> P a = HPart.
Proof.
  intros HF HG a b H. destruct (P a) as [[v r]| |] eqn:E; [|reflexivity|].
  - rewrite (HG _ b _ _ E) in H. discriminate.
  - rewrite (HF _ b E) in H. discriminate.
Qed.

(** What a parser rejects at the last byte. *)
Definition rejects {A} (P : bytes -> hres A) (u : bytes) : Prop :=
  (forall r, P (u ++ r) = HErr) /\ forall a b, u = a ++ b -> b <> [] -> P a = HPart.

Lemma rejects_last {A} (P : bytes -> hres (A * bytes)) (x : list byte) (c : byte) : firm P -> grows P ->
  P x = HPart -> P (x ++ [c]) = HErr -> rejects P (x ++ [c]).
Proof.
  intros HF HG H1 H2. split; [intros r; now apply HF|]. intros a b E Hb.
  destruct (exists_last Hb) as (b' & y & ->). rewrite app_assoc in E. apply app_inj_tail in E as [-> _].
  eapply part_prefix; eauto.
Qed.

Lemma hex_val_dig c n : hex_val c = Some n -> is_hexdig c.
Proof.
  set (P := fun c => match hex_val c with
                     | Some n => existsb (fun l => match nth_error l (N.to_nat n) with Some x => Ascii.eqb x c | None => false end)
                                   [B "0123456789ABCDEF"; B "0123456789abcdef"]
                     | None => true
                     end).
  assert (K : P c = true) by (apply byte_forall; vm_compute; reflexivity).
  intros E. unfold P in K. rewrite E in K. exists (N.to_nat n). unfold hexdig. cbn [existsb] in K.
  apply orb_true_iff in K as [K|K]; [left|right; rewrite orb_false_r in K].
  - destruct (nth_error (B "0123456789ABCDEF") (N.to_nat n)) eqn:Z; [|discriminate]. apply Ascii.eqb_eq in K. now subst.
  - destruct (nth_error (B "0123456789abcdef") (N.to_nat n)) eqn:Z; [|discriminate]. apply Ascii.eqb_eq in K. now subst.
Qed.
Lemma not_hexdig c : ~ is_hexdig c -> hex_val c = None.
Proof. intros H. destruct (hex_val c) eqn:E; [|reflexivity]. destruct H. eapply hex_val_dig; eauto. Qed.

Lemma digits_skip ds : Forall is_hexdig ds -> forall c s rest, (c + length ds <= 16)%nat ->
  exists s', chunk_size_go CsSize c s (ds ++ rest) = chunk_size_go CsSize (c + length ds) s' rest.
Proof.
  induction 1 as [|x ds [v Hx] H IH]; intros c s rest L; cbn [app length] in *.
  - exists s. now rewrite Nat.add_0_r.
  - cbn [chunk_size_go]. rewrite (hexdig_val _ _ Hx). destruct (15 <? c)%nat eqn:E; [lia|].
    destruct (IH (S c) (s * 16 + N.of_nat v)%N rest) as [s' Es]; [lia|]. exists s'. rewrite Es. f_equal. lia.
Qed.

Lemma ws_skip ws m c s rest : m <> CsExt -> Forall ows ws -> ws <> [] ->
  chunk_size_go m c s (ws ++ rest) = chunk_size_go CsWs c s rest.
Proof.
  intros Hm HW. revert m Hm. induction HW as [|x ws Hx HW IH]; intros m Hm Hne; [congruence|].
  cbn [app chunk_size_go]. destruct (ws_facts x Hx) as (E1 & E2 & E3 & E4). rewrite E1, E2, E3, E4.
  destruct ws as [|y ws].
  - destruct m; [reflexivity..|congruence].
  - destruct m; [apply IH; discriminate|apply IH; discriminate|congruence].
Qed.

Lemma not_line c : ~ line_byte c -> Ascii.eqb c CR = false /\ Ascii.eqb c (ascii_of_N 59) = false /\ is_ws c = false.
Proof.
  intros H. unfold line_byte, ows in H. repeat split.
  - apply Ascii.eqb_neq. intuition.
  - apply Ascii.eqb_neq. intuition.
  - unfold is_ws. apply orb_false_iff. split; apply Ascii.eqb_neq; intuition.
Qed.

Lemma ext_skip t c s rest : ~ In CR t -> chunk_size_go CsExt c s (t ++ rest) = chunk_size_go CsExt c s rest.
Proof.
  induction t as [|x t IH]; intros H; [reflexivity|]. cbn [app chunk_size_go].
  assert (Hx : Ascii.eqb x CR = false) by (apply Ascii.eqb_neq; intros ->; apply H; now left).
  rewrite Hx. rewrite IH by (intros ?; apply H; now right). now destruct (hex_val x).
Qed.

Lemma chunk_ext_skip x c s rest : chunk_ext x -> exists m, chunk_size_go CsSize c s (x ++ CR :: rest) = chunk_size_go m c s (CR :: rest).
Proof.
  intros (ws & e & -> & HW & He).
  assert (K : forall m, m <> CsExt -> exists m', chunk_size_go m c s (e ++ CR :: rest) = chunk_size_go m' c s (CR :: rest)).
  { intros m Hm. destruct He as [->|(t & -> & Ht)]; [now exists m|].
    exists CsExt. rewrite <- (ext_skip t c s (CR :: rest) Ht).
    destruct m; [reflexivity..|congruence]. }
  rewrite <- app_assoc. destruct ws as [|y ws]; [apply K; discriminate|].
  rewrite ws_skip; [apply K| |assumption|]; discriminate.
Qed.

Lemma go_cr m c s r : chunk_size_go m c s (CR :: r) =
  match r with [] => HPart | c' :: r' => if Ascii.eqb c' LF then HDone (s, r') else HErr end.
Proof. now destruct m. Qed.

Lemma bad_size_line_rejects u : bad_size_line u -> rejects parse_chunk_size u.
Proof.
  assert (FP : firm parse_chunk_size) by apply chunk_size_firm.
  assert (GP : grows parse_chunk_size) by apply chunk_size_grows.
  intros [ds c HD HL Hc Hl|ds c HD HL [v Hc]|ds ws c HD HL Hne HW Hl|ds x c HD HL HX Hc]; [| |rewrite app_assoc|].
  - apply rejects_last; auto.
    + destruct (digits_skip _ HD 0%nat 0%N []) as [s E]; [lia|]. rewrite app_nil_r in E. unfold parse_chunk_size. now rewrite E.
    + destruct (digits_skip _ HD 0%nat 0%N [c]) as [s E]; [lia|]. unfold parse_chunk_size. rewrite E. cbn [chunk_size_go].
      rewrite (not_hexdig _ Hc). destruct (not_line _ Hl) as (E1 & E2 & E3). now rewrite E1, E2, E3.
  - apply rejects_last; auto.
    + destruct (digits_skip _ HD 0%nat 0%N []) as [s E]; [lia|]. rewrite app_nil_r in E. unfold parse_chunk_size. now rewrite E.
    + destruct (digits_skip _ HD 0%nat 0%N [c]) as [s E]; [lia|]. unfold parse_chunk_size. rewrite E. cbn [chunk_size_go].
      rewrite (hexdig_val _ _ Hc), HL. reflexivity.
  - apply rejects_last; auto.
    + destruct (digits_skip _ HD 0%nat 0%N ws) as [s E]; [lia|]. unfold parse_chunk_size. rewrite E.
      rewrite <- (app_nil_r ws). now rewrite ws_skip by (auto; discriminate).
    + rewrite <- app_assoc. destruct (digits_skip _ HD 0%nat 0%N (ws ++ [c])) as [s E]; [lia|]. unfold parse_chunk_size. rewrite E.
      rewrite ws_skip by (auto; discriminate). cbn [chunk_size_go]. destruct (not_line _ Hl) as (E1 & E2 & E3).
      rewrite E1, E2, E3. now destruct (hex_val c).
  - replace (ds ++ x ++ [CR; c]) with ((ds ++ x ++ [CR]) ++ [c]) by now rewrite <- !app_assoc.
    apply rejects_last; auto.
    + destruct (digits_skip _ HD 0%nat 0%N (x ++ [CR])) as [s E]; [lia|]. unfold parse_chunk_size. rewrite E.
      destruct (chunk_ext_skip x (0 + length ds)%nat s [] HX) as [m ->]. now rewrite go_cr.
    + rewrite <- !app_assoc. destruct (digits_skip _ HD 0%nat 0%N (x ++ [CR] ++ [c])) as [s E]; [lia|]. unfold parse_chunk_size. etransitivity; [exact E|].
      destruct (chunk_ext_skip x (0 + length ds)%nat s [c] HX) as [m Em]. cbn [app] in *. rewrite Em, go_cr.
      apply Ascii.eqb_neq in Hc. now rewrite Hc.
Qed.

(** Trailer sections. *)
Lemma fields_skip trim hs w k rest : fields hs w -> (length hs <= k)%nat ->
  hp_headers trim k (w ++ rest) =
  hbind (hp_headers trim (k - length hs) rest) (fun x => HDone (hs ++ fst x, snd x)).
Proof.
  intros HF. revert k. induction HF as [|n v l hs w (ws & Hn & Hv & HW & ->) HF IH]; intros k Hk.
  - cbn [app length]. rewrite Nat.sub_0_r. destruct (hp_headers trim k rest) as [[? ?]| |]; reflexivity.
  - cbn [length] in Hk. destruct k as [|k]; [lia|]. destruct Hn as (Hne & Hn & _). destruct Hv as (Hv & Hv1 & Hv2).
    destruct n as [|c n]; [congruence|]. rewrite <- !app_assoc.
    assert (Hc : is_tchar c = true) by now inversion Hn.
    change ((c :: n) ++ [COLON] ++ ws ++ v ++ CRLF ++ w ++ rest) with (c :: (n ++ [COLON] ++ ws ++ v ++ CRLF ++ w ++ rest)) at 1.
    cbn [hp_headers]. rewrite (tchar_not_nl _ Hc), Hc.
    change (c :: n ++ [COLON] ++ ws ++ v ++ CRLF ++ w ++ rest) with ((c :: n) ++ COLON :: (ws ++ v ++ CRLF ++ w ++ rest)).
    rewrite (hp_name_run _ _ Hn). cbn [hbind fst snd].
    rewrite (skip_ws_run ws (v ++ CRLF ++ w ++ rest) HW).
    2:{ intros x r E. destruct v as [|y v].
        - cbn in E. inversion E; subst. intros [|]; discriminate.
        - cbn in E. inversion E; subst. eapply Hv1; reflexivity. }
    rewrite (hp_value_run _ _ (value_bytes _ Hv)). cbn [hbind fst snd length Nat.sub].
    rewrite IH by lia. destruct (hp_headers trim (k - length hs) rest) as [[? ?]| |]; [|reflexivity..]. cbn [hbind fst snd app].
    destruct trim; [now rewrite (rtrim_id _ Hv2)|reflexivity].
Qed.

Lemma hp_value_part v : forallb is_value_byte v = true -> hp_value v = HPart.
Proof.
  induction v as [|x v IH]; [reflexivity|]. cbn [forallb hp_value]. unfold is_hp_value. intros H. apply andb_true_iff in H as [-> H].
  now rewrite IH.
Qed.
Lemma hp_value_bad (v : list byte) (c : byte) : forallb is_value_byte v = true -> is_value_byte c = false -> c <> CR -> c <> LF ->
  hp_value (v ++ [c]) = HErr.
Proof.
  intros Hv Hc H1 H2. induction v as [|x v IH].
  - cbn [app hp_value]. unfold is_hp_value. rewrite Hc. cbn [parse_newline].
    apply Ascii.eqb_neq in H1, H2. now rewrite H1, H2.
  - cbn [forallb app hp_value] in *. unfold is_hp_value. apply andb_true_iff in Hv as [-> Hv]. now rewrite (IH Hv).
Qed.
Lemma skip_ws_values l : forallb is_value_byte l = true -> forallb is_value_byte (skip_ws l) = true.
Proof.
  induction l as [|x l IH]; [auto|]. cbn [forallb skip_ws]. intros H. destruct (is_ws x); [|exact H].
  apply andb_true_iff in H as [_ H]. auto.
Qed.
Lemma skip_ws_snoc (l : list byte) (c : byte) : is_ws c = false -> skip_ws (l ++ [c]) = skip_ws l ++ [c].
Proof.
  intros Hc. induction l as [|x l IH]; cbn [app skip_ws]; [now rewrite Hc|]. now destruct (is_ws x).
Qed.

Lemma bad_value_byte c : (bv c < 32 \/ bv c = 127)%N -> c <> HT -> is_value_byte c = false /\ is_ws c = false.
Proof.
  set (P := fun c => (negb (((bv c <? 32) || (bv c =? 127)) && negb (Ascii.eqb c HT)) ||
                      (negb (is_value_byte c) && negb (is_ws c)))%N%bool).
  assert (K : P c = true) by (apply byte_forall; vm_compute; reflexivity).
  intros H1 H2. apply Ascii.eqb_neq in H2. unfold P in K. rewrite H2 in K.
  assert (Q : ((bv c <? 32) || (bv c =? 127))%N%bool = true) by lia. rewrite Q in K. cbn in K.
  apply andb_true_iff in K as [K1 K2]. apply negb_true_iff in K1, K2. auto.
Qed.

Lemma bad_trailers_rejects trim u : bad_trailers u -> rejects (hp_headers trim 16) u.
Proof.
  assert (FP : firm (hp_headers trim 16)) by apply hp_headers_firm.
  assert (GP : grows (hp_headers trim 16)) by apply hp_headers_grows.
  assert (N1 : forall n, Forall (fun c => is_tchar c = true) n -> hp_name n = HPart).
  { induction 1 as [|x n Hx Hn IH]; [reflexivity|]. cbn [hp_name]. now rewrite (tchar_not_colon _ Hx), Hx, IH. }
  assert (N2 : forall n c, Forall (fun c => is_tchar c = true) n -> is_tchar c = false -> c <> COLON -> hp_name (n ++ [c]) = HErr).
  { intros n c Hn Hc Hcc. induction Hn as [|x n Hx Hn IH]; cbn [app hp_name].
    - apply Ascii.eqb_neq in Hcc. now rewrite Hcc, Hc.
    - now rewrite (tchar_not_colon _ Hx), Hx, IH. }
  intros [hs w n c HF HL Hn Hc Hc1 Hc2|hs w n ws v c HF HL Hn HW Hv Hc H1 H2 H3].
  - rewrite app_assoc. apply rejects_last; auto.
    + rewrite (fields_skip _ _ _ _ _ HF) by lia. destruct (16 - length hs)%nat as [|k] eqn:EK; [lia|].
      destruct n as [|x n]; [reflexivity|]. cbn [hp_headers]. assert (Hx : is_tchar x = true) by now inversion Hn.
      rewrite (tchar_not_nl _ Hx), Hx, (N1 _ Hn). reflexivity.
    + rewrite <- app_assoc, (fields_skip _ _ _ _ _ HF) by lia. destruct (16 - length hs)%nat as [|k] eqn:EK; [lia|].
      destruct n as [|x n].
      * destruct (Hc2 eq_refl) as [Q1 Q2]. cbn [app hp_headers]. apply Ascii.eqb_neq in Q1, Q2. plain. now rewrite Q1, Q2, Hc.
      * change ((x :: n) ++ [c]) with (x :: (n ++ [c])). cbn [hp_headers]. assert (Hx : is_tchar x = true) by now inversion Hn.
        rewrite (tchar_not_nl _ Hx), Hx. change (x :: n ++ [c]) with ((x :: n) ++ [c]).
        destruct Hc1 as [Hc1|]; [|discriminate]. now rewrite (N2 _ _ Hn Hc Hc1).
  - destruct Hn as (Hne & Hn & _). destruct (bad_value_byte _ Hc H1) as [Hb Hs].
    assert (VB : forallb is_value_byte (ws ++ v) = true).
    { rewrite forallb_app, (value_bytes _ Hv), andb_true_r. clear -HW. induction HW as [|x ws [->| ->] HW IH]; auto. }
    replace (w ++ n ++ [COLON] ++ ws ++ v ++ [c]) with ((w ++ n ++ [COLON] ++ ws ++ v) ++ [c]) by now rewrite <- !app_assoc.
    destruct n as [|x n]; [congruence|]. assert (Hx : is_tchar x = true) by now inversion Hn.
    apply rejects_last; auto.
    + rewrite (fields_skip _ _ _ _ _ HF) by lia. destruct (16 - length hs)%nat as [|k] eqn:EK; [lia|].
      change ((x :: n) ++ [COLON] ++ ws ++ v) with (x :: (n ++ [COLON] ++ ws ++ v)). cbn [hp_headers].
      rewrite (tchar_not_nl _ Hx), Hx. change (x :: n ++ [COLON] ++ ws ++ v) with ((x :: n) ++ COLON :: (ws ++ v)).
      rewrite (hp_name_run _ _ Hn). cbn [hbind fst snd]. rewrite (hp_value_part _ (skip_ws_values _ VB)). reflexivity.
    + rewrite <- !app_assoc, (fields_skip _ _ _ _ _ HF) by lia. destruct (16 - length hs)%nat as [|k] eqn:EK; [lia|].
      change ((x :: n) ++ [COLON] ++ ws ++ v ++ [c]) with (x :: (n ++ [COLON] ++ ws ++ v ++ [c])). cbn [hp_headers].
      rewrite (tchar_not_nl _ Hx), Hx. change (x :: n ++ [COLON] ++ ws ++ v ++ [c]) with ((x :: n) ++ COLON :: (ws ++ v ++ [c])).
      rewrite (hp_name_run _ _ Hn). cbn [hbind fst snd]. rewrite app_assoc, (skip_ws_snoc _ _ Hs).
      match goal with |- context [hp_value ?t] => assert (Q : hp_value t = HErr) by exact (hp_value_bad _ _ (skip_ws_values _ VB) Hb H2 H3); rewrite Q end. reflexivity.
Qed.
