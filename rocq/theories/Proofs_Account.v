(** Whatever arrives: what is written are answers to heads that arrived. *)
From Verif Require Import Accept Reads SpecHead SpecResponse SpecReq SpecServer SpecAccount Lemmas Proofs_Copy Proofs_ServerEnc Proofs_Send
  Proofs_Buf Proofs_ReqHead Proofs_ReqParse Proofs_ServerDec Proofs_Body Proofs_Accept Proofs_Request Proofs_Turns Proofs_Flush.

Lemma reading_comes {A} ev : forall fuel (p : reading A) b b' a, run_reading fuel ev p b = (b', inl a) -> comes_to a p.
Proof.
  induction fuel as [|f IH]; intros p b b' a H; destruct p as [n k|x]; cbn [run_reading] in H; try discriminate.
  - injection H as <- <-. constructor.
  - destruct (body_read ev n b) as [b1 [y|fi| | |]]; try discriminate; econstructor; eapply IH; eauto.
  - injection H as <- <-. constructor.
Qed.

Lemma rest_arrived l l' : rest_of l l' -> exists y, arrived l = y ++ arrived l' /\ (evs_data l = y ++ evs_data l' \/ prefix (evs_data l) y).
Proof.
  induction 1 as [l|e l l' _ (y & E & K)|x y l l' _ (z & E & K)]; [exists []; auto| |].
  - destruct e as [d|f|]; cbn [evs_data arrived]; rewrite E.
    + exists (d ++ y). split; [now rewrite app_assoc|]. destruct K as [->|K]; [left; now rewrite app_assoc|right; now apply prefix_app].
    + exists y. auto.
    + exists y. split; [reflexivity|]. right. apply prefix_nil.
  - cbn [evs_data arrived] in *. exists (x ++ z). split; [rewrite <- app_assoc, E; now rewrite app_assoc|]. rewrite <- !app_assoc.
    destruct K as [->|K]; [left; reflexivity|right; now apply prefix_app].
Qed.
Lemma rest_behind s w x s1 : rest_of (s_evs s) (s_evs s1) -> src_data s = w ++ x ++ src_data s1 ->
  exists y, arrived (s_evs s) = w ++ y ++ arrived (s_evs s1).
Proof.
  intros R E. destruct (rest_arrived _ _ R) as (y & A & K). unfold src_data in E. destruct K as [K|(z & K)].
  - exists x. rewrite A, app_assoc. f_equal. apply (app_inv_tail (evs_data (s_evs s1))). now rewrite <- K, E, <- app_assoc.
  - exists (x ++ evs_data (s_evs s1) ++ z). rewrite A, K, E. now rewrite <- !app_assoc.
Qed.

Definition finished (x : option aout) : bool := match x with None | Some AOk | Some AErr => true | _ => false end.
Lemma ignored_any ev r w fuel w' x : env_ok ev -> sendable ev r -> accepting w -> send_ignored fuel ev r w = (w', x) ->
  wsuf w w' /\ exists m p, message (e_date ev) r m /\ w_out w' = w_out w ++ p /\ prefix p m /\ (finished x = true -> p = m).
Proof.
  intros He Hr Ha. destruct (send_any ev r He Hr) as (m & Hm & HS). unfold send_ignored.
  destruct (send fuel ev r w) as [w1 y] eqn:S. destruct (HS w Ha _ _ _ S) as (p & O & P & _ & K). apply send_suf in S. intros H.
  assert (SU : wsuf w w') by (destruct y; injection H as <- _; exact S). split; [exact SU|].
  exists m, p. destruct y as [k| | | |]; injection H as <- <-; (split; [exact Hm|]); (split; [exact O|]); (split; [exact P|]); try discriminate;
  intros _; destruct K as [[[? K] ->]|K]; try discriminate; reflexivity.
Qed.

(** What a handler has written, and for which decision. *)
Lemma handler_any ev verbose fuel p b w b' w' x : env_ok ev -> accepting w -> always (one_reply ev verbose) p -> run_handler fuel ev p b w = (b', w', x) ->
  wsuf w w' /\
  match x with
  | inl (Some g) => w' = w /\ comes_to (PFail g) p /\ sendable ev (glitch_response verbose g)
  | _ => (exists y r m q, comes_to y p /\ stands_for verbose y r /\ message (e_date ev) r m /\ w_out w' = w_out w ++ q /\ prefix q m /\ (x = inl None -> q = m)) \/
         (w' = w /\ x <> inl None)
  end.
Proof.
  intros He Ha HA. unfold run_handler. destruct (run_reading fuel ev p b) as [b1 [y|y]] eqn:R.
  2: { intros [= <- <- <-]. split; [apply wsuf_refl|]. right. split; [reflexivity|discriminate]. }
  pose proof (reading_always _ _ _ _ _ _ _ R HA) as Y. apply reading_comes in R. destruct y as [g|r kok kerr|]; cbn [one_reply] in Y; [| |contradiction].
  { intros [= <- <- <-]. split; [apply wsuf_refl|]. auto. }
  destruct Y as [Hr HK]. destruct (send_any ev r He Hr) as (m & Hm & HS).
  destruct (send fuel ev r w) as [w1 y] eqn:S. destruct (HS w Ha _ _ _ S) as (q & O & P & _ & K). apply send_suf in S. intros H.
  assert (G : forall z : option glitch + aout, (z = inl None -> q = m) -> exists y r m0 q0, comes_to y p /\ stands_for verbose y r /\ message (e_date ev) r m0 /\ w_out w1 = w_out w ++ q0 /\ prefix q0 m0 /\ (z = inl None -> q0 = m0)).
  { intros z Z. exists (PSend r kok kerr), r, m, q. split; [exact R|]. split; [constructor|]. auto. }
  destruct y as [k| | | |]; try (injection H as <- <- <-; split; [exact S|]; left; apply G; discriminate).
  - destruct K as [[_ ->]|K]; [|discriminate].
    destruct (run_reading fuel ev (kok k) b1) as [b2 z] eqn:R2. injection H as <- <- <-. split; [exact S|].
    destruct z as [[z|]|z]; [|left; apply G; reflexivity|left; apply G; reflexivity].
    pose proof (reading_always _ _ _ _ _ _ _ R2 (HK k)) as Z. discriminate.
  - destruct K as [[[? K] _]|K]; discriminate.
Qed.

Lemma turn_any ev o h s wt fuel s' wt' x : env_ok ev -> wf_src s ->
  (forall q, always (one_reply ev (o_verbose o)) (h q)) -> accepting wt -> prompt (o_timeout o) wt ->
  turn fuel ev o h s wt = (s', wt', x) -> wsuf wt wt' /\
  ((exists w y c v r m p, arrived (s_evs s) = w ++ y ++ arrived (s_evs s') /\ head_block w /\ judged ev w c v /\
      match v with
      | Refuse code => r = bare code
      | Accept m u hs len => exists q d, presents q m u hs len /\ comes_to d (h q) /\ stands_for (o_verbose o) d r
      end /\ message (e_date ev) r m /\ w_out wt' = w_out wt ++ (if c : bool then go_ahead else []) ++ p /\ prefix p m /\ (finished x = true -> p = m)) \/
   (finished x = false /\ exists p, prefix p go_ahead /\ w_out wt' = w_out wt ++ p) \/
   (wt' = wt)).
Proof.
  intros He Ws Hh Ha Hp T0. pose proof (ok_cap ev He) as Hc. pose proof T0 as T. unfold turn in T.
  destruct (head_cases (fst (avail (o_timeout o) (s_evs s)))) as [(w & rest & A & Hb)|NH].
  - assert (HO : offers (o_timeout o) s w) by (split; [exact Ws|]; split; [exact Hb|]; eauto).
    destruct (decode_offer ev (o_timeout o) s w Hc HO) as (b & _ & _ & _ & _ & _ & DD & _ & _ & _ & HD).
    destruct (judge_total (e_trim ev) (parse_uri (e_uri ev)) w) as (c & v & J). destruct (HD c v J) as (out & AN & HDec).
    rewrite HDec in T. destruct (interim_ok c (o_timeout o) wt Ha Hp) as (w1 & EI & A1 & P1 & O1). rewrite EI in T. cbn [fst snd after_interim] in T.
    assert (S1 : wsuf wt w1).
    { unfold interim in EI. destruct c; [|injection EI as <-; apply wsuf_refl].
      destruct (write_all (o_timeout o) continue_text wt) as [w' z] eqn:E. apply write_all_spec in E as (S & _). destruct z; injection EI as <-; exact S. }
    assert (FIN : forall wx y, w_out wx = w_out w1 ++ y -> w_out wx = w_out wt ++ (if c then go_ahead else []) ++ y)
      by (intros wx y ->; now rewrite O1, <- app_assoc).
    assert (RB : forall s2, rest_of (s_evs (br_src b)) (s_evs s2) -> exists y, arrived (s_evs s) = w ++ y ++ arrived (s_evs s2)).
    { intros s2 R2. destruct (rest_behind s w (br_buf b) (br_src b)) as (y & E); [|exact DD|].
      - destruct (decode_left _ _ _ _ _ _ _ Hc (HDec wt)) as (b2 & E2 & (L & _) & _). now rewrite <- E2.
      - destruct (rest_arrived _ _ R2) as (y2 & E2 & _). exists (y ++ y2). now rewrite E, E2, <- !app_assoc. }
    destruct v as [code|m u' hs len].
    + destruct AN as (f & -> & FR & FF). unfold handle_fail in T. rewrite FR in T.
      destruct (send_ignored fuel ev (plain_response code) w1) as [w2 z] eqn:SI.
      apply ignored_any in SI as (S2 & m & p & M & O2 & P & K); auto; [|now apply bare_sendable].
      destruct (RB (br_src b) (ro_here _)) as (y & E).
      assert (EQ : s' = br_src b /\ wt' = w2 /\ (finished x = true -> finished z = true)).
      { destruct z as [z|]; injection T as <- <- <-; auto. }
      destruct EQ as (-> & -> & KX). split; [exact (wsuf_trans _ _ _ S1 S2)|]. left.
      exists w, y, c, (Refuse code), (bare code), m, p. ands; auto.
    + destruct AN as (h' & -> & HW & HG). destruct (run_handler _ _ _ _ _) as [[b' w2] y] eqn:RH.
      set (q := mkRhead m u' h' len) in *. assert (PQ : presents q m u' hs len) by (split; [reflexivity|]; auto).
      pose proof (handler_left (body_src (body_reader ev len b)) _ _ _ _ _ _ _ _ RH ltac:(split; rewrite <- body_brd_src; auto using ro_here)) as [LB _].
      assert (NE : forall z, y = inr z -> finished (Some z) = false).
      { intros z ->. pose proof (handler_no_return _ _ _ _ _ _ _ _ RH) as N. destruct z; try reflexivity; elim (N I). }
      apply (handler_any ev (o_verbose o)) in RH as [S2 RH]; auto.
      assert (EB : exists y, arrived (s_evs s) = w ++ y ++ arrived (s_evs (body_src b'))).
      { apply RB. destruct LB as (LB & _). rewrite body_brd_src. replace (br_src b) with (body_src (body_reader ev len b)) by (destruct len; reflexivity). exact LB. }
      destruct EB as (yy & EB). destruct y as [[g|]|y].
      * destruct RH as (-> & CT & HS). destruct (send_ignored _ _ _ _) as [w3 z] eqn:SI. apply ignored_any in SI as (S3 & m0 & p & M & O2 & P & K); auto.
        injection T as <- <- <-. split; [exact (wsuf_trans _ _ _ S1 S3)|]. left. exists w, yy, c, (Accept m u' hs len), (glitch_response (o_verbose o) g), m0, p.
        ands; auto. exists q, (PFail g). split; [exact PQ|]. split; [exact CT|constructor].
      * injection T as <- <- <-. split; [exact (wsuf_trans _ _ _ S1 S2)|]. destruct RH as [(d & r & m0 & p & CT & SF & M & O2 & P & K)|[_ RH]]; [|congruence].
        left. exists w, yy, c, (Accept m u' hs len), r, m0, p. ands; auto. exists q, d. auto.
      * injection T as <- <- <-. split; [exact (wsuf_trans _ _ _ S1 S2)|]. destruct RH as [(d & r & m0 & p & CT & SF & M & O2 & P & K)|[-> RH]].
        -- left. exists w, yy, c, (Accept m u' hs len), r, m0, p. ands; auto; [exists q, d; auto|]. rewrite (NE y eq_refl). discriminate.
        -- right. left. split; [now apply NE|]. exists (if c then go_ahead else []). split; [|exact O1]. destruct c; [now exists []; rewrite app_nil_r|apply prefix_nil].
  - destruct (decode_none ev (o_timeout o) s Hc Ws NH) as (s1 & HD). rewrite HD in T.
    assert (wt' = wt) as -> by (destruct (snd (avail _ _)), (s_tail s); cbn in T; injection T as <- <- <-; reflexivity). split; [apply wsuf_refl|]. auto.
Qed.

Lemma account_pre trim uri_of verbose h y d xs : account trim uri_of verbose h d xs -> account trim uri_of verbose h (y ++ d) xs.
Proof.
  induction 1; [constructor|now apply ac_pass| |]; rewrite app_assoc; [eapply ac_refused|eapply ac_handled]; eauto.
Qed.

Lemma accept_account ev o : env_ok ev -> forall n fuel h s wt s' wt' x, wf_src s -> (forall i q, always (one_reply ev (o_verbose o)) (h i q)) ->
  accepting wt -> prompt (o_timeout o) wt -> accept_go n fuel ev o h s wt = (s', wt', x) ->
  exists xs t p, account (e_trim ev) (parse_uri (e_uri ev)) (o_verbose o) h (arrived (s_evs s)) xs /\ transcript (e_date ev) xs t /\
    w_out wt' = w_out wt ++ p /\ prefix p (t ++ go_ahead) /\ (finished (Some x) = true -> p = t).
Proof.
  intros He. pose proof (ok_cap ev He) as Hc. induction n as [|n IH]; intros fuel h s wt s' wt' x Ws Hh Ha Hp; cbn [accept_go].
  { intros [= <- <- <-]. exists [], [], []. split; [constructor|]. split; [constructor|]. split; [now rewrite app_nil_r|]. split; [apply prefix_nil|reflexivity]. }
  destruct (turn fuel ev o (h O) s wt) as [[s1 w1] y] eqn:T. pose proof (turn_left _ _ _ _ _ _ _ _ _ Hc T) as (R1 & _ & W1 & _).
  destruct (turn_any ev o (h O) s wt fuel s1 w1 y He Ws (Hh O) Ha Hp T) as [SU K]. clear T. intros H.
  (* the answer of this turn, put before those of the later ones *)
  assert (ONE : forall w z c v r m xs t, arrived (s_evs s) = w ++ z ++ arrived (s_evs s1) -> head_block w -> judged ev w c v ->
      match v with
      | Refuse code => r = bare code
      | Accept m u hs len => exists q d, presents q m u hs len /\ comes_to d (h O q) /\ stands_for (o_verbose o) d r
      end -> message (e_date ev) r m ->
      account (e_trim ev) (parse_uri (e_uri ev)) (o_verbose o) (later h) (arrived (s_evs s1)) xs -> transcript (e_date ev) xs t ->
      account (e_trim ev) (parse_uri (e_uri ev)) (o_verbose o) h (arrived (s_evs s)) ((c, r) :: xs) /\
      transcript (e_date ev) ((c, r) :: xs) ((if c then go_ahead else []) ++ m ++ t)).
  { intros w z c v r m xs t E HB J V M AC TR. split; [|now constructor]. rewrite E. destruct v as [code|mm u hs len].
    - subst r. apply (ac_refused _ _ _ h [] w (z ++ arrived (s_evs s1)) c code xs HB J). now apply account_pre.
    - destruct V as (q & d & V1 & V2 & V3). apply (ac_handled _ _ _ h [] w (z ++ arrived (s_evs s1)) c mm u hs len q d r xs HB J V1 V2 V3). now apply account_pre. }
  destruct y as [y|].
  - injection H as <- <- <-. destruct K as [(w & z & c & v & r & m & p & E & HB & J & V & M & O & P & F)|[(F & p & P & O)|K]].
    + destruct (ONE w z c v r m [] [] E HB J V M (ac_end _ _ _ _ _) (tr_nil _)) as [A B]. rewrite app_nil_r in B.
      exists [(c, r)], ((if c then go_ahead else []) ++ m), ((if c then go_ahead else []) ++ p). split; [exact A|]. split; [exact B|]. split; [exact O|]. split.
      * rewrite <- app_assoc. apply prefix_app. destruct P as (p2 & ->). exists (p2 ++ go_ahead). now rewrite app_assoc.
      * intros X. now rewrite (F X).
    + exists [], [], p. split; [constructor|]. split; [constructor|]. split; [exact O|]. split; [exact P|]. rewrite F. discriminate.
    + subst w1. exists [], [], []. split; [constructor|]. split; [constructor|]. split; [now rewrite app_nil_r|]. split; [apply prefix_nil|reflexivity].
  - destruct (IH fuel (later h) s1 w1 s' wt' x) as (xs & t & p & AC & TR & O & P & F); auto; [intros i; apply (Hh (S i))|eapply suf_accepting; eauto|eapply suf_prompt; eauto|].
    destruct K as [(w & z & c & v & r & m & p1 & E & HB & J & V & M & O1 & P1 & F1)|[(F1 & _)|K]]; [|discriminate|].
    + specialize (F1 eq_refl). subst p1. destruct (ONE w z c v r m xs t E HB J V M AC TR) as [A B].
      exists ((c, r) :: xs), ((if c then go_ahead else []) ++ m ++ t), ((if c then go_ahead else []) ++ m ++ p). split; [exact A|]. split; [exact B|].
      split; [rewrite O, O1; now rewrite <- !app_assoc|]. split; [rewrite <- !app_assoc; now do 2 apply prefix_app|]. intros X. now rewrite (F X).
    + subst w1. exists xs, t, p. split; [|auto]. destruct (rest_arrived _ _ R1) as (z & -> & _). apply ac_pass. now apply account_pre.
Qed.
