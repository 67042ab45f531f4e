(** A received body announced as longer than it is: never reported as sent. *)
From Verif Require Import Relay SpecChunked SpecHead SpecResponse SpecReq SpecServer SpecBody Lemmas Proofs_Copy Proofs_ServerEnc
  Proofs_Head Proofs_Send Proofs_Buf Proofs_Dec Proofs_DecMsg Proofs_DecReads Proofs_ServerDec Proofs_Accept Proofs_Request Proofs_Relay Proofs_RelayReq Proofs_Recast.

(** ** Copying from an encoder that never says it has finished *)
Section Unfinished.
  Context {E : Type} (poll : E -> E * pres bytes) (I : E -> bytes -> Prop).
  Hypothesis step : forall e X e' x, I e X -> poll e = (e', x) ->
    match x with POk o => o <> [] /\ exists X', X = o ++ X' /\ I e' X' | PPend _ => I e' X | _ => True end.
  Lemma copy_unfinished fuel : forall e X bb w amt w' x, I e X -> copy_go poll fuel e bb w amt = (w', x) ->
    (forall k, x <> ROk k) /\ exists p, prefix p (bb ++ X) /\ w_out w' = w_out w ++ p.
  Proof.
    assert (N : forall w Y, exists p, prefix p Y /\ w_out w = w_out w ++ p) by (intros; exists []; split; [apply prefix_nil|now rewrite app_nil_r]).
    induction fuel as [|f IH]; intros e X bb w amt w' x HI H; cbn [copy_go] in H; [injection H as <- <-; split; [discriminate|apply N]|].
    destruct bb as [|c bb].
    - destruct (poll e) as [e' y] eqn:EP. pose proof (step _ _ _ _ HI EP) as Q. destruct y as [o|fi| | |].
      + destruct Q as (NE & X' & -> & HI'). destruct o as [|c o]; [congruence|]. destruct (IH _ _ _ _ _ _ _ HI' H) as (A & p & P & O). split; [exact A|]. exists p. auto.
      + exact (IH _ _ _ _ _ _ _ Q H).
      + injection H as <- <-. split; [discriminate|apply N].
      + injection H as <- <-. split; [discriminate|apply N].
      + injection H as <- <-. split; [discriminate|apply N].
    - set (d := c :: bb) in *. clearbody d. unfold w_write in H. destruct (w_evs w) as [|[k|fi|] r].
      + destruct (length d) as [|j] eqn:L; [injection H as <- <-; split; [discriminate|]|].
        { exists []. destruct d; [|discriminate]. split; [apply prefix_nil|reflexivity]. }
        rewrite <- L, skipn_all in H. destruct (IH _ _ _ _ _ _ _ HI H) as (A & p & P & O). split; [exact A|]. exists (d ++ p).
        split; [now apply prefix_app|]. rewrite O. cbn [w_out]. now rewrite app_assoc.
      + destruct (Nat.min k (length d)) as [|j] eqn:L; [injection H as <- <-; split; [discriminate|]|].
        { exists []. split; [apply prefix_nil|reflexivity]. }
        destruct (IH _ _ _ _ _ _ _ HI H) as (A & p & P & O). split; [exact A|]. exists (firstn (S j) d ++ p). split.
        * rewrite <- (firstn_skipn (S j) d) at 2. rewrite <- app_assoc. now apply prefix_app.
        * rewrite O. cbn [w_out]. now rewrite app_assoc.
      + destruct (IH _ _ _ _ _ _ _ HI H) as (A & p & P & O). split; [exact A|]. exists p. auto.
      + injection H as <- <-. split; [discriminate|]. exists []. split; [apply prefix_nil|cbn; now rewrite app_nil_r].
  Qed.
End Unfinished.

(** ** Readers with no more than [D] to give *)
Definition dry (r : reader) : Prop := exists d, r = RMsg (RChunked [] d) /\ d_st d = DDone /\ ok_dec d.
Definition gives (ev : env) (r : reader) (D : bytes) : Prop := (exists c m, yields ev r D c m) \/ ended ev r \/ dry r.

Lemma dry_poll ev n r r' x : big ev -> dry r -> (0 < n)%nat -> rdr_poll ev n r = (r', x) ->
  match x with POk o => o = [] /\ dry r' | PPend _ => dry r' | _ => True end.
Proof.
  intros [Hc G] (d & -> & ES & HO) Hn H. cbn [rdr_poll body_read] in H. unfold bufdec_read in H.
  set (n' := if (e_bufcap ev <=? n)%nat then n else e_bufcap ev). assert (Hn' : (0 < n')%nat) by (unfold n'; destruct (e_bufcap ev <=? n)%nat; lia).
  destruct (dec_read ev n' d) as [d1 y] eqn:E.
  pose proof (read_ok _ _ _ _ _ G HO Hn' E) as P. pose proof (done_poll ev n' d (dec_fuel d) d1 y ES (proj1 HO) E) as Q.
  unfold n' in E. destruct (e_bufcap ev <=? n)%nat; rewrite E in H; destruct y as [z|f| | |]; injection H as <- <-; try exact I; try contradiction.
  - destruct Q as (-> & Q & _). split; [reflexivity|]. exists d1. destruct P. auto.
  - exists d1. destruct P, Q. auto.
  - destruct Q as (-> & Q & _). rewrite firstn_nil. split; [reflexivity|]. exists d1. destruct P. auto.
  - exists d1. destruct P, Q. auto.
Qed.

(** A chunked body that reports its end is dry. *)
Lemma chunked_dry ev n buf d D c m r' : big ev -> yields ev (RMsg (RChunked buf d)) D c m -> (0 < n)%nat ->
  rdr_poll ev n (RMsg (RChunked buf d)) = (r', POk []) -> dry r'.
Proof.
  intros [Hc G] (tr & h & extra & e & p & Y1 & Y2 & Y3 & Y4 & Y5 & Y6 & _) Hn H. cbn [rdr_poll body_read] in H.
  destruct buf as [|c0 buf]; [|destruct n; [lia|]; cbn in H; discriminate].
  unfold bufdec_read in H. set (n' := if (e_bufcap ev <=? n)%nat then n else e_bufcap ev). assert (Hn' : (0 < n')%nat) by (unfold n'; destruct (e_bufcap ev <=? n)%nat; lia).
  destruct (dec_read ev n' d) as [d1 y] eqn:E.
  pose proof (read_ok _ _ _ _ _ G Y6 Hn' E) as P.
  pose proof (poll_R ev tr h extra Y1 Y2 G true e Y3 n' d (dec_fuel d) p (fun _ => Hn') Y4 Y5) as Q. fold (dec_read ev n' d) in Q. rewrite E in Q. cbn [fst snd] in Q.
  assert (X : y = POk [] -> dry (RMsg (RChunked [] d1))).
  { intros ->. cbn [ret_R] in Q. destruct Q as (p' & _ & _ & Q & _). exists d1. destruct P. auto. }
  unfold n' in E. destruct (e_bufcap ev <=? n)%nat; rewrite E in H; destruct y as [z|f| | |]; try discriminate.
  - injection H as <- ->. now apply X.
  - injection H as <- EZ. assert (z = []) as -> by (destruct z; [reflexivity|destruct n; [lia|discriminate]]). rewrite firstn_nil. now apply X.
Qed.

Lemma gives_poll ev n r D r' x : big ev -> gives ev r D -> (0 < n)%nat -> rdr_poll ev n r = (r', x) ->
  match x with POk o => exists D', D = o ++ D' /\ gives ev r' D' | PPend _ => gives ev r' D | _ => True end.
Proof.
  intros Hb [(c & m & HY)|[HE|HD]] Hn H.
  - destruct (poll_spec _ _ _ _ _ _ _ _ Hb HY H) as [_ Q]. destruct x as [o|f| | |]; try exact I.
    + destruct Q as (_ & Q1 & Q2). destruct o as [|b o].
      * exists D. split; [reflexivity|]. destruct (Q2 eq_refl Hn) as (_ & _ & Q3). right. destruct r as [s|[rem b|buf d]].
        -- left. now apply Q3.
        -- left. now apply Q3.
        -- right. eapply chunked_dry; eauto.
      * destruct (Q1 ltac:(discriminate)) as (D' & m' & -> & _ & Y). exists D'. split; [reflexivity|]. left. eauto.
    + destruct Q as (m' & _ & Y). left. eauto.
  - rewrite HE in H. injection H as <- <-. exists D. split; [reflexivity|]. right. now left.
  - pose proof (dry_poll _ _ _ _ _ Hb HD Hn H) as Q. destruct x as [o|f| | |]; try exact I.
    + destruct Q as [-> Q]. exists D. split; [reflexivity|]. right. now right.
    + right. now right.
Qed.

Section Over.
  Variables (ev : env) (cl : N).
  Hypothesis Hb : big ev.
  Let n := e_bufcap ev.
  Hypothesis Hcl : (cl + N.of_nat n < two64)%N.

  (** The encoder has yet to write a part of the head, and not enough of a body. *)
  Definition over (en : renc) (X : bytes) : Prop :=
    exists D, rn_cl en = Some cl /\ gives ev (rn_rdr en) D /\ (rn_bodyread en + N.of_nat (length D) < cl)%N /\
    match rn_state en with
    | EStart => rn_head en = [] /\ rn_headread en = 0%nat /\ X = head_text ev (y_head (rn_resp en)) ++ D
    | EHead => (rn_headread en < length (rn_head en))%nat /\ X = skipn (rn_headread en) (rn_head en) ++ D
    | EFixed => X = D
    | _ => False
    end.

  Lemma over_fixed f : forall en out D en' x, rn_state en = EFixed -> rn_cl en = Some cl -> gives ev (rn_rdr en) D -> (rn_bodyread en + N.of_nat (length D) < cl)%N ->
    (length out <= n)%nat -> renc_fixed f ev en out n = (en', x) ->
    match x with POk o => o <> [] /\ exists d X', o = out ++ d /\ D = d ++ X' /\ over en' X' | PPend _ => out = [] /\ over en' D | _ => True end.
  Proof.
    assert (Hn : (0 < n)%nat) by apply Hb.
    induction f as [|f IH]; intros en out D en' x HS HC HG HL Ho H; cbn [renc_fixed] in H; [injection H as <- <-; exact I|].
    destruct (length out =? n)%nat eqn:EO.
    { injection H as <- <-. split; [intros ->; apply Nat.eqb_eq in EO; cbn [length] in EO; lia|]. exists [], D. split; [now rewrite app_nil_r|]. split; [reflexivity|].
      exists D. rewrite HS. auto. }
    rewrite HC in H. rewrite upper_arith_ok in H by lia. cbv zeta in H.
    match type of H with context [(?a <? length out)%nat] => replace (a <? length out)%nat with false in H by lia; set (up := (a - length out)%nat) in H; assert (Hup : (0 < up <= n - length out)%nat) by (unfold up; lia) end.
    destruct (rdr_poll ev up (y_rdr (rn_resp en))) as [r' y] eqn:EP. clearbody up.
    pose proof (gives_poll _ _ _ _ _ _ Hb HG (proj1 Hup) EP) as Q. destruct y as [d|fi| | |]; try (injection H as <- <-; exact I).
    - destruct Q as (D' & -> & Q). rewrite app_length in HL. replace (cl =? rn_bodyread en + N.of_nat (length d))%N with false in H by lia.
      assert (Hd : (length d <= up)%nat).
      { destruct HG as [(c & m & HY)|[HE|HD]].
        - now destruct (poll_spec _ _ _ _ _ _ _ _ Hb HY EP) as (_ & Z & _).
        - unfold rn_rdr in HE. rewrite HE in EP. injection EP as <- <-. cbn. lia.
        - destruct (dry_poll _ _ _ _ _ Hb HD (proj1 Hup) EP) as [-> _]. cbn. lia. }
      apply IH with (D := D') in H; cbn [rn_state rn_bodyread]; auto; [|lia|rewrite app_length; lia].
      destruct x as [o|fi| | |]; auto.
      + destruct H as (NE & d2 & X' & -> & -> & HO). split; [exact NE|]. exists (d ++ d2), X'. split; [now rewrite app_assoc|]. split; [now rewrite app_assoc|exact HO].
      + destruct H as (NE & HO). apply app_eq_nil in NE as [-> ->]. auto.
    - assert (HO : over (mkRenc (y_with (rn_resp en) r') (rn_state en) (rn_head en) (rn_headread en) (rn_bodyread en) (rn_chunked en)) D).
      { exists D. cbn [rn_cl rn_rdr rn_resp rn_state rn_bodyread y_with y_rdr]. unfold rn_rdr, rn_cl. cbn [rn_resp y_with y_rdr y_len]. rewrite HS. auto. }
      injection H as <- <-. destruct out as [|c out]; [auto|]. split; [discriminate|]. exists [], D. rewrite app_nil_r. auto.
  Qed.

  Lemma over_head f en D en' x : rn_state en = EHead -> rn_cl en = Some cl -> gives ev (rn_rdr en) D -> (rn_bodyread en + N.of_nat (length D) < cl)%N ->
    (rn_headread en < length (rn_head en))%nat -> renc_head f ev en n = (en', x) ->
    match x with POk o => o <> [] /\ exists X', skipn (rn_headread en) (rn_head en) ++ D = o ++ X' /\ over en' X' | PPend _ => over en' (skipn (rn_headread en) (rn_head en) ++ D) | _ => True end.
  Proof.
    intros HS HC HG HL HH H. assert (Hn : (0 < n)%nat) by apply Hb. unfold renc_head in H. cbv zeta in H.
    set (len := Nat.min (length (rn_head en) - rn_headread en) n) in *. set (rest := skipn (rn_headread en) (rn_head en)) in *.
    assert (LR : length rest = (length (rn_head en) - rn_headread en)%nat) by (unfold rest; now rewrite skipn_length).
    destruct (_ =? _)%nat eqn:EH.
    - rewrite HC in H. assert (EF : firstn len rest = rest) by (apply firstn_all2; lia). rewrite EF in H.
      apply over_fixed with (D := D) in H; auto; [|lia]. destruct x as [o|fi| | |]; auto.
      + destruct H as (NE & d & X' & -> & -> & HO). split; [exact NE|]. exists X'. now rewrite <- app_assoc.
      + destruct H as (Z & _). exfalso. rewrite Z in LR. cbn [length] in LR. lia.
    - injection H as <- <-. split.
      { intros Z. apply (f_equal (@length ascii)) in Z. rewrite firstn_length in Z. cbn [length] in Z. lia. }
      exists (skipn len rest ++ D). split; [now rewrite app_assoc, firstn_skipn|]. exists D. unfold rn_cl, rn_rdr in *. cbn [rn_resp rn_state rn_bodyread rn_headread rn_head]. rewrite HS.
      split; [exact HC|]. split; [exact HG|]. split; [exact HL|]. split; [lia|]. unfold rest. now rewrite skipn_skipn'.
  Qed.

  Lemma over_step f en X en' x : over en X -> renc_poll f ev n en = (en', x) ->
    match x with POk o => o <> [] /\ exists X', X = o ++ X' /\ over en' X' | PPend _ => over en' X | _ => True end.
  Proof.
    intros (D & HC & HG & HL & HS) H. unfold renc_poll in H. destruct (rn_state en) eqn:ES; try contradiction.
    - destruct HS as (H1 & H2 & ->). unfold renc_start in H. cbv zeta in H.
      apply over_head with (D := D) in H; auto.
      + cbn [rn_head rn_headread] in H. rewrite H1, H2 in H. exact H.
      + cbn [rn_head rn_headread]. rewrite H1, H2. apply head_text_pos.
    - destruct HS as (H1 & ->). eapply over_head; eauto.
    - subst X. apply over_fixed with (D := D) in H; auto; [|cbn; lia]. destruct x as [o|fi| | |]; auto.
      + destruct H as (NE & d & X' & -> & -> & HO). split; [exact NE|]. now exists X'.
      + now destruct H.
  Qed.

  Lemma over_relay y D fuel wr wr' x : y_len y = Some cl -> gives ev (y_rdr y) D -> (N.of_nat (length D) < cl)%N -> relay fuel ev y wr = (wr', x) ->
    (forall k, x <> ROk k) /\ exists p, prefix p (head_text ev (y_head y) ++ D) /\ w_out wr' = w_out wr ++ p.
  Proof.
    intros HC HG HL H. unfold relay in H.
    apply (copy_unfinished (renc_poll fuel ev (e_bufcap ev)) over (over_step fuel) fuel (renc_new y) (head_text ev (y_head y) ++ D) [] wr 0%N); [|exact H].
    exists D. unfold rn_cl, rn_rdr, renc_new. cbn [rn_resp rn_state rn_head rn_headread rn_bodyread].
    split; [exact HC|]. split; [exact HG|]. split; [exact HL|]. auto.
  Qed.
End Over.
