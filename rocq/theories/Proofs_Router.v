(** Lemmas about the router. *)
From Verif Require Import Router SpecRouter SpecHead Lemmas Proofs_Text.

(** ** Patterns *)
Lemma begins_cons cs c l : In c cs -> begins cs (c :: l).
Proof. intros H. exists c, l. auto. Qed.
Lemma trimmed_slash l x : ~ begins ["/"%char] l -> trimmed (B "/" ++ l) x -> x = l.
Proof.
  intros N (n & E & NX). destruct n as [|[|n]]; cbn [repeat app] in E.
  - exfalso. apply NX. rewrite <- E. apply begins_cons. now left.
  - now injection E.
  - exfalso. apply N. injection E as ->. apply begins_cons. now left.
Qed.
Lemma pattern_lits m : forall p k, ~ In ":"%char m -> ~ In "*"%char m -> pattern (m ++ p) k -> exists k', k = map Lit m ++ k' /\ pattern p k'.
Proof.
  induction m as [|c m IH]; intros p k N1 N2 H; [exists k; auto|]. cbn [app] in H. inversion H as [|c' l k1 D1 D2 H1 Q1 Q2|n l k1 D1 D2 D3 H1 Q1 Q2|n Q1 Q2]; subst.
  - destruct (IH p k1) as (k' & -> & P); [intros X; apply N1; now right|intros X; apply N2; now right|exact H1|]. exists k'. auto.
  - exfalso. apply N1. now left.
  - exfalso. apply N2. now left.
Qed.
Lemma fits_lits m : forall k t ps, fits (map Lit m ++ k) t ps -> exists t', t = m ++ t' /\ fits k t' ps.
Proof.
  induction m as [|c m IH]; intros k t ps H; [exists t; auto|]. cbn [map app] in H. inversion H as [|c' k' t0 ps' H1 Q1 Q2 Q3| |]; subst.
  destruct (IH _ _ _ H1) as (t' & -> & F). exists t'. auto.
Qed.
Lemma first_slash a b x y : ~ In "/"%char a -> ~ In "/"%char b -> a ++ "/"%char :: x = b ++ "/"%char :: y -> a = b /\ x = y.
Proof.
  revert b. induction a as [|c a IH]; intros b NA NB E; destruct b as [|d b]; cbn [app] in E.
  - now injection E.
  - injection E as <- _. exfalso. apply NB. now left.
  - injection E as -> _. exfalso. apply NA. now left.
  - injection E as -> E. destruct (IH b) as [-> ->]; [intros X; apply NA; now right|intros X; apply NB; now right|exact E|auto].
Qed.
Lemma method_no c m : is_method m -> is_tchar c = false -> ~ In c m.
Proof. intros [_ H] N I. plain. rewrite forallb_forall in H. apply H in I. congruence. Qed.
Lemma method_begins m l : is_method m -> ~ begins ["/"%char] (m ++ l).
Proof.
  intros H (c & r & E & I). destruct I as [<-|[]]. destruct m as [|d m]; [now destruct H|]. injection E as -> _. apply (method_no "/"%char _ H); [reflexivity|now left].
Qed.
Lemma slash_pattern p k : begins ["/"%char] p -> pattern p k -> exists k', k = Lit "/"%char :: k'.
Proof. intros (c & r & -> & [<-|[]]) H. inversion H; subst; eauto. Qed.

(** Under regular registrations a pattern that matches does so part by part. *)
Lemma key_fits m p k qm path ps : is_method m -> ~ In "*"%char m -> begins ["/"%char] p -> is_method qm -> is_path path ->
  pattern (m ++ p) k -> fits k (qm ++ path) ps -> m = qm /\ exists k', pattern p k' /\ fits k' path ps.
Proof.
  intros M S P QM QP HP HF. destruct (pattern_lits m p k (method_no ":"%char _ M eq_refl) S HP) as (k' & -> & HP'). destruct (fits_lits _ _ _ _ HF) as (t & E & HF').
  assert (X : exists r, t = "/"%char :: r). { destruct (slash_pattern p k' P HP') as (k'' & ->). inversion HF'; subst; eauto. }
  destruct X as (r & ->). pose proof (method_no "/"%char _ M eq_refl) as NM. pose proof (method_no "/"%char _ QM eq_refl) as NQ.
  destruct QP as [->|[->|(c & y & -> & [<-|[]])]].
  - exfalso. rewrite app_nil_r in E. apply NQ. rewrite E. apply in_elt.
  - exfalso. assert (I : In "/"%char (qm ++ B "*")) by (rewrite E; apply in_elt). apply in_app_or in I as [I|[I|[]]]; [now apply NQ|discriminate I].
  - symmetry in E. destruct (first_slash _ _ _ _ NM NQ E) as [-> ->]. split; [reflexivity|eauto].
Qed.

(** ** The builder *)
Section Builder.
Context {V : Type}.
Implicit Types (cs : list (rcall V)) (b : rbuilder V).
Lemma tree_calls cs : forall b p e, In (p, e) (rb_tree (rb_calls cs b)) <-> In (p, e) (rb_tree b) \/ exists m p', In (RAt m p' e) cs /\ p = B "/" ++ m ++ p'.
Proof.
  induction cs as [|c cs IH]; intros b p e.
  - cbn [rb_calls fold_left]. split; [now left|]. intros [H|(m & p' & [] & _)]. exact H.
  - change (rb_calls (c :: cs) b) with (rb_calls cs (rb_call c b)). rewrite IH. split.
    + intros [H|(m & p' & I & E)]; [|right; exists m, p'; split; [now right|exact E]].
      destruct c as [m p' e'|t v|t v]; cbn [rb_call rb_at rb_add_data rb_wrapped_data rb_tree] in H; auto.
      apply in_app_or in H as [H|[H|[]]]; [now left|]. right. exists m, p'. injection H as <- <-. split; [now left|reflexivity].
    + intros [H|(m & p' & [->|I] & E)]; [left| |right; eauto].
      * destruct c; cbn [rb_call rb_at rb_add_data rb_wrapped_data rb_tree]; auto. apply in_or_app. now left.
      * left. subst p. cbn [rb_call rb_at rb_tree]. apply in_or_app. right. now left.
Qed.

Lemma ty_eqb_spec (a : ty) : forall b : ty, ty_eqb a b = true <-> a = b.
Proof.
  induction a as [n|a IH]; intros [m|b]; cbn [ty_eqb]; try (split; discriminate).
  - rewrite Nat.eqb_eq. split; congruence.
  - rewrite IH. split; congruence.
Qed.
Lemma tm_get_insert t u v (m : tmap V) : tm_get t (tm_insert u v m) = if ty_eqb u t then Some v else tm_get t m.
Proof.
  unfold tm_insert. cbn [tm_get]. destruct (ty_eqb u t) eqn:E; [reflexivity|]. induction m as [|[w x] m IH]; [reflexivity|]. cbn [filter fst tm_get].
  destruct (ty_eqb w u) eqn:F; cbn [negb].
  - apply ty_eqb_spec in F. subst w. rewrite E. exact IH.
  - cbn [tm_get]. now rewrite IH.
Qed.

Definition known (t : ty) (d : option (tmap V)) : option V := match d with Some m => tm_get (TData t) m | None => None end.
Lemma newest_snoc {A X} (f : A -> option X) l a o : newest f l o -> newest f (l ++ [a]) (match f a with Some x => Some x | None => o end).
Proof.
  intros H. destruct (f a) as [x|] eqn:E; [now apply nw_some|]. destruct H as [l F|l1 b l2 x Hb F].
  - apply nw_none, Forall_app. auto.
  - rewrite <- app_assoc. apply (nw_some f l1 b (l2 ++ [a]) x Hb). apply Forall_app. auto.
Qed.
Lemma data_calls cs : (rb_data (rb_calls cs rb_new) = None <-> ~ Exists data_call cs) /\ forall t, newest (registers t) cs (known t (rb_data (rb_calls cs rb_new))).
Proof.
  induction cs as [|c cs [IH1 IH2]] using rev_ind.
  - split; [split; [intros _ H; inversion H|reflexivity]|]. intros t. apply nw_none. constructor.
  - unfold rb_calls in *. rewrite fold_left_app. cbn [fold_left]. set (b := fold_left (fun b c => rb_call c b) cs rb_new) in *. split.
    + rewrite Exists_app. destruct c as [m p e|t v|t v]; cbn [rb_call rb_at rb_add_data rb_wrapped_data rb_data].
      * rewrite IH1. split; [intros N [H|H]; [auto|inversion H as [? ? X|? ? X]; subst; [exact X|inversion X]]|intros N H; apply N; now left].
      * split; [discriminate|]. intros N. exfalso. apply N. right. now left.
      * split; [discriminate|]. intros N. exfalso. apply N. right. now left.
    + intros t. specialize (IH2 t). apply (newest_snoc _ _ c) in IH2. replace (known t _) with (match registers t c with Some x => Some x | None => known t (rb_data b) end); [exact IH2|].
      destruct c as [m p e|u v|u v]; cbn [rb_call rb_at rb_add_data rb_wrapped_data rb_data registers known]; [reflexivity| |]; rewrite tm_get_insert; cbn [ty_eqb];
        destruct (ty_eqb _ _); try reflexivity; now destruct (rb_data b).
Qed.
Lemma first_param_under k ps : first_under k ps (first_param k ps).
Proof.
  induction ps as [|[n v] ps IH]; [apply fu_none; intros v []|]. cbn [first_param]. destruct (beq_spec k n) as [->|N].
  - apply (fu_some n [] v ps). intros w [].
  - destruct IH as [l H|l1 w l2 H]; [apply fu_none|apply (fu_some k ((n, v) :: l1))]; intros x [E|I]; try (now apply (H x)); injection E as -> ->; now apply N.
Qed.

(** [route] reaches a registered endpoint or answers 404. *)
Lemma route_cases find err cs q x r : path_tree find -> Forall regular cs -> is_method (q_meth q) -> is_path (u_path (q_uri q)) ->
  (route find err (rb_finish (rb_calls cs rb_new)) q x r = Rt (PSend (rw_set_status 404 r) (fun _ => Rt None) (Rt (glitch_err err)))) \/
  exists e ps x', route find err (rb_finish (rb_calls cs rb_new)) q x r = e q x' r /\ answers cs (q_meth q) (u_path (q_uri q)) e ps /\ sees cs x x' ps.
Proof.
  intros PT R QM QP. unfold route. cbn [rb_finish rt_tree rt_data]. destruct (find _ _) as [[e ps]|] eqn:E; [right|now left].
  destruct (PT _ _ _ _ E) as (p & p' & t' & k & I & T1 & T2 & P & F). apply tree_calls in I as [[]|(m & pa & I & ->)].
  pose proof (proj1 (Forall_forall _ _) R _ I) as (M & S & PB). apply (trimmed_slash _ _ (method_begins m pa M)) in T1. apply (trimmed_slash _ _ (method_begins _ _ QM)) in T2. subst p' t'.
  destruct (key_fits m pa k _ _ ps M S PB QM QP P F) as (-> & k' & P' & F').
  exists e, ps. eexists. split; [reflexivity|]. split; [exists pa, k'; auto|]. destruct (data_calls cs) as [D1 D2]. split; [|split; [reflexivity|]].
  - intros t. unfold req_data. cbn [x_data]. split; intros H.
    + specialize (D2 t). destruct (rb_data _); [exact D2|]. exfalso. now apply D1.
    + apply D1 in H. now rewrite H.
  - intros n. unfold req_get_param. cbn [x_params]. apply first_param_under.
Qed.
Lemma route_none find err cs q x r : path_tree find -> Forall regular cs -> is_method (q_meth q) -> is_path (u_path (q_uri q)) ->
  (forall e ps, ~ answers cs (q_meth q) (u_path (q_uri q)) e ps) ->
  route find err (rb_finish (rb_calls cs rb_new)) q x r = Rt (PSend (rw_set_status 404 r) (fun _ => Rt None) (Rt (glitch_err err))).
Proof.
  intros PT R QM QP N. destruct (route_cases find err cs q x r PT R QM QP) as [H|(e & ps & _ & _ & H & _)]; [exact H|]. now elim (N e ps).
Qed.
End Builder.

(** Routes of different methods never match the same text. *)
Lemma methods_disjoint m1 p1 m2 p2 k1 k2 t ps1 ps2 : is_method m1 -> is_method m2 -> ~ In "*"%char m1 -> ~ In "*"%char m2 ->
  begins ["/"%char] p1 -> begins ["/"%char] p2 -> pattern (m1 ++ p1) k1 -> pattern (m2 ++ p2) k2 -> fits k1 t ps1 -> fits k2 t ps2 -> m1 = m2.
Proof.
  intros M1 M2 S1 S2 B1 B2 P1 P2 F1 F2. destruct (pattern_lits m1 p1 k1 (method_no ":"%char _ M1 eq_refl) S1 P1) as (k1' & -> & Q1). destruct (fits_lits _ _ _ _ F1) as (t1 & E1 & G1).
  subst t. destruct (slash_pattern p1 k1' B1 Q1) as (k & ->). inversion G1; subst.
  eapply key_fits in P2; [destruct P2; symmetry; eassumption|auto..|exact F2]. right. right. apply begins_cons. now left.
Qed.
Lemma literal_fits l : forall k t ps, ~ In ":"%char l -> ~ In "*"%char l -> pattern l k -> fits k t ps -> t = l /\ ps = [].
Proof.
  intros k t ps N1 N2 P F. rewrite <- (app_nil_r l) in P. destruct (pattern_lits l [] k N1 N2 P) as (k' & -> & Q). inversion Q; subst. destruct (fits_lits _ _ _ _ F) as (t' & -> & G). inversion G; subst.
  now rewrite app_nil_r.
Qed.
Lemma key_injective m1 p1 m2 p2 : is_method m1 -> is_method m2 -> begins ["/"%char] p1 -> begins ["/"%char] p2 -> B "/" ++ m1 ++ p1 = B "/" ++ m2 ++ p2 -> m1 = m2 /\ p1 = p2.
Proof.
  intros M1 M2 (c1 & r1 & -> & [<-|[]]) (c2 & r2 & -> & [<-|[]]) E. injection E as E.
  destruct (first_slash _ _ _ _ (method_no "/"%char _ M1 eq_refl) (method_no "/"%char _ M2 eq_refl) E) as [-> ->]. auto.
Qed.
