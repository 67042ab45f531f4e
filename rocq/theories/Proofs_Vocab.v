(** Names, values, targets and header maps: what the model of the http crate makes of them. *)
From Verif Require Import Accept Http SpecText SpecHead SpecChunked SpecReq SpecServer Lemmas Proofs_Text Proofs_Head Proofs_Map Proofs_ServerDec Proofs_Accept Proofs_Request Proofs_RoundTrip.

Lemma memb_iff c l : existsb (Ascii.eqb c) l = true <-> In c l.
Proof.
  rewrite existsb_exists. split; [intros (x & I & E); apply Ascii.eqb_eq in E; now subst|]. intros I. exists c. split; [exact I|]. apply Ascii.eqb_refl.
Qed.
Lemma tchar_spelt c : is_tchar c = true <-> In c tchars.
Proof.
  assert (K : forall c, Bool.eqb (is_tchar c) (existsb (Ascii.eqb c) tchars) = true) by (apply byte_forall; vm_compute; reflexivity).
  specialize (K c). apply Bool.eqb_prop in K. rewrite K. apply memb_iff.
Qed.
(** The small letter by looking it up. *)
Fixpoint lookup (c : byte) (a b : bytes) : option byte :=
  match a, b with
  | x :: a', y :: b' => if Ascii.eqb c x then Some y else lookup c a' b'
  | _, _ => None
  end.
Lemma lookup_some c a : forall b d, lookup c a b = Some d -> exists i, nth_error a i = Some c /\ nth_error b i = Some d.
Proof.
  induction a as [|x a IH]; intros [|y b] d; try discriminate. cbn. destruct (Ascii.eqb_spec c x) as [->|_].
  - intros [= ->]. now exists 0%nat.
  - intros H. destruct (IH _ _ H) as (i & H1 & H2). now exists (S i).
Qed.
Lemma lookup_none c a : forall b, length a = length b -> lookup c a b = None -> ~ In c a.
Proof.
  induction a as [|x a IH]; intros [|y b] L; try discriminate; [intros _ []|]. cbn. destruct (Ascii.eqb_spec c x) as [->|N]; [discriminate|].
  intros H [->|I]; [congruence|]. injection L as L. now apply (IH b L H).
Qed.
Lemma lowerc_spelt c : small_of c (lowerc c).
Proof.
  assert (K : forall c, Ascii.eqb (lowerc c) (match lookup c capitals smalls with Some d => d | None => c end) = true) by (apply byte_forall; vm_compute; reflexivity).
  specialize (K c). apply Ascii.eqb_eq in K. rewrite K. destruct (lookup c capitals smalls) as [d|] eqn:E.
  - left. now apply lookup_some.
  - right. split; [|reflexivity]. exact (lookup_none c capitals smalls eq_refl E).
Qed.
Lemma nth_error_fun (c : byte) : forall i j, nth_error capitals i = Some c -> nth_error capitals j = Some c -> i = j.
Proof.
  assert (ND : NoDup capitals).
  { assert (X : forallb (fun x => Nat.eqb (count_occ Ascii.ascii_dec capitals x) 1) capitals = true) by (vm_compute; reflexivity).
    apply (NoDup_count_occ Ascii.ascii_dec). intros x. destruct (count_occ Ascii.ascii_dec capitals x) eqn:E; [lia|].
    assert (I : In x capitals) by (apply (count_occ_In Ascii.ascii_dec); lia). rewrite forallb_forall in X. specialize (X _ I). apply Nat.eqb_eq in X. lia. }
  intros i j H1 H2. apply (proj1 (NoDup_nth_error capitals) ND); [apply nth_error_Some; congruence|congruence].
Qed.
Lemma small_of_fun c d d' : small_of c d -> small_of c d' -> d = d'.
Proof.
  intros [(i & H1 & H2)|[N ->]] [(j & H3 & H4)|[N' ->]]; [|exfalso|exfalso|reflexivity].
  - rewrite (nth_error_fun c i j H1 H3) in H2. congruence.
  - apply N'. now apply (nth_error_In _ i).
  - apply N. now apply (nth_error_In _ j).
Qed.
Lemma lower_spelt l n : Forall2 small_of l n <-> n = lower l.
Proof.
  split; [|intros ->; induction l as [|c l IH]; constructor; auto using lowerc_spelt].
  induction 1 as [|c d l n H _ IH]; [reflexivity|]. change (lower (c :: l)) with (lowerc c :: lower l). f_equal; [|exact IH].
  apply (small_of_fun c); [exact H|apply lowerc_spelt].
Qed.
Lemma eq_ic_spelt a b : eq_ic a b = true <-> equal_text a b.
Proof.
  unfold eq_ic. rewrite beq_eq. split.
  - intros E. exists (lower a). split; apply lower_spelt; auto.
  - intros (n & H1 & H2). apply lower_spelt in H1, H2. congruence.
Qed.

Lemma header_name_spelt l n : header_name l = Some n <-> l <> [] /\ Forall (fun c => In c tchars) l /\ (N.of_nat (length l) <= 65535)%N /\ Forall2 small_of l n.
Proof.
  rewrite lower_spelt. unfold header_name, max_name_len. destruct l as [|c l]; [split; [discriminate|intros [N _]; congruence]|].
  assert (T : Forall (fun c => In c tchars) (c :: l) <-> forallb is_tchar (c :: l) = true).
  { rewrite forallb_forall, Forall_forall. split; intros H x I; apply tchar_spelt; auto. }
  rewrite T. destruct (forallb is_tchar (c :: l)), (N.leb_spec (N.of_nat (length (c :: l))) 65535); cbn [andb]; split;
    try discriminate; try (intros (? & ? & ? & ?); (discriminate || lia)).
  - intros [= <-]. ands; auto. discriminate.
  - intros (_ & _ & _ & ->). reflexivity.
Qed.
Lemma method_spelt l m : method_of l = Some m <-> l <> [] /\ Forall (fun c => In c tchars) l /\ m = l.
Proof.
  unfold method_of. destruct l as [|c l]; [split; [discriminate|intros [N _]; congruence]|].
  assert (T : Forall (fun c => In c tchars) (c :: l) <-> forallb is_tchar (c :: l) = true).
  { rewrite forallb_forall, Forall_forall. split; intros H x I; apply tchar_spelt; auto. }
  rewrite T. destruct (forallb is_tchar (c :: l)); split; try discriminate; [intros [= <-]; ands; auto; discriminate|intros (_ & _ & ->); reflexivity|intros (_ & X & _); discriminate].
Qed.
Lemma header_value_spelt l v : header_value l = Some v <-> v = l /\ Forall (fun c => (32 <= bv c /\ bv c <> 127)%N \/ c = HT) l.
Proof.
  unfold header_value. assert (T : Forall (fun c => (32 <= bv c /\ bv c <> 127)%N \/ c = HT) l <-> forallb is_value_byte l = true).
  { rewrite forallb_forall, Forall_forall. split; intros H x I; apply value_byte_iff; auto. }
  rewrite T. destruct (forallb is_value_byte l); split; try discriminate; [intros [= <-]; auto|intros [-> _]; reflexivity|intros [_ X]; discriminate].
Qed.
Lemma to_str_spelt l v : value_to_str l = Some v <-> v = l /\ Forall (fun c => (32 <= bv c <= 126)%N \/ c = HT) l.
Proof.
  unfold value_to_str. assert (T : Forall (fun c => (32 <= bv c <= 126)%N \/ c = HT) l <-> forallb is_str_byte l = true).
  { rewrite forallb_forall, Forall_forall. assert (K : forall c, is_str_byte c = true <-> (32 <= bv c <= 126)%N \/ c = HT).
    { intros c. unfold is_str_byte, in_range. assert (X : bv c = 9%N <-> c = HT).
      { split; [|intros ->; reflexivity]. intros E. unfold bv in E. rewrite <- (ascii_N_embedding c), E. reflexivity. }
      rewrite <- X. lia. }
    split; intros H x I; apply K; auto. }
  rewrite T. destruct (forallb is_str_byte l); split; try discriminate; [intros [= <-]; auto|intros [-> _]; reflexivity|intros [_ X]; discriminate].
Qed.

(** ** Header maps *)
Lemma name_ok_lower n : name_ok n = true -> lower n = n.
Proof. intros H. now apply name_ok_tchar in H. Qed.
Lemma map_append x k k' v m : hm_wf m -> header_name k = Some k' -> forallb is_value_byte v = true ->
  hm_wf (hm_append k' v m) /\ values x (hm_iter (hm_append k' v m)) = values x (hm_iter m) ++ (if eq_ic k x then [v] else []).
Proof.
  intros W H V. apply header_name_ok in H as [-> NK]. assert (W' := hm_append_wf _ _ _ W NK V). split; [exact W'|].
  rewrite !values_get_all by assumption. rewrite get_all_append. reflexivity.
Qed.
Lemma map_insert x k k' v m : hm_wf m -> header_name k = Some k' -> forallb is_value_byte v = true ->
  hm_wf (hm_insert k' v m) /\ values x (hm_iter (hm_insert k' v m)) = if eq_ic k x then [v] else values x (hm_iter m).
Proof.
  intros W H V. apply header_name_ok in H as [-> NK]. assert (W' := hm_insert_wf _ _ _ W NK V). split; [exact W'|].
  rewrite !values_get_all by assumption. rewrite get_all_insert. reflexivity.
Qed.
Lemma contains_get_all n m : Forall (fun kv => snd kv <> []) m -> (hm_contains n m = true <-> hm_get_all n m <> []).
Proof.
  induction 1 as [|[k vs] m H F IH]; [cbn; split; congruence|]. cbn [snd] in H. cbn [hm_contains hm_get_all]. destruct (beq k n); cbn [orb]; [tauto|exact IH].
Qed.
Lemma map_look x k m : hm_wf m -> header_name x = Some k ->
  hm_get_all k m = values x (hm_iter m) /\ hm_get k m = hd_error (values x (hm_iter m)) /\ (hm_contains k m = true <-> values x (hm_iter m) <> []).
Proof.
  intros W H. apply header_name_ok in H as [-> _]. rewrite (values_get_all x m W). ands; [reflexivity|unfold hm_get; now destruct (hm_get_all (lower x) m)|].
  apply contains_get_all. destruct W as [_ W]. revert W. apply Forall_impl. now intros [k vs] (_ & ? & _).
Qed.

(** ** Targets *)
Lemma parse_query_iff l x : parse_query l = Some x <-> exists f, l = x ++ f /\ Forall (fun c => is_query_char c = true) x /\ (f = [] \/ exists g, f = B "#" ++ g).
Proof.
  revert x. induction l as [|c l IH]; intros x.
  - cbn. split; [intros [= <-]; exists []; auto|]. intros (f & E & _). symmetry in E. now apply app_eq_nil in E as [-> _].
  - cbn [parse_query]. destruct (Ascii.eqb_spec c HASH) as [->|NH].
    + split; [intros [= <-]; exists (HASH :: l); ands; auto; right; exists l; reflexivity|].
      intros (f & E & F & _). destruct x as [|d x]; [reflexivity|]. injection E as <- _. inversion F; subst. discriminate.
    + split.
      * destruct (is_query_char c) eqn:Q; [|discriminate]. destruct (parse_query l) as [y|] eqn:P; [|discriminate]. intros [= <-].
        destruct (proj1 (IH y) eq_refl) as (f & -> & F & HF). exists f. ands; auto.
      * intros (f & E & F & HF). destruct x as [|d x].
        { cbn [app] in E. subst f. destruct HF as [?|(g & ?)]; [discriminate|]. injection H as E _. now elim NH. }
        injection E as <- E. inversion F as [|? ? Q F']; subst. rewrite Q. rewrite (proj2 (IH x)); [reflexivity|]. exists f. auto.
Qed.
Lemma parse_pq_iff l p o : parse_pq l = Some (p, o) <-> exists f, l = p ++ match o with Some x => B "?" ++ x | None => [] end ++ f /\
  Forall (fun c => is_path_char c = true) p /\ (forall x, o = Some x -> Forall (fun c => is_query_char c = true) x) /\ (f = [] \/ exists g, f = B "#" ++ g).
Proof.
  revert p. induction l as [|c l IH]; intros p.
  - cbn. split; [intros [= <- <-]; exists []; ands; auto; discriminate|]. intros (f & E & _). symmetry in E. apply app_eq_nil in E as [-> E].
    apply app_eq_nil in E as [E _]. destruct o; [discriminate|reflexivity].
  - cbn [parse_pq]. destruct (Ascii.eqb_spec c QM) as [->|NQ]; [|destruct (Ascii.eqb_spec c HASH) as [->|NH]].
    + split.
      * destruct (parse_query l) as [x|] eqn:P; [|discriminate]. intros [= <- <-]. apply parse_query_iff in P as (f & -> & F & HF).
        exists f. ands; auto. intros y [= <-]. exact F.
      * intros (f & E & F & HO & HF). destruct p as [|d p]; [|injection E as <- _; inversion F; subst; discriminate]. cbn [app] in E.
        destruct o as [x|]; [|destruct HF as [->|(g & ->)]; discriminate]. cbn in E. injection E as ->.
        rewrite (proj2 (parse_query_iff (x ++ f) x)); [reflexivity|]. exists f. ands; auto.
    + split.
      * intros [= <- <-]. exists (HASH :: l). ands; auto; [discriminate|]. right. now exists l.
      * intros (f & E & F & HO & HF). destruct p as [|d p]; [|injection E as <- _; inversion F; subst; discriminate]. cbn [app] in E.
        destruct o as [x|]; [discriminate|reflexivity].
    + split.
      * destruct (is_path_char c) eqn:Q; [|discriminate]. destruct (parse_pq l) as [[y z]|] eqn:P; [|discriminate]. intros [= <- <-].
        destruct (proj1 (IH y) eq_refl) as (f & -> & F & HO & HF). exists f. ands; auto.
      * intros (f & E & F & HO & HF). destruct p as [|d p].
        { cbn [app] in E. destruct o as [x|]; [injection E as E _; now elim NQ|]. destruct HF as [->|(g & ->)]; [discriminate|]. injection E as E _. now elim NH. }
        injection E as <- E. inversion F as [|? ? Q F']; subst. rewrite Q. rewrite (proj2 (IH p)); [reflexivity|]. exists f. auto.
Qed.
Lemma parse_uri_iff other r u : parse_uri other ("/"%char :: r) = Some u <->
  u_host u = None /\ u_port u = None /\ readable_target ("/"%char :: r) (u_path u) (u_query u).
Proof.
  unfold parse_uri, readable_target, max_uri_len. change (Ascii.eqb "/"%char (ascii_of_N 47)) with true. cbv iota.
  destruct (N.ltb_spec 65534 (N.of_nat (length ("/"%char :: r)))) as [L|L]; [split; [discriminate|intros (_ & _ & X & _); lia]|].
  assert (K : forall p o, parse_pq ("/"%char :: r) = Some (p, o) <-> origin_form ("/"%char :: r) p o).
  { intros p o. rewrite parse_pq_iff. unfold origin_form; plain. split; intros (f & H); exists f; [|tauto]. destruct H as (E & F & HO & HF). ands; auto.
    destruct p as [|d p]; [|injection E as <- _; eauto]. destruct o; [discriminate|]. destruct HF as [->|(g & ->)]; discriminate. }
  destruct u as [h po p o]. cbn [u_host u_port u_path u_query]. rewrite <- K. destruct (parse_pq ("/"%char :: r)) as [[y z]|]; split; try discriminate.
  - intros [= <- <- <- <-]. auto.
  - intros (-> & -> & _ & [= <- <-]). reflexivity.
  - intros (_ & _ & _ & X). discriminate.
Qed.
Lemma target_read ev tmo s wt s' wt' q b : (0 < e_bufcap ev)%nat -> wf_src s -> decode ev tmo s wt = (s', wt', OReq q b) ->
  exists w rl hs, offers tmo s w /\ grammatical (e_trim ev) rl hs w /\
    forall r, l_target rl = "/"%char :: r ->
      u_host (q_uri q) = None /\ u_port (q_uri q) = None /\ readable_target (l_target rl) (u_path (q_uri q)) (u_query (q_uri q)).
Proof.
  intros Hc Ws H. destruct (obtained ev tmo s wt s' wt' q b Hc Ws H) as (w & rl & hs & HO & G & _ & _ & _ & _ & U & _).
  exists w, rl, hs. ands; auto. intros r E. rewrite E in *. now apply parse_uri_iff in U.
Qed.
Lemma target_refused ev o s w rl hs c r : env_ok ev -> offers (o_timeout o) s w -> grammatical (e_trim ev) rl hs w -> l_minor rl = 1%N -> faultless hs ->
  continues hs c -> values (B "host") hs <> [] -> l_target rl = "/"%char :: r -> (forall p x, ~ readable_target (l_target rl) p x) -> refused ev o s c 400.
Proof.
  intros He HO G M F C H E N. eapply refuse; eauto. eapply j_target; eauto. rewrite E in *. destruct (parse_uri (e_uri ev) ("/"%char :: r)) as [u|] eqn:U; [|reflexivity].
  apply parse_uri_iff in U as (_ & _ & U). now elim (N _ _ U).
Qed.
