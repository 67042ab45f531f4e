(** Cors. *)
From Verif Require Import Cors SpecHead SpecResponse SpecWriter SpecCors SpecServer SpecGlitch Lemmas Proofs_Head Proofs_Map Proofs_Glitch Proofs_Writer Proofs_Text.

(** ** Sets *)
Lemma set_mem_in x s : set_mem x s = true <-> In x s.
Proof. induction s as [|y s IH]; cbn; [easy|]. rewrite orb_true_iff, IH, beq_eq. reflexivity. Qed.
Lemma set_add_in x y s : In x (set_add y s) <-> x = y \/ In x s.
Proof.
  unfold set_add. destruct (set_mem y s) eqn:E.
  - apply set_mem_in in E. intuition congruence.
  - rewrite in_app_iff. cbn. intuition congruence.
Qed.
Lemma set_add_nodup y s : NoDup s -> NoDup (set_add y s).
Proof.
  unfold set_add. destruct (set_mem y s) eqn:E; intros H; [exact H|]. apply (Permutation_NoDup (l := y :: s)); [apply Permutation_cons_append|].
  constructor; [|exact H]. intros I. apply set_mem_in in I. congruence.
Qed.
Lemma set_extend_in x ys : forall s, In x (set_extend ys s) <-> In x ys \/ In x s.
Proof.
  unfold set_extend. induction ys as [|y ys IH]; cbn; intros s; [intuition|]. rewrite IH, set_add_in. intuition congruence.
Qed.
Lemma set_extend_nodup ys : forall s, NoDup s -> NoDup (set_extend ys s).
Proof. unfold set_extend. induction ys as [|y ys IH]; cbn; intros s H; [exact H|]. apply IH. now apply set_add_nodup. Qed.

Lemma convert_in {A} (f : A -> option bytes) l : forall ys, convert f l = Some ys -> forall y, In y ys <-> exists x, In x l /\ f x = Some y.
Proof.
  induction l as [|x l IH]; cbn; intros ys E y.
  - injection E as <-. split; [intros []|intros (? & [] & _)].
  - destruct (f x) as [z|] eqn:F; [|discriminate]. destruct (convert f l) as [zs|] eqn:C; [|discriminate]. injection E as <-. cbn. rewrite (IH zs eq_refl y). split.
    + intros [<-|(x' & I & E)]; eauto.
    + intros (x' & [->|I] & E); [left; congruence|eauto].
Qed.
Lemma convert_all {A} (f : A -> option bytes) l : forall ys, convert f l = Some ys -> forall x, In x l -> exists y, f x = Some y.
Proof.
  induction l as [|x l IH]; cbn; intros ys E x0 I; [contradiction|].
  destruct (f x) as [z|] eqn:F; [|discriminate]. destruct (convert f l) as [zs|] eqn:C; [|discriminate]. destruct I as [->|I]; eauto.
Qed.

(** ** Origins *)
Lemma split_scheme_ok l : forall s t, split_scheme l = Some (s, t) <-> l = s ++ B "://" ++ t /\ ~ occurs (B "://") (s ++ B ":/").
Proof.
  induction l as [|c l IH]; intros s t.
  - cbn. split; [discriminate|]. intros [E _]. destruct s; discriminate E.
  - cbn [split_scheme]. destruct (beq_spec (firstn 3 (c :: l)) (B "://")) as [E|NE].
    + assert (EL : c :: l = B "://" ++ skipn 3 (c :: l)) by (rewrite <- E; symmetry; apply firstn_skipn). split.
      * intros [= <- <-]. split; [exact EL|]. intros (a & b & X). apply (f_equal (@length _)) in X. rewrite !app_length in X. cbn in X. lia.
      * intros [E1 N]. destruct s as [|d s].
        -- rewrite EL in E1. cbn [app] in E1. apply app_inv_head in E1. now rewrite <- E1.
        -- exfalso. apply N. rewrite EL in E1. destruct s as [|d2 [|d3 s]]; cbn in E1 |- *.
           ++ discriminate E1.
           ++ discriminate E1.
           ++ injection E1 as <- <- <- _. exists [], (s ++ B ":/"). reflexivity.
    + destruct (split_scheme l) as [[s' t']|] eqn:S.
      * destruct (proj1 (IH s' t') eq_refl) as [E1 N]. split.
        -- intros [= <- <-]. split; [cbn [app]; rewrite E1; reflexivity|]. intros (a & b & X). destruct a as [|a0 a]; cbn in X.
           ++ apply NE. rewrite E1. cbn [app] in X. destruct s' as [|d [|d2 s']]; cbn in X |- *; try discriminate X. injection X as -> -> -> _. reflexivity.
           ++ injection X as -> X. apply N. now exists a, b.
        -- intros [E2 N2]. destruct s as [|d s]; [exfalso; apply NE; rewrite E2; reflexivity|]. injection E2 as <- E2.
           assert (X : Some (s', t') = Some (s, t)) by (apply IH; split; [exact E2|]; intros (a & b & Y); apply N2; exists (c :: a), b; cbn [app]; f_equal; exact Y).
           now injection X as -> ->.
      * split; [discriminate|]. intros [E2 N2]. destruct s as [|d s]; [exfalso; apply NE; rewrite E2; reflexivity|]. injection E2 as <- E2.
        assert (X : None = Some (s, t)) by (apply IH; split; [exact E2|]; intros (a & b & Y); apply N2; exists (c :: a), b; cbn [app]; f_equal; exact Y). discriminate X.
Qed.

Lemma into_origin_names origin_of l o : into_origin origin_of l = Some o -> names_origin origin_of l o.
Proof.
  unfold into_origin. destruct (split_scheme l) as [[s t]|] eqn:S; [|discriminate]. destruct (origin_of s t) as [o'|] eqn:O; [|discriminate].
  unfold header_value. destruct (forallb is_value_byte o'); [|discriminate]. intros [= ->]. apply split_scheme_ok in S as [S1 S2]. now exists s, t.
Qed.
Lemma names_fun origin_of l o1 o2 : names_origin origin_of l o1 -> names_origin origin_of l o2 -> o1 = o2.
Proof.
  intros (s1 & t1 & E1 & N1 & O1) (s2 & t2 & E2 & N2 & O2). pose proof (proj2 (split_scheme_ok l s1 t1) (conj E1 N1)) as X1.
  pose proof (proj2 (split_scheme_ok l s2 t2) (conj E2 N2)) as X2. rewrite X1 in X2. injection X2 as -> ->. congruence.
Qed.

(** ** The builder *)
Lemma method_of_same m m' : method_of m = Some m' -> m' = m.
Proof. unfold method_of. destruct m; [discriminate|]. destruct (forallb is_tchar _); congruence. Qed.

(** What the builder knows after a history of calls. *)
Record knows (origin_of : bytes -> bytes -> option bytes) (cs : list bcall) (b : builder) : Prop := {
  kn_cred : cb_credentials b = credentials cs;
  kn_age : cb_age b = age cs;
  kn_methods : forall m, In m (cb_methods b) <-> allows_method cs m;
  kn_headers : forall n, In n (cb_headers b) <-> n = lower n /\ allows_header cs n;
  kn_exposed : forall n, In n (cb_exposed b) <-> n = lower n /\ exposes_header cs n;
  kn_hvalid : Forall (fun n => name_ok n = true) (cb_headers b);
  kn_evalid : Forall (fun n => name_ok n = true) (cb_exposed b);
  kn_mvalid : Forall (fun m => method_of m = Some m) (cb_methods b);
  kn_uniq : NoDup (cb_methods b) /\ NoDup (cb_headers b) /\ NoDup (cb_exposed b);
  kn_origins : exists cs', since_any cs cs' /\
    match cb_origins b with
    | None => Forall (fun c => ~ lists_origins c) cs'
    | Some s => Exists lists_origins cs' /\ forall o, In o s <-> Exists (call_origin origin_of o) cs'
    end
}.

Lemma exists_snoc {A} (P : A -> Prop) l x : Exists P (l ++ [x]) <-> Exists P l \/ P x.
Proof. rewrite Exists_app, Exists_cons, Exists_nil. intuition. Qed.
Lemma since_snoc cs cs' c : since_any cs cs' -> c <> BAnyOrigin -> since_any (cs ++ [c]) (cs' ++ [c]).
Proof.
  intros H NE. assert (K : forall l, ~ In BAnyOrigin l -> ~ In BAnyOrigin (l ++ [c])) by (intros l N I; apply in_app_iff in I as [I|[I|[]]]; congruence || contradiction).
  destruct H as [cs N|cs cs' N]; [apply sa_all; auto|]. rewrite <- app_assoc. cbn [app]. apply sa_after; auto.
Qed.
Lemma since_reset cs : since_any (cs ++ [BAnyOrigin]) [].
Proof. apply sa_after. intros []. Qed.
Lemma since_fun cs a b : since_any cs a -> since_any cs b -> a = b.
Proof.
  assert (K : forall c1 c2 a b, ~ In BAnyOrigin a -> ~ In BAnyOrigin b -> c1 ++ BAnyOrigin :: a = c2 ++ BAnyOrigin :: b -> a = b).
  { induction c1 as [|x c1 IH]; intros c2 a0 b0 Na Nb E; destruct c2 as [|y c2]; cbn in E.
    - congruence.
    - injection E as <- E. exfalso. apply Na. rewrite E. apply in_elt.
    - injection E as -> E. exfalso. apply Nb. rewrite <- E. apply in_elt.
    - injection E as _ E. eauto. }
  intros Ha Hb. inversion Ha as [x Na|c1 x Na]; inversion Hb as [y Nb|c2 y Nb]; subst; auto.
  - exfalso. apply Na. apply in_elt.
  - exfalso. apply Nb. apply in_elt.
  - eauto.
Qed.

Lemma header_in h h' n : header_name h = Some h' -> (n = h' <-> n = lower n /\ eq_ic h n = true).
Proof.
  intros H. apply header_name_ok in H as [-> _]. plain; unfold eq_ic. rewrite beq_eq. split; [intros ->; now rewrite lower_lower|]. intros [E1 E2]. congruence.
Qed.
Lemma header_in_list hs hs' n : convert header_name hs = Some hs' -> (In n hs' <-> n = lower n /\ exists x, In x hs /\ eq_ic x n = true).
Proof.
  intros H. rewrite (convert_in header_name hs hs' H n). split.
  - intros (x & I & E). pose proof (proj1 (header_in x n n E) eq_refl) as [E1 E2]. eauto.
  - intros (E1 & x & I & E2). exists x. split; [exact I|]. destruct (convert_all header_name hs hs' H x I) as (y & Y).
    rewrite Y. f_equal. symmetry. now apply (header_in x y n Y).
Qed.
Lemma header_valid_list hs hs' : convert header_name hs = Some hs' -> Forall (fun n => name_ok n = true) hs'.
Proof. intros H. apply Forall_forall. intros n I. apply (convert_in _ _ _ H) in I as (x & _ & E). now apply header_name_ok in E. Qed.
Lemma method_in_list ms ms' m : convert method_of ms = Some ms' -> (In m ms' <-> In m ms).
Proof.
  intros H. rewrite (convert_in method_of ms ms' H m). split.
  - intros (x & I & E). apply method_of_same in E. now subst.
  - intros I. exists m. split; [exact I|]. destruct (convert_all _ _ _ H m I) as (y & Y). rewrite Y. f_equal. now apply method_of_same in Y.
Qed.
Lemma method_valid_list ms ms' : convert method_of ms = Some ms' -> Forall (fun m => method_of m = Some m) ms'.
Proof. intros H. apply Forall_forall. intros n I. apply (convert_in _ _ _ H) in I as (x & _ & E). pose proof (method_of_same _ _ E). now subst. Qed.
Lemma origin_in_list f os os' o : convert (into_origin f) os = Some os' -> (In o os' <-> exists x, In x os /\ names_origin f x o).
Proof.
  intros H. rewrite (convert_in _ os os' H o). split.
  - intros (x & I & E). eauto using into_origin_names.
  - intros (x & I & E). exists x. split; [exact I|]. destruct (convert_all _ _ _ H x I) as (y & Y). rewrite Y. f_equal. eauto using into_origin_names, names_fun.
Qed.

Lemma forall_extend (P : bytes -> Prop) xs s : Forall P xs -> Forall P s -> Forall P (set_extend xs s).
Proof. intros H1 H2. apply Forall_forall. intros x I. apply set_extend_in in I as [I|I]; [now apply (proj1 (Forall_forall _ _) H1)|now apply (proj1 (Forall_forall _ _) H2)]. Qed.
Lemma forall_add (P : bytes -> Prop) x s : P x -> Forall P s -> Forall P (set_add x s).
Proof. intros H1 H2. apply Forall_forall. intros y I. apply set_add_in in I as [->|I]; [exact H1|now apply (proj1 (Forall_forall _ _) H2)]. Qed.

Lemma knows_new f : knows f [] cors_build.
Proof.
  constructor; cbn; auto; try (intros; split; [intros []|]); try constructor.
  - intros H. inversion H.
  - intros [_ H]. inversion H.
  - intros [_ H]. inversion H.
  - constructor.
  - split; constructor.
  - exists []. split; [apply sa_all; intros []|constructor].
Qed.

Lemma origins_irrelevant f cs c x : c <> BAnyOrigin -> ~ lists_origins c ->
  (exists cs', since_any cs cs' /\ match x with
    | None => Forall (fun c => ~ lists_origins c) cs'
    | Some s => Exists lists_origins cs' /\ forall o, In o s <-> Exists (call_origin f o) cs' end) ->
  exists cs', since_any (cs ++ [c]) cs' /\ match x with
    | None => Forall (fun c => ~ lists_origins c) cs'
    | Some s => Exists lists_origins cs' /\ forall o, In o s <-> Exists (call_origin f o) cs' end.
Proof.
  intros N1 N2 (cs' & S & H). exists (cs' ++ [c]). split; [now apply since_snoc|]. destruct x as [s|].
  - destruct H as [H1 H2]. split; [apply exists_snoc; now left|]. intros o. rewrite exists_snoc, H2.
    assert (~ call_origin f o c) by (destruct c; cbn in N2 |- *; tauto). tauto.
  - apply Forall_app. split; [exact H|]. constructor; [exact N2|constructor].
Qed.

Lemma knows_step f cs c b b' : knows f cs b -> b_call f c b = Some b' -> knows f (cs ++ [c]) b'.
Proof.
  intros K E.
  assert (CR : credentials (cs ++ [c]) = match says_credentials c with Some x => x | None => credentials cs end) by (unfold credentials; rewrite rev_app_distr; reflexivity).
  assert (AG : age (cs ++ [c]) = match says_age c with Some x => x | None => age cs end) by (unfold age; rewrite rev_app_distr; reflexivity).
  assert (M : forall m, allows_method (cs ++ [c]) m <-> allows_method cs m \/ call_method m c) by (intros; apply exists_snoc).
  assert (H : forall m, allows_header (cs ++ [c]) m <-> allows_header cs m \/ call_header m c) by (intros; apply exists_snoc).
  assert (X : forall m, exposes_header (cs ++ [c]) m <-> exposes_header cs m \/ call_exposes m c) by (intros; apply exists_snoc).
  destruct K as [K1 K2 K3 K4 K5 K6 K7 K8 [U1 [U2 U3]] K10].
  assert (OR : c <> BAnyOrigin -> ~ lists_origins c -> cb_origins b' = cb_origins b -> exists cs', since_any (cs ++ [c]) cs' /\
    match cb_origins b' with None => Forall (fun c => ~ lists_origins c) cs' | Some s => Exists lists_origins cs' /\ forall o, In o s <-> Exists (call_origin f o) cs' end)
    by (intros N1 N2 ->; apply origins_irrelevant; auto).
  destruct c as [x|m|ms|h|hs|h|hs| |o|os|a]; cbn [b_call] in E; unfold allow_method, allow_methods, allow_header, allow_headers, expose_header, expose_headers in E;
    cbn [says_credentials says_age call_method call_header call_exposes] in *.
  - injection E as <-. constructor; cbn; auto; intros; rewrite ?M, ?H, ?X, ?K3, ?K4, ?K5, ?CR, ?AG; auto; try tauto. apply OR; cbn; auto; discriminate.
  - destruct (method_of m) as [m'|] eqn:Q; [|discriminate]. pose proof (method_of_same _ _ Q); subst m'. injection E as <-.
    constructor; cbn; auto using forall_add, set_add_nodup; intros; rewrite ?set_add_in, ?M, ?H, ?X, ?K3, ?K4, ?K5, ?CR, ?AG; auto; try tauto; [intuition congruence|]. apply OR; cbn; auto; discriminate.
  - destruct (convert method_of ms) as [ms'|] eqn:Q; [|discriminate]. injection E as <-.
    constructor; cbn; auto using forall_extend, set_extend_nodup; intros; rewrite ?set_extend_in, ?M, ?H, ?X, ?K3, ?K4, ?K5, ?CR, ?AG; auto; try tauto.
    + rewrite (method_in_list _ _ _ Q). tauto.
    + apply forall_extend; eauto using method_valid_list.
    + apply OR; cbn; auto; discriminate.
  - destruct (header_name h) as [h'|] eqn:Q; [|discriminate]. injection E as <-.
    constructor; cbn; auto using forall_add, set_add_nodup; intros; rewrite ?set_add_in, ?M, ?H, ?X, ?K3, ?K4, ?K5, ?CR, ?AG; auto; try tauto.
    + rewrite (header_in _ _ _ Q). tauto.
    + apply forall_add; auto. now apply header_name_ok in Q.
    + apply OR; cbn; auto; discriminate.
  - destruct (convert header_name hs) as [hs'|] eqn:Q; [|discriminate]. injection E as <-.
    constructor; cbn; auto using set_extend_nodup; intros; rewrite ?set_extend_in, ?M, ?H, ?X, ?K3, ?K4, ?K5, ?CR, ?AG; auto; try tauto.
    + rewrite (header_in_list _ _ _ Q). tauto.
    + apply forall_extend; eauto using header_valid_list.
    + apply OR; cbn; auto; discriminate.
  - destruct (header_name h) as [h'|] eqn:Q; [|discriminate]. injection E as <-.
    constructor; cbn; auto using forall_add, set_add_nodup; intros; rewrite ?set_add_in, ?M, ?H, ?X, ?K3, ?K4, ?K5, ?CR, ?AG; auto; try tauto.
    + rewrite (header_in _ _ _ Q). tauto.
    + apply forall_add; auto. now apply header_name_ok in Q.
    + apply OR; cbn; auto; discriminate.
  - destruct (convert header_name hs) as [hs'|] eqn:Q; [|discriminate]. injection E as <-.
    constructor; cbn; auto using set_extend_nodup; intros; rewrite ?set_extend_in, ?M, ?H, ?X, ?K3, ?K4, ?K5, ?CR, ?AG; auto; try tauto.
    + rewrite (header_in_list _ _ _ Q). tauto.
    + apply forall_extend; eauto using header_valid_list.
    + apply OR; cbn; auto; discriminate.
  - injection E as <-. constructor; cbn; auto; intros; rewrite ?M, ?H, ?X, ?K3, ?K4, ?K5, ?CR, ?AG; auto; try tauto.
    exists []. split; [apply since_reset|constructor].
  - unfold allow_origin, allow_origins in E. destruct (convert (into_origin f) [o]) as [os'|] eqn:Q; [|discriminate]. injection E as <-.
    constructor; cbn; auto; intros; rewrite ?M, ?H, ?X, ?K3, ?K4, ?K5, ?CR, ?AG; auto; try tauto.
    destruct K10 as (cs' & S & K10). exists (cs' ++ [BOrigin o]). split; [apply since_snoc; [exact S|discriminate]|].
    split; [apply exists_snoc; right; exact I|]. intros x. rewrite exists_snoc, set_extend_in, (origin_in_list _ _ _ _ Q). cbn [call_origin].
    assert (Z : (exists y, In y [o] /\ names_origin f y x) <-> names_origin f o x) by (split; [intros (y & [->|[]] & Y); exact Y|intros Y; exists o; split; [now left|exact Y]]).
    rewrite Z. destruct (cb_origins b) as [s|]; [destruct K10 as [_ K10]; rewrite K10; tauto|].
    assert (~ Exists (call_origin f x) cs') by (intros EX; apply Exists_exists in EX as (c & I1 & I2); apply (proj1 (Forall_forall _ _) K10) in I1; destruct c; cbn in I1, I2; tauto).
    cbn [In]. tauto.
  - unfold allow_origins in E. destruct (convert (into_origin f) os) as [os'|] eqn:Q; [|discriminate]. injection E as <-.
    constructor; cbn; auto; intros; rewrite ?M, ?H, ?X, ?K3, ?K4, ?K5, ?CR, ?AG; auto; try tauto.
    destruct K10 as (cs' & S & K10). exists (cs' ++ [BOrigins os]). split; [apply since_snoc; [exact S|discriminate]|].
    split; [apply exists_snoc; right; exact I|]. intros x. rewrite exists_snoc, set_extend_in, (origin_in_list _ _ _ _ Q). cbn [call_origin].
    destruct (cb_origins b) as [s|]; [destruct K10 as [_ K10]; rewrite K10; tauto|].
    assert (~ Exists (call_origin f x) cs') by (intros EX; apply Exists_exists in EX as (c & I1 & I2); apply (proj1 (Forall_forall _ _) K10) in I1; destruct c; cbn in I1, I2; tauto).
    cbn [In]. tauto.
  - injection E as <-. constructor; cbn; auto; intros; rewrite ?M, ?H, ?X, ?K3, ?K4, ?K5, ?CR, ?AG; auto; try tauto. apply OR; cbn; auto; discriminate.
Qed.

Lemma b_calls_app f cs1 : forall cs2 b, b_calls f (cs1 ++ cs2) b = match b_calls f cs1 b with Some b' => b_calls f cs2 b' | None => None end.
Proof. induction cs1 as [|c cs1 IH]; intros cs2 b; cbn; [reflexivity|]. destruct (b_call f c b); auto. Qed.
Lemma knows_calls f cs : forall b, b_calls f cs cors_build = Some b -> knows f cs b.
Proof.
  induction cs as [|c cs IH] using rev_ind; intros b E; [injection E as <-; apply knows_new|].
  rewrite b_calls_app in E. destruct (b_calls f cs cors_build) as [b1|]; [|discriminate]. cbn in E.
  destruct (b_call f c b1) as [b2|] eqn:C; [|discriminate]. injection E as <-. eauto using knows_step.
Qed.

(** ** The checks *)
Lemma tchar_unlowerc c : is_tchar (lowerc c) = true -> is_tchar c = true.
Proof. destruct c as [[] [] [] [] [] [] [] []]; vm_compute; auto. Qed.
Lemma tchar_str c : is_tchar c = true -> is_str_byte c = true.
Proof. destruct c as [[] [] [] [] [] [] [] []]; vm_compute; auto. Qed.
Lemma tchar_value c : is_tchar c = true -> is_value_byte c = true.
Proof. destruct c as [[] [] [] [] [] [] [] []]; vm_compute; auto. Qed.
Lemma tchar_unlower l : forallb is_tchar (lower l) = true -> forallb is_tchar l = true.
Proof.
  induction l as [|c l IH]; [auto|]. change (lower (c :: l)) with (lowerc c :: lower l). cbn [forallb]. rewrite !andb_true_iff. intros [H1 H2]. auto using tchar_unlowerc.
Qed.
Lemma name_ok_header n : name_ok (lower n) = true -> header_name n = Some (lower n).
Proof.
  unfold name_ok, header_name. destruct n as [|c n]; [discriminate|]. change (lower (c :: n)) with (lowerc c :: lower n) at 1.
  destruct (forallb is_tchar (lower (c :: n))) eqn:T; [|discriminate]. rewrite (tchar_unlower _ T), lower_length. cbn [andb]. destruct (_ <=? _)%N; [reflexivity|discriminate].
Qed.
Lemma call_header_ic n n' c : lower n = lower n' -> call_header n c -> call_header n' c.
Proof. intros E. destruct c; cbn; plain; unfold eq_ic; rewrite ?E; auto. Qed.
Lemma allows_header_ic cs n n' : lower n = lower n' -> allows_header cs n -> allows_header cs n'.
Proof. intros E. apply Exists_impl. intros c. now apply call_header_ic. Qed.

Lemma split_on_commas v : forall xs, split_on ","%char v = xs <-> commas xs v.
Proof.
  assert (K : forall xs v, commas xs v -> split_on ","%char v = xs).
  { assert (A : forall x, ~ In ","%char x -> split_on ","%char x = [x] /\ forall l, split_on ","%char (x ++ B "," ++ l) = x :: split_on ","%char l).
    { induction x as [|c x IH]; intros N; [split; reflexivity|]. cbn [app split_on]. destruct (Ascii.eqb_spec c ","%char) as [->|_]; [exfalso; apply N; now left|].
      destruct IH as [I1 I2]; [intros I; apply N; now right|]. split; [now rewrite I1|]. intros l. now rewrite I2. }
    intros xs0 v0 H. induction H as [x N|x xs l N H IH]; [now apply A|]. destruct (A x N) as [_ A2]. rewrite A2. now rewrite IH. }
  assert (E : exists xs, commas xs v).
  { induction v as [|c v (xs & H)]; [exists [[]]; constructor; intros []|]. destruct (Ascii.eqb_spec c ","%char) as [->|NE].
    - exists ([] :: xs). change (","%char :: v) with ([] ++ B "," ++ v). constructor; [intros []|exact H].
    - inversion H as [x N|x xs' l N H']; subst.
      + exists [c :: v]. constructor. intros [->|I]; auto.
      + exists ((c :: x) :: xs'). change (c :: x ++ B "," ++ l) with ((c :: x) ++ B "," ++ l). constructor; [intros [->|I]; auto|exact H']. }
  destruct E as (ys & H). intros xs. split; [|apply K]. intros <-. now rewrite (K _ _ H).
Qed.

Lemma flat_csv_listed xs : listed xs (flat_csv xs).
Proof.
  induction xs as [|x xs IH]; [constructor|]. destruct xs as [|y xs]; [constructor|]. change (flat_csv (x :: y :: xs)) with (x ++ B ", " ++ flat_csv (y :: xs)).
  constructor; [discriminate|exact IH].
Qed.
Lemma flat_csv_all (P : bytes -> Prop) s s' : Permutation s' s -> NoDup s -> (forall x, In x s <-> P x) -> lists_all P (flat_csv s').
Proof.
  intros HP HN H. exists s'. split; [apply flat_csv_listed|]. split; [apply (Permutation_NoDup (Permutation_sym HP) HN)|].
  intros x. rewrite <- H. split; apply Permutation_in; auto using Permutation_sym.
Qed.
Lemma flat_csv_value s : Forall (fun x => forallb is_tchar x = true) s -> forallb is_value_byte (flat_csv s) = true.
Proof.
  assert (A : forall x, forallb is_tchar x = true -> forallb is_value_byte x = true) by (intros x H; rewrite forallb_forall in *; auto using tchar_value).
  intros H. induction H as [|x s H _ IH]; [reflexivity|]. destruct s as [|y s]; [now apply A|]. change (flat_csv (x :: y :: s)) with (x ++ B ", " ++ flat_csv (y :: s)).
  rewrite forallb_app, (A x H). exact IH.
Qed.
Lemma to_dec_value n : forallb is_value_byte (to_dec n) = true.
Proof.
  apply forallb_forall. intros c I. pose proof (proj1 (Forall_forall _ _) (to_dec_digits n) c I) as (d & D & ->).
  assert (K : In d [0;1;2;3;4;5;6;7;8;9]%N) by (cbn; lia). cbn in K. intuition (subst; reflexivity).
Qed.

Section Configured.
Variables (f : bytes -> bytes -> option bytes) (cs : list bcall) (c : cors).
Hypothesis HC : configured f cs c.

Lemma origin_allowed o : is_origin_allowed c o = true <-> allows_origin f cs o.
Proof.
  destruct HC as (b & oh & oe & om & HB & _ & _ & _ & ->). destruct (kn_origins _ _ _ (knows_calls f cs b HB)) as (cs' & S & H).
  unfold is_origin_allowed. cbn [c_origins cors_finish]. destruct (cb_origins b) as [s|].
  - destruct H as [H1 H2]. rewrite set_mem_in, H2. split; [intros H; exists cs'; auto|]. intros (cs2 & S2 & H). rewrite (since_fun _ _ _ S S2) in *.
    destruct H as [H|H]; [|exact H]. exfalso. apply Exists_exists in H1 as (d & I1 & I2). now apply (proj1 (Forall_forall _ _) H d I1).
  - split; [|auto]. intros _. exists cs'. auto.
Qed.

Lemma method_allowed m : is_method_allowed c m = true <-> allows_method cs m.
Proof.
  destruct HC as (b & oh & oe & om & HB & _ & _ & _ & ->). pose proof (knows_calls f cs b HB) as K.
  unfold is_method_allowed. cbn [c_methods_set cors_finish]. rewrite <- (kn_methods _ _ _ K m). split.
  - destruct (method_of m) as [m'|] eqn:E; [|discriminate]. apply method_of_same in E. subst. apply set_mem_in.
  - intros I. rewrite (proj1 (Forall_forall _ _) (kn_mvalid _ _ _ K) m I). now apply set_mem_in.
Qed.

Lemma header_allowed_name h : is_header_allowed c h = true <-> allows_header cs h.
Proof.
  destruct HC as (b & oh & oe & om & HB & _ & _ & _ & ->). pose proof (knows_calls f cs b HB) as K.
  unfold is_header_allowed. cbn [c_headers_set cors_finish]. split.
  - destruct (header_name h) as [n|] eqn:E; [|discriminate]. apply header_name_ok in E as [-> _]. rewrite set_mem_in. intros I.
    apply (kn_headers _ _ _ K) in I as [_ I]. revert I. apply allows_header_ic, lower_lower.
  - intros A. assert (I : In (lower h) (cb_headers b)) by (apply (kn_headers _ _ _ K); split; [symmetry; apply lower_lower|]; revert A; apply allows_header_ic; symmetry; apply lower_lower).
    rewrite (name_ok_header h) by (exact (proj1 (Forall_forall _ _) (kn_hvalid _ _ _ K) _ I)). now apply set_mem_in.
Qed.
Lemma header_allowed_tchar h : is_header_allowed c h = true -> forallb is_tchar h = true.
Proof.
  unfold is_header_allowed, header_name. destruct h as [|x h]; [discriminate|]. destruct (forallb is_tchar (x :: h)); [reflexivity|discriminate].
Qed.

Lemma first_value (q : rhead) n : hm_wf (q_hdrs q) -> hm_get (lower n) (q_hdrs q) = hd_error (field q n).
Proof. intros W. unfold hm_get, field. rewrite values_get_all by exact W. now destruct (hm_get_all _ _). Qed.

Lemma commas_str xs v : commas xs v -> Forall (fun x => forallb is_tchar x = true) xs -> forallb is_str_byte v = true.
Proof.
  assert (A : forall x, forallb is_tchar x = true -> forallb is_str_byte x = true) by (intros x H; rewrite forallb_forall in *; auto using tchar_str).
  intros H. induction H as [x N|x xs l N H IH]; intros F; inversion F; subst; [now apply A|]. rewrite forallb_app, A by assumption. now apply IH.
Qed.

Lemma preflight_asks q : hm_wf (q_hdrs q) -> (preflight_ok c (q_hdrs q) = true <-> asks_allowed cs q).
Proof.
  intros W. unfold preflight_ok, asks_allowed. rewrite andb_true_iff.
  pose proof (first_value q (B "access-control-request-method") W) as V1. pose proof (first_value q (B "access-control-request-headers") W) as V2.
  change (lower (B "access-control-request-method")) with h_ac_request_method in V1. change (lower (B "access-control-request-headers")) with h_ac_request_headers in V2.
  rewrite V1, V2. clear V1 V2. split; intros [H1 H2]; split.
  - destruct (field q (B "access-control-request-method")) as [|m r]; [discriminate|]. cbn [hd_error] in H1. exists m, r. split; [reflexivity|]. now apply method_allowed.
  - destruct (field q (B "access-control-request-headers")) as [|v r]; [now left|]. cbn [hd_error] in H2. right. unfold value_to_str in H2.
    destruct (forallb is_str_byte v); [|discriminate]. change (ascii_of_N 44) with ","%char in H2. exists v, r, (split_on ","%char v). split; [reflexivity|]. split; [now apply split_on_commas|].
    intros x I. apply header_allowed_name. rewrite forallb_forall in H2. now apply H2.
  - destruct H1 as (m & r & -> & A). cbn [hd_error]. now apply method_allowed.
  - destruct H2 as [->|(v & r & xs & -> & C & A)]; [reflexivity|]. cbn [hd_error]. unfold value_to_str. change (ascii_of_N 44) with ","%char.
    rewrite (commas_str xs v C); [|apply Forall_forall; intros x I; apply header_allowed_tchar, header_allowed_name; auto].
    apply split_on_commas in C. rewrite C. apply forallb_forall. intros x I. apply header_allowed_name. auto.
Qed.
End Configured.

(** ** Answers *)
Ltac const_beq := repeat match goal with
  | |- context [beq ?a (lower (B ?s))] => let v := eval vm_compute in (beq a (lower (B s))) in change (beq a (lower (B s))) with v
  end.

Lemma method_tchar m : method_of m = Some m -> forallb is_tchar m = true.
Proof. unfold method_of. destruct m; [discriminate|]. destruct (forallb is_tchar (a :: m)); [reflexivity|discriminate]. Qed.

Section Answers.
Variables (f : bytes -> bytes -> option bytes) (cs : list bcall) (c : cors).
Hypothesis HC : configured f cs c.

Lemma exposed_value v : c_exposed c = Some v -> forallb is_value_byte v = true /\ lists_all (fun n => n = lower n /\ exposes_header cs n) v.
Proof.
  destruct HC as (b & oh & oe & om & HB & _ & P & _ & ->). pose proof (knows_calls f cs b HB) as K. cbn [cors_finish c_exposed].
  destruct (cb_exposed b) as [|x l] eqn:E; [discriminate|]. rewrite <- E. intros [= <-]. split.
  - apply flat_csv_value. apply Forall_forall. intros y I. apply (Permutation_in _ (P _)) in I. apply name_ok_tchar. exact (proj1 (Forall_forall _ _) (kn_evalid _ _ _ K) y I).
  - apply (flat_csv_all _ _ _ (P _)); [apply (kn_uniq _ _ _ K)|apply (kn_exposed _ _ _ K)].
Qed.
Lemma exposed_none : c_exposed c = None -> forall n, ~ exposes_header cs n.
Proof.
  destruct HC as (b & oh & oe & om & HB & _ & P & _ & ->). pose proof (knows_calls f cs b HB) as K. cbn [cors_finish c_exposed].
  destruct (cb_exposed b) as [|x l] eqn:E; [|discriminate]. intros _ n X. assert (I : In (lower n) (cb_exposed b)).
  { apply (kn_exposed _ _ _ K). split; [symmetry; apply lower_lower|]. revert X. apply Exists_impl. intros d. destruct d; cbn; plain; unfold eq_ic; rewrite ?lower_lower; auto. }
  rewrite E in I. exact I.
Qed.
Lemma methods_value : forallb is_value_byte (c_methods c) = true /\ lists_all (allows_method cs) (c_methods c).
Proof.
  destruct HC as (b & oh & oe & om & HB & _ & _ & P & ->). pose proof (knows_calls f cs b HB) as K. cbn [cors_finish c_methods]. split.
  - apply flat_csv_value. apply Forall_forall. intros y I. apply (Permutation_in _ (P _)) in I. apply method_tchar. exact (proj1 (Forall_forall _ _) (kn_mvalid _ _ _ K) y I).
  - apply (flat_csv_all _ _ _ (P _)); [apply (kn_uniq _ _ _ K)|apply (kn_methods _ _ _ K)].
Qed.
Lemma headers_value : forallb is_value_byte (c_headers c) = true /\ lists_all (fun n => n = lower n /\ allows_header cs n) (c_headers c).
Proof.
  destruct HC as (b & oh & oe & om & HB & P & _ & _ & ->). pose proof (knows_calls f cs b HB) as K. cbn [cors_finish c_headers]. split.
  - apply flat_csv_value. apply Forall_forall. intros y I. apply (Permutation_in _ (P _)) in I. apply name_ok_tchar. exact (proj1 (Forall_forall _ _) (kn_hvalid _ _ _ K) y I).
  - apply (flat_csv_all _ _ _ (P _)); [apply (kn_uniq _ _ _ K)|apply (kn_headers _ _ _ K)].
Qed.
Lemma credentials_value : c_credentials c = credentials cs /\ c_age c = age cs.
Proof.
  destruct HC as (b & oh & oe & om & HB & _ & _ & _ & ->). pose proof (knows_calls f cs b HB) as K. cbn. split; [apply (kn_cred _ _ _ K)|apply (kn_age _ _ _ K)].
Qed.

Lemma common_wf hs : hm_wf hs -> hm_wf (append_common_headers c hs).
Proof.
  intros W. unfold append_common_headers. destruct (c_exposed c) as [v|] eqn:E.
  - apply hm_insert_wf; [|reflexivity|apply exposed_value, E]. destruct (c_credentials c); [now apply hm_insert_wf|exact W].
  - destruct (c_credentials c); [now apply hm_insert_wf|exact W].
Qed.
Lemma common_get hs n : hm_get_all n (append_common_headers c hs) =
  if beq h_ac_expose_headers n then (match c_exposed c with Some v => [v] | None => hm_get_all n hs end)
  else if beq h_ac_allow_credentials n then (if c_credentials c then [B "true"] else hm_get_all n hs) else hm_get_all n hs.
Proof.
  unfold append_common_headers. destruct (c_exposed c) as [v|].
  - rewrite get_all_insert. destruct (beq_spec h_ac_expose_headers n) as [<-|_]; [reflexivity|]. destruct (c_credentials c); [|now destruct (beq _ n)]. apply get_all_insert.
  - destruct (c_credentials c); [|now destruct (beq h_ac_expose_headers n), (beq h_ac_allow_credentials n)]. rewrite get_all_insert. destruct (beq_spec h_ac_expose_headers n) as [<-|_]; [|reflexivity].
    change (beq h_ac_allow_credentials h_ac_expose_headers) with false. reflexivity.
Qed.

Definition simple_hs (o : bytes) (hs : hmap) : hmap := hm_insert h_ac_allow_origin o (append_common_headers c hs).
Lemma simple_wf o hs : hm_wf hs -> forallb is_value_byte o = true -> hm_wf (simple_hs o hs).
Proof. intros W V. apply hm_insert_wf; auto. now apply common_wf. Qed.
Lemma simple_common o hs : hm_wf hs -> forallb is_value_byte o = true ->
  common cs o (fun n => values n (hm_iter hs)) (fun n => values n (hm_iter (simple_hs o hs))) /\
  forall n, ~ In (lower n) [B "access-control-allow-origin"; B "access-control-allow-credentials"; B "access-control-expose-headers"] ->
    values n (hm_iter (simple_hs o hs)) = values n (hm_iter hs).
Proof.
  intros W V. pose proof (simple_wf o hs W V) as W'. destruct credentials_value as [CR _]. split; [split; [|split]|].
  - rewrite values_get_all by exact W'. unfold simple_hs. rewrite get_all_insert. const_beq. reflexivity.
  - rewrite !values_get_all by assumption. unfold simple_hs. rewrite get_all_insert, common_get. const_beq. cbv iota. now rewrite CR.
  - rewrite !values_get_all by assumption. unfold simple_hs. rewrite get_all_insert, common_get. const_beq. cbv iota. destruct (c_exposed c) as [v|] eqn:E.
    + right. exists v. split; [reflexivity|]. now apply exposed_value.
    + left. split; [now apply exposed_none|reflexivity].
  - intros n N. rewrite !values_get_all by assumption. unfold simple_hs. rewrite get_all_insert, common_get.
    assert (K : forall k, In k [B "access-control-allow-origin"; B "access-control-allow-credentials"; B "access-control-expose-headers"] -> beq k (lower n) = false).
    { intros k I. apply beq_neq. intros ->. contradiction. }
    unfold h_ac_allow_origin, h_ac_expose_headers, h_ac_allow_credentials. rewrite !K by (cbn; auto). reflexivity.
Qed.

Definition preflight_hs (o : bytes) : hmap := hm_insert h_ac_allow_origin o (append_preflight_headers c []).
Lemma preflight_wf o : forallb is_value_byte o = true -> hm_wf (preflight_hs o).
Proof.
  intros V. unfold preflight_hs, append_preflight_headers. apply hm_insert_wf; auto.
  assert (W : hm_wf (hm_insert h_ac_allow_methods (c_methods c) (hm_insert h_ac_allow_headers (c_headers c) (append_common_headers c [])))).
  { apply hm_insert_wf; [|reflexivity|apply methods_value]. apply hm_insert_wf; [|reflexivity|apply headers_value]. apply common_wf, hm_empty_wf. }
  destruct (c_age c); [|exact W]. apply hm_insert_wf; [exact W|reflexivity|apply to_dec_value].
Qed.
Lemma preflight_get o n : hm_get_all n (preflight_hs o) =
  if beq h_ac_allow_origin n then [o] else
  if beq h_ac_max_age n then match c_age c with Some a => [to_dec a] | None => [] end else
  if beq h_ac_allow_methods n then [c_methods c] else
  if beq h_ac_allow_headers n then [c_headers c] else hm_get_all n (append_common_headers c []).
Proof.
  unfold preflight_hs, append_preflight_headers. rewrite get_all_insert. destruct (beq h_ac_allow_origin n); [reflexivity|].
  destruct (c_age c).
  - rewrite get_all_insert. destruct (beq h_ac_max_age n); [reflexivity|]. rewrite get_all_insert. destruct (beq h_ac_allow_methods n); [reflexivity|]. apply get_all_insert.
  - rewrite get_all_insert, get_all_insert. destruct (beq_spec h_ac_max_age n) as [<-|_]; [|reflexivity].
    rewrite common_get. change (beq h_ac_allow_methods h_ac_max_age) with false. change (beq h_ac_allow_headers h_ac_max_age) with false.
    change (beq h_ac_expose_headers h_ac_max_age) with false. change (beq h_ac_allow_credentials h_ac_max_age) with false. reflexivity.
Qed.
Lemma preflight_holds o : forallb is_value_byte o = true -> preflight_headers cs o (fun n => values n (hm_iter (preflight_hs o))).
Proof.
  intros V. pose proof (preflight_wf o V) as W. destruct credentials_value as [CR AG]. split; [split; [|split]|split; [|split; [|split]]].
  - rewrite values_get_all, preflight_get by exact W. const_beq. reflexivity.
  - rewrite values_get_all, preflight_get, common_get by exact W. const_beq. cbv iota. now rewrite CR.
  - rewrite values_get_all, preflight_get, common_get by exact W. const_beq. cbv iota. destruct (c_exposed c) as [v|] eqn:E.
    + right. exists v. split; [reflexivity|]. now apply exposed_value.
    + left. split; [now apply exposed_none|reflexivity].
  - rewrite values_get_all, preflight_get by exact W. const_beq. cbv iota. eexists. split; [reflexivity|]. apply methods_value.
  - rewrite values_get_all, preflight_get by exact W. const_beq. cbv iota. eexists. split; [reflexivity|]. apply headers_value.
  - rewrite values_get_all, preflight_get by exact W. const_beq. cbv iota. rewrite AG. destruct (age cs); [|reflexivity]. eexists. split; [reflexivity|]. apply to_dec_numeral.
  - intros n N. rewrite values_get_all, preflight_get, common_get by exact W.
    assert (K : forall k, In k [B "access-control-allow-origin"; B "access-control-allow-credentials"; B "access-control-expose-headers";
                            B "access-control-allow-methods"; B "access-control-allow-headers"; B "access-control-max-age"] -> beq k (lower n) = false).
    { intros k I. apply beq_neq. intros ->. contradiction. }
    unfold h_ac_allow_origin, h_ac_expose_headers, h_ac_allow_credentials, h_ac_allow_methods, h_ac_allow_headers, h_ac_max_age. rewrite !K by (cbn; auto 8). reflexivity.
Qed.
End Answers.

Lemma field_value q n v : hm_wf (q_hdrs q) -> In v (field q n) -> forallb is_value_byte v = true.
Proof.
  intros [_ W] I. unfold field, values in I; plain. apply in_map_iff in I as ([k x] & <- & I). apply filter_In in I as [I _]. unfold hm_iter in I.
  apply in_flat_map in I as ([k' vs] & I1 & I2). apply in_map_iff in I2 as (y & [= <- <-] & I2). cbn [fst snd] in *.
  pose proof (proj1 (Forall_forall _ _) W _ I1) as (_ & _ & F). exact (proj1 (Forall_forall _ _) F y I2).
Qed.

Section Validate.
Variables (f : bytes -> bytes -> option bytes) (cs : list bcall) (c : cors).
Hypothesis HC : configured f cs c.
Variable q : rhead.
Hypothesis HQ : hm_wf (q_hdrs q).

Lemma validate_first : hm_get h_origin (q_hdrs q) = hd_error (field q (B "origin")).
Proof. exact (first_value q (B "origin") HQ). Qed.

Lemma validate_none r : field q (B "origin") = [] -> validate c q r = (r, inl tt).
Proof. intros E. unfold validate. now rewrite validate_first, E. Qed.

Lemma validate_refused o rest r : field q (B "origin") = o :: rest -> ~ allows_origin f cs o ->
  exists x, validate c q r = (r, x) /\ refusal x.
Proof.
  intros E N. unfold validate. rewrite validate_first, E. cbn [hd_error]. destruct (is_origin_allowed c o) eqn:A; [exfalso; now apply N, (origin_allowed f cs c HC)|].
  cbn [negb]. destruct (beq _ _); eexists; (split; [reflexivity|reflexivity]).
Qed.

Lemma validate_simple o rest r : field q (B "origin") = o :: rest -> allows_origin f cs o -> q_meth q <> B "OPTIONS" ->
  validate c q r = (mkResp (r_status r) (r_version r) (simple_hs c o (r_headers r)) (r_body r), inl tt).
Proof.
  intros E A M. unfold validate. rewrite validate_first, E. cbn [hd_error]. apply beq_neq in M. rewrite M. apply (origin_allowed f cs c HC) in A. now rewrite A.
Qed.

Lemma validate_preflight o rest r : field q (B "origin") = o :: rest -> allows_origin f cs o -> q_meth q = B "OPTIONS" ->
  (asks_allowed cs q -> validate c q r = (r, inr (mkGlitch (Some 200%N) (Some (preflight_hs c o)) None None None))) /\
  (~ asks_allowed cs q -> exists x, validate c q r = (r, x) /\ refusal x).
Proof.
  intros E A M. unfold validate. rewrite validate_first, E, M. cbn [hd_error]. apply (origin_allowed f cs c HC) in A. rewrite A.
  change (beq (B "OPTIONS") (B "OPTIONS")) with true. cbn [negb]. cbv iota. pose proof (preflight_asks f cs c HC q HQ) as P. split; intros K.
  - apply P in K. rewrite K. reflexivity.
  - destruct (preflight_ok c (q_hdrs q)); [exfalso; now apply K, P|]. eexists. split; reflexivity.
Qed.
End Validate.

Lemma since_exists cs : exists cs', since_any cs cs'.
Proof.
  induction cs as [|c cs (cs' & H)] using rev_ind; [exists []; apply sa_all; intros []|]. assert (D : c = BAnyOrigin \/ c <> BAnyOrigin) by (destruct c; auto; right; discriminate).
  destruct D as [->|N]; [exists []; apply since_reset|]. exists (cs' ++ [c]). now apply since_snoc.
Qed.
Lemma allows_more f cs k o : lists_origins k -> (allows_origin f (cs ++ [k]) o <->
  call_origin f o k \/ exists cs', since_any cs cs' /\ Exists (call_origin f o) cs').
Proof.
  intros L. assert (K : k <> BAnyOrigin) by (intros ->; exact L).
  destruct (since_exists cs) as (cs' & S). assert (S' : since_any (cs ++ [k]) (cs' ++ [k])) by (apply since_snoc; [exact S|exact K]). split.
  - intros (x & SX & H). rewrite (since_fun _ _ _ SX S') in H. destruct H as [H|H].
    + exfalso. apply Forall_app in H as [_ H]. inversion H as [|? ? X _]. now apply X.
    + apply exists_snoc in H as [H|H]; [right; eauto|now left].
  - intros [H|(x & SX & H)]; exists (cs' ++ [k]); (split; [exact S'|right]); apply exists_snoc; [now right|left]. now rewrite (since_fun _ _ _ S SX).
Qed.
Lemma allows_all f cs o : Forall (fun c => ~ lists_origins c) cs -> allows_origin f cs o.
Proof.
  intros H. destruct (since_exists cs) as (cs' & S). exists cs'. split; [exact S|left]. inversion S as [x N|c1 x N]; subst; [exact H|]. apply Forall_app in H as [_ H]. now inversion H.
Qed.

Lemma validate_passes f cs c q o rest r : configured f cs c -> hm_wf (q_hdrs q) ->
  field q (B "origin") = o :: rest -> q_meth q <> B "OPTIONS" -> (allows_origin f cs o <-> snd (validate c q r) = inl tt).
Proof.
  intros HC HQ E M. rewrite <- (origin_allowed f cs c HC). unfold validate. rewrite (validate_first q HQ), E. cbn [hd_error]. apply beq_neq in M. rewrite M.
  destruct (is_origin_allowed c o); cbn [negb snd]; intuition discriminate.
Qed.

Lemma validate_space f cs c q o rest r v rest' ys x a b : configured f cs c -> hm_wf (q_hdrs q) ->
  field q (B "origin") = o :: rest -> q_meth q = B "OPTIONS" ->
  field q (B "access-control-request-headers") = v :: rest' -> commas ys v -> In (a ++ x :: b) ys -> x = " "%char \/ x = "009"%char ->
  exists y, validate c q r = (r, y) /\ refusal y.
Proof.
  intros HC HQ E M F C I X. destruct (is_origin_allowed c o) eqn:A.
  - apply (origin_allowed f cs c HC) in A. apply (validate_preflight f cs c HC q HQ o rest r E A M). intros [_ [N|(v' & r' & xs & F' & C' & H)]].
    + rewrite N in F. discriminate F.
    + rewrite F in F'. injection F' as <- <-. apply split_on_commas in C, C'. rewrite C in C'. subst xs. specialize (H _ I). apply (header_allowed_name f cs c HC) in H.
      apply header_allowed_tchar in H. rewrite forallb_app in H. apply andb_true_iff in H as [_ H]. cbn [forallb] in H. apply andb_true_iff in H as [H _].
      destruct X as [->| ->]; discriminate H.
  - apply (validate_refused f cs c HC q HQ o rest r E). intros K. apply (origin_allowed f cs c HC) in K. congruence.
Qed.
