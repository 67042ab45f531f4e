(** Configurations written into the fields of the builder. *)
From Verif Require Import Cors SpecText SpecReq SpecHead SpecResponse SpecWriter SpecCors SpecCorsFields Lemmas Proofs_Text Proofs_Map Proofs_Vocab Proofs_Cors.

Lemma token_chars l : token l <-> l <> [] /\ forallb is_tchar l = true.
Proof.
  unfold token. rewrite forallb_forall, Forall_forall. split; intros [N H]; (split; [exact N|]); intros x I; specialize (H x I).
  - now rewrite <- H.
  - now rewrite <- H.
Qed.
Lemma token_method m : token m <-> method_of m = Some m.
Proof.
  rewrite token_chars. unfold method_of. destruct m as [|c m]; [split; [intros [N _]; congruence|discriminate]|].
  destruct (forallb is_tchar (c :: m)); split; try discriminate; try (intros [_ X]; discriminate); [reflexivity|split; [discriminate|reflexivity]].
Qed.
Lemma small_header n : small_name n <-> header_name n = Some n.
Proof.
  unfold small_name. plain. rewrite token_chars. unfold header_name, max_name_len. destruct n as [|c n]; [split; [intros [[N _] _]; congruence|discriminate]|].
  destruct (forallb is_tchar (c :: n)); cbn [andb].
  2: { split; [intros [[_ X] _]; discriminate|discriminate]. }
  destruct (N.leb_spec (N.of_nat (length (c :: n))) 65535) as [L|L].
  - split; [intros (_ & E & _); now rewrite E|]. intros E. assert (E' : lower (c :: n) = c :: n) by congruence. ands; [discriminate|reflexivity|exact E'|exact L].
  - split; [intros (_ & _ & X); lia|discriminate].
Qed.
Lemma value_header o : Forall value_char o <-> header_value o = Some o.
Proof. rewrite header_value_spelt. split; [now split|now intros [_ H]]. Qed.

Lemma convert_same (f : bytes -> option bytes) l : Forall (fun x => f x = Some x) l -> convert f l = Some l.
Proof. induction 1 as [|x l H _ IH]; cbn; [reflexivity|]. now rewrite H, IH. Qed.
Lemma set_extend_fresh xs : forall s, NoDup (s ++ xs) -> set_extend xs s = s ++ xs.
Proof.
  unfold set_extend. induction xs as [|x xs IH]; cbn; intros s H; [now rewrite app_nil_r|].
  assert (E : set_add x s = s ++ [x]).
  { unfold set_add. destruct (set_mem x s) eqn:M; [|reflexivity]. apply set_mem_in in M. apply NoDup_remove_2 in H. destruct H. rewrite in_app_iff. now left. }
  rewrite E, IH; rewrite <- app_assoc; [reflexivity|exact H].
Qed.

(** The calls that fill the fields; an origin is named by the url ["o://"] and its text. *)
Definition field_origin (s t : bytes) : option bytes := Some t.
Definition url_of (o : bytes) : bytes := B "o://" ++ o.
Definition filling (b : builder) : list bcall :=
  [BCredentials (cb_credentials b); BHeaders (cb_headers b); BExposes (cb_exposed b); BMethods (cb_methods b)] ++
  (match cb_age b with Some a => [BAge a] | None => [] end) ++
  (match cb_origins b with Some s => [BOrigins (map url_of s)] | None => [] end).

Lemma url_origin o : Forall value_char o -> into_origin field_origin (url_of o) = Some o.
Proof. intros H. unfold into_origin, url_of. cbn. now apply value_header. Qed.
Lemma url_origins s : Forall (Forall value_char) s -> convert (into_origin field_origin) (map url_of s) = Some s.
Proof. induction 1 as [|o s H _ IH]; [reflexivity|]. cbn [map convert]. now rewrite (url_origin o H), IH. Qed.

Lemma filling_makes b : filled b -> b_calls field_origin (filling b) cors_build = Some b.
Proof.
  intros ((H1 & H2) & (E1 & E2) & (M1 & M2) & O). unfold filling.
  assert (CH : convert header_name (cb_headers b) = Some (cb_headers b)) by (apply convert_same; revert H2; apply Forall_impl; intros n; apply small_header).
  assert (CE : convert header_name (cb_exposed b) = Some (cb_exposed b)) by (apply convert_same; revert E2; apply Forall_impl; intros n; apply small_header).
  assert (CM : convert method_of (cb_methods b) = Some (cb_methods b)) by (apply convert_same; revert M2; apply Forall_impl; intros n; apply token_method).
  cbn [app b_calls b_call]. unfold allow_headers, expose_headers, allow_methods. rewrite CH, CE, CM. cbn [allow_credentials cors_build cb_credentials cb_headers cb_exposed cb_methods cb_age cb_origins].
  rewrite !set_extend_fresh by (cbn [app]; assumption). cbn [app].
  destruct b as [cr hs es ag ms [os|]]; cbn [cb_credentials cb_headers cb_exposed cb_methods cb_age cb_origins] in *; destruct ag as [a|]; cbn [app b_calls b_call]; unfold max_age; cbn [cb_credentials cb_headers cb_exposed cb_methods cb_age cb_origins];
    try reflexivity; destruct O as [O1 O2]; unfold allow_origins; rewrite (url_origins os O2); cbn [cb_credentials cb_headers cb_exposed cb_methods cb_age cb_origins]; rewrite set_extend_fresh by exact O1; reflexivity.
Qed.

(** What the fields say is what the calls say. *)
Lemma fields_say b : filled b ->
  (forall m, allows_method (filling b) m <-> In m (cb_methods b)) /\
  (forall n, allows_header (filling b) n <-> In (lowered n) (cb_headers b)) /\
  (forall n, exposes_header (filling b) n <-> In (lowered n) (cb_exposed b)) /\
  credentials (filling b) = cb_credentials b /\ age (filling b) = cb_age b /\
  (forall o, allows_origin field_origin (filling b) o <-> lets_in b o).
Proof.
  intros F. pose proof (knows_calls field_origin (filling b) b (filling_makes b F)) as K. destruct K.
  split; [intros m; symmetry; apply kn_methods|]. split; [|split; [|split; [now symmetry|split; [now symmetry|]]]].
  - intros n. plain. rewrite kn_headers. split.
    + intros A. split; [symmetry; apply lower_lower|]. revert A. apply allows_header_ic. symmetry. apply lower_lower.
    + intros [_ A]. revert A. apply allows_header_ic. apply lower_lower.
  - intros n. plain. rewrite kn_exposed. unfold exposes_header, filling. destruct (cb_age b), (cb_origins b); cbn [app]; rewrite !Exists_cons, !Exists_nil; cbn [call_exposes]; plain; unfold eq_ic; rewrite !lower_lower;
      (split; [intros A; split; [reflexivity|exact A]|now intros [_ A]]).
  - intros o. destruct kn_origins as (cs' & S & O). unfold allows_origin, lets_in. destruct (cb_origins b) as [s|].
    + destruct O as [L O]. rewrite O. split.
      * intros (cs'' & S' & [N|E]); rewrite (since_fun _ _ _ S' S) in *; [|exact E]. exfalso. rewrite Exists_exists in L. destruct L as (c & I & L). rewrite Forall_forall in N. exact (N c I L).
      * intros E. exists cs'. split; [exact S|now right].
    + split; [easy|]. intros _. exists cs'. split; [exact S|now left].
Qed.

Lemma fields_configured b oh oe om : filled b -> (forall l, Permutation (oh l) l) -> (forall l, Permutation (oe l) l) -> (forall l, Permutation (om l) l) ->
  configured field_origin (filling b) (cors_finish oh oe om b).
Proof. intros F P1 P2 P3. exists b, oh, oe, om. ands; auto. now apply filling_makes. Qed.

(** The builder's methods keep to the types. *)
Lemma value_into f l o : into_origin f l = Some o -> Forall value_char o.
Proof.
  unfold into_origin. destruct (split_scheme l) as [[s t]|]; [|discriminate]. destruct (f s t) as [x|]; [|discriminate]. intros E.
  apply header_value_spelt in E as [-> H]. exact H.
Qed.
Lemma convert_forall {A} (f : A -> option bytes) (P : bytes -> Prop) l : (forall x y, f x = Some y -> P y) -> forall ys, convert f l = Some ys -> Forall P ys.
Proof. intros H ys E. apply Forall_forall. intros y I. apply (convert_in f l ys E) in I as (x & _ & F). eauto. Qed.
Lemma name_small h n : header_name h = Some n -> small_name n.
Proof.
  intros E. apply small_header. apply header_name_ok in E as E'. destruct E' as [L O]. rewrite L in *. rewrite <- (lower_lower h) at 2. apply name_ok_header. now rewrite lower_lower.
Qed.
Lemma method_token h m : method_of h = Some m -> token m.
Proof. intros E. apply token_method. pose proof (method_of_same _ _ E). now subst m. Qed.
Lemma filled_call f c b b' : filled b -> b_call f c b = Some b' -> filled b'.
Proof.
  intros ((H1 & H2) & (E1 & E2) & (M1 & M2) & O).
  assert (ORI : forall os, allow_origins f os b = Some b' -> filled b').
  { intros os. unfold allow_origins. destruct (convert (into_origin f) os) as [ys|] eqn:C; [|discriminate]. intros [= <-]. unfold filled. cbn [cb_headers cb_exposed cb_methods cb_origins].
    split; [now split|]. split; [now split|]. split; [now split|].
    assert (Y : Forall (Forall value_char) ys) by (apply (convert_forall _ _ _ (value_into f) _ C)).
    destruct (cb_origins b) as [s|]; [destruct O as [O1 O2]|]; (split; [apply set_extend_nodup|apply forall_extend]); auto; constructor. }
  destruct c; cbn [b_call]; try apply ORI;
    unfold allow_credentials, allow_method, allow_methods, allow_header, allow_headers, expose_header, expose_headers, allow_any_origin, max_age;
    try (match goal with |- match ?x with _ => _ end = _ -> _ => destruct x as [ys|] eqn:C; [|discriminate] end);
    intros [= <-]; unfold filled; cbn [cb_headers cb_exposed cb_methods cb_origins]; (split; [|split; [|split]]); try (now split); try exact O; try exact I;
    (split; [first [now apply set_add_nodup|now apply set_extend_nodup]|first [apply forall_add|apply forall_extend]; try assumption]).
  all: first [exact (name_small _ _ C)|exact (method_token _ _ C)|exact (convert_forall _ _ _ name_small _ C)|exact (convert_forall _ _ _ method_token _ C)].
Qed.

(** ** Answers, from the fields *)
Lemma lists_same (P Q : bytes -> Prop) l : (forall x, P x <-> Q x) -> lists_all P l -> lists_all Q l.
Proof. intros E (xs & L & N & H). exists xs. split; [exact L|]. split; [exact N|]. intros x. rewrite H. apply E. Qed.
Lemma small_in n s : Forall small_name s -> (n = lowered n /\ In (lowered n) s <-> In n s).
Proof.
  intros F. split; [intros [E I]; now rewrite E|]. intros I. rewrite Forall_forall in F. destruct (F n I) as (_ & E & _). split; [now symmetry|now rewrite E].
Qed.
Lemma common_fields b o old new : filled b -> common (filling b) o old new ->
  new (B "access-control-allow-origin") = [o] /\
  new (B "access-control-allow-credentials") = (if cb_credentials b then [B "true"] else old (B "access-control-allow-credentials")) /\
  (cb_exposed b = [] /\ new (B "access-control-expose-headers") = old (B "access-control-expose-headers") \/
   exists l, new (B "access-control-expose-headers") = [l] /\ lists_all (fun n => In n (cb_exposed b)) l).
Proof.
  intros F (C1 & C2 & C3). destruct (fields_say b F) as (_ & _ & SE & SC & _ & _). pose proof F as ((_ & _) & (_ & FE) & _).
  rewrite SC in C2. split; [exact C1|]. split; [exact C2|]. destruct C3 as [[N E]|(l & E & L)]; [left|right].
  - split; [|exact E]. destruct (cb_exposed b) as [|n r] eqn:X; [reflexivity|]. exfalso. apply (N n). apply SE. inversion FE as [|? ? (_ & E' & _) _]; subst. rewrite E'. now left.
  - exists l. split; [exact E|]. revert L. apply lists_same. intros n. rewrite SE. now apply small_in.
Qed.
