(** Lemmas about the identity service. *)
From Verif Require Import Identity SpecHead SpecResponse SpecWriter SpecCors SpecIdentity Lemmas Proofs_Head Proofs_Map Proofs_Writer Proofs_Cors Proofs_Text.

(** ** Characters *)
Lemma blank_ws c : blank c <-> is_str_byte c = true /\ is_trim_ws c = true.
Proof. split; [intros [->| ->]; split; reflexivity|]. unfold blank. destruct c as [[] [] [] [] [] [] [] []]; vm_compute; intros [H1 H2]; try discriminate; auto. Qed.
Lemma token_str c : is_token_char c = true -> is_str_byte c = true /\ is_trim_ws c = false /\ is_value_byte c = true /\ c <> ";"%char.
Proof. destruct c as [[] [] [] [] [] [] [] []]; vm_compute; intros H; try discriminate H; repeat split; discriminate. Qed.
Lemma tchar_plain c : is_tchar c = true -> is_str_byte c = true /\ is_trim_ws c = false /\ is_value_byte c = true /\ c <> ";"%char /\ c <> "="%char.
Proof. destruct c as [[] [] [] [] [] [] [] []]; vm_compute; intros H; try discriminate H; repeat split; discriminate. Qed.

(** ** Cutting *)
Lemma until_ok c l : exists rest, l = until c l ++ rest /\ ~ In c (until c l) /\ (rest = [] \/ exists r, rest = c :: r).
Proof.
  induction l as [|d l (rest & E & N & H)]; [exists []; auto|]. cbn [until]. destruct (Ascii.eqb_spec d c) as [->|D].
  - exists (c :: l). split; [reflexivity|]. split; [intros []|eauto].
  - exists rest. split; [cbn [app]; now rewrite <- E|]. split; [|exact H]. intros [X|X]; auto.
Qed.
Lemma until_eq c u rest : ~ In c u -> (rest = [] \/ exists r, rest = c :: r) -> until c (u ++ rest) = u.
Proof.
  intros N H. induction u as [|d u IH]; cbn [app until].
  - destruct H as [->|(r & ->)]; cbn [until]; [reflexivity|]. now rewrite Ascii.eqb_refl.
  - destruct (Ascii.eqb_spec d c) as [->|D]; [exfalso; apply N; now left|]. rewrite IH; [reflexivity|]. intros X. apply N. now right.
Qed.
Lemma split_eq_ok l : forall a b, split_eq l = Some (a, b) <-> l = a ++ "="%char :: b /\ ~ In "="%char a.
Proof.
  induction l as [|c l IH]; intros a b; cbn [split_eq].
  - split; [discriminate|]. intros [E _]. now destruct a.
  - destruct (Ascii.eqb_spec c "=") as [->|D].
    + split; [intros [= <- <-]; auto|]. intros [E N]. destruct a as [|d a]; [now injection E as <-|]. injection E as <- _. exfalso. apply N. now left.
    + split.
      * destruct (split_eq l) as [[a' b']|]; [|discriminate]. intros [= <- <-]. destruct (proj1 (IH a' b') eq_refl) as [-> N]. split; [reflexivity|]. intros [X|X]; auto.
      * intros [E N]. destruct a as [|d a]; [injection E as E _; now elim D|]. injection E as -> E. rewrite (proj2 (IH a b)); [reflexivity|]. split; [exact E|]. intros X. apply N. now right.
Qed.

(** ** Trimming *)
Definition ws (c : byte) : Prop := is_trim_ws c = true.
Definition bare_ends (l : bytes) : Prop := (forall c r, l = c :: r -> ~ ws c) /\ (forall r c, l = r ++ [c] -> ~ ws c).
Lemma ltrim_ok l : exists a, l = a ++ ltrim l /\ Forall ws a /\ forall c r, ltrim l = c :: r -> ~ ws c.
Proof.
  induction l as [|c l (a & E & F & N)]; [exists []; split; [reflexivity|split; [constructor|discriminate]]|]. cbn [ltrim]. destruct (is_trim_ws c) eqn:W.
  - exists (c :: a). split; [cbn [app]; now rewrite <- E|]. split; [now constructor|exact N].
  - exists []. split; [reflexivity|]. split; [constructor|]. intros d r [= <- _] X. unfold ws in X. congruence.
Qed.
Lemma ltrim_app a l : Forall ws a -> ltrim (a ++ l) = ltrim l.
Proof. intros H. induction H as [|c a H _ IH]; [reflexivity|]. cbn [app ltrim]. unfold ws in H. now rewrite H. Qed.
Lemma ltrim_head c l : ~ ws c -> ltrim (c :: l) = c :: l.
Proof. intros H. cbn [ltrim]. unfold ws in H. now destruct (is_trim_ws c). Qed.
Lemma trim_eq a m b : Forall ws a -> Forall ws b -> bare_ends m -> trim (a ++ m ++ b) = m.
Proof.
  intros A F [N1 N2]. unfold trim. rewrite (ltrim_app a) by exact A. destruct m as [|c m].
  - cbn [app]. rewrite <- (app_nil_r b). rewrite ltrim_app by exact F. reflexivity.
  - cbn [app]. rewrite ltrim_head by (eapply N1; reflexivity). change (c :: m ++ b) with ((c :: m) ++ b). rewrite rev_app_distr.
    rewrite ltrim_app by (apply Forall_rev; exact F). destruct (rev (c :: m)) as [|d r] eqn:E; [now apply (f_equal (@length _)) in E; rewrite rev_length in E|].
    assert (Q : c :: m = rev r ++ [d]) by (rewrite <- (rev_involutive (c :: m)), E; reflexivity). rewrite ltrim_head by (eapply N2; exact Q). rewrite Q. cbn [rev]. reflexivity.
Qed.
Lemma trim_split l : exists a b, l = a ++ trim l ++ b /\ Forall ws a /\ Forall ws b /\ bare_ends (trim l).
Proof.
  destruct (ltrim_ok l) as (a & E & A & N). destruct (ltrim_ok (rev (ltrim l))) as (b & E' & F & N'). exists a, (rev b). unfold trim.
  assert (Q : ltrim l = rev (ltrim (rev (ltrim l))) ++ rev b) by (rewrite <- rev_app_distr, <- E', rev_involutive; reflexivity).
  split; [rewrite <- Q; exact E|]. split; [exact A|]. split; [now apply Forall_rev|]. split.
  - intros c r X. rewrite X in Q. cbn [app] in Q. eapply N. exact Q.
  - intros r c X. apply (N' c (rev r)). rewrite <- (rev_involutive (ltrim (rev (ltrim l)))), X, rev_app_distr. reflexivity.
Qed.

(** ** Cookies *)
Lemma str_in v c : forallb is_str_byte v = true -> In c v -> is_str_byte c = true.
Proof. intros H. rewrite forallb_forall in H. apply H. Qed.
Lemma blanks_ws v l : forallb is_str_byte v = true -> (forall c, In c l -> In c v) -> Forall ws l -> Forall blank l.
Proof. intros H I F. rewrite Forall_forall in *. intros c X. apply blank_ws. split; [apply (str_in v); auto|now apply F]. Qed.
Lemma stripped_ends v l : forallb is_str_byte v = true -> (forall c, In c l -> In c v) -> (stripped l <-> bare_ends l).
Proof.
  intros H I. split; intros [N1 N2]; split.
  - intros c r E X. apply (N1 c r E). apply blank_ws. split; [apply (str_in v), I; [exact H|rewrite E; now left]|exact X].
  - intros r c E X. apply (N2 r c E). apply blank_ws. split; [apply (str_in v), I; [exact H|rewrite E; apply in_elt]|exact X].
  - intros c r E X. apply blank_ws in X as [_ X]. now apply (N1 c r E).
  - intros r c E X. apply blank_ws in X as [_ X]. now apply (N2 r c E).
Qed.
Lemma not_in_app {A} (x : A) a b : ~ In x (a ++ b) <-> ~ In x a /\ ~ In x b.
Proof. rewrite in_app_iff. tauto. Qed.
Lemma blanks_not (x : byte) l : ~ blank x -> Forall blank l -> ~ In x l.
Proof. intros N F I. rewrite Forall_forall in F. now apply N, F. Qed.
Lemma blank_semi : ~ blank ";"%char. Proof. intros [H|H]; discriminate H. Qed.
Lemma blank_eq : ~ blank "="%char. Proof. intros [H|H]; discriminate H. Qed.
Lemma blanks_are_ws l : Forall blank l -> Forall ws l.
Proof. intros H. eapply Forall_impl; [|exact H]. intros c X. now apply blank_ws in X as [_ X]. Qed.

Lemma parse_first v n x : forallb is_str_byte v = true -> (cookie_parse v = Some (n, x) <-> first_pair v n x).
Proof.
  intros S. unfold cookie_parse. split.
  - destruct (until_ok ";"%char v) as (rest & E & N & R). destruct (split_eq _) as [[n0 v0]|] eqn:Q; [|discriminate]. apply split_eq_ok in Q as [Q NE].
    destruct (trim n0) as [|c0 l0] eqn:T; [discriminate|]. intros [= <- <-]. rewrite <- T. destruct (trim_split n0) as (a & b & En & A & F & Bn). destruct (trim_split v0) as (c & d & Ev & C & D & Bv).
    rewrite Q in N. assert (V : v = a ++ trim n0 ++ b ++ B "=" ++ c ++ trim v0 ++ d ++ rest).
    { rewrite E, Q, En at 1. rewrite Ev at 1. change (B "=") with ["="%char]. rewrite <- !app_assoc. cbn [app]. rewrite <- !app_assoc. reflexivity. }
    split; [exact S|]. exists a, b, c, d, rest. split; [exact V|].
    assert (I : forall y, In y a \/ In y (trim n0) \/ In y b \/ In y c \/ In y (trim v0) \/ In y d -> In y v) by (intros y X; rewrite V, !in_app_iff; tauto).
    assert (NS : ~ In ";"%char n0 /\ ~ In ";"%char v0) by (apply not_in_app in N as [N1 N2]; split; [exact N1|intros X; apply N2; now right]). destruct NS as [NS1 NS2].
    rewrite En in NS1, NE. rewrite Ev in NS2. rewrite !not_in_app in NS1, NS2, NE.
    split; [|split; [now rewrite T|split; [|split; [|tauto]]]].
    + rewrite !Forall_app. repeat split; apply (blanks_ws v); auto 10; intros y X; apply I; tauto.
    + apply (stripped_ends v); auto.
    + apply (stripped_ends v); auto. intros y X. apply I. tauto.
  - intros (_ & a & b & c & d & rest & V & F & NN & Sn & Sx & NE & NS & NX & R). rewrite !Forall_app in F. destruct F as (FA & FB & FC & FD).
    assert (V' : v = (a ++ n ++ b ++ B "=" ++ c ++ x ++ d) ++ rest) by (rewrite V, <- !app_assoc; reflexivity).
    assert (I : forall y, In y n \/ In y x -> In y v) by (intros y X; rewrite V, !in_app_iff; tauto).
    rewrite V', until_eq; [|rewrite !not_in_app; repeat split; auto using blanks_not, blank_semi; intros [X|[]]; discriminate X|exact R].
    rewrite (proj2 (split_eq_ok _ (a ++ n ++ b) (c ++ x ++ d))).
    + rewrite trim_eq, trim_eq; auto using blanks_are_ws; [now destruct n|apply (stripped_ends v)|apply (stripped_ends v)]; auto.
    + split; [rewrite <- !app_assoc; reflexivity|]. rewrite !not_in_app. repeat split; auto using blanks_not, blank_eq.
Qed.

Lemma value_str v s : value_to_str v = Some s <-> s = v /\ forallb is_str_byte v = true.
Proof. unfold value_to_str. destruct (forallb is_str_byte v); split; [intros [= <-]; auto|now intros [-> _]|discriminate|intros [_ X]; discriminate X]. Qed.

(** The search stops at the first header whose first cookie has the name, or that has none. *)
Lemma find_cookie_ok name l : forall x, find_cookie name l = Some x <->
  exists l1 v l2, l = l1 ++ v :: l2 /\ first_pair v name x /\ Forall (fun w => exists n y, first_pair w n y /\ n <> name) l1.
Proof.
  assert (FUN : forall v n x m y, first_pair v n x -> first_pair v m y -> n = m /\ x = y).
  { intros v n x m y H1 H2. pose proof (proj1 H1) as S. apply (parse_first v n x S) in H1. apply (parse_first v m y S) in H2. rewrite H1 in H2. now injection H2. }
  induction l as [|v l IH]; intros x; cbn [find_cookie].
  - split; [discriminate|]. intros (l1 & v & l2 & E & _). now destruct l1.
  - split.
    + destruct (value_to_str v) as [s|] eqn:T; [|discriminate]. apply value_str in T as [-> S]. destruct (cookie_parse v) as [[n y]|] eqn:P; [|discriminate]. apply (parse_first v n y S) in P.
      destruct (beq_spec n name) as [->|D].
      * intros [= <-]. exists [], v, l. auto.
      * intros H. apply IH in H as (l1 & w & l2 & -> & F & A). exists (v :: l1), w, l2. split; [reflexivity|]. split; [exact F|]. constructor; eauto.
    + intros (l1 & w & l2 & E & F & A). destruct A as [|u l1 (n & y & FU & D) A]; cbn [app] in E.
      * injection E as -> ->. pose proof (proj1 F) as S. rewrite (proj2 (value_str w w) (conj eq_refl S)). apply (parse_first w name x S) in F. rewrite F. now rewrite beq_refl.
      * injection E as -> ->. pose proof (proj1 FU) as S. rewrite (proj2 (value_str u u) (conj eq_refl S)). apply (parse_first u n y S) in FU. rewrite FU. apply beq_neq in D. rewrite D.
        apply IH. exists l1, w, l2. auto.
Qed.

Lemma get_cookie_ok q name x : hm_wf (q_hdrs q) -> (get_cookie q name = Some x <->
  exists l1 v l2, field q (B "cookie") = l1 ++ v :: l2 /\ first_pair v name x /\ Forall (fun w => exists n y, first_pair w n y /\ n <> name) l1).
Proof. intros W. unfold get_cookie, field. rewrite values_get_all by exact W. apply find_cookie_ok. Qed.

(** ** Authorisation *)
Lemma authorized signs j now i q u : jwt_ok signs j -> hm_wf (q_hdrs q) -> (authorized_user j now i q = Some u <->
  exists l1 v l2 t c, field q (B "cookie") = l1 ++ v :: l2 /\ first_pair v (i_cookie i) t /\ Forall (fun w => exists n y, first_pair w n y /\ n <> i_cookie i) l1 /\
    signs (i_key i) c t /\ (now <= c_exp c)%N /\ c_sub c = u).
Proof.
  intros (_ & V & _) W. unfold authorized_user, jwt_decode. split.
  - destruct (get_cookie q (i_cookie i)) as [t|] eqn:G; [|discriminate]. apply (get_cookie_ok q _ t W) in G as (l1 & v & l2 & E & F & A).
    destruct (j_verify j (i_key i) t) as [c|] eqn:Q; [|discriminate]. apply V in Q. destruct (N.ltb_spec (c_exp c) now) as [L|L]; [discriminate|]. intros [= <-]. exists l1, v, l2, t, c. auto 10.
  - intros (l1 & v & l2 & t & c & E & F & A & S & L & <-). rewrite (proj2 (get_cookie_ok q (i_cookie i) t W)) by (exists l1, v, l2; auto). apply V in S. rewrite S.
    destruct (N.ltb_spec (c_exp c) now) as [X|X]; [lia|reflexivity].
Qed.

(** A cookie made for this service, sent back alone. *)
Lemma no_semi_token t : forallb is_token_char t = true -> ~ In ";"%char t.
Proof. intros H I. rewrite forallb_forall in H. apply H in I. apply token_str in I as (_ & _ & _ & X). now apply X. Qed.
Lemma plain_stripped l : Forall (fun c => is_trim_ws c = false) l -> stripped l.
Proof. intros F. rewrite Forall_forall in F. split; [intros c r -> X|intros r c -> X]; apply blank_ws in X as [_ X]; rewrite F in X; try discriminate X; [now left|apply in_elt]. Qed.
Lemma own_pair name t : is_cookie_name name -> forallb is_token_char t = true -> first_pair (name ++ B "=" ++ t) name t.
Proof.
  intros [NN H] T. rewrite forallb_forall in H, T. split.
  - rewrite !forallb_app, !andb_true_iff. split; [|split; [reflexivity|]]; apply forallb_forall; intros c I; [apply H in I; apply tchar_plain in I|apply T in I; apply token_str in I]; tauto.
  - exists [], [], [], [], []. split; [cbn [app]; now rewrite !app_nil_r|]. split; [constructor|]. split; [exact NN|].
    split; [apply plain_stripped, Forall_forall; intros c I; apply H in I; apply tchar_plain in I; tauto|]. split; [apply plain_stripped, Forall_forall; intros c I; apply T in I; apply token_str in I; tauto|].
    split; [intros I; apply H in I; apply tchar_plain in I; tauto|]. split; [intros I; apply H in I; apply tchar_plain in I; tauto|]. split; [|now left]. intros I. apply T in I. apply token_str in I. tauto.
Qed.
Lemma own_cookie signs j i c : jwt_ok signs j -> is_cookie_name (i_cookie i) ->
  forall q now, hm_wf (q_hdrs q) -> field q (B "cookie") = [i_cookie i ++ B "=" ++ j_sign j (i_key i) c] ->
  authorized_user j now i q = if (now <=? c_exp c)%N then Some (c_sub c) else None.
Proof.
  intros J NM q now W E. pose proof J as (S & V & T). pose proof (own_pair (i_cookie i) _ NM (T (i_key i) c)) as P. unfold authorized_user, jwt_decode.
  rewrite (proj2 (get_cookie_ok q (i_cookie i) (j_sign j (i_key i) c) W)) by (exists [], (i_cookie i ++ B "=" ++ j_sign j (i_key i) c), []; auto).
  rewrite (proj2 (V _ _ _) (S (i_key i) c)). destruct (N.ltb_spec (c_exp c) now), (N.leb_spec now (c_exp c)); try lia; reflexivity.
Qed.

(** ** Setting cookies *)
Lemma appended r r' v : resp_wf r -> forallb is_value_byte v = true -> rw_append_header (B "set-cookie") v r = Some r' -> sets_cookie r r' v.
Proof.
  intros W V [= <-]. assert (W' : hm_wf (hm_append (B "set-cookie") v (r_headers r))) by (apply hm_append_wf; auto).
  do 3 (split; [reflexivity|]). split; [exact W'|]. intros n. cbn [r_headers]. change (lower (B "set-cookie")) with (B "set-cookie").
  rewrite !values_get_all by auto. match goal with |- hm_get_all _ (hm_append ?k _ _) = _ => change k with (B "set-cookie") end. rewrite get_all_append. f_equal.
  plain; unfold eq_ic. change (lower (B "set-cookie")) with (B "set-cookie").
  destruct (beq_spec (B "set-cookie") (lower n)) as [E|E], (beq_spec (lower n) (B "set-cookie")) as [E'|E']; [reflexivity|now elim E'|now elim E|reflexivity].
Qed.
Lemma cookie_pair i t age : is_cookie_name (i_cookie i) -> forallb is_token_char t = true ->
  pair_of (cookie_text (i_cookie i) t (i_path i) age (i_http_only i) (i_secure i)) (i_cookie i ++ B "=" ++ t).
Proof.
  intros [NN H] T. split.
  - rewrite !not_in_app. rewrite forallb_forall in H. split; [intros I; apply H in I; apply tchar_plain in I; tauto|]. split; [intros [X|[]]; discriminate X|now apply no_semi_token].
  - right. unfold cookie_text. destruct (i_http_only i), (i_secure i); eexists; rewrite <- !app_assoc; reflexivity.
Qed.
Lemma cookie_attributes i t age : exists items, attributes i age items /\
  cookie_text (i_cookie i) t (i_path i) age (i_http_only i) (i_secure i) = i_cookie i ++ B "=" ++ t ++ concat (map (fun a => B "; " ++ a) items).
Proof.
  exists ((if i_http_only i then [B "HttpOnly"] else []) ++ (if i_secure i then [B "Secure"] else []) ++ [B "Path=" ++ i_path i; B "Max-Age=" ++ to_dec age]).
  split; [exists (to_dec age); split; [apply to_dec_numeral|apply Permutation_refl]|]. unfold cookie_text. do 3 f_equal.
  destruct (i_http_only i), (i_secure i); cbn [app map concat]; rewrite ?app_nil_r, <- ?app_assoc; reflexivity.
Qed.
Lemma cookie_value i t age : is_cookie_name (i_cookie i) -> forallb is_token_char t = true -> forallb is_value_byte (i_path i) = true ->
  forallb is_value_byte (cookie_text (i_cookie i) t (i_path i) age (i_http_only i) (i_secure i)) = true.
Proof.
  intros [_ H] T P. assert (H' : forallb is_value_byte (i_cookie i) = true) by (rewrite forallb_forall in *; intros c I; apply H in I; apply tchar_plain in I; tauto).
  assert (T' : forallb is_value_byte t = true) by (rewrite forallb_forall in *; intros c I; apply T in I; apply token_str in I; tauto).
  unfold cookie_text. rewrite !forallb_app, !andb_true_iff. pose proof (to_dec_value age). repeat split; auto; now destruct (i_http_only i), (i_secure i).
Qed.
Lemma header_value_eq v v' : header_value v = Some v' -> v' = v /\ forallb is_value_byte v = true.
Proof. unfold header_value. destruct (forallb is_value_byte v); [now intros [= <-]|discriminate]. Qed.

(** ** The builder *)
Lemma built key cs : let i := ib_finish (ib_calls cs (ib_new key)) in
  i_key i = key /\ i_cookie i = latest says_cookie (B "jwt") (rev cs) /\ i_path i = latest says_path (B "/") (rev cs) /\
  i_secure i = latest says_secure true (rev cs) /\ i_http_only i = latest says_http_only true (rev cs) /\
  i_issuer i = latest says_issuer None (rev cs) /\ i_expiration i = latest says_expires 86400%N (rev cs).
Proof.
  induction cs as [|c cs IH] using rev_ind; [repeat split|]. unfold ib_calls in *. rewrite fold_left_app, rev_app_distr. cbn [fold_left rev app latest].
  destruct IH as (H1 & H2 & H3 & H4 & H5 & H6 & H7). set (b := fold_left _ cs _) in *.
  destruct c; cbn [says_cookie says_path says_secure says_http_only says_issuer says_expires]; unfold ib_finish in *; cbn [i_key i_cookie i_path i_secure i_http_only i_issuer i_expiration] in *;
    cbn [ib_call ib_key ib_issuer ib_expiration ib_cookie ib_path ib_secure ib_http_only]; auto 10.
Qed.

(** ** Login and logout *)
Lemma token_made j ovf now i u t : (now < 2 ^ 63)%N -> (i_expiration i < 2 ^ 63)%N -> make_token j ovf now i (Some u) None = Some t ->
  t = j_sign j (i_key i) (mkClaims (now + i_expiration i) (match i_issuer i with Some x => x | None => [] end) u).
Proof.
  intros HN HE. unfold make_token. destruct (ovf && _)%bool; [discriminate|]. intros [= <-]. do 2 f_equal. change two64 with (2 ^ 64)%N. rewrite N.mod_small; [lia|].
  replace (2 ^ 64)%N with (2 * 2 ^ 63)%N by reflexivity. lia.
Qed.
Lemma login_cases j ovf now i u r r' : set_auth_token j ovf now i u r = Some r' ->
  exists t, make_token j ovf now i (Some u) None = Some t /\ (i_expiration i < 2 ^ 63)%N /\
    let v := cookie_text (i_cookie i) t (i_path i) (i_expiration i) (i_http_only i) (i_secure i) in
    forallb is_value_byte v = true /\ rw_append_header (B "set-cookie") v r = Some r'.
Proof.
  unfold set_auth_token. destruct (make_token _ _ _ _ _ _) as [t|]; [|discriminate]. destruct (N.leb_spec (2 ^ 63) (i_expiration i)) as [|L]; [discriminate|].
  destruct (header_value _) as [v|] eqn:E; [|discriminate]. apply header_value_eq in E as [-> V]. intros H. exists t. auto.
Qed.
Lemma login_at signs j ovf now i u r r' : jwt_ok signs j -> is_cookie_name (i_cookie i) -> resp_wf r -> (now < 2 ^ 63)%N ->
  set_auth_token j ovf now i u r = Some r' ->
  exists v p, sets_cookie r r' v /\ pair_of v p /\
    forall q later, hm_wf (q_hdrs q) -> field q (B "cookie") = [p] -> authorized_user j later i q = if (later <=? now + i_expiration i)%N then Some u else None.
Proof.
  intros J NM W HN H. apply login_cases in H as (t & T & HE & V & A). apply (token_made _ _ _ _ _ _ HN HE) in T. eexists _, (i_cookie i ++ B "=" ++ t).
  split; [exact (appended _ _ _ W V A)|]. pose proof J as (_ & _ & TC). split; [apply cookie_pair; [exact NM|rewrite T; apply TC]|]. intros q later WQ E. rewrite T in E.
  rewrite (own_cookie signs j i _ J NM q later WQ E). reflexivity.
Qed.
Lemma login signs j ovf now i u r r' : jwt_ok signs j -> is_cookie_name (i_cookie i) -> resp_wf r -> (now < 2 ^ 63)%N ->
  set_auth_token j ovf now i u r = Some r' ->
  exists v p, sets_cookie r r' v /\ pair_of v p /\
    forall q later, hm_wf (q_hdrs q) -> field q (B "cookie") = [p] -> (later <= now + i_expiration i)%N -> authorized_user j later i q = Some u.
Proof.
  intros J NM W HN H. destruct (login_at signs j ovf now i u r r' J NM W HN H) as (v & p & S & P & A). exists v, p. split; [exact S|]. split; [exact P|].
  intros q later WQ E L. rewrite (A q later WQ E). now destruct (N.leb_spec later (now + i_expiration i)); [|lia].
Qed.
Lemma login_ends signs j ovf now i u r r' : jwt_ok signs j -> is_cookie_name (i_cookie i) -> resp_wf r -> (now < 2 ^ 63)%N ->
  set_auth_token j ovf now i u r = Some r' ->
  exists v p, sets_cookie r r' v /\ pair_of v p /\
    forall q later, hm_wf (q_hdrs q) -> field q (B "cookie") = [p] -> (now + i_expiration i < later)%N -> authorized_user j later i q = None.
Proof.
  intros J NM W HN H. destruct (login_at signs j ovf now i u r r' J NM W HN H) as (v & p & S & P & A). exists v, p. split; [exact S|]. split; [exact P|].
  intros q later WQ E L. rewrite (A q later WQ E). now destruct (N.leb_spec later (now + i_expiration i)); [lia|].
Qed.
Lemma login_sets signs j ovf now i u r : jwt_ok signs j -> is_cookie_name (i_cookie i) -> forallb is_value_byte (i_path i) = true ->
  (now < 2 ^ 63)%N -> (i_expiration i < 2 ^ 63)%N -> exists r', set_auth_token j ovf now i u r = Some r'.
Proof.
  intros (_ & _ & TC) NM P HN HE. unfold set_auth_token, make_token. assert (L : (two64 <=? i_expiration i + now)%N = false).
  { apply N.leb_gt. change two64 with (2 * 2 ^ 63)%N. lia. }
  rewrite L, andb_false_r. destruct (N.leb_spec (2 ^ 63) (i_expiration i)); [lia|]. unfold header_value. rewrite cookie_value by auto. eexists. reflexivity.
Qed.
Lemma forget_cases j ovf now i r r' : forget j ovf now i r = Some r' ->
  let t := j_sign j (i_key i) (mkClaims 0 (match i_issuer i with Some x => x | None => [] end) []) in
  let v := cookie_text (i_cookie i) t (i_path i) 0 (i_http_only i) (i_secure i) in
  forallb is_value_byte v = true /\ rw_append_header (B "set-cookie") v r = Some r'.
Proof.
  unfold forget, make_token. destruct (header_value _) as [v|] eqn:E; [|discriminate]. apply header_value_eq in E as [-> V]. auto.
Qed.
Lemma logout signs j ovf now i r r' : jwt_ok signs j -> is_cookie_name (i_cookie i) -> resp_wf r ->
  forget j ovf now i r = Some r' ->
  exists v p, sets_cookie r r' v /\ pair_of v p /\
    forall q later, hm_wf (q_hdrs q) -> field q (B "cookie") = [p] -> (0 < later)%N -> authorized_user j later i q = None.
Proof.
  intros J NM W H. apply forget_cases in H as [V A]. eexists _, (i_cookie i ++ B "=" ++ _). split; [exact (appended _ _ _ W V A)|]. pose proof J as (_ & _ & TC).
  split; [apply cookie_pair; [exact NM|apply TC]|]. intros q later WQ E L. rewrite (own_cookie signs j i _ J NM q later WQ E). cbn [c_exp]. now destruct (N.leb_spec later 0); [lia|].
Qed.
Lemma logout_sets signs j ovf now i r : jwt_ok signs j -> is_cookie_name (i_cookie i) -> forallb is_value_byte (i_path i) = true ->
  exists r', forget j ovf now i r = Some r'.
Proof. intros (_ & _ & TC) NM P. unfold forget, make_token, header_value. rewrite cookie_value by auto. eexists. reflexivity. Qed.

Lemma made_signs signs j ovf now i u t : jwt_ok signs j -> make_token j ovf now i (Some u) None = Some t ->
  exists c, signs (i_key i) c t /\ c_sub c = u /\ c_iss c = match i_issuer i with Some x => x | None => [] end.
Proof. intros (S & _). unfold make_token. destruct (ovf && _)%bool; [discriminate|]. intros [= <-]. eexists. split; [apply S|]. auto. Qed.
Lemma login_attributes signs j ovf now i u r r' : jwt_ok signs j -> resp_wf r -> set_auth_token j ovf now i u r = Some r' ->
  exists v c t items, sets_cookie r r' v /\ signs (i_key i) c t /\ v = i_cookie i ++ B "=" ++ t ++ concat (map (fun a => B "; " ++ a) items) /\ attributes i (i_expiration i) items.
Proof.
  intros J W H. apply login_cases in H as (t & T & _ & V & A). destruct (made_signs signs _ _ _ _ _ _ J T) as (c & S & _). destruct (cookie_attributes i t (i_expiration i)) as (items & AT & E).
  exists (cookie_text (i_cookie i) t (i_path i) (i_expiration i) (i_http_only i) (i_secure i)), c, t, items. split; [exact (appended _ _ _ W V A)|]. auto.
Qed.
Lemma logout_attributes signs j ovf now i r r' : jwt_ok signs j -> resp_wf r -> forget j ovf now i r = Some r' ->
  exists v c t items, sets_cookie r r' v /\ signs (i_key i) c t /\ v = i_cookie i ++ B "=" ++ t ++ concat (map (fun a => B "; " ++ a) items) /\ attributes i 0 items.
Proof.
  intros J W H. apply forget_cases in H as [V A]. set (c := mkClaims 0 (match i_issuer i with Some x => x | None => [] end) []) in *.
  destruct (cookie_attributes i (j_sign j (i_key i) c) 0) as (items & AT & E).
  exists (cookie_text (i_cookie i) (j_sign j (i_key i) c) (i_path i) 0 (i_http_only i) (i_secure i)), c, (j_sign j (i_key i) c), items.
  split; [exact (appended _ _ _ W V A)|]. split; [apply (proj1 J)|]. split; [exact E|exact AT].
Qed.
Lemma issuer signs j i i' q now : i_key i = i_key i' -> i_cookie i = i_cookie i' ->
  authorized_user j now i q = authorized_user j now i' q /\
  (forall ovf u r r', jwt_ok signs j -> resp_wf r -> set_auth_token j ovf now i u r = Some r' ->
    exists v c t rest, sets_cookie r r' v /\ v = i_cookie i ++ B "=" ++ t ++ rest /\ signs (i_key i) c t /\ c_sub c = u /\
      c_iss c = match i_issuer i with Some x => x | None => [] end).
Proof.
  intros E1 E2. split; [unfold authorized_user; now rewrite E1, E2|]. intros ovf u r r' J W H. apply login_cases in H as (t & T & _ & V & A).
  destruct (made_signs signs _ _ _ _ _ _ J T) as (c & S & U & I). eexists _, c, t, _. split; [exact (appended _ _ _ W V A)|]. split; [unfold cookie_text; reflexivity|]. auto.
Qed.
