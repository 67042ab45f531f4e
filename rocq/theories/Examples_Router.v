(** A reference implementation meeting the contract of path-tree, and routes for witnesses. *)
From Verif Require Import Router SpecRouter SpecHead Lemmas Proofs_Router.

(** Patterns into pieces; [cur] is the name being read. *)
Fixpoint parse_pat (cur : option bytes) (l : bytes) : list piece :=
  match l with
  | [] => match cur with Some n => [Name n] | None => [] end
  | c :: r =>
      let k :=
        if Ascii.eqb c ":" then parse_pat (Some []) r
        else if Ascii.eqb c "*" then [Rest r] else Lit c :: parse_pat None r in
      match cur with
      | Some n => if Ascii.eqb c "/" || Ascii.eqb c "*" then Name n :: k else parse_pat (Some (n ++ [c])) r
      | None => k
      end
  end.
Fixpoint segment (l : bytes) : bytes * bytes :=
  match l with
  | [] => ([], [])
  | c :: r => if Ascii.eqb c "/" then ([], l) else let (v, t) := segment r in (c :: v, t)
  end.
Fixpoint match_pat (k : list piece) (t : bytes) : option (list (bytes * bytes)) :=
  match k with
  | [] => match t with [] => Some [] | _ => None end
  | Lit c :: k' => match t with d :: t' => if Ascii.eqb c d then match_pat k' t' else None | [] => None end
  | Name n :: k' => let (v, t') := segment t in match match_pat k' t' with Some ps => Some ((n, v) :: ps) | None => None end
  | Rest n :: [] => Some [(n, t)]
  | Rest n :: _ => None
  end.
Fixpoint trim (l : bytes) : bytes :=
  match l with c :: r => if Ascii.eqb c "/" then trim r else l | [] => [] end.
(** Of the insertions whose pattern matches, the newest. *)
Fixpoint ref_find {E} (rs : list (bytes * E)) (t : bytes) : option (E * list (bytes * bytes)) :=
  match rs with
  | [] => None
  | (p, e) :: r =>
      match ref_find r t with
      | Some x => Some x
      | None => match match_pat (parse_pat None (trim p)) (trim t) with Some ps => Some (e, ps) | None => None end
      end
  end.

Lemma trim_trimmed l : trimmed l (trim l).
Proof.
  induction l as [|c l (n & E & N)]; [exists 0%nat; split; [reflexivity|intros (c & r & [=] & _)]|]. cbn [trim]. destruct (Ascii.eqb_spec c "/") as [->|D].
  - exists (S n). split; [cbn [repeat app]; now rewrite <- E|exact N].
  - exists 0%nat. split; [reflexivity|]. intros (d & r & [= <- _] & [<-|[]]). now apply D.
Qed.
Lemma in_snoc {A} (x y : A) l : In x (l ++ [y]) -> In x l \/ x = y.
Proof. intros H. apply in_app_or in H as [H|[H|[]]]; auto. Qed.
Lemma parse_pat_ok l : pattern l (parse_pat None l) /\
  forall n, ~ In "/"%char n -> ~ In "*"%char n -> pattern (":"%char :: n ++ l) (parse_pat (Some n) l).
Proof.
  induction l as [|c l [IH1 IH2]].
  - split; [constructor|]. intros n N1 N2. apply (pt_name n [] []); auto. constructor.
  - assert (K : pattern (c :: l) (parse_pat None (c :: l))).
    { cbn [parse_pat]. destruct (Ascii.eqb_spec c ":") as [->|D1]; [exact (IH2 [] (fun H => H) (fun H => H))|]. destruct (Ascii.eqb_spec c "*") as [->|D2]; [constructor|now constructor]. }
    split; [exact K|]. intros n N1 N2. destruct (Ascii.eqb_spec c "/") as [->|D1]; [|destruct (Ascii.eqb_spec c "*") as [->|D2]].
    + apply (pt_name n ("/"%char :: l)); auto. right. apply begins_cons. now left.
    + apply (pt_name n ("*"%char :: l)); auto. right. apply begins_cons. right. now left.
    + cbn [parse_pat]. apply Ascii.eqb_neq in D1 as E1. apply Ascii.eqb_neq in D2 as E2. rewrite E1, E2. cbn [orb].
      replace (n ++ c :: l) with ((n ++ [c]) ++ l) by now rewrite <- app_assoc. apply IH2; intros H; apply in_snoc in H as [H|H]; auto.
Qed.
Lemma segment_ok l : forall v t, segment l = (v, t) -> l = v ++ t /\ ~ In "/"%char v /\ (t = [] \/ begins ["/"%char] t).
Proof.
  induction l as [|c l IH]; intros v t E; cbn [segment] in E.
  - injection E as <- <-. auto.
  - destruct (Ascii.eqb_spec c "/") as [->|D].
    + injection E as <- <-. split; [reflexivity|]. split; [intros []|]. right. apply begins_cons. now left.
    + destruct (segment l) as [v' t'] eqn:F. injection E as <- <-. destruct (IH _ _ eq_refl) as (-> & N & H). split; [reflexivity|]. split; [intros [X|X]; auto|exact H].
Qed.
Lemma match_pat_fits k : forall t ps, match_pat k t = Some ps -> fits k t ps.
Proof.
  induction k as [|[c|n|n] k IH]; intros t ps E; cbn [match_pat] in E.
  - destruct t; [injection E as <-; constructor|discriminate E].
  - destruct t as [|d t]; [discriminate E|]. destruct (Ascii.eqb_spec c d) as [->|]; [|discriminate E]. constructor. auto.
  - destruct (segment t) as [v t'] eqn:F. destruct (match_pat k t') as [ps'|] eqn:G; [|discriminate E]. injection E as <-. destruct (segment_ok _ _ _ F) as (-> & N & H). constructor; auto.
  - destruct k; [|discriminate E]. injection E as <-. constructor.
Qed.
Lemma ref_find_ok {E} : path_tree (@ref_find E).
Proof.
  intros rs t e ps. induction rs as [|[p e'] rs IH]; cbn [ref_find]; [discriminate|]. destruct (ref_find rs t) as [x|].
  - intros [= ->]. destruct (IH eq_refl) as (p' & p'' & t' & k & I & H). exists p', p'', t', k. split; [now right|exact H].
  - destruct (match_pat _ _) as [ps'|] eqn:F; [|discriminate]. intros [= -> ->]. exists p, (trim p), (trim t), (parse_pat None (trim p)). split; [now left|]. split; [apply trim_trimmed|].
    split; [apply trim_trimmed|]. split; [apply parse_pat_ok|now apply match_pat_fits].
Qed.

(** The routes of examples/routing.rs and some more. *)
Definition say (t : bytes) : reading pre := Rt (PSend (rw_set_body (body_from_string t) rw_new) (fun _ => Rt None) (Rt glitch_ise)).
Definition hello_user : endpoint bytes := fun q x r =>
  say (B "Hello, " ++ concat (map (fun p => fst p ++ B " = " ++ snd p) (match req_params x with Some ps => ps | None => [] end)) ++
       match req_data (TBase 1) x with Some d => B " and " ++ d | None => [] end).
Definition blank : endpoint bytes := fun q x r => Rt (PSend r (fun _ => Rt None) (Rt glitch_ise)).
Definition site : list (rcall bytes) :=
  [RData (TBase 1) (B "old"); RWrapped (TData (TBase 2)) (B "two"); RWrapped (TBase 3) (B "three"); RAt (B "GET") (B "/:name") hello_user; RData (TBase 1) (B "Data from datastore");
   RAt (B "GET") (B "/") blank; RAt (B "POST") (B "/files/*path") hello_user].
Lemma site_regular : Forall regular site.
Proof.
  unfold site. repeat (apply Forall_cons; [first [exact I|split; [split; [discriminate|reflexivity]|split; [cbn; intuition discriminate|apply begins_cons; now left]]]|]). apply Forall_nil.
Qed.
Definition to (m p : string) : rhead := mkRhead (B m) (mkUri None None (B p) None) [(B "host", [B "h"])] (Some 0%N).
