(** Model of src/server/identity.rs. *)
From Verif Require Export RespWriter ServerDec.

(** [Claims], src/server/identity.rs:262-269. *)
Record claims := mkClaims { c_exp : N; c_iss : bytes; c_sub : bytes }.

(** ** jsonwebtoken 7.2 (an oracle)
    [j_sign key c]: [encode(&Header::default(), &c, &EncodingKey::from_secret(key))], which does
    not fail for these claims. [j_verify key t]: what [decode::<Claims>] does before validating
    the times: HS256 signature and deserialisation. Called at src/server/identity.rs:70-75,
    137-142. *)
Record jwt := mkJwt { j_sign : bytes -> claims -> bytes; j_verify : bytes -> bytes -> option claims }.
(** [decode::<Claims>(t, key, &Validation::default())]: [exp] must not be before [now] (leeway 0);
    the issuer is not validated by default. src/server/identity.rs:70-75. *)
Definition jwt_decode (j : jwt) (key t : bytes) (now : N) : option claims :=
  match j_verify j key t with
  | Some c => if (c_exp c <? now)%N then None else Some c
  | None => None
  end.

(** ** cookie 0.14. For [Cookie::parse], called at src/server/identity.rs:240. *)
Fixpoint until (c : byte) (l : bytes) : bytes :=
  match l with d :: r => if Ascii.eqb d c then [] else d :: until c r | [] => [] end.
(** For [Cookie::parse], called at src/server/identity.rs:240. *)
Fixpoint split_eq (l : bytes) : option (bytes * bytes) :=
  match l with
  | [] => None
  | c :: r => if Ascii.eqb c "="%char then Some ([], r) else match split_eq r with Some (a, b) => Some (c :: a, b) | None => None end
  end.
(** [Cookie::parse]: name and value are what is before the first semicolon; the rest are
    attributes, which cannot fail. Called at src/server/identity.rs:240. *)
Definition cookie_parse (l : bytes) : option (bytes * bytes) :=
  match split_eq (until ";"%char l) with
  | Some (n, v) => match trim n with [] => None | n' => Some (n', trim v) end
  | None => None
  end.
(** [to_string] of a cookie with the attributes the source sets. src/server/identity.rs:93-99,
    112-118. *)
Definition cookie_text (name value path : bytes) (age : N) (http_only secure : bool) : bytes :=
  name ++ B "=" ++ value ++ (if http_only then B "; HttpOnly" else []) ++ (if secure then B "; Secure" else []) ++
  B "; Path=" ++ path ++ B "; Max-Age=" ++ to_dec age.

(** [Identity], src/server/identity.rs:32-53; of the [Duration] only the whole seconds matter. *)
Record identity := mkIdentity {
  i_key : bytes; i_issuer : option bytes; i_expiration : N;
  i_cookie : bytes; i_path : bytes; i_secure : bool; i_http_only : bool
}.

(** [IdentityBuilder], src/server/identity.rs:150-158, and [new], 164-174. *)
Record ibuilder := mkIb {
  ib_key : bytes; ib_issuer : option bytes; ib_expiration : N;
  ib_cookie : option bytes; ib_path : option bytes; ib_secure : bool; ib_http_only : bool
}.
(** [IdentityBuilder::new], src/server/identity.rs:164-174. *)
Definition ib_new (key : bytes) : ibuilder := mkIb key None (60 * 60 * 24)%N None None true true.
(** The builder's methods, src/server/identity.rs:179-221. *)
Inductive icall := ICookie (n : bytes) | IPath (p : bytes) | ISecure (b : bool) | IHttpOnly (b : bool) | IIssuer (i : bytes) | IExpires (s : N).
(** One call of a builder method, src/server/identity.rs:179-221. *)
Definition ib_call (c : icall) (b : ibuilder) : ibuilder :=
  match c with
  | ICookie n => mkIb (ib_key b) (ib_issuer b) (ib_expiration b) (Some n) (ib_path b) (ib_secure b) (ib_http_only b)
  | IPath p => mkIb (ib_key b) (ib_issuer b) (ib_expiration b) (ib_cookie b) (Some p) (ib_secure b) (ib_http_only b)
  | ISecure x => mkIb (ib_key b) (ib_issuer b) (ib_expiration b) (ib_cookie b) (ib_path b) x (ib_http_only b)
  | IHttpOnly x => mkIb (ib_key b) (ib_issuer b) (ib_expiration b) (ib_cookie b) (ib_path b) (ib_secure b) x
  | IIssuer i => mkIb (ib_key b) (Some i) (ib_expiration b) (ib_cookie b) (ib_path b) (ib_secure b) (ib_http_only b)
  | IExpires s => mkIb (ib_key b) (ib_issuer b) s (ib_cookie b) (ib_path b) (ib_secure b) (ib_http_only b)
  end.
(** Calls in a row of the builder methods, src/server/identity.rs:179-221. *)
Definition ib_calls (cs : list icall) (b : ibuilder) : ibuilder := fold_left (fun b c => ib_call c b) cs b.
(** [finish], src/server/identity.rs:224-234. *)
Definition ib_finish (b : ibuilder) : identity :=
  mkIdentity (ib_key b) (ib_issuer b) (ib_expiration b)
    (match ib_cookie b with Some n => n | None => B "jwt" end) (match ib_path b with Some p => p | None => B "/" end)
    (ib_secure b) (ib_http_only b).

(** [make_token], src/server/identity.rs:121-143. [None]: the u64 addition overflows and panics
    ([ovf]: overflow checks are on); [now] is [current_numeric_date()], 253-260. *)
Definition make_token (j : jwt) (ovf : bool) (now : N) (i : identity) (user : option bytes) (exp : option N) : option bytes :=
  let iss := match i_issuer i with Some x => x | None => [] end in
  let sub := match user with Some u => u | None => [] end in
  match exp with
  | Some e => Some (j_sign j (i_key i) (mkClaims e iss sub))
  | None =>
      let e := (i_expiration i + now)%N in
      if ovf && (two64 <=? e)%N then None else Some (j_sign j (i_key i) (mkClaims (e mod two64) iss sub))
  end.

(** [set_auth_token], src/server/identity.rs:85-100. [None]: panic (the addition; a duration
    outside the [time] crate's range; a cookie text that is no header value). *)
Definition set_auth_token (j : jwt) (ovf : bool) (now : N) (i : identity) (user : bytes) (r : response) : option response :=
  match make_token j ovf now i (Some user) None with
  | None => None
  | Some t =>
      if (2 ^ 63 <=? i_expiration i)%N then None else
      match header_value (cookie_text (i_cookie i) t (i_path i) (i_expiration i) (i_http_only i) (i_secure i)) with
      | Some v => rw_append_header (B "set-cookie") v r
      | None => None
      end
  end.

(** [forget], src/server/identity.rs:104-119. *)
Definition forget (j : jwt) (ovf : bool) (now : N) (i : identity) (r : response) : option response :=
  match make_token j ovf now i None (Some 0%N) with
  | None => None
  | Some t =>
      match header_value (cookie_text (i_cookie i) t (i_path i) 0 (i_http_only i) (i_secure i)) with
      | Some v => rw_append_header (B "set-cookie") v r
      | None => None
      end
  end.

(** [get_cookie], src/server/identity.rs:238-246: a Cookie header that cannot be read or parsed
    ends the search. *)
Fixpoint find_cookie (name : bytes) (l : list bytes) : option bytes :=
  match l with
  | [] => None
  | v :: r =>
      match value_to_str v with
      | None => None
      | Some s =>
          match cookie_parse s with
          | None => None
          | Some (n, x) => if beq n name then Some x else find_cookie name r
          end
      end
  end.
(** [get_cookie], src/server/identity.rs:238-246. *)
Definition get_cookie (q : rhead) (name : bytes) : option bytes := find_cookie name (hm_get_all (B "cookie") (q_hdrs q)).

(** [authorized_user], src/server/identity.rs:64-82. *)
Definition authorized_user (j : jwt) (now : N) (i : identity) (q : rhead) : option bytes :=
  match get_cookie q (i_cookie i) with
  | Some t => match jwt_decode j (i_key i) t now with Some c => Some (c_sub c) | None => None end
  | None => None
  end.
