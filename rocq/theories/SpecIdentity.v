(** Specification: cookies, tokens and the configuration of an identity service. *)
From Coq Require Export Permutation.
From Verif Require Import Identity SpecText SpecHead SpecResponse SpecWriter SpecCors.

(** ** Tokens
    [signs k c t]: [t] is a token made with the key [k] for the claims [c]. The contract of the
    signature scheme: signing makes such tokens, in the alphabet of base64url and dots, and
    verification accepts nothing else. *)
Definition is_token_char (c : byte) : bool :=
  within 65 90 c || within 97 122 c || within 48 57 c || Ascii.eqb c "-"%char || Ascii.eqb c "_"%char || Ascii.eqb c "."%char.
Definition jwt_ok (signs : bytes -> claims -> bytes -> Prop) (j : jwt) : Prop :=
  (forall k c, signs k c (j_sign j k c)) /\
  (forall k c t, j_verify j k t = Some c <-> signs k c t) /\
  (forall k c, forallb is_token_char (j_sign j k c) = true).

(** ** Cookies *)
Definition blank (c : byte) : Prop := c = " "%char \/ c = "009"%char.
Definition stripped (l : bytes) : Prop := (forall c r, l = c :: r -> ~ blank c) /\ (forall r c, l = r ++ [c] -> ~ blank c).
(** [first_pair v n x]: the Cookie header value [v] begins with the cookie [n=x]. *)
Definition first_pair (v n x : bytes) : Prop :=
  forallb text_byte v = true /\
  exists a b c d rest, v = a ++ n ++ b ++ B "=" ++ c ++ x ++ d ++ rest /\
    Forall blank (a ++ b ++ c ++ d) /\ n <> [] /\ stripped n /\ stripped x /\
    ~ In "="%char n /\ ~ In ";"%char n /\ ~ In ";"%char x /\ (rest = [] \/ exists r, rest = ";"%char :: r).
(** What a client sends back for a Set-Cookie value: the part before the first semicolon. *)
Definition pair_of (v p : bytes) : Prop := ~ In ";"%char p /\ (v = p \/ exists r, v = p ++ ";"%char :: r).
(** Cookie names that RFC 6265 has: tokens. *)
Definition is_cookie_name (n : bytes) : Prop := n <> [] /\ forallb tchar n = true.

(** ** The configuration, from the builder calls *)
Definition says_cookie (c : icall) := match c with ICookie n => Some n | _ => None end.
Definition says_path (c : icall) := match c with IPath n => Some n | _ => None end.
Definition says_secure (c : icall) := match c with ISecure b => Some b | _ => None end.
Definition says_http_only (c : icall) := match c with IHttpOnly b => Some b | _ => None end.
Definition says_issuer (c : icall) := match c with IIssuer b => Some (Some b) | _ => None end.
Definition says_expires (c : icall) := match c with IExpires b => Some b | _ => None end.

(** The attributes of the cookies. *)
Definition attributes (i : identity) (age : N) (items : list bytes) : Prop :=
  exists d, numeral d age /\
  Permutation items ((if i_http_only i then [B "HttpOnly"] else []) ++ (if i_secure i then [B "Secure"] else []) ++ [B "Path=" ++ i_path i; B "Max-Age=" ++ d]).
(** [set_cookie r r' v]: [r'] is [r] with one more Set-Cookie header, of value [v]. *)
Definition sets_cookie (r r' : response) (v : bytes) : Prop :=
  r_status r' = r_status r /\ r_version r' = r_version r /\ r_body r' = r_body r /\ resp_wf r' /\
  forall n, values n (hm_iter (r_headers r')) = values n (hm_iter (r_headers r)) ++ (if same_text n (B "set-cookie") then [v] else []).
