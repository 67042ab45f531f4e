(** Specification: what the fields of a [CorsBuilder] may hold, whoever fills them. *)
From Verif Require Import Cors SpecText SpecReq SpecCors.

(** The values of the field types: [HeaderName] is a token in lower case, [Method] a token,
    [HeaderValue] a sequence of value bytes; a set holds nothing twice. *)
Definition small_name (n : bytes) : Prop := token n /\ lowered n = n /\ (N.of_nat (length n) <= 65535)%N.
Definition filled (b : builder) : Prop :=
  (NoDup (cb_headers b) /\ Forall small_name (cb_headers b)) /\
  (NoDup (cb_exposed b) /\ Forall small_name (cb_exposed b)) /\
  (NoDup (cb_methods b) /\ Forall token (cb_methods b)) /\
  match cb_origins b with Some s => NoDup s /\ Forall (Forall value_char) s | None => True end.

(** The origins the fields let in. *)
Definition lets_in (b : builder) (o : bytes) : Prop :=
  match cb_origins b with Some s => In o s | None => True end.

(** Iterating a set gives its members in some order. *)
Definition order (p : list bytes -> list bytes) : Prop := forall l, Permutation (p l) l.

(** A preflight request asks for a method and for headers that the fields hold. *)
Definition asks_within (b : builder) (q : rhead) : Prop :=
  (exists m r, field q (B "access-control-request-method") = m :: r /\ In m (cb_methods b)) /\
  (field q (B "access-control-request-headers") = [] \/
   exists v r xs, field q (B "access-control-request-headers") = v :: r /\ commas xs v /\ forall x, In x xs -> In (lowered x) (cb_headers b)).
