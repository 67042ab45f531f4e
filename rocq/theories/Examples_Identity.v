(** A (toy) instance of the contract of the signature scheme, and identity services for witnesses.
    The toy token is the key and the claims spelled out: it shows that the contract can be met,
    not that it is secure. *)
From Verif Require Import Identity SpecHead SpecResponse SpecIdentity Lemmas Proofs_Head Proofs_Identity Examples_Response.

Definition letter (n : N) : byte := ascii_of_N (97 + n).
Definition enc1 (c : byte) : bytes := [letter (bv c / 16); letter (bv c mod 16)].
Definition enc (l : bytes) : bytes := flat_map enc1 l ++ ["."%char].
Fixpoint unenc (l : bytes) : option (bytes * bytes) :=
  match l with
  | [] => None
  | x :: r =>
      if Ascii.eqb x "." then Some ([], r)
      else match r with
           | [] => None
           | y :: r' => match unenc r' with Some (v, rest) => Some (ascii_of_N (16 * (bv x - 97) + (bv y - 97)) :: v, rest) | None => None end
           end
  end.
Definition toy_sign (k : bytes) (c : claims) : bytes := enc k ++ enc (to_dec (c_exp c)) ++ enc (c_iss c) ++ enc (c_sub c).
Definition toy_claims (t : bytes) : option claims :=
  match unenc t with
  | Some (_, t1) => match unenc t1 with
    | Some (e, t2) => match unenc t2 with
      | Some (i, t3) => match unenc t3 with Some (s, []) => Some (mkClaims (base_val digit_num 10 e) i s) | _ => None end
      | None => None end
    | None => None end
  | None => None
  end.
Definition toy_verify (k t : bytes) : option claims :=
  match toy_claims t with Some c => if beq (toy_sign k c) t then Some c else None | None => None end.
Definition toy : jwt := mkJwt toy_sign toy_verify.

Lemma enc1_ok c r : unenc (enc1 c ++ r) = match unenc r with Some (v, rest) => Some (c :: v, rest) | None => None end.
Proof. destruct c as [[] [] [] [] [] [] [] []]; reflexivity. Qed.
Lemma enc_ok l r : unenc (enc l ++ r) = Some (l, r).
Proof. unfold enc. induction l as [|c l IH]; [reflexivity|]. cbn [flat_map]. rewrite <- !app_assoc, enc1_ok. rewrite <- app_assoc in IH. now rewrite IH. Qed.
Lemma enc_chars l : forallb is_token_char (enc l) = true.
Proof. unfold enc. induction l as [|c l IH]; [reflexivity|]. cbn [flat_map]. rewrite <- app_assoc, forallb_app. apply andb_true_intro. split; [destruct c as [[] [] [] [] [] [] [] []]; reflexivity|exact IH]. Qed.
Lemma toy_ok : jwt_ok (fun k c t => t = toy_sign k c) toy.
Proof.
  split; [reflexivity|]. split.
  - intros k c t. cbn [toy j_verify]. unfold toy_verify. split.
    + destruct (toy_claims t) as [c'|]; [|discriminate]. destruct (beq_spec (toy_sign k c') t) as [<-|]; [|discriminate]. now intros [= ->].
    + intros ->. unfold toy_claims, toy_sign at 1. rewrite enc_ok, enc_ok, enc_ok. rewrite <- (app_nil_r (enc (c_sub c))), enc_ok, to_dec_val, beq_refl. now destruct c.
  - intros k c. cbn [toy j_sign]. unfold toy_sign. now rewrite !forallb_app, !enc_chars.
Qed.

(** The service of examples/identity.rs, and the default one. *)
Definition example_id : identity := ib_finish (ib_calls [ICookie (B "jwt"); ISecure false; IIssuer (B "tophat"); IExpires 30] (ib_new (B "secret_server_key"))).
Definition default_id : identity := ib_finish (ib_new (B "secret_server_key")).
Definition cookie_req (cs : list bytes) : rhead := mkRhead (B "GET") (mkUri None None (B "/") None) [hdr "host" "h"; (B "cookie", cs)] (Some 0%N).
