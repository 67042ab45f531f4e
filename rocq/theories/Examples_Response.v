(** Concrete environments and responses used as witnesses beside the theorems. *)
From Verif Require Import ServerEnc SpecChunked SpecHead SpecResponse Lemmas Proofs_Copy Proofs_ServerEnc Proofs_Send.

(** The crate's buffer sizes, exact hexadecimal lengths, debug or release profile. *)
Definition ev0 (dbg : bool) : env :=
  mkEnv (B "Thu, 01 Jan 1970 00:00:00 GMT") (fun m => length (to_hex (N.of_nat m)))
        (fun _ => None) true dbg (N.to_nat 8192) (N.to_nat 4096) (fun c => (c + N.to_nat 1024)%nat) (fun _ => Ascii.zero).

Lemma ev0_wf dbg : env_wf (ev0 dbg).
Proof. split; [vm_compute; reflexivity|discriminate]. Qed.
Lemma ev0_hex dbg : hexlen_ok (ev0 dbg).
Proof. intros m _. cbn. lia. Qed.
Lemma ev0_cap dbg : (7 <= e_bufcap (ev0 dbg))%nat.
Proof. cbn [ev0 e_bufcap]. lia. Qed.
Lemma ev0_cap64 dbg : (N.of_nat (e_bufcap (ev0 dbg)) < two64)%N.
Proof. cbn [ev0 e_bufcap]. rewrite N2Nat.id. reflexivity. Qed.

Lemma ev0_fits dbg cl : (cl < 1000000)%N -> (cl + N.of_nat (e_bufcap (ev0 dbg)) < two64)%N.
Proof. cbn [ev0 e_bufcap]. rewrite N2Nat.id. unfold two64. lia. Qed.
Lemma ev0_cap1 dbg : (1 <= e_bufcap (ev0 dbg))%nat.
Proof. pose proof (ev0_cap dbg). lia. Qed.
Global Opaque ev0.

Definition hdr (n v : string) : bytes * list bytes := (B n, [B v]).

(** A body read in three pieces with pending polls in between. *)
Definition split_src : src := mkSrc [Data (B "he"); Pend false; Data (B "llo"); Pend true; Data (B " world")] Eof.
Definition resp1 (len : option N) : response :=
  mkResp 200 HTTP_11 [hdr "content-type" "text/html"; hdr "x-a" "1"; hdr "content-length" "99"; (B "set-cookie", [B "a=b"; B "c=d"])]
         (mkBody len split_src).
Lemma resp1_wf len : resp_wf (resp1 len).
Proof.
  split.
  - cbn. repeat constructor; cbn; intuition congruence.
  - repeat constructor; discriminate.
Qed.
Lemma split_wf : wf_src split_src.
Proof. repeat constructor; discriminate. Qed.
Lemma split_clean : clean split_src.
Proof. split; [repeat constructor; discriminate|reflexivity]. Qed.
Lemma split_data : src_data split_src = B "hello world".
Proof. reflexivity. Qed.

(** A writer with short and pending writes. *)
Definition slow_w : wtr := mkWtr [WAcc 3; WPend false; WAcc 1; WAcc 100] [].
Lemma slow_acc : accepting slow_w.
Proof. repeat constructor. Qed.

(** A reader that fails after some bytes. *)
Definition fail_src : src := mkSrc [Data (B "he"); Pend false; Fail] Eof.
Lemma fail_wf : wf_src fail_src.
Proof. repeat constructor; discriminate. Qed.
Lemma fail_unclean : ~ clean fail_src.
Proof. intros [C _]. inversion C as [|x l _ C1]; subst. inversion C1 as [|x l _ C2]; subst. inversion C2; congruence. Qed.
Definition resp2 (len : option N) : response := mkResp 200 HTTP_11 [] (mkBody len fail_src).
Lemma resp2_wf len : resp_wf (resp2 len).
Proof. split; constructor. Qed.

(** The chunk-terminator window: a header value of [k] bytes. *)
Definition pad (k : N) : bytes := repeat (ascii_of_N 97) (N.to_nat k).
Definition resp_window (k : N) : response :=
  mkResp 200 HTTP_11 [(B "x", [pad k])] (mkBody None (mkSrc [] Eof)).
