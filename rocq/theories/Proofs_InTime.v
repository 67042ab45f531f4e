(** Proofs: readers of message bodies hand over what has arrived. *)
From Verif Require Import Accept Reads SpecChunked SpecHead SpecResponse SpecReq SpecServer SpecBody Lemmas Proofs_Copy
  Proofs_Buf Proofs_Dec Proofs_DecMsg Proofs_DecReads Proofs_Map Proofs_ServerDec Proofs_Body Proofs_Accept Proofs_Request Proofs_Prompt.

Lemma reader_src ev len br : body_src (body_reader ev len br) = br_src br.
Proof. destruct len; reflexivity. Qed.

Lemma reader_in_time ev len br : env_ok ev -> wf_brd br -> in_time ev len (br_buf br) (body_reader ev len br).
Proof.
  intros He HW evs f rest tl EB CE. rewrite reader_src in EB. destruct br as [cap held sr]. cbn [br_src br_buf] in *. subst sr.
  destruct (stop_at cap held evs f rest tl HW CE) as (E1 & E2 & E3 & E4 & E5 & E6). assert (G : grow_ok ev) by apply He. destruct len as [n|]; cbn [body_reader].
  - split.
    + intros ns b' out k HN HR. rewrite E1 in HR. pose proof (fixed_hand ev rest tl ns n _ b' out k E2 E3 E4 HN HR) as Q. rewrite E5, E6 in Q. exact Q.
    + intros HL ns b' out k HN HR. rewrite E1 in HR. rewrite <- E5 in HL. pose proof (fixed_end ev rest tl ns n _ b' out k E2 E3 E4 HN HL HR) as Q. rewrite E5, E6 in Q. exact Q.
  - intros p tr wire (cw & n & z & tw & F1 & F2 & F3 & F4 & F5 & ->). split.
    + intros cut HX Hc. destruct (cut_load ev p cw n z tr tw F1 F2 F3 F4 0%nat _ cut F5 HX Hc) as (x & Px & Cx & HM). exists x. split; [exact Px|]. split; [exact Cx|].
      intros ns b' out k HN HR. rewrite E1 in HR. rewrite <- E5, <- (app_nil_r (br_data _)) in HM.
      destruct (St_new ev [] [] [] ECut true _ x _ HM ltac:(now rewrite !app_nil_r)) as [HS ND]; [auto|].
      pose proof (chunked_hand ev G (ok_cap ev He) rest tl ns [] _ x b' out k HS ND E4 (new_ok ev _) HN HR) as Q.
      unfold tot in Q. cbn [app dec_new d_in d_blk blk_fresh k_data length] in Q. rewrite !Nat.add_0_r, E6 in Q. exact Q.
    + intros extra HX ns b' out k HN HR. rewrite E1 in HR. rewrite <- E5 in HX.
      assert (HM : msg ev tr true EOk false 0 p (cw ++ z ++ tw ++ CRLF)).
      { rewrite <- (app_nil_r p). eapply msg_load; [eassumption|]. constructor; [assumption|]. constructor; auto.
        intros _. rewrite !app_length in F5. change (length CRLF) with 2%nat in F5. clear -F5. lia. }
      destruct (fields_holds _ _ F3) as (h & Eh & _).
      destruct (St_new ev tr h extra EOk true _ p _ HM HX) as [HS ND]; [intros _; split; [assumption|discriminate]|].
      pose proof (chunked_end ev G (ok_cap ev He) rest tl tr h extra F4 Eh ns [] _ p b' out k HS ND E4 (new_ok ev _) HN HR) as Q.
      unfold tot in Q. cbn [app dec_new d_in d_blk blk_fresh k_data length] in Q. rewrite !Nat.add_0_r, E6 in Q. exact Q.
Qed.

Lemma reader_waits ev len br : env_ok ev -> wf_brd br -> waits_rightly ev (body_reader ev len br).
Proof.
  intros He HW ns b1 out n b2 f HN HR HP. destruct len as [cl|]; cbn [body_reader] in HR.
  - destruct (fixed_shape ev _ _ _ _ _ _ HR) as (rem & b3 & ->). exact (fixed_wait _ _ _ _ _ _ HP).
  - assert (G : grow_ok ev) by apply He. destruct (body_ok_reads ev G (ok_cap ev He) _ _ _ _ _ (new_ok ev br) HN HR) as (buf & d & -> & HO). exact (chunked_wait _ _ _ _ _ _ HO HP).
Qed.
