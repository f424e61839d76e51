(** * Proofs: the MR-O-QPSK receiver of [SOqRx] *)
From Verif Require Import Py MBits MFields MModul MOfdm Tables MRate MOqpsk SBits SRate SOqpsk SOqRx PList PBits PConv PRate POqpsk POqRun.

(** ** decoding the rate-1/2 code *)
Definition bit_of (s : Z) (k : Z) : bool := Z.testbit s k.
Definition chk_uncode : bool :=
  forallb (fun s => forallb (fun b =>
     let '(s', (u, _)) := rstep s b in
     (0 <=? s') && (s' <? 64)
     && Bool.eqb (xorb u (xorb (bit_of s 4) (xorb (bit_of s 3) (xorb (bit_of s 1) (bit_of s 0))))) b
     && Bool.eqb (bit_of s' 5) b && Bool.eqb (bit_of s' 4) (bit_of s 5) && Bool.eqb (bit_of s' 3) (bit_of s 4)
     && Bool.eqb (bit_of s' 2) (bit_of s 3) && Bool.eqb (bit_of s' 1) (bit_of s 2) && Bool.eqb (bit_of s' 0) (bit_of s 1)) bools) (states 64).
Lemma uncode_enc x : forall s, 0 <= s < 64 ->
  uncode (bit_of s 5) (bit_of s 4) (bit_of s 3) (bit_of s 2) (bit_of s 1) (bit_of s 0) (enc rstep s x) = x.
Proof.
  induction x as [|b x IH]; intros s Hs; [reflexivity|].
  assert (C : chk_uncode = true) by (vm_compute; reflexivity). unfold chk_uncode in C.
  pose proof (bools_forall _ (states_forall 64 _ C s Hs) b) as H. cbv beta in H. cbn [enc].
  destruct (rstep s b) as [s' [u v]]. cbn [uncode].
  repeat (apply andb_prop in H; let H' := fresh "H" in destruct H as [H H']; try apply Bool.eqb_prop in H').
  apply Z.leb_le in H. rewrite Z.ltb_lt in H7. 
  rewrite H6. f_equal. rewrite <- (IH s' ltac:(lia)) at 2. congruence.
Qed.
Lemma decode_code x : decode_12 (code_12 0 x) = x.
Proof. rewrite <- enc_code_12. unfold decode_12. exact (uncode_enc x 0 ltac:(lia)). Qed.

(** ** deinterleaving one block *)
Lemma deinterleave_ilv (psdu : bool) x : length x = (if psdu then 126 else 60)%nat -> deinterleave psdu (ilv psdu x) = x.
Proof.
  intro L. apply list_eq_nth with false; [unfold deinterleave; cbv zeta; rewrite map_length, seq_length, L; destruct psdu; reflexivity|].
  intros j Hj. unfold deinterleave in *. cbv zeta in *. rewrite map_length, seq_length in Hj. rewrite nth_map_seq by assumption. cbn [Nat.add].
  set (k := (_ - _ - _ - _)%nat).
  assert (C : forallb (fun j => let rows := if psdu then 7%nat else 6%nat in let cols := if psdu then 18%nat else 10%nat in
     let k := (rows * cols - 1 - rows * (j mod cols) - j / cols)%nat in Nat.ltb k (rows * cols) && Nat.eqb (q_pos psdu (rows * cols) k) j)
     (seq 0 (if psdu then 126 else 60)) = true) by (destruct psdu; vm_compute; reflexivity).
  rewrite forallb_forall in C. specialize (C j). cbv beta zeta in C. fold k in C.
  assert (E : ((if psdu then 7 else 6) * (if psdu then 18 else 10) = if psdu then 126 else 60)%nat) by (destruct psdu; reflexivity).
  rewrite E in C, Hj. specialize (C ltac:(apply in_seq; lia)). apply andb_prop in C as [C1 C2]. apply Nat.ltb_lt in C1. apply Nat.eqb_eq in C2.
  unfold ilv. rewrite L. rewrite nth_map_seq by assumption. cbn [Nat.add]. now rewrite C2.
Qed.

(** ** the parts of a frame *)
Lemma shr_codes_eq b : shr_codes b = sp_shr b.
Proof. destruct b; reflexivity. Qed.
Lemma phr_codes_eq b : phr_codes b = sp_phr b.
Proof. destruct b; reflexivity. Qed.
Lemma psdu_codes_eq b rm : 0 <= rm <= 3 -> psdu_codes b rm = sp_psdu b rm.
Proof. intro H. each_rm H; destruct b; reflexivity. Qed.
Lemma psdu_diff_eq b rm : 0 <= rm <= 3 -> psdu_diff b rm = bde_psdu b rm.
Proof. intro H. each_rm H; destruct b; reflexivity. Qed.
Lemma shr_chips_len b : length (shr_chips b) = header_start b.
Proof. destruct b; vm_compute; reflexivity. Qed.
Lemma shr_last b : last (shr_bits b) false = parity sfd_bits.
Proof. destruct b; vm_compute; reflexivity. Qed.
Lemma shr_received b r : rx_shr b (shr_chips b ++ r) = repeat false (preamble_bits b) ++ sfd_bits.
Proof.
  unfold rx_shr. rewrite firstn_app, shr_chips_len, Nat.sub_diag, app_nil_r, <- shr_chips_len, firstn_all.
  destruct b; vm_compute; reflexivity.
Qed.
Lemma phr_chips_len p b sm rm len : length (phr_chips p b sm rm len) = (60 * spread_chips (phr_codes b))%nat.
Proof. rewrite phr_codes_eq. apply phr_chips_length. Qed.
Lemma diff_decode_BDE m ref : diff_decode ref (BDE m ref 0) = m.
Proof. unfold BDE. apply bde_decode. Qed.
Lemma header_received p b sm rm len r : rx_header b (shr_chips b ++ phr_chips p b sm rm len ++ r) = hdr p sm rm len.
Proof.
  unfold rx_header. cbv zeta. rewrite skipn_app, shr_chips_len, Nat.sub_diag, (skipn_all2 (shr_chips b)) by (rewrite shr_chips_len; lia). cbn [app].
  rewrite skipn_O. rewrite firstn_app, phr_chips_len, Nat.sub_diag, app_nil_r. rewrite <- (phr_chips_len p b sm rm len), firstn_all.
  destruct (sp_phr_in b) as (_ & Hi & H1). unfold phr_chips. rewrite phr_codes_eq.
  assert (L60 : length (phr_diff p b sm rm len) = 60%nat) by (unfold phr_diff; rewrite BDE_length, ilv_length; apply phr_code_length).
  replace 60%nat with (length (phr_diff p b sm rm len) / spread_bits (sp_phr b))%nat by (rewrite H1, L60; reflexivity).
  rewrite despread_spread by (auto; rewrite H1; apply Nat.mod_1_r).
  unfold phr_diff. rewrite shr_last, diff_decode_BDE, deinterleave_ilv by apply phr_code_length.
  unfold phr_code. rewrite decode_code. rewrite firstn_app, hdr_length. change (24 - 24)%nat with 0%nat. rewrite firstn_O, app_nil_r. apply firstn_all2. rewrite hdr_length. lia.
Qed.
Lemma mode_received p sm rm len : 0 <= rm <= 3 -> 0 <= len <= 2047 -> rx_mode (hdr p sm rm len) = (sm, rm, len).
Proof.
  intros Hr Hl. unfold rx_mode, hdr, hdr_fields, slice. cbv zeta. rewrite <- !app_assoc.
  set (R := msb_bits 2 rm). set (L := msb_bits 11 len). set (C := hdr_check p _).
  assert (LR : length R = 2%nat) by apply msb_bits_length. assert (LL : length L = 11%nat) by apply msb_bits_length.
  cbn [app nth]. rewrite (skipn_cons 0), (skipn_cons 4), skipn_O.
  replace (firstn 2 (R ++ false :: false :: L ++ C)) with R by (rewrite firstn_app, LR, Nat.sub_diag, firstn_O, app_nil_r; symmetry; apply firstn_all2; lia).
  replace (firstn 11 (skipn 4 (R ++ false :: false :: L ++ C))) with L.
  2:{ rewrite skipn_app, LR. rewrite (skipn_all2 R) by lia. change (4 - 2)%nat with 2%nat. cbn [app]. rewrite (skipn_cons 1), (skipn_cons 0), skipn_O, firstn_app, LL, Nat.sub_diag, firstn_O, app_nil_r. symmetry. apply firstn_all2. lia. }
  unfold R, L. rewrite !msb_value_msb_bits by (simpl; lia). reflexivity.
Qed.
Lemma payload_here p b sm rm len x : skipn (payload_start b) (shr_chips b ++ phr_chips p b sm rm len ++ x) = x.
Proof.
  unfold payload_start. rewrite app_assoc, skipn_app, app_length, shr_chips_len, phr_chips_len, Nat.sub_diag.
  rewrite skipn_all2 by (rewrite app_length, shr_chips_len, phr_chips_len; lia). reflexivity.
Qed.
