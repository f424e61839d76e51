(** * C73: noise margin of MR-OFDM frames *)
From Coq Require Import Reals Lra.
From Coquelicot Require Import Complex.
From Verif Require Import Py PList SBits SEntry MBits PBits PEntry MPn9 SPn9 MModul MOfdm Tables SOfdm SMrOfdm PModul POfdm MMrOfdm PStd PMrOfdm PMrRx MTime STime PTime SGap PGap Prop_MrOfdm Prop_Time.

(** The receiver knows the OFDM option and the interleaving; everything else may differ: MCS, scrambler seed, payload and
    its length.  The difference is measured on the samples both signals have. *)
Theorem C73_margin opt il m1 sc1 s1 a1 z1 m2 sc2 s2 a2 z2 sig1 sig2 f1 f2 :
  modulator opt m1 il sc1 s1 -> modulator opt m2 il sc2 s2 ->
  holds_octets a1 z1 -> holds_octets a2 z2 -> Forall is_octet z1 -> Forall is_octet z2 -> 1 <= zlen z1 <= 2047 -> 1 <= zlen z2 <= 2047 ->
  snd (m_bytesToIQ a1 s1) = Ok (sig1, f1) -> snd (m_bytesToIQ a2 s2) = Ok (sig2, f2) ->
  (m1, sc1, z1) <> (m2, sc2, z2) -> (margin m1 <= gap sig1 sig2)%R.
Proof.
  intros M1 M2 Ha1 Ha2 Ho1 Ho2 Hl1 Hl2 E1 E2 N. apply modulator_used in M1, M2.
  pose proof (iq_send_snd _ _ _ _ _ (Octets a1) M1) as I1. pose proof (iq_send_snd _ _ _ _ _ (Octets a2) M2) as I2. cbn [iq_send send] in I1, I2.
  rewrite (octets_run opt m1 il sc1 s1 a1 z1) in I1 by assumption. rewrite (octets_run opt m2 il sc2 s2 a2 z2) in I2 by assumption.
  cbn [snd rbind] in I1, I2. rewrite I1 in E1. rewrite I2 in E2. injection E1 as <- _. injection E2 as <- _. clear I1 I2.
  destruct (used_inv _ _ _ _ _ M1) as (A1 & A2 & A3 & _). destruct (used_inv _ _ _ _ _ M2) as (B1 & B2 & B3 & _).
  assert (D : forall zs, zlen (octet_bits zs) / 8 = zlen zs).
  { intro zs. unfold zlen. rewrite octet_bits_length, Nat2Z.inj_mul. change (Z.of_nat 8) with 8. rewrite Z.mul_comm, Z.div_mul; lia. }
  assert (M : forall zs, Nat.modulo (length (octet_bits zs)) 8 = 0%nat) by (intro; rewrite octet_bits_length, Nat.mul_comm; apply mod_mult; lia).
  unfold frame_samples. rewrite (gap_app (stf_of opt)), (gap_app (ltf_of opt)), !gap_same, !Rplus_0_l by reflexivity.
  apply (frames_gap opt il m1 sc1 (octet_bits z1) m2 sc2 (octet_bits z2)); auto; try (rewrite D; assumption).
  intros (-> & -> & E). apply N. apply octet_bits_inj in E; [now subst|assumption..].
Qed.
Print Assumptions C73_margin.
(** noise of energy less than a quarter of the margin: the frame sent is the closest one, whatever the noise *)
Theorem C73_noise opt il m1 sc1 s1 a1 z1 m2 sc2 s2 a2 z2 sig1 sig2 f1 f2 received :
  modulator opt m1 il sc1 s1 -> modulator opt m2 il sc2 s2 ->
  holds_octets a1 z1 -> holds_octets a2 z2 -> Forall is_octet z1 -> Forall is_octet z2 -> 1 <= zlen z1 <= 2047 -> 1 <= zlen z2 <= 2047 ->
  snd (m_bytesToIQ a1 s1) = Ok (sig1, f1) -> snd (m_bytesToIQ a2 s2) = Ok (sig2, f2) ->
  length received = length sig1 -> (gap received sig1 < margin m1 / 4)%R ->
  (m1, sc1, z1) <> (m2, sc2, z2) -> (gap received sig1 < gap received sig2)%R.
Proof.
  intros M1 M2 Ha1 Ha2 Ho1 Ho2 Hl1 Hl2 E1 E2 Hr Hg N.
  pose proof (C73_margin opt il m1 sc1 s1 a1 z1 m2 sc2 s2 a2 z2 sig1 sig2 f1 f2 M1 M2 Ha1 Ha2 Ho1 Ho2 Hl1 Hl2 E1 E2 N) as G.
  pose proof (gap_par sig1 sig2 received Hr). lra.
Qed.
Print Assumptions C73_noise.
(** the margins (data subcarriers have mean energy 1) *)
Theorem C73_values : (margin 0 = 160 /\ margin 1 = 80 /\ margin 2 = 40 /\ margin 3 = 20 /\ margin 4 = 10 /\ margin 5 = 4 /\ margin 6 = 2)%R.
Proof.
  assert (A : ((2 * (1 / sqrt 2)) ^ 2 = 2)%R).
  { rewrite Rpow_mult_distr. unfold Rdiv. rewrite Rmult_1_l, pow_inv, pow2_sqrt by lra. lra. }
  assert (B : ((2 * (1 / sqrt 10)) ^ 2 = 2 / 5)%R).
  { rewrite Rpow_mult_distr. unfold Rdiv. rewrite Rmult_1_l, pow_inv, pow2_sqrt by lra. lra. }
  unfold margin, free_distance_of, mcs_modulation. cbn -[sqrt Rmult Rdiv pow IZR INR]. rewrite ?A, ?B. cbn [INR]. repeat split; lra.
Qed.
Print Assumptions C73_values.
Example C73_case : exists s1 s2, modulator 2 0 0 1 s1 /\ modulator 2 5 0 1 s2
  /\ is_ok (snd (send (Octets (ABytes [x55; x0f])) s1)) = true /\ is_ok (snd (send (Octets (ABytes [x55])) s2)) = true.
Proof. exact C44_samples_case. Qed.
