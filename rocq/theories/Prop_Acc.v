(** * C106: the samples carry the frame even if they are known only approximately *)
From Coq Require Import Qreals Reals Lra Psatz.
From Coquelicot Require Import Complex.
From Verif Require Import Py PList SBits SEntry MBits PBits PEntry MPn9 Tables STime SGap PGap SAcc.
From Verif Require MFsk SFsk PFsk Prop_Fsk MFskWave Prop_FskWave SFskRx Prop_FskRx.
From Verif Require MModul SMrOfdm PMrOfdm MMrOfdm MTime SMrRx Prop_MrOfdm Prop_Time Prop_MrRx.
From Verif Require MOqpsk SOqpsk MWave SWave Prop_Oqpsk Prop_Wave SOqGap POqNoise Prop_OqNoise SOqRx SOqMf Prop_OqMf.
Local Open Scope R_scope.

(** ** energy of the error *)
Lemma approx_length eps r x : approx eps r x -> length r = length x.
Proof. intro H. induction H; cbn; congruence. Qed.
Lemma approx_skipn eps n r x : approx eps r x -> approx eps (skipn n r) (skipn n x).
Proof. unfold approx. intro H. revert n. induction H; intro n; destruct n; cbn [skipn]; auto. Qed.
Lemma approx_firstn eps n r x : approx eps r x -> approx eps (firstn n r) (firstn n x).
Proof. unfold approx. intro H. revert n. induction H; intro n; destruct n; cbn [firstn]; auto. Qed.
Lemma approx_gap eps r x : approx eps r x -> gap r x <= INR (length x) * eps ^ 2.
Proof.
  intro H. induction H as [|a b r x Hab _ IH]; [cbn; lra|]. cbn [gap]. change (length (b :: x)) with (S (length x)). rewrite S_INR.
  assert (Cmod (a - b)%C ^ 2 <= eps ^ 2) by (pose proof (Cmod_ge_0 (a - b)%C); apply pow_incr; lra). lra.
Qed.
Lemma approx_block eps n w r x : approx eps r x -> gap (firstn w (skipn n r)) (firstn w (skipn n x)) <= INR w * eps ^ 2.
Proof.
  intro H. apply (approx_skipn eps n) in H. apply (approx_firstn eps w) in H. apply approx_gap in H. eapply Rle_trans; [exact H|].
  assert (length (firstn w (skipn n x)) <= w)%nat by (rewrite firstn_length; lia). apply Rmult_le_compat_r; [apply pow2_ge_0|]. now apply le_INR.
Qed.
Lemma nearest_multiple_error q v : 0 < q -> Rabs (nearest_multiple q v - v) <= q / 2.
Proof.
  intro Hq. unfold nearest_multiple. destruct (archimed (v / q - 1 / 2)) as [A B]. set (k := IZR (up (v / q - 1 / 2))) in *.
  assert (E : q * (v / q) = v) by (field; apply Rgt_not_eq, Hq). set (t := v / q) in *. apply Rabs_le. nra.
Qed.
(** a quantisation step q gives errors of at most q / sqrt 2 *)
Lemma quantised_approx q x : 0 < q -> approx (q / sqrt 2) (quantised q x) x.
Proof.
  intro Hq. unfold approx, quantised. induction x as [|[u v] x IH]; cbn [map]; constructor; [|exact IH]. cbn [fst snd].
  pose proof (nearest_multiple_error q u Hq) as A. pose proof (nearest_multiple_error q v Hq) as B. set (a := nearest_multiple q u) in *. set (b := nearest_multiple q v) in *.
  assert (S : sqrt 2 * sqrt 2 = 2) by (apply sqrt_sqrt; lra). assert (P : 0 < sqrt 2) by (apply sqrt_lt_R0; lra).
  unfold Cmod. cbn [fst snd]. unfold Cminus, Cplus, Copp. cbn [fst snd].
  assert (D : 0 <= q / sqrt 2) by (apply Rlt_le, Rdiv_lt_0_compat; lra). rewrite <- (sqrt_pow2 (q / sqrt 2)) by exact D. apply sqrt_le_1_alt.
  assert (E : (q / sqrt 2) ^ 2 = q ^ 2 / 2) by (unfold Rdiv; rewrite Rpow_mult_distr, pow_inv; replace (sqrt 2 ^ 2) with 2 by (cbn; lra); reflexivity). rewrite E.
  assert (K : forall t, Rabs t <= q / 2 -> t ^ 2 <= q ^ 2 / 4) by (intros t Ht; rewrite <- (pow2_abs t); pose proof (Rabs_pos t); nra).
  replace (a + - u) with (a - u) by ring. replace (b + - v) with (b - v) by ring. pose proof (K _ A). pose proof (K _ B). lra.
Qed.
Lemma quantised_within q eps x : 0 < q -> q ^ 2 / 2 <= eps ^ 2 -> 0 <= eps -> approx eps (quantised q x) x.
Proof.
  intros Hq He H0. pose proof (quantised_approx q x Hq) as A. unfold approx in *. induction A as [|u v l l' H _ IH]; constructor; [|exact IH]. eapply Rle_trans; [exact H|].
  assert (S : sqrt 2 * sqrt 2 = 2) by (apply sqrt_sqrt; lra). assert (P : 0 < sqrt 2) by (apply sqrt_lt_R0; lra).
  assert (E : (q / sqrt 2) ^ 2 = q ^ 2 / 2) by (unfold Rdiv; rewrite Rpow_mult_distr, pow_inv; replace (sqrt 2 ^ 2) with 2 by (cbn; lra); reflexivity).
  assert (D : 0 <= q / sqrt 2) by (apply Rlt_le, Rdiv_lt_0_compat; lra). nra.
Qed.

(** ** MR-FSK: samples (of modulus 1) known to within 0.19 *)
Theorem C106_fsk : forall s a bits x f r, PFsk.fsk_object s -> check_binary_array a = Ok bits -> snd (MFskWave.k_bitsToSamples a s) = Ok (x, f) ->
  approx (19 / 100) r x ->
  SFskRx.hunting_receiver (MFsk.k_fsk4 s) (MFsk.k_il s) (MFsk.k_scheme s) 1 (SFskRx.detect (MFsk.k_fsk4 s) (Q2R (MFsk.k_h s)) r)
  = Some (MFsk.k_sfd s, MFsk.k_fec s, {| SFsk.rx_fcs := MFsk.k_fcs s; SFsk.rx_white := MFsk.k_white s; SFsk.rx_octets := (zlen bits / 8)%Z; SFsk.rx_payload := bits |}).
Proof.
  intros s a bits x f r Hs Hb Hx A. apply (Prop_FskRx.C89_receiver s a bits x f r Hs Hb Hx); [now apply approx_length in A|].
  intros j _. unfold SFskRx.block. eapply Rle_lt_trans; [apply (approx_block _ _ _ _ _ A)|]. replace (INR 20) with 20 by (cbn; lra). lra.
Qed.
Print Assumptions C106_fsk.
(** ... so also after rounding I and Q to multiples of 1/4 *)
Theorem C106_fsk_quantised : forall s a bits x f, PFsk.fsk_object s -> check_binary_array a = Ok bits -> snd (MFskWave.k_bitsToSamples a s) = Ok (x, f) ->
  SFskRx.hunting_receiver (MFsk.k_fsk4 s) (MFsk.k_il s) (MFsk.k_scheme s) 1 (SFskRx.detect (MFsk.k_fsk4 s) (Q2R (MFsk.k_h s)) (quantised (1 / 4) x))
  = Some (MFsk.k_sfd s, MFsk.k_fec s, {| SFsk.rx_fcs := MFsk.k_fcs s; SFsk.rx_white := MFsk.k_white s; SFsk.rx_octets := (zlen bits / 8)%Z; SFsk.rx_payload := bits |}).
Proof. intros s a bits x f Hs Hb Hx. apply (C106_fsk s a bits x f); auto. apply quantised_within; lra. Qed.
Print Assumptions C106_fsk_quantised.

(** ** MR-OFDM: samples known to within 1/36 *)
Lemma factor_low opt mcs il n : 1 / 10 <= SMrRx.symbol_factor opt mcs il n ^ 2.
Proof.
  unfold SMrRx.symbol_factor, norm_factor. assert (K : forall t, 0 < t -> (1 / sqrt t) ^ 2 = 1 / t).
  { intros t Ht. unfold Rdiv. rewrite Rpow_mult_distr, pow_inv, pow2_sqrt by lra. lra. }
  destruct (SMrRx.symbol_modulation opt mcs il n); rewrite ?K by lra; lra.
Qed.
Theorem C106_ofdm opt mcs il scr s a zs sig fr r : Prop_Time.modulator opt mcs il scr s -> holds_octets a zs -> Forall is_octet zs -> (1 <= zlen zs <= 2047)%Z ->
  snd (MTime.m_bytesToIQ a s) = Ok (sig, fr) -> approx (1 / 36) r sig ->
  SMrRx.mr_receiver opt il (SMrRx.rx_tone opt r) = {| SMrRx.f_mcs := mcs; SMrRx.f_scrambler := scr; SMrRx.f_octets := zs |}.
Proof.
  intros Hm Ha Hz Hl E A. eapply Prop_MrRx.C85_samples; eauto; [now apply approx_length in A|].
  intros n _. unfold SMrRx.rx_body. eapply Rle_lt_trans; [apply (approx_block _ _ _ _ _ A)|]. pose proof (factor_low opt mcs il n).
  assert (Q : (4 * SMrRx.quarter opt <= 128)%nat).
  { destruct (Prop_MrRx.frame_parts _ _ _ _ _ _ _ _ _ Hm Ha Hz Hl E) as (H1 & _). assert (Ho : (1 <= opt <= 4)%Z) by (unfold SMrOfdm.supported in H1; lia).
    assert (O : (opt = 1 \/ opt = 2 \/ opt = 3 \/ opt = 4)%Z) by lia. destruct O as [->|[->|[->| ->]]]; vm_compute; repeat constructor. }
  apply le_INR in Q. replace (INR 128) with 128 in Q by (rewrite INR_IZR_INZ; reflexivity). nra.
Qed.
Print Assumptions C106_ofdm.
Theorem C106_ofdm_quantised opt mcs il scr s a zs sig fr : Prop_Time.modulator opt mcs il scr s -> holds_octets a zs -> Forall is_octet zs -> (1 <= zlen zs <= 2047)%Z ->
  snd (MTime.m_bytesToIQ a s) = Ok (sig, fr) ->
  SMrRx.mr_receiver opt il (SMrRx.rx_tone opt (quantised (1 / 26) sig)) = {| SMrRx.f_mcs := mcs; SMrRx.f_scrambler := scr; SMrRx.f_octets := zs |}.
Proof. intros Hm Ha Hz Hl E. eapply C106_ofdm; eauto. apply quantised_within; lra. Qed.
Print Assumptions C106_ofdm_quantised.

(** ** MR-O-QPSK (pulses of height 1): with half-sine pulses, samples known to within less than 1/2, whatever samples_per_symbol;
    in general, to within less than the square root of the mean energy of the pulse *)
Theorem C106_oqpsk g p b rm sm sps s a zs sig f eps r : Prop_Oqpsk.oq_used p b rm sm sps s -> SOqpsk.oq_supported b rm sm -> (0 < sps)%Z -> SWave.pulse_regular b sps ->
  holds_octets a zs -> Forall is_octet zs -> (1 <= zlen zs <= 2047)%Z -> snd (MWave.q_bytesToIQ g p a s) = Ok (sig, f) ->
  IZR sps * eps ^ 2 < SOqGap.pulse_energy b sps -> approx eps r sig ->
  SOqRx.rx_shr b (SOqMf.matched b (Z.to_nat sps) r) = repeat false (SOqRx.preamble_bits b) ++ SOqRx.sfd_bits
  /\ SOqRx.rx_mode (SOqRx.rx_header b (SOqMf.matched b (Z.to_nat sps) r)) = ((sm =? 1)%Z, rm, zlen zs)
  /\ (sm = 0%Z -> (zlen zs <= 7)%Z -> SOqRx.oq_receiver b (SOqMf.matched b (Z.to_nat sps) r)
      = {| SOqRx.f_mdsss := false; SOqRx.f_rate_mode := rm; SOqRx.f_octets := zlen zs; SOqRx.f_bits := octet_bits zs |}).
Proof.
  intros Hu Hs Hp Hg Ha Ho Hl E He A. pose proof (approx_length _ _ _ A) as L.
  assert (N : forall j, (j * Z.to_nat sps + Z.to_nat sps <= length sig)%nat -> gap (SOqMf.pair_block (Z.to_nat sps) r j) (SOqMf.pair_block (Z.to_nat sps) sig j) < SOqGap.pulse_energy b sps).
  { intros j _. unfold SOqMf.pair_block. eapply Rle_lt_trans; [apply (approx_block _ _ _ _ _ A)|]. rewrite INR_IZR_INZ, Z2Nat.id by lia. exact He. }
  destruct (Prop_OqMf.C90_header g p b rm sm sps s a zs sig f r Hu Hs Hp Hg Ha Ho Hl E L N) as [R1 R2]. split; [exact R1|]. split; [exact R2|].
  intros -> H7. apply (Prop_OqMf.C90_receiver g p b rm sps s a zs sig f r Hu Hs Hp Hg Ha Ho ltac:(lia) E L N).
Qed.
Print Assumptions C106_oqpsk.
Theorem C106_half_sine b sps eps : b = Band_915MHz \/ b = Band_2450MHz -> (3 <= sps)%Z -> 0 <= eps < 1 / 2 -> IZR sps * eps ^ 2 < SOqGap.pulse_energy b sps.
Proof.
  intros Hb Hs He. destruct (Prop_OqNoise.C78_pulse b sps) as (H & _). rewrite (H Hb Hs). apply IZR_le in Hs. assert (eps ^ 2 < 1 / 4) by (destruct He; nra). nra.
Qed.
Print Assumptions C106_half_sine.

(** ** cases: frames exist, and the samples received may differ from those sent *)
Example C106_case : exists s a x f, PFsk.fsk_object s /\ snd (MFskWave.k_bitsToSamples a s) = Ok (x, f) /\ (1200 <= length x)%nat
  /\ is_ok (check_binary_array a) = true
  /\ approx (19 / 100) (map (fun z => z + (19 / 100, 0)%R)%C x) x.
Proof.
  destruct Prop_FskWave.C65_case as (s & x & f & fr & E & O & H1 & H2 & H3 & H4). exists s. eexists. exists x, f. split; [exact O|]. split; [exact H1|].
  destruct (Prop_FskWave.C65_tones s _ x f fr O H1 H2) as (_ & Lx & _ & _). rewrite H3 in Lx. split; [rewrite Lx; lia|]. split; [vm_compute; reflexivity|].
  clear. unfold approx. induction x as [|z x IH]; cbn [map]; constructor; [|exact IH]. replace (z + (19 / 100, 0)%R - z)%C with (RtoC (19 / 100)) by (destruct z; unfold RtoC, Cminus, Cplus, Copp; cbn [fst snd]; f_equal; ring).
  rewrite Cmod_R, Rabs_pos_eq by lra. lra.
Qed.
