(** * C114: airtime of MR-O-QPSK frames *)
From Coq Require Import Reals Lra.
From Coquelicot Require Import Complex.
From Verif Require Import Py MBits Tables MOqpsk MWave SBits SEntry SOqpsk PList POqRun Prop_Oqpsk Prop_Wave SOqRx SOqRate Prop_OqRate Prop_OqRx.
Open Scope Z_scope.

(** the last pulse reaches into the next symbol: all of it but one sample *)
Definition pulse_tail (b : Frequency_band) (rm sm sps : Z) : R := ((1 - / IZR sps) / IZR (nominal_rate b rm sm))%R.

(** every signal: half a symbol of the nominal rate for every chip, and the tail *)
Theorem C114_chips g p b rm sm sps s r chips z sig f : oq_used p b rm sm sps s -> snd (oq_send p r s) = Ok (chips, z) -> snd (oq_signal g p r s) = Ok (sig, f) ->
  (INR (length sig) / f = INR (length chips) / (2 * IZR (nominal_rate b rm sm)) + pulse_tail b rm sm sps)%R /\ 0 < nominal_rate b rm sm.
Proof.
  intros Hu Ec E. destruct (C94_frequency _ _ _ _ _ _ _ _ _ _ Hu E) as (Hs & S0 & ->).
  pose proof (frames_gen g p b rm sm sps s r Hu) as H. rewrite Ec in H. destruct H as (rate & sg & _ & _ & _ & Es & n & L & Ls & _).
  rewrite E in Es. injection Es as <- _.
  assert (R0 : 0 < nominal_rate b rm sm).
  { destruct Hs as [H _]. assert (rm = 0 \/ rm = 1 \/ rm = 2 \/ rm = 3) as [->|[->|[-> | ->]]] by lia; unfold nominal_rate; destruct (mdsss_band b), (sm =? 0); reflexivity. }
  split; [|exact R0]. unfold pulse_tail. assert (R0' := IZR_lt _ _ R0). assert (S0' := IZR_lt _ _ S0).
  assert (Hw : INR (Z.to_nat sps) = IZR sps) by (rewrite INR_IZR_INZ; f_equal; lia).
  rewrite L, Ls. rewrite plus_INR, !mult_INR, minus_INR, Hw by lia. change (INR 2) with 2%R. change (INR 1) with 1%R. field. split; lra.
Qed.
Print Assumptions C114_chips.

(** DSSS: the chips of the frame at the chip rate of the band, as many times longer as there are chips for a coded bit *)
Theorem C114_airtime_partial g p b rm sps s a zs sig f : oq_used p b rm 0 sps s -> oq_supported b rm 0 -> 0 < sps ->
  holds_octets a zs -> Forall is_octet zs -> 1 <= zlen zs <= 2047 -> snd (q_bytesToIQ g p a s) = Ok (sig, f) ->
  (INR (length sig) / f = INR (expansion b rm) * (INR (dsss_frame_chips b rm (zlen zs)) / IZR (band_chip_rate b)) + pulse_tail b rm 0 sps)%R.
Proof.
  intros Hu Hs Hp Ha Ho Hl E. change (q_bytesToIQ g p a s) with (oq_signal g p (Octets a) s) in E.
  pose proof (C57_frames g p b rm 0 sps s (Octets a) Hu) as H. destruct (snd (oq_send p (Octets a) s)) as [[chips z]|e] eqn:Ec; [clear H|congruence].
  destruct (C114_chips _ _ _ _ _ _ _ _ _ _ _ _ Hu Ec E) as [-> R0]. rewrite (C80_dsss_partial p b rm sps s a zs chips z) by assumption.
  f_equal. rewrite <- (C94_tables b rm (proj1 Hs)), !mult_IZR, <- INR_IZR_INZ. assert (R0' := IZR_lt _ _ R0).
  assert (X : (0 < INR (expansion b rm))%R).
  { apply lt_0_INR. destruct Hs as [Hr _]. assert (rm = 0 \/ rm = 1 \/ rm = 2 \/ rm = 3) as [->|[->|[-> | ->]]] by lia; destruct b; vm_compute; lia. }
  field. split; lra.
Qed.
Print Assumptions C114_airtime_partial.
(** so the frame has the airtime of the standard in rate mode 3 except at 2450 MHz; elsewhere it is at least twice as long *)
Theorem C114_exact_partial g p b sps s a zs sig f : oq_used p b 3 0 sps s -> b <> Band_2450MHz -> 0 < sps ->
  holds_octets a zs -> Forall is_octet zs -> 1 <= zlen zs <= 2047 -> snd (q_bytesToIQ g p a s) = Ok (sig, f) ->
  (INR (length sig) / f = INR (dsss_frame_chips b 3 (zlen zs)) / IZR (band_chip_rate b) + pulse_tail b 3 0 sps)%R.
Proof.
  intros Hu Hb Hp Ha Ho Hl E. assert (Hs : oq_supported b 3 0) by (split; [lia|now left]). rewrite (C114_airtime_partial g p b 3 sps s a zs sig f) by assumption.
  replace (expansion b 3) with 1%nat by (destruct b; try reflexivity; congruence). change (INR 1) with 1%R. now rewrite Rmult_1_l.
Qed.
Print Assumptions C114_exact_partial.
Theorem C114_slow_refuted g p b rm sps s a zs sig f : oq_used p b rm 0 sps s -> oq_supported b rm 0 -> 0 < sps -> rm <> 3 \/ b = Band_2450MHz ->
  holds_octets a zs -> Forall is_octet zs -> 1 <= zlen zs <= 2047 -> snd (q_bytesToIQ g p a s) = Ok (sig, f) ->
  (INR (length sig) / f >= 2 * (INR (dsss_frame_chips b rm (zlen zs)) / IZR (band_chip_rate b)))%R /\ (2 <= expansion b rm)%nat.
Proof.
  intros Hu Hs Hp X Ha Ho Hl E. destruct (C64_refuted _ _ _ _ _ _ _ _ _ _ Hu Hs Hp X Ha Ho Hl E) as [X2 _]. split; [|exact X2].
  rewrite (C114_airtime_partial g p b rm sps s a zs sig f) by assumption. apply Rle_ge.
  assert (X3 : (2 <= INR (expansion b rm))%R) by (apply le_INR in X2; exact X2).
  assert (B : (0 < IZR (band_chip_rate b))%R) by (apply IZR_lt; destruct b; reflexivity).
  assert (C : (0 <= INR (dsss_frame_chips b rm (zlen zs)) / IZR (band_chip_rate b))%R) by (apply Rmult_le_pos; [apply pos_INR|left; now apply Rinv_0_lt_compat]).
  assert (T : (0 <= pulse_tail b rm 0 sps)%R).
  { unfold pulse_tail. apply Rmult_le_pos.
    - assert (S1 : (1 <= IZR sps)%R) by (apply IZR_le; lia). assert (/ IZR sps <= 1)%R by (rewrite <- Rinv_1; apply Rinv_le_contravar; lra). lra.
    - left. apply Rinv_0_lt_compat, IZR_lt. destruct Hs as [H _]. assert (rm = 0 \/ rm = 1 \/ rm = 2 \/ rm = 3) as [->|[->|[-> | ->]]] by lia; unfold nominal_rate; destruct (mdsss_band b); reflexivity. }
  nra.
Qed.
Print Assumptions C114_slow_refuted.
(** MDSSS: the airtime does not depend on the payload *)
Theorem C114_mdsss_refuted g p b rm sps s a a' zs zs' sig f sig' f' : oq_used p b rm 1 sps s -> oq_supported b rm 1 -> 0 < sps ->
  holds_octets a zs -> holds_octets a' zs' -> Forall is_octet zs -> Forall is_octet zs' -> 1 <= zlen zs <= 2047 -> 1 <= zlen zs' <= 2047 ->
  snd (q_bytesToIQ g p a s) = Ok (sig, f) -> snd (q_bytesToIQ g p a' s) = Ok (sig', f') -> (INR (length sig) / f = INR (length sig') / f')%R.
Proof.
  intros Hu Hs Hp Ha Ha' Ho Ho' Hl Hl' E E'.
  change (q_bytesToIQ g p a s) with (oq_signal g p (Octets a) s) in E. change (q_bytesToIQ g p a' s) with (oq_signal g p (Octets a') s) in E'.
  pose proof (C57_frames g p b rm 1 sps s (Octets a) Hu) as H. destruct (snd (oq_send p (Octets a) s)) as [[c z]|e] eqn:Ec; [clear H|congruence].
  pose proof (C57_frames g p b rm 1 sps s (Octets a') Hu) as H. destruct (snd (oq_send p (Octets a') s)) as [[c' z']|e] eqn:Ec'; [clear H|congruence].
  destruct (C114_chips _ _ _ _ _ _ _ _ _ _ _ _ Hu Ec E) as [-> _]. destruct (C114_chips _ _ _ _ _ _ _ _ _ _ _ _ Hu Ec' E') as [-> _].
  now rewrite (C80_mdsss_chips p b rm sps s a zs c z), (C80_mdsss_chips p b rm sps s a' zs' c' z') by assumption.
Qed.
Print Assumptions C114_mdsss_refuted.
(** hypotheses met: one octet at 868 MHz in rate mode 0 (8 chips per coded bit) and 3 (1), and two sizes at 915 MHz with MDSSS *)
Lemma sent_case g b rm sm s l : oq_used Wrapping b rm sm 10 s -> match snd (oq_send Wrapping (Octets (ABytes l)) s) with Ok _ => true | Err _ => false end = true ->
  exists sig f, snd (q_bytesToIQ g Wrapping (ABytes l) s) = Ok (sig, f).
Proof.
  intros Hu B. pose proof (C57_frames g Wrapping _ _ _ _ _ (Octets (ABytes l)) Hu) as H.
  destruct (snd (oq_send _ _ _)) as [[c z]|e]; [|discriminate]. destruct H as (rate & sig & _ & _ & _ & E & _). exists sig. eexists. exact E.
Qed.
Definition fresh b rm sm : oqpsk := {| q_sps := 10; q_SM := sm; q_band := b; q_RM := rm; q_mem := [] |}.
Example C114_case g :
  (exists sig f, oq_used Wrapping Band_868MHz 0 0 10 (fresh Band_868MHz 0 0) /\ snd (q_bytesToIQ g Wrapping (ABytes [x55]) (fresh Band_868MHz 0 0)) = Ok (sig, f))
  /\ (exists sig f, oq_used Wrapping Band_868MHz 3 0 10 (fresh Band_868MHz 3 0) /\ snd (q_bytesToIQ g Wrapping (ABytes [x55]) (fresh Band_868MHz 3 0)) = Ok (sig, f))
  /\ (exists sig f sig' f', oq_used Wrapping Band_915MHz 2 1 10 (fresh Band_915MHz 2 1) /\ oq_supported Band_915MHz 2 1
        /\ snd (q_bytesToIQ g Wrapping (ABytes [x55]) (fresh Band_915MHz 2 1)) = Ok (sig, f)
        /\ snd (q_bytesToIQ g Wrapping (ABytes (repeat x55 20)) (fresh Band_915MHz 2 1)) = Ok (sig', f'))
  /\ oq_supported Band_868MHz 0 0 /\ expansion Band_868MHz 0 = 8%nat /\ expansion Band_868MHz 3 = 1%nat /\ band_chip_rate Band_868MHz = 100000.
Proof.
  assert (U0 : oq_used Wrapping Band_868MHz 0 0 10 (fresh Band_868MHz 0 0)) by (eexists; exists []; split; reflexivity).
  assert (U3 : oq_used Wrapping Band_868MHz 3 0 10 (fresh Band_868MHz 3 0)) by (eexists; exists []; split; reflexivity).
  assert (U1 : oq_used Wrapping Band_915MHz 2 1 10 (fresh Band_915MHz 2 1)) by (eexists; exists []; split; reflexivity).
  split; [|split; [|split; [|split; [split; [lia|now left]|split; [reflexivity|split; reflexivity]]]]].
  - destruct (sent_case g _ _ _ _ [x55] U0) as (x & f & E); [vm_compute; reflexivity|]. exists x, f. split; [exact U0|exact E].
  - destruct (sent_case g _ _ _ _ [x55] U3) as (x & f & E); [vm_compute; reflexivity|]. exists x, f. split; [exact U3|exact E].
  - destruct (sent_case g _ _ _ _ [x55] U1) as (x & f & E); [vm_compute; reflexivity|].
    destruct (sent_case g _ _ _ _ (repeat x55 20) U1) as (x' & f' & E'); [vm_compute; reflexivity|].
    exists x, f, x', f'. split; [exact U1|]. split; [split; [lia|right; split; reflexivity]|]. split; [exact E|exact E'].
Qed.
