(** * C94: one chip rate per band *)
From Coq Require Import Reals Lra.
From Coquelicot Require Import Complex.
From Verif Require Import Py MBits Tables MOqpsk MWave SBits SEntry SOqpsk PList POqRun Prop_Oqpsk Prop_Wave SOqRx SOqRate.

(** the tables agree with each other: in every DSSS mode, sending the nominal number of bits per second at code rate 1/2 with
    the mode's chips per coded bit is sending at the chip rate of the band *)
Theorem C94_tables b rm : 0 <= rm <= 3 -> 2 * nominal_rate b rm 0 * Z.of_nat (expansion b rm) = band_chip_rate b.
Proof. intro H. assert (rm = 0 \/ rm = 1 \/ rm = 2 \/ rm = 3) as [->|[->|[-> | ->]]] by lia; destruct b; reflexivity. Qed.
Print Assumptions C94_tables.

(** the sampling frequency returned with any signal is samples_per_symbol times the nominal data rate *)
Theorem C94_frequency g p b rm sm sps s r sig f : oq_used p b rm sm sps s -> snd (oq_signal g p r s) = Ok (sig, f) ->
  oq_supported b rm sm /\ 0 < sps /\ f = (IZR (nominal_rate b rm sm) * IZR sps)%R.
Proof.
  intros Hu E. pose proof (C57_frames g p b rm sm sps s r Hu) as H. destruct (snd (oq_send p r s)) as [[c z]|e] eqn:Es; [|congruence].
  destruct H as (rate & sig' & -> & R0 & S0 & E' & _ & _). rewrite E in E'. injection E' as <- ->.
  assert (Hs : oq_supported b rm sm).
  { assert (D : oq_supported b rm sm \/ ~ oq_supported b rm sm).
    { unfold oq_supported. destruct (Z_le_dec 0 rm), (Z_le_dec rm 3), (Z.eq_dec sm 0), (Z.eq_dec sm 1), (mdsss_band b); (left; split; [lia|tauto]) || (right; intros [? [?|[? ?]]]; (lia || congruence)). }
    destruct D as [D|D]; [exact D|]. destruct (C59_no_signal p b rm sm sps s r Hu ltac:(tauto)) as [e Ee]. congruence. }
  split; [exact Hs|]. split; [exact S0|]. rewrite <- mult_IZR. f_equal. f_equal.
  rewrite (proj2 (send_master p r s)), (used_params _ _ _ _ _ _ Hu) in Es. apply rbind_ok in Es as (bits & _ & M2). unfold chips_pure in M2. cbv zeta in M2.
  apply rbind_ok in M2 as (x1 & _ & M2). apply rbind_ok in M2 as (x2 & _ & M2). apply rbind_ok in M2 as (x3 & _ & M2).
  apply rbind_ok in M2 as (x4 & _ & M2). apply rbind_ok in M2 as (x5 & _ & M2). apply rbind_ok in M2 as (rt & Hr & M2).
  cbn [bare q_sps] in M2. destruct (Z.leb_spec sps 0) as [G|G]; [discriminate|]. assert (Ez : rt * sps = rate * sps) by congruence.
  apply Z.mul_cancel_r in Ez; [|lia]. subst rt. change (q_chip_rate (bare (sps, sm, b, rm)) = Ok rate) in Hr. rewrite (rate_ok b rm sm sps Hs) in Hr.
  rewrite <- (nominal_ok b rm sm Hs). congruence.
Qed.
Print Assumptions C94_frequency.

(** at that frequency (two chips per samples_per_symbol samples) the chips leave at the chip rate of the band exactly when
    rate mode 3 is used in a band other than 2450 MHz; in the other modes they leave 2 to 32 times too slowly *)
Theorem C94_exact_partial g p b rm sm sps s r sig f : oq_used p b rm sm sps s -> snd (oq_signal g p r s) = Ok (sig, f) ->
  ((2 * (f / IZR sps) = IZR (band_chip_rate b))%R <-> rm = 3 /\ b <> Band_2450MHz).
Proof.
  intros Hu E. destruct (C94_frequency _ _ _ _ _ _ _ _ _ _ Hu E) as (Hs & S0 & ->). apply IZR_lt in S0.
  replace (IZR (nominal_rate b rm sm) * IZR sps / IZR sps)%R with (IZR (nominal_rate b rm sm)) by (field; lra). rewrite <- mult_IZR.
  assert (Q : 2 * nominal_rate b rm sm = band_chip_rate b <-> rm = 3 /\ b <> Band_2450MHz).
  { destruct Hs as [H [->|[-> M]]]; (assert (rm = 0 \/ rm = 1 \/ rm = 2 \/ rm = 3) as [->|[->|[-> | ->]]] by lia); destruct b; try discriminate M; vm_compute; (split; [intro X; try discriminate X; split; congruence|intros [X Y]; try discriminate X; congruence]). }
  rewrite <- Q. split; [apply eq_IZR|congruence].
Qed.
Print Assumptions C94_exact_partial.
Theorem C94_slow_refuted g p b rm sps s r sig f : oq_used p b rm 0 sps s -> snd (oq_signal g p r s) = Ok (sig, f) ->
  (2 * (f / IZR sps) * INR (expansion b rm) = IZR (band_chip_rate b))%R /\ (rm <> 3 \/ b = Band_2450MHz -> (2 <= expansion b rm)%nat).
Proof.
  intros Hu E. destruct (C94_frequency _ _ _ _ _ _ _ _ _ _ Hu E) as (Hs & S0 & ->). apply IZR_lt in S0. destruct Hs as [H _]. split.
  - rewrite <- (C94_tables b rm H), !mult_IZR, INR_IZR_INZ. field. lra.
  - intro X. assert (rm = 0 \/ rm = 1 \/ rm = 2 \/ rm = 3) as [->|[->|[-> | ->]]] by lia; destruct b; try (vm_compute; lia); destruct X; congruence.
Qed.
Print Assumptions C94_slow_refuted.
(** so preamble and header, the same in all modes, are sent at a rate that depends on the mode they announce *)
Theorem C94_header_refuted g p b rm rm' sm sps s s' r r' sig sig' f f' : oq_used p b rm sm sps s -> oq_used p b rm' sm sps s' -> rm <> rm' ->
  snd (oq_signal g p r s) = Ok (sig, f) -> snd (oq_signal g p r' s') = Ok (sig', f') -> (f / IZR sps <> f' / IZR sps)%R.
Proof.
  intros Hu Hu' N E E'. destruct (C94_frequency _ _ _ _ _ _ _ _ _ _ Hu E) as (Hs & S0 & ->). destruct (C94_frequency _ _ _ _ _ _ _ _ _ _ Hu' E') as (Hs' & _ & ->). apply IZR_lt in S0.
  replace (IZR (nominal_rate b rm sm) * IZR sps / IZR sps)%R with (IZR (nominal_rate b rm sm)) by (field; lra).
  replace (IZR (nominal_rate b rm' sm) * IZR sps / IZR sps)%R with (IZR (nominal_rate b rm' sm)) by (field; lra).
  intro X. apply eq_IZR in X. revert X. destruct Hs as [H _], Hs' as [H' _]. unfold nominal_rate.
  assert (rm = 0 \/ rm = 1 \/ rm = 2 \/ rm = 3) as [->|[->|[-> | ->]]] by lia; assert (rm' = 0 \/ rm' = 1 \/ rm' = 2 \/ rm' = 3) as [->|[->|[-> | ->]]] by lia; try congruence; destruct (mdsss_band b), (sm =? 0); discriminate.
Qed.
Print Assumptions C94_header_refuted.
Example C94_case g : exists s sig f, oq_used Wrapping Band_868MHz 0 0 10 s /\ snd (oq_signal g Wrapping (Octets (ABytes [x55])) s) = Ok (sig, f).
Proof. apply C64_case. Qed.
