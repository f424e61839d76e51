(** * C115: amplitude of MR-O-QPSK samples *)
From Coq Require Import Reals Lra.
From Coquelicot Require Import Complex.
From Verif Require Import Py MBits Tables MOqpsk MWave SBits SEntry SOqpsk PList POqRun Prop_Oqpsk PWave SWave Prop_Wave Prop_Pulse PPeak.
Open Scope Z_scope.

(** equal amplitudes on the two axes, at most 1 *)
Definition square_point (z : C) : Prop := (Rabs (fst z) <= 1 /\ Rabs (snd z) = Rabs (fst z))%R.
Lemma polar_abs b : Rabs (polar b) = 1%R.
Proof. destruct b; cbn [polar]; [apply Rabs_R1|]. rewrite Rabs_left; lra. Qed.
Lemma axes_of x y r : Rabs x = 1%R -> Rabs y = 1%R -> Cmult (x, y) (RtoC r) = (x * r, y * r)%R /\ Rabs (x * r) = Rabs r /\ Rabs (y * r) = Rabs r.
Proof.
  intros Hx Hy. split; [unfold Cmult, RtoC; cbn [fst snd]; f_equal; ring|]. rewrite !Rabs_mult, Hx, Hy. split; ring.
Qed.
Lemma pair_axes chips j r : exists x y, Cmult (chip_pair chips j) (RtoC r) = (x, y) /\ Rabs x = Rabs r /\ Rabs y = Rabs r.
Proof.
  unfold chip_pair. destruct (axes_of (polar (nth (2 * j) chips false)) (polar (nth (2 * j + 1) chips false)) r) as (E & A & B); [apply polar_abs|apply polar_abs|].
  do 2 eexists. split; [exact E|]. split; [exact A|exact B].
Qed.
Lemma pair_square chips j r : (Rabs r <= 1)%R -> square_point (Cmult (chip_pair chips j) (RtoC r)).
Proof. intro H. destruct (pair_axes chips j r) as (x & y & -> & A & B). split; cbn [fst snd]; rewrite A, ?B; [exact H|reflexivity]. Qed.
Lemma zero_square : square_point (RtoC 0).
Proof. split; cbn [RtoC fst snd]; rewrite Rabs_R0; lra. Qed.
Lemma square_mod z : square_point z -> (Cmod z <= sqrt 2)%R.
Proof.
  destruct z as [x y]. intros [A B]. cbn [fst snd] in *. unfold Cmod. cbn [fst snd]. apply sqrt_le_1_alt.
  rewrite <- (pow2_abs x), <- (pow2_abs y), B. pose proof (Rabs_pos x). nra.
Qed.

(** every sample of every signal, except, in the raised-cosine bands, the samples 11/32 and 21/32 into each symbol if there are such *)
Theorem C115_axes g p b rm sm sps s r sig f i : oq_used p b rm sm sps s -> snd (oq_signal g p r s) = Ok (sig, f) -> (i < length sig)%nat ->
  ~ cosine_band b \/ 32 * (Z.of_nat i mod sps) <> 11 * sps /\ 32 * (Z.of_nat i mod sps) <> 21 * sps -> square_point (nth i sig (RtoC 0)).
Proof.
  intros Hu E Hi X. pose proof (frames_gen g p b rm sm sps s r Hu) as H. destruct (snd (oq_send p r s)) as [[c z]|e]; [|congruence].
  destruct H as (rate & sg & Ez & P1 & P2 & Es & n & L & S & N & T). rewrite E in Es. injection Es as <- Ef.
  set (w := Z.to_nat sps) in *. assert (Hw : (0 < w)%nat) by (unfold w; lia).
  assert (D : i = (i / w * w + i mod w)%nat) by (rewrite (Nat.mul_comm (i / w)); apply Nat.div_mod; lia).
  pose proof (Nat.mod_upper_bound i w ltac:(lia)) as M.
  assert (Q : (i / w <= n)%nat) by (apply Nat.lt_succ_r, Nat.div_lt_upper_bound; nia).
  assert (Em : Z.of_nat (i mod w) = Z.of_nat i mod sps) by (rewrite Nat2Z.inj_mod; f_equal; unfold w; lia).
  rewrite D. set (j := (i / w)%nat) in *. set (k := (i mod w)%nat) in *. destruct (Nat.eq_dec j n) as [->|Ne].
  - rewrite T; [apply zero_square|]. rewrite S in Hi. lia.
  - rewrite N by lia. apply pair_square. pose proof (Tc_pos rate P1) as HT. rewrite pulse_of_shape; [apply shape_small|lra|].
    destruct X as [X|[X1 X2]].
    + left. unfold cosine_band in X. destruct b; try reflexivity; exfalso; apply X; split; discriminate.
    + right. rewrite singular_time by (lia || lra). lia.
Qed.
Print Assumptions C115_axes.
(** so that, when samples_per_symbol is no multiple of 32 or the pulse is a half-sine, no sample exceeds the square root of 2 *)
Theorem C115_peak g p b rm sm sps s r sig f : oq_used p b rm sm sps s -> pulse_regular b sps -> snd (oq_signal g p r s) = Ok (sig, f) ->
  Forall (fun z => (Cmod z <= sqrt 2)%R) sig.
Proof.
  intros Hu Hg E. pose proof (frames_gen g p b rm sm sps s r Hu) as H. destruct (snd (oq_send p r s)) as [[c z]|e]; [|congruence].
  destruct H as (rate & sg & _ & _ & P2 & _). apply Forall_forall. intros z' Hz. apply (In_nth _ _ (RtoC 0)) in Hz as (i & Hi & <-).
  apply square_mod. apply (C115_axes g p b rm sm sps s r sig f i Hu E Hi). destruct (uses_half_sine b) eqn:Hb.
  - left. intros [N1 N2]. destruct b; try discriminate Hb; congruence.
  - right. assert (Hg' : ~ (32 | sps)) by (destruct b; try discriminate Hb; exact Hg).
    split; intro K; apply Hg'; pose proof (Z.divide_factor_l 32 (Z.of_nat i mod sps)) as W; rewrite K in W;
      (apply Z.gauss in W; [exact W|reflexivity]).
Qed.
Print Assumptions C115_peak.
(** the bound is reached in every signal with an even samples_per_symbol (raised cosine), or a multiple of 4 (half-sine) *)
Theorem C115_attained g p b rm sm sps s r sig f : oq_used p b rm sm sps s -> (if uses_half_sine b then (4 | sps) else (2 | sps)) -> pulse_regular b sps ->
  snd (oq_signal g p r s) = Ok (sig, f) -> exists z, In z sig /\ Cmod z = sqrt 2.
Proof.
  intros Hu Hd Hg E. pose proof (C57_frames g p b rm sm sps s r Hu) as H. pose proof (proj2 (send_master p r s)) as M.
  destruct (snd (oq_send p r s)) as [[c z]|e]; [|congruence].
  destruct H as (rate & sg & _ & P1 & P2 & Es & _ & T). specialize (T Hg). rewrite E in Es. injection Es as <- _.
  symmetry in M. apply rbind_ok in M as (bits & _ & M). apply chips_even in M as [_ Hc].
  destruct T as (n & L & S & N & _). assert (Hn : (0 < n)%nat) by (destruct n; [destruct c; [congruence|discriminate L]|lia]).
  pose proof (Tc_pos rate P1) as HT. set (w := Z.to_nat sps) in *.
  assert (K : exists k, (k < w)%nat /\ pulse b (Tc_of rate) w k = 1%R).
  { unfold pulse. destruct (uses_half_sine b) eqn:Hb.
    - destruct Hd as [q Hq]. exists (3 * Z.to_nat q)%nat. split; [unfold w; lia|].
      replace (shape b) with half_sine_shape by (destruct b; try discriminate Hb; reflexivity).
      assert (Et : pulse_time (Tc_of rate) w (3 * Z.to_nat q) = Tc_of rate).
      { unfold pulse_time. replace w with (4 * Z.to_nat q)%nat by (unfold w; lia). rewrite !mult_INR. change (INR 3) with (1 + 1 + 1)%R. change (INR 4) with (1 + 1 + 1 + 1)%R.
        assert (INR (Z.to_nat q) <> 0)%R by (apply not_0_INR; lia). field. assumption. }
      rewrite Et. unfold half_sine_shape. destruct (Rle_dec _ _) as [_|X]; [|exfalso; lra]. destruct (Rle_dec _ _) as [_|X]; [|exfalso; lra].
      replace (PI * Tc_of rate / (2 * Tc_of rate))%R with (PI / 2)%R by (field; lra). apply sin_PI2.
    - destruct Hd as [q Hq]. exists (w / 2)%nat. split; [apply Nat.div_lt; unfold w; lia|].
      replace (shape b) with raised_cosine_shape by (destruct b; try discriminate Hb; reflexivity).
      apply raised_cosine_even; [exact HT|unfold w; lia|]. replace w with (2 * Z.to_nat q)%nat by (unfold w; lia). rewrite <- Nat.negb_even, Nat.even_mul. reflexivity. }
  destruct K as (k & Hk & Ek). exists (nth (0 * w + k) sig (RtoC 0)). split; [apply nth_In; rewrite S; nia|]. rewrite N by lia. rewrite Ek.
  destruct (pair_axes c 0 1) as (x & y & -> & A & B). unfold Cmod. cbn [fst snd]. f_equal. rewrite <- (pow2_abs x), <- (pow2_abs y), A, B, Rabs_R1. ring.
Qed.
Print Assumptions C115_attained.
Example C115_case g : exists s sig f, oq_used Wrapping Band_915MHz 3 0 12 s /\ snd (oq_signal g Wrapping (Octets (ABytes [x55])) s) = Ok (sig, f)
  /\ pulse_regular Band_915MHz 12 /\ (if uses_half_sine Band_915MHz then (4 | 12) else (2 | 12)) /\ pulse_regular Band_868MHz 10.
Proof.
  assert (Hu : oq_used Wrapping Band_915MHz 3 0 12 {| q_sps := 12; q_SM := 0; q_band := Band_915MHz; q_RM := 3; q_mem := [] |}) by (eexists; exists []; split; reflexivity).
  pose proof (C57_frames g Wrapping _ _ _ _ _ (Octets (ABytes [x55])) Hu) as H.
  destruct (snd (oq_send _ _ _)) as [[c z]|e] eqn:E in H; [|exfalso; revert E; vm_compute; discriminate].
  destruct H as (rate & sig & _ & _ & _ & Es & _). eexists. exists sig. eexists. split; [exact Hu|]. split; [exact Es|]. split; [exact I|].
  split; [cbn; exists 3; reflexivity|]. cbn. intros [q Hq]. lia.
Qed.
