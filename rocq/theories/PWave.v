(** * Lemmas about the MR-O-QPSK waveform *)
From Coq Require Import Reals Lra FinFun.
From Coquelicot Require Import Complex.
From Verif Require Import Py PList MBits MModul MOfdm Tables MOqpsk MTime PTime MWave SWave.

Local Notation c0 := (RtoC 0).

Lemma every_other_length {A} n : forall l : list A, length l = (2 * n)%nat -> length (evens l) = n /\ length (odds l) = n.
Proof.
  induction n as [|n IH]; intros l H; [destruct l; [split; reflexivity|discriminate]|].
  destruct l as [|a [|b l]]; try (cbn in H; lia). destruct (IH l) as [I1 I2]; [cbn in H; lia|].
  unfold evens, odds in *. cbn [every_other length tl]. split; [now rewrite I1|].
  destruct l as [|c l]; [cbn in *; lia|]. cbn [tl] in I2. cbn [every_other length]. now rewrite I2.
Qed.
Lemma every_other_nth {A} (d : A) : forall j l, nth j (every_other l) d = nth (2 * j) l d.
Proof.
  induction j as [|j IH]; intros l.
  - destruct l as [|a [|b l]]; reflexivity.
  - destruct l as [|a [|b l]]; [destruct j; reflexivity| |].
    + replace (2 * S j)%nat with (S (S (2 * j))) by lia. cbn. destruct j; [reflexivity|]. cbn [nth]. destruct (2 * S j)%nat; reflexivity.
    + replace (2 * S j)%nat with (S (S (2 * j))) by lia. cbn [every_other nth]. apply IH.
Qed.
Lemma odds_nth {A} (d : A) j l : nth j (odds l) d = nth (2 * j + 1) l d.
Proof. unfold odds. rewrite every_other_nth. replace (2 * j + 1)%nat with (S (2 * j)) by lia. destruct l; [destruct (2 * j)%nat; reflexivity|reflexivity]. Qed.

Lemma symbols_ok chips n : length chips = (2 * n)%nat ->
  exists syms, np_add (bpsk_values (evens chips)) (map (Cmult Ci) (bpsk_values (odds chips))) = Ok syms /\ length syms = n
  /\ forall j, (j < n)%nat -> nth j syms c0 = chip_pair chips j.
Proof.
  intro H. destruct (every_other_length n chips H) as [L1 L2].
  assert (B1 : length (bpsk_values (evens chips)) = n) by (unfold bpsk_values; now rewrite map_length).
  assert (B2 : length (map (Cmult Ci) (bpsk_values (odds chips))) = n) by (unfold bpsk_values; now rewrite !map_length).
  unfold np_add. rewrite B1, B2, Nat.eqb_refl.
  eexists. split; [reflexivity|]. split.
  - rewrite map2_length. lia.
  - intros j Hj. rewrite (map2_nth _ _ _ _ c0 c0) by lia.
    rewrite (nth_map _ _ _ c0 c0) by (unfold bpsk_values; rewrite map_length; lia).
    unfold bpsk_values. rewrite !(nth_map _ _ _ false c0) by lia. unfold evens. rewrite every_other_nth, odds_nth. unfold chip_pair, polar.
    destruct (nth (2 * j) chips false), (nth (2 * j + 1) chips false); apply injective_projections; cbn; ring.
Qed.

Lemma stride_slots n step : (0 < step)%nat -> ((n * step + step - 1) / step)%nat = n.
Proof. intro H. symmetry. apply (Nat.div_unique _ _ _ (step - 1)); lia. Qed.
Lemma stride_ok n step vals : (0 < step)%nat -> length vals = n ->
  exists s, stride_assign step vals (repeat c0 (n * step)) = Ok s /\ length s = (n * step)%nat
  /\ (forall j, (j < n)%nat -> nth (j * step) s c0 = nth j vals c0)
  /\ (forall i, Nat.modulo i step <> 0%nat -> nth i s c0 = c0).
Proof.
  intros Hs Hv. unfold stride_assign. rewrite repeat_length, stride_slots, map_length, seq_length, Hv, Nat.eqb_refl by assumption.
  set (idx := map (fun j => (j * step)%nat) (seq 0 n)). eexists. split; [reflexivity|].
  split; [now rewrite scatter_length, repeat_length|]. split.
  - intros j Hj. assert (E : nth j idx 0%nat = (j * step)%nat) by (unfold idx; rewrite (nth_map _ _ _ 0%nat 0%nat) by (rewrite seq_length; lia); now rewrite seq_nth).
    rewrite <- E. apply scatter_nth.
    + unfold idx. apply FinFun.Injective_map_NoDup; [|apply seq_NoDup]. intros x y Hxy. apply Nat.mul_cancel_r in Hxy; lia.
    + unfold idx. now rewrite map_length, seq_length.
    + intros i Hi. unfold idx in Hi. apply in_map_iff in Hi as (m & <- & Hm). apply in_seq in Hm. rewrite repeat_length. nia.
    + unfold idx. now rewrite map_length, seq_length.
  - intros i Hi. rewrite scatter_notin.
    + destruct (Nat.lt_ge_cases i (n * step)); [now apply nth_repeat|]. rewrite nth_overflow; [reflexivity|now rewrite repeat_length].
    + intro Hin. apply Hi. unfold idx in Hin. apply in_map_iff in Hin as (m & <- & _). apply Nat.mod_mul. lia.
Qed.

Lemma convolve_ok n step syms s p : (0 < step)%nat -> (0 < n)%nat -> length s = (n * step)%nat -> length p = step ->
  (forall j, (j < n)%nat -> nth (j * step) s c0 = nth j syms c0) -> (forall i, Nat.modulo i step <> 0%nat -> nth i s c0 = c0) ->
  exists out, convolve s p = Ok out /\ length out = (n * step + step - 1)%nat
  /\ (forall j k, (j < n)%nat -> (k < step)%nat -> nth (j * step + k) out c0 = Cmult (nth j syms c0) (nth k p c0))
  /\ (forall i, (n * step <= i)%nat -> nth i out c0 = c0).
Proof.
  intros Hs Hn Ls Lp H1 H2. unfold convolve. destruct s as [|s0 s']; [cbn in Ls; nia|]. destruct p as [|p0 p']; [cbn in Lp; lia|].
  set (s := s0 :: s') in *. set (p := p0 :: p') in *. eexists. split; [reflexivity|]. rewrite Ls, Lp.
  split; [now rewrite map_length, seq_length|]. split.
  - intros j k Hj Hk. rewrite (nth_map _ _ _ 0%nat c0) by (rewrite seq_length; nia). rewrite seq_nth by nia. cbn [Nat.add].
    rewrite (Csum_single _ _ (j * step)%nat) by
      (first [nia | intros m Hm Hne; destruct (Nat.leb_spec m (j * step + k)) as [G|G]; [|reflexivity];
       destruct (Nat.eq_dec (Nat.modulo m step) 0) as [E|E]; [|rewrite (H2 m E); ring];
       rewrite (nth_overflow p); [ring|]; rewrite Lp;
       apply Nat.mod_divides in E as [q ->]; [|lia]; assert (q < j)%nat by (apply Nat.nle_gt; intro C; assert (q = j) by nia; nia); nia]).
    rewrite (proj2 (Nat.leb_le _ _)) by lia. rewrite H1 by assumption. do 2 f_equal. lia.
  - intros i Hi. destruct (Nat.lt_ge_cases i (n * step + step - 1)) as [G|G]; [|rewrite nth_overflow; [reflexivity|now rewrite map_length, seq_length]].
    rewrite (nth_map _ _ _ 0%nat c0) by (rewrite seq_length; lia). rewrite seq_nth by lia. cbn [Nat.add].
    rewrite (Csum_ext _ (fun _ => c0)); [apply Csum_zero|]. intros m Hm. destruct (Nat.leb_spec m i); [|reflexivity].
    destruct (Nat.eq_dec (Nat.modulo m step) 0) as [E|E]; [|rewrite (H2 m E); ring].
    rewrite (nth_overflow p); [ring|]. rewrite Lp. apply Nat.mod_divides in E as [q ->]; [|lia]. assert (q < n)%nat by nia. nia.
Qed.

(** ** the pulse *)
Lemma pulse_samples_length g b Tc sps : length (pulse_samples g b Tc sps) = sps.
Proof. unfold pulse_samples, linspace_open. now rewrite !map_length, seq_length. Qed.
Definition singular (Tc t : R) : Prop := (1 - (2 * (8 / 10) * (t / Tc)) ^ 2 = 0)%R.
Lemma denom_eq Tc t : (Tc <> 0 -> 1 - 4 * (4 / 5) ^ 2 * t ^ 2 / Tc ^ 2 = 1 - (2 * (8 / 10) * (t / Tc)) ^ 2)%R.
Proof. intro H. field. assumption. Qed.
Lemma raised_cosine_eq g t Tc : Tc <> 0%R -> ~ singular Tc t -> raised_cosine g t Tc = raised_cosine_shape Tc t.
Proof.
  intros H Hs. unfold raised_cosine, raised_cosine_shape. cbv zeta. destruct (Req_EM_T t 0) as [->|Ht].
  - destruct (Req_EM_T (0 / Tc) 0) as [_|E]; [reflexivity|]. exfalso. apply E. field. assumption.
  - destruct (Req_EM_T (t / Tc) 0) as [E|_].
    + exfalso. apply Ht. replace t with (t / Tc * Tc)%R by (field; assumption). rewrite E. ring.
    + rewrite denom_eq by assumption. destruct (Req_EM_T _ 0) as [E|E]; [contradiction|].
      replace (PI * t / Tc)%R with (PI * (t / Tc))%R by (field; assumption).
      replace (4 / 5 * PI * t / Tc)%R with (PI * (8 / 10) * (t / Tc))%R by (field; assumption).
      unfold Rdiv. ring.
Qed.
Lemma raised_cosine_glitch g t Tc : Tc <> 0%R -> singular Tc t -> raised_cosine g t Tc = g t Tc.
Proof.
  intros H Hs. unfold raised_cosine. destruct (Req_EM_T t 0) as [->|Ht].
  - exfalso. revert Hs. unfold singular. replace (0 / Tc)%R with 0%R by (field; assumption). intro. lra.
  - rewrite denom_eq by assumption. destruct (Req_EM_T _ 0); [reflexivity|contradiction].
Qed.
(** the instants without value are -5/8 Tc and 5/8 Tc *)
Lemma singular_time Tc sps k : (0 < sps)%nat -> Tc <> 0%R -> singular Tc (pulse_time Tc sps k) <-> (32 * k = 11 * sps \/ 32 * k = 21 * sps)%nat.
Proof.
  intros Hs HT. unfold singular. assert (Hn : INR sps <> 0%R) by (apply not_0_INR; lia).
  replace (pulse_time Tc sps k / Tc)%R with (-2 + 4 * INR k / INR sps)%R by (unfold pulse_time; field; split; assumption).
  assert (E : ((1 - (2 * (8 / 10) * (-2 + 4 * INR k / INR sps)) ^ 2) * (25 * INR sps ^ 2) = (32 * INR k - 11 * INR sps) * (21 * INR sps - 32 * INR k))%R) by (field; assumption).
  assert (P : (25 * INR sps ^ 2 <> 0)%R) by (apply Rmult_integral_contrapositive_currified; [lra|]; now apply pow_nonzero).
  assert (C : forall a, (32 * INR k = INR a * INR sps)%R -> (32 * k = a * sps)%nat).
  { intros a H. apply INR_eq. rewrite !mult_INR. rewrite <- H. f_equal. rewrite INR_IZR_INZ. reflexivity. }
  assert (D : forall a, (32 * k = a * sps)%nat -> (32 * INR k = INR a * INR sps)%R).
  { intros a H. apply (f_equal INR) in H. rewrite !mult_INR in H. rewrite <- H. f_equal. rewrite INR_IZR_INZ. reflexivity. }
  assert (I11 : INR 11 = 11%R) by (rewrite INR_IZR_INZ; reflexivity). assert (I21 : INR 21 = 21%R) by (rewrite INR_IZR_INZ; reflexivity).
  split.
  - intro H. rewrite H, Rmult_0_l in E. symmetry in E. apply Rmult_integral in E as [E|E]; [left; apply C; rewrite I11; lra|right; apply C; rewrite I21; lra].
  - intro H. apply (Rmult_eq_reg_r (25 * INR sps ^ 2)); [|assumption]. rewrite E, Rmult_0_l. destruct H as [H|H]; apply D in H; rewrite ?I11, ?I21 in H; [replace (32 * INR k - 11 * INR sps)%R with 0%R by lra|replace (21 * INR sps - 32 * INR k)%R with 0%R by lra]; ring.
Qed.
Lemma singular_sps sps : (0 < sps)%nat -> (exists k, (k < sps)%nat /\ (32 * k = 11 * sps \/ 32 * k = 21 * sps)%nat) <-> (32 | Z.of_nat sps)%Z.
Proof.
  intro Hs. split.
  - intros (k & _ & H). destruct H as [H|H].
    + apply (Z.gauss 32 11); [exists (Z.of_nat k); lia|reflexivity].
    + apply (Z.gauss 32 21); [exists (Z.of_nat k); lia|reflexivity].
  - intros [q Hq]. exists (11 * Z.to_nat q)%nat. lia.
Qed.
Definition pulse_of (g : R -> R -> R) (b : Frequency_band) (Tc : R) (sps k : nat) : R :=
  let t := pulse_time Tc sps k in if uses_half_sine b then half_sine t Tc else raised_cosine g t Tc.
Lemma pulse_of_shape g b Tc sps k : Tc <> 0%R -> (uses_half_sine b = true \/ ~ singular Tc (pulse_time Tc sps k)) -> pulse_of g b Tc sps k = pulse b Tc sps k.
Proof.
  intros HT H. unfold pulse_of, pulse. cbv zeta. destruct b; cbn [uses_half_sine shape] in *; try reflexivity; (apply raised_cosine_eq; [assumption|]; destruct H; [discriminate|assumption]).
Qed.
Lemma pulse_of_regular g b Tc sps k : Tc <> 0%R -> (k < Z.to_nat sps)%nat -> pulse_regular b sps -> pulse_of g b Tc (Z.to_nat sps) k = pulse b Tc (Z.to_nat sps) k.
Proof.
  intros HT Hk H. apply pulse_of_shape; [assumption|]. destruct (uses_half_sine b) eqn:U; [now left|right]. intro S. apply singular_time in S; [|lia|assumption].
  assert (D : (32 | sps)%Z) by (replace sps with (Z.of_nat (Z.to_nat sps)) by lia; apply singular_sps; [lia|now exists k]).
  destruct b; cbn in U, H; try discriminate; contradiction.
Qed.
Lemma pulse_nth g b Tc sps k : (k < sps)%nat -> nth k (pulse_samples g b Tc sps) c0 = RtoC (pulse_of g b Tc sps k).
Proof.
  intros Hk. unfold pulse_samples. rewrite (nth_map _ _ _ 0%R c0) by (unfold linspace_open; rewrite map_length, seq_length; lia).
  f_equal. unfold linspace_open. rewrite (nth_map _ _ _ 0%nat 0%R) by (rewrite seq_length; lia). rewrite seq_nth by lia. cbn [Nat.add].
  assert (Hn : INR sps <> 0%R) by (apply not_0_INR; lia).
  unfold pulse_of. replace (pulse_time Tc sps k) with (-2 * Tc + (2 * Tc - -2 * Tc) / INR sps * INR k)%R by (unfold pulse_time; field; assumption). reflexivity.
Qed.

Lemma modulator_ok g s chips sps n rate : q_chip_rate s = Ok rate -> (0 < rate)%Z -> (0 < sps)%Z -> (0 < n)%nat -> length chips = (2 * n)%nat ->
  exists out, o_qpsk_modulator g chips sps s = (s, Ok (out, (IZR rate * IZR sps)%R)) /\ length out = (n * Z.to_nat sps + Z.to_nat sps - 1)%nat
  /\ (forall j k, (j < n)%nat -> (k < Z.to_nat sps)%nat ->
        nth (j * Z.to_nat sps + k) out c0 = Cmult (chip_pair chips j) (RtoC (pulse_of g (q_band s) (1 / IZR rate) (Z.to_nat sps) k)))
  /\ (forall i, (n * Z.to_nat sps <= i)%nat -> nth i out c0 = c0).
Proof.
  intros Hr Hp Hs Hn Hl. unfold o_qpsk_modulator, sbind, sget, slift. rewrite Hr.
  assert (Sz : (zlen chips * sps / 2 = Z.of_nat (n * Z.to_nat sps))%Z).
  { unfold zlen. rewrite Hl. replace (Z.of_nat (2 * n) * sps)%Z with (Z.of_nat n * sps * 2)%Z by lia. rewrite Z.div_mul by lia. lia. }
  rewrite Sz. rewrite (proj2 (Z.ltb_ge _ _)) by lia. rewrite (proj2 (Z.eqb_neq _ _)) by lia.
  destruct (symbols_ok chips n Hl) as (syms & E1 & L1 & N1). rewrite E1. cbn [rbind]. rewrite Nat2Z.id.
  destruct (stride_ok n (Z.to_nat sps) syms) as (st & E2 & L2 & N2 & O2); [lia|assumption|]. rewrite E2. cbn [rbind].
  destruct (convolve_ok n (Z.to_nat sps) syms st (pulse_samples g (q_band s) (1 / IZR rate) (Z.to_nat sps))) as (out & E3 & L3 & N3 & O3); auto; [lia|apply pulse_samples_length|].
  rewrite E3. cbn [rbind]. exists out. split; [reflexivity|]. split; [assumption|]. split; [|assumption].
  intros j k Hj Hk. rewrite N3, N1 by assumption. rewrite pulse_nth; auto.
Qed.
