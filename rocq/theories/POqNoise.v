(** * Energy of MR-O-QPSK signals and of their differences *)
From Coq Require Import Reals Lra.
From Coquelicot Require Import Complex.
From Verif Require Import Py PList SBits SEntry PConv MTime STime PTime SGap PGap MBits Tables MOqpsk SOqpsk POqpsk POqRun SOqGap SWave MWave PWave Prop_Wave.

Local Notation c0 := (RtoC 0).
Local Open Scope R_scope.
Lemma sum_to_ext f g n : (forall k, (k < n)%nat -> f k = g k) -> sum_to f n = sum_to g n.
Proof. induction n as [|n IH]; intro H; [reflexivity|]. cbn [sum_to]. rewrite IH by (intros; apply H; lia). rewrite H by lia. reflexivity. Qed.
Lemma sum_to_plus f g n : sum_to (fun k => f k + g k) n = sum_to f n + sum_to g n.
Proof. induction n as [|n IH]; cbn [sum_to]; [lra|]. rewrite IH. lra. Qed.
Lemma sum_to_scal c f n : sum_to (fun k => c * f k) n = c * sum_to f n.
Proof. induction n as [|n IH]; cbn [sum_to]; [lra|]. rewrite IH. lra. Qed.
Lemma sum_to_const c n : sum_to (fun _ => c) n = INR n * c.
Proof. induction n as [|n IH]; [cbn; lra|]. cbn [sum_to]. rewrite IH, S_INR. lra. Qed.
Lemma sum_to_nonneg f n : (forall k, (k < n)%nat -> 0 <= f k) -> 0 <= sum_to f n.
Proof. induction n as [|n IH]; intro H; cbn [sum_to]; [lra|]. assert (0 <= f n) by (apply H; lia). assert (0 <= sum_to f n) by (apply IH; intros; apply H; lia). lra. Qed.
Lemma sum_to_ge f n k : (forall i, (i < n)%nat -> 0 <= f i) -> (k < n)%nat -> f k <= sum_to f n.
Proof.
  induction n as [|n IH]; intros H Hk; [lia|]. cbn [sum_to]. assert (0 <= f n) by (apply H; lia). destruct (Nat.eq_dec k n) as [->|].
  - assert (0 <= sum_to f n) by (apply sum_to_nonneg; intros; apply H; lia). lra.
  - assert (f k <= sum_to f n) by (apply IH; [intros; apply H; lia|lia]). lra.
Qed.
Lemma sum_to_split f n : sum_to f (S n) = f 0%nat + sum_to (fun k => f (S k)) n.
Proof. induction n as [|n IH]; [cbn; lra|]. change (sum_to f (S (S n))) with (sum_to f (S n) + f (S n)). rewrite IH. cbn [sum_to]. lra. Qed.
Lemma sum_to_rev f n : sum_to f n = sum_to (fun k => f (n - 1 - k)%nat) n.
Proof.
  induction n as [|n IH]; [reflexivity|]. rewrite (sum_to_split (fun k => f (S n - 1 - k)%nat)). cbn [sum_to]. rewrite IH. replace (S n - 1 - 0)%nat with n by lia. rewrite Rplus_comm. f_equal.
  apply sum_to_ext. intros k Hk. f_equal. lia.
Qed.
Lemma Cmod_pow2 (z : C) : Cmod z ^ 2 = fst z ^ 2 + snd z ^ 2.
Proof. unfold Cmod. rewrite pow2_sqrt; [reflexivity|]. pose proof (pow2_ge_0 (fst z)). pose proof (pow2_ge_0 (snd z)). lra. Qed.

(** ** trains of pulses *)
Definition one_pulse (w : nat -> R) (sps : nat) (z : C) : list C := map (fun k => Cmult z (RtoC (w k))) (seq 0 sps).
Fixpoint trains (w : nat -> R) (sps : nat) (c : list bool) : list C :=
  match c with x :: y :: r => one_pulse w sps (polar x, polar y) ++ trains w sps r | _ => [] end.
Lemma one_pulse_length w sps z : length (one_pulse w sps z) = sps.
Proof. unfold one_pulse. now rewrite map_length, seq_length. Qed.
Lemma trains_nth w sps n : forall c j k, length c = (2 * n)%nat -> (j < n)%nat -> (k < sps)%nat ->
  nth (j * sps + k) (trains w sps c) c0 = Cmult (chip_pair c j) (RtoC (w k)).
Proof.
  induction n as [|n IH]; intros c j k L Hj Hk; [lia|]. destruct c as [|x [|y c]]; cbn [length] in L; try lia. cbn [trains]. destruct j as [|j].
  - cbn [Nat.mul Nat.add]. rewrite app_nth1 by (now rewrite one_pulse_length). unfold one_pulse. rewrite (nth_map _ _ _ 0%nat c0) by (now rewrite seq_length). now rewrite seq_nth.
  - rewrite app_nth2 by (rewrite one_pulse_length; lia). rewrite one_pulse_length. replace (S j * sps + k - sps)%nat with (j * sps + k)%nat by lia. rewrite IH by lia.
    unfold chip_pair. replace (2 * S j)%nat with (S (S (2 * j))) by lia. reflexivity.
Qed.
Lemma trains_length w sps n : forall c, length c = (2 * n)%nat -> length (trains w sps c) = (n * sps)%nat.
Proof.
  induction n as [|n IH]; intros c L; destruct c as [|x [|y c]]; cbn [length] in L; try lia; [reflexivity|]. cbn [trains]. rewrite app_length, one_pulse_length, IH by lia. reflexivity.
Qed.
Lemma train_list b Tc sps c sig : (0 < sps)%nat -> pulse_train b Tc sps c sig -> exists n, length c = (2 * n)%nat /\ sig = trains (pulse b Tc sps) sps c ++ repeat c0 (sps - 1).
Proof.
  intros Hs (n & L & S & N & O). exists n. split; [assumption|]. apply (nth_ext _ _ c0 c0).
  - rewrite app_length, repeat_length, (trains_length _ _ n) by assumption. assumption.
  - intros i Hi. rewrite S in Hi. destruct (Nat.lt_ge_cases i (n * sps)) as [G|G].
    + rewrite app_nth1 by (now rewrite (trains_length _ _ n)). pose proof (Nat.div_mod i sps ltac:(lia)) as E. pose proof (Nat.mod_upper_bound i sps ltac:(lia)) as Hm.
      assert (Hj : (i / sps < n)%nat) by (apply Nat.div_lt_upper_bound; lia). rewrite E, (Nat.mul_comm sps). rewrite N by assumption. symmetry. now apply (trains_nth _ _ n).
    + rewrite app_nth2 by (now rewrite (trains_length _ _ n)). rewrite (trains_length _ _ n) by assumption. rewrite nth_repeat. replace i with (n * sps + (i - n * sps))%nat at 1 by lia. apply O. lia.
Qed.
Lemma pulse_block_energy w sps z : energy (one_pulse w sps z) = Cmod z ^ 2 * sum_to (fun k => w k ^ 2) sps.
Proof.
  unfold one_pulse. induction sps as [|m IH]; [cbn; lra|]. rewrite seq_S, map_app, energy_app, IH. cbn [Nat.add map energy sum_to]. rewrite Cmod_mult, Cmod_R, Rpow_mult_distr, pow2_abs. ring.
Qed.
Lemma pulse_block_gap w sps z z' : gap (one_pulse w sps z) (one_pulse w sps z') = Cmod (z - z')%C ^ 2 * sum_to (fun k => w k ^ 2) sps.
Proof.
  unfold one_pulse. induction sps as [|m IH]; [cbn; lra|]. rewrite seq_S, !map_app, gap_app by (now rewrite !map_length). rewrite IH. cbn [Nat.add map gap sum_to].
  replace (Cmult z (RtoC (w m)) - Cmult z' (RtoC (w m)))%C with (Cmult (z - z')%C (RtoC (w m))) by ring. rewrite Cmod_mult, Cmod_R, Rpow_mult_distr, pow2_abs. ring.
Qed.
Lemma zeros_energy n : energy (repeat c0 n) = 0.
Proof. induction n as [|n IH]; cbn [repeat energy]; [reflexivity|]. rewrite IH, Cmod_0. ring. Qed.
Lemma trains_energy w sps n : forall c, length c = (2 * n)%nat -> energy (trains w sps c) = INR (length c) * sum_to (fun k => w k ^ 2) sps.
Proof.
  induction n as [|n IH]; intros c L; destruct c as [|x [|y c]]; cbn [length] in L; try lia; [cbn; lra|]. cbn [trains]. rewrite energy_app, pulse_block_energy, IH by lia.
  assert (P : Cmod (polar x, polar y) ^ 2 = 2) by (rewrite Cmod_pow2; cbn [fst snd]; unfold polar; destruct x, y; lra). rewrite P. cbn [length]. rewrite !S_INR. lra.
Qed.
Lemma distance_pair x y c x' y' c' : distance (x :: y :: c) (x' :: y' :: c') = ((if xorb x x' then 1 else 0) + (if xorb y y' then 1 else 0) + distance c c')%nat.
Proof. unfold distance. cbn [xor_bits weight]. destruct (xorb x x'), (xorb y y'); cbn; lia. Qed.
Lemma trains_gap w sps n : forall c n' c' z z', length c = (2 * n)%nat -> length c' = (2 * n')%nat ->
  4 * sum_to (fun k => w k ^ 2) sps * INR (distance c c') <= gap (trains w sps c ++ z) (trains w sps c' ++ z').
Proof.
  set (E := sum_to (fun k => w k ^ 2) sps). assert (E0 : 0 <= E) by (apply sum_to_nonneg; intros; apply pow2_ge_0).
  induction n as [|n IH]; intros c n' c' z z' L L'.
  - destruct c; [|cbn [length] in L; lia]. pose proof (gap_nonneg (trains w sps [] ++ z) (trains w sps c' ++ z')). change (distance [] c') with 0%nat. cbn [INR]. lra.
  - destruct c as [|x [|y c]]; cbn [length] in L; try lia. destruct n' as [|n'].
    + destruct c'; [|cbn [length] in L'; lia]. pose proof (gap_nonneg (trains w sps (x :: y :: c) ++ z) (trains w sps [] ++ z')). change (distance (x :: y :: c) []) with 0%nat. cbn [INR]. lra.
    + destruct c' as [|x' [|y' c']]; cbn [length] in L'; try lia. cbn [trains]. rewrite <- !app_assoc, gap_app by (now rewrite !one_pulse_length). rewrite pulse_block_gap. fold E.
      specialize (IH c n' c' z z' ltac:(lia) ltac:(lia)). rewrite distance_pair, !plus_INR.
      assert (P : Cmod ((polar x, polar y) - (polar x', polar y'))%C ^ 2 = 4 * (INR (if xorb x x' then 1 else 0) + INR (if xorb y y' then 1 else 0))).
      { rewrite Cmod_pow2. cbn [fst snd Cminus Cplus Copp]. unfold polar. destruct x, y, x', y'; cbn [xorb INR]; lra. }
      rewrite P. lra.
Qed.

(** ** the pulse does not depend on the chip rate *)
Lemma pulse_scale b Tc sps k : 0 < Tc -> (0 < sps)%nat -> pulse b Tc sps k = pulse b 1 sps k.
Proof.
  intros HT Hs. unfold pulse. assert (Hn : INR sps <> 0) by (apply not_0_INR; lia). set (x := -2 + 4 * INR k / INR sps).
  assert (T : pulse_time Tc sps k = x * Tc) by (unfold pulse_time, x; field; assumption). assert (T1 : pulse_time 1 sps k = x) by (unfold pulse_time, x; field; assumption).
  rewrite T, T1. assert (H : half_sine_shape Tc (x * Tc) = half_sine_shape 1 x).
  { unfold half_sine_shape. destruct (Rle_dec 0 (x * Tc)) as [A|A], (Rle_dec 0 x) as [B|B]; try (exfalso; nra); [|reflexivity].
    destruct (Rle_dec (x * Tc) (2 * Tc)) as [A'|A'], (Rle_dec x (2 * 1)) as [B'|B']; try (exfalso; nra); [|reflexivity]. f_equal. field. lra. }
  assert (R : raised_cosine_shape Tc (x * Tc) = raised_cosine_shape 1 x).
  { unfold raised_cosine_shape. cbv zeta. replace (x * Tc / Tc) with x by (field; lra). replace (x / 1) with x by field. reflexivity. }
  destruct b; cbn [shape]; assumption.
Qed.
Lemma pulse_energy_eq b rate sps : (0 < rate)%Z -> (0 < sps)%Z -> sum_to (fun k => pulse b (Tc_of rate) (Z.to_nat sps) k ^ 2) (Z.to_nat sps) = pulse_energy b sps.
Proof. intros Hr Hs. unfold pulse_energy. apply sum_to_ext. intros k _. rewrite pulse_scale; [reflexivity|now apply Tc_pos|lia]. Qed.

(** ** its energy *)
Lemma pulse_energy_pos b sps : (match b with Band_915MHz | Band_2450MHz => 3 | _ => 2 end <= sps)%Z -> 0 < pulse_energy b sps.
Proof.
  intro H. destruct (pulse_nonzero b 1 (Z.to_nat sps) Rlt_0_1) as (k & Hk & Hz); [unfold min_sps; destruct b; lia|]. unfold pulse_energy.
  pose proof (sum_to_ge (fun k => pulse b 1 (Z.to_nat sps) k ^ 2) (Z.to_nat sps) k (fun i _ => pow2_ge_0 _) Hk) as G. cbn beta in G.
  assert (0 < pulse b 1 (Z.to_nat sps) k ^ 2); [|lra]. rewrite <- Rsqr_pow2. now apply Rsqr_pos_lt.
Qed.
Lemma raised_energy b sps : b <> Band_915MHz -> b <> Band_2450MHz -> (0 < sps)%Z -> Z.even sps = true -> 1 <= pulse_energy b sps.
Proof.
  intros H1 H2 Hs He. unfold pulse_energy. set (n := Z.to_nat sps).
  assert (Ho : Nat.odd n = false). { rewrite <- Nat.negb_even. apply negb_false_iff, Nat.even_spec. apply Z.even_spec in He as [q Hq]. exists (Z.to_nat q). unfold n. lia. }
  assert (P : pulse b 1 n (n / 2) = 1) by (unfold pulse; destruct b; try congruence; cbn [shape]; apply raised_cosine_even; (lra || unfold n; lia || assumption)).
  pose proof (sum_to_ge (fun k => pulse b 1 n k ^ 2) n (n / 2) (fun i _ => pow2_ge_0 _) ltac:(apply Nat.div_lt; unfold n; lia)) as G. cbn beta in G. rewrite P in G. lra.
Qed.
Lemma fst_Csum f n : fst (Csum f n) = sum_to (fun k => fst (f k)) n.
Proof. induction n as [|n IH]; [reflexivity|]. cbn [Csum sum_to]. rewrite <- IH. reflexivity. Qed.
Lemma cos_sum n : (3 <= n)%nat -> sum_to (fun k => cos (4 * PI * INR k / INR n)) n = 0.
Proof.
  intro Hn. assert (HR : INR n <> 0) by (apply not_0_INR; lia). pose proof (orthogonality n 2 ltac:(lia)) as O.
  replace ((2 mod Z.of_nat n =? 0)%Z) with false in O by (symmetry; apply Z.eqb_neq; rewrite Z.mod_small; lia).
  apply (f_equal fst) in O. rewrite fst_Csum in O. cbn [fst RtoC] in O. rewrite <- O. apply sum_to_ext. intros k _. unfold cis. cbn [fst]. f_equal. field. assumption.
Qed.
Lemma sin2_sum n : (3 <= n)%nat -> sum_to (fun k => sin (2 * PI * INR k / INR n) ^ 2) n = INR n / 2.
Proof.
  intro Hn. assert (HR : INR n <> 0) by (apply not_0_INR; lia).
  rewrite (sum_to_ext _ (fun k => 1 / 2 + - (1 / 2) * cos (4 * PI * INR k / INR n))).
  - rewrite sum_to_plus, sum_to_const, sum_to_scal, cos_sum by assumption. lra.
  - intros k _. replace (4 * PI * INR k / INR n) with (2 * (2 * PI * INR k / INR n)) by (field; assumption). rewrite cos_2a_sin. lra.
Qed.
Lemma half_sine_energy b sps : b = Band_915MHz \/ b = Band_2450MHz -> (3 <= sps)%Z -> pulse_energy b sps = IZR sps / 4.
Proof.
  intros Hb Hs. unfold pulse_energy. set (n := Z.to_nat sps). assert (Hn : (3 <= n)%nat) by (unfold n; lia).
  assert (Ez : IZR sps = INR n) by (unfold n; rewrite INR_IZR_INZ; f_equal; lia). assert (HR : 0 < INR n) by (apply lt_0_INR; lia). rewrite Ez.
  set (s := fun k => sin (2 * PI * INR k / INR n) ^ 2). set (P := fun k => pulse b 1 n k ^ 2).
  assert (Pk : forall k, (k < n)%nat -> P k = if Nat.ltb n (2 * k) then s k else 0).
  { intros k Hk. unfold P, pulse. assert (Sh : shape b = half_sine_shape) by (destruct Hb as [-> | ->]; reflexivity). rewrite Sh. unfold half_sine_shape.
    assert (T : pulse_time 1 n k = 2 * (2 * INR k - INR n) / INR n) by (unfold pulse_time; field; lra). rewrite T. unfold s.
    assert (Kn : INR k < INR n) by now apply lt_INR.
    destruct (Nat.ltb_spec n (2 * k)) as [G|G].
    - apply lt_INR in G. rewrite mult_INR in G. change (INR 2) with 2 in G. destruct (Rle_dec 0 _) as [A|A]; [|exfalso; apply A; apply Rmult_le_pos; [lra|]; left; now apply Rinv_0_lt_compat].
      destruct (Rle_dec _ (2 * 1)) as [B|B]; [|exfalso; apply B; apply (Rmult_le_reg_r (INR n)); [lra|]; unfold Rdiv; rewrite Rmult_assoc, Rinv_l by lra; lra].
      replace (PI * (2 * (2 * INR k - INR n) / INR n) / (2 * 1)) with (2 * PI * INR k / INR n - PI) by (field; lra).
      rewrite <- (Ropp_involutive (sin (_ - PI))), <- sin_neg. replace (- (2 * PI * INR k / INR n - PI)) with (PI - 2 * PI * INR k / INR n) by ring. rewrite sin_PI_x. ring.
    - apply le_INR in G. rewrite mult_INR in G. change (INR 2) with 2 in G. destruct (Rle_dec 0 _) as [A|A]; [|ring].
      assert (Z0 : 2 * (2 * INR k - INR n) / INR n = 0).
      { assert (2 * (2 * INR k - INR n) / INR n <= 0); [|lra]. apply (Rmult_le_reg_r (INR n)); [lra|]. unfold Rdiv. rewrite Rmult_assoc, Rinv_l by lra. lra. }
      rewrite Z0. destruct (Rle_dec 0 (2 * 1)); [|ring]. replace (PI * 0 / (2 * 1)) with 0 by field. rewrite sin_0. ring. }
  change (sum_to P n = INR n / 4).
  (* the other half has the same energy *)
  set (Q := fun k => if Nat.ltb (2 * k) n then s k else 0).
  assert (S0 : s 0%nat = 0) by (unfold s; cbn [INR]; replace (2 * PI * 0 / INR n) with 0 by (field; lra); rewrite sin_0; ring).
  assert (Sr : forall k, (k <= n)%nat -> s (n - k)%nat = s k).
  { intros k Hk. unfold s. rewrite minus_INR by assumption. replace (2 * PI * (INR n - INR k) / INR n) with (- (2 * PI * INR k / INR n) + 2 * INR 1 * PI) by (cbn [INR]; field; lra).
    rewrite sin_period, sin_neg. ring. }
  assert (PQ : sum_to P n + sum_to Q n = INR n / 2).
  { rewrite <- (sin2_sum n Hn), <- sum_to_plus. apply sum_to_ext. intros k Hk. rewrite Pk by assumption. unfold Q. fold (s k).
    destruct (Nat.ltb_spec n (2 * k)), (Nat.ltb_spec (2 * k) n); try lia; try lra.
    assert (E : n = (2 * k)%nat) by lia. unfold s. rewrite E, mult_INR. change (INR 2) with 2. assert (0 < INR k) by (apply lt_0_INR; lia). replace (2 * PI * INR k / (2 * INR k)) with PI by (field; lra). rewrite sin_PI. ring. }
  assert (EQ : sum_to P n = sum_to Q n).
  { destruct n as [|m]; [lia|]. rewrite (sum_to_split P), (sum_to_split Q). rewrite Pk by lia. replace (Nat.ltb (S m) (2 * 0)) with false by (symmetry; apply Nat.ltb_ge; lia).
    unfold Q at 1. replace (Nat.ltb (2 * 0) (S m)) with true by (symmetry; apply Nat.ltb_lt; lia). rewrite S0, !Rplus_0_l.
    rewrite (sum_to_rev (fun k => Q (S k))). apply sum_to_ext. intros k Hk. rewrite Pk by lia. unfold Q. replace (S (m - 1 - k)) with (S m - S k)%nat by lia. rewrite Sr by lia.
    destruct (Nat.ltb_spec (S m) (2 * S k)), (Nat.ltb_spec (2 * (S m - S k)) (S m)); try lia; reflexivity. }
  lra.
Qed.
