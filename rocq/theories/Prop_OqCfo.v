(** * C101: MR-O-QPSK frames are received with timing, gain, phase, carrier offset and beginning unknown, in noise *)
From Coq Require Import Reals Lra.
From Coquelicot Require Import Complex.
From Verif Require Import Py PList SBits SEntry MBits PBits PEntry MRate SRate PConv PRate MFields MModul MOfdm MTime STime PTime PPower Tables MOqpsk SOqpsk POqpsk POqRun Prop_Oqpsk MWave SWave PWave Prop_Wave SOqGap POqNoise Prop_OqNoise SOqRx POqRx Prop_OqRx SOqMf Prop_OqMf SOqDs Prop_OqDs SOqSync Prop_OqSync SOqAcq POqAcq Prop_OqAcq SCfo PCfo POfdmAcq SOqCfo POqCfo.
From Verif Require Import SWave.
Open Scope Z_scope.
Local Notation c0 := (RtoC 0).

(** ** the steps of the preamble, in integers *)
Definition zc (a : Z * Z) : C := (IZR (fst a), IZR (snd a)).
Definition zmul (a c : Z * Z) : Z * Z := (fst a * fst c - snd a * snd c, fst a * snd c + snd a * fst c).
Definition zconj (a : Z * Z) : Z * Z := (fst a, - snd a).
Definition zadd (a c : Z * Z) : Z * Z := (fst a + fst c, snd a + snd c).
Definition upz (b : Frequency_band) (k : nat) : Z * Z :=
  let m := Nat.modulo k (Nat.div (period b) 2) in (amp (nth (2 * m) (sync_unit b) false), amp (nth (2 * m + 1) (sync_unit b) false)).
Definition usz (b : Frequency_band) (k : nat) : Z * Z := zmul (upz b (S k)) (zconj (upz b k)).
Fixpoint dots (u v : list (Z * Z)) : Z * Z := match u, v with x :: u', y :: v' => zadd (zmul (zconj x) y) (dots u' v') | _, _ => (0, 0) end.
Definition turns (b : Frequency_band) (i : nat) : list (Z * Z) := map (fun j => usz b (i + j)) (seq 0 (Nat.div (period b) 2)).
Lemma zc_mul a c : zc (zmul a c) = Cmult (zc a) (zc c).
Proof. unfold zc, zmul, Cmult. cbn [fst snd]. now rewrite minus_IZR, plus_IZR, !mult_IZR. Qed.
Lemma zc_conj a : zc (zconj a) = Cconj (zc a).
Proof. unfold zc, zconj, Cconj. cbn [fst snd]. now rewrite opp_IZR. Qed.
Lemma zc_add a c : zc (zadd a c) = Cplus (zc a) (zc c).
Proof. unfold zc, zadd, Cplus. cbn [fst snd]. now rewrite !plus_IZR. Qed.
Lemma unit_pair_z b k : unit_pair b k = zc (upz b k).
Proof. unfold unit_pair, upz, zc, chip_pair. cbn [fst snd]. now rewrite !polar_amp. Qed.
Lemma unit_step_z b k : unit_step b k = zc (usz b k).
Proof. unfold unit_step, usz. now rewrite zc_mul, zc_conj, !unit_pair_z. Qed.
Lemma dots_sum n : forall f g, csum (fun j => Cmult (Cconj (zc (f j))) (zc (g j))) n = zc (dots (map f (seq 0 n)) (map g (seq 0 n))).
Proof.
  induction n as [|n IH]; intros f g; [reflexivity|]. rewrite csum_front. cbn [seq map dots]. rewrite zc_add, zc_mul, zc_conj. f_equal.
  rewrite <- !seq_shift, !map_map. apply IH.
Qed.
Definition chk_turns (b : Frequency_band) : bool :=
  let h := Nat.div (period b) 2 in let T := map (fun i => (i, turns b i)) (seq 0 h) in
  forallb (fun x => forallb (fun y => let z := dots (snd x) (snd y) in
    if Nat.eqb (fst x) (fst y) then (fst z =? 4 * Z.of_nat h) && (snd z =? 0) else 4 * (fst z * fst z + snd z * snd z) <? (4 * Z.of_nat h) * (4 * Z.of_nat h)) T) T.
Lemma turns_facts : forallb chk_turns all_bands = true.
Proof. vm_compute. reflexivity. Qed.
Lemma turn_phases b i k : (i < period b / 2)%nat -> (k < period b / 2)%nat -> let z := dots (turns b i) (turns b k) in
  if Nat.eqb i k then z = (4 * Z.of_nat (period b / 2), 0) else 4 * (fst z * fst z + snd z * snd z) < (4 * Z.of_nat (period b / 2)) * (4 * Z.of_nat (period b / 2)).
Proof.
  intros Hi Hk. pose proof turns_facts as F. rewrite forallb_forall in F. specialize (F b (bands_in b)). unfold chk_turns in F. cbv zeta in F.
  rewrite forallb_forall in F. specialize (F (i, turns b i) ltac:(apply in_map_iff; exists i; split; [reflexivity|apply in_seq; lia])).
  rewrite forallb_forall in F. specialize (F (k, turns b k) ltac:(apply in_map_iff; exists k; split; [reflexivity|apply in_seq; lia])). cbn [fst snd] in F.
  destruct (Nat.eqb i k).
  - apply andb_prop in F as [F1 F2]. apply Z.eqb_eq in F1, F2. destruct (dots _ _). cbn [fst snd] in *. now subst.
  - now apply Z.ltb_lt in F.
Qed.
Lemma unit_length b : length (sync_unit b) = period b.
Proof. pose proof (turned_length b 0 ltac:(lia)) as H. unfold turned in H. cbn [skipn firstn] in H. now rewrite app_nil_r in H. Qed.
Lemma turned_unit b i j : (i < period b / 2)%nat -> (j < period b / 2)%nat -> chip_pair (turned b (2 * i)) j = chip_pair (sync_unit b) ((i + j) mod (period b / 2)).
Proof.
  intros Hi Hj. destruct (period_even b) as (h & P & H0 & Hh). rewrite Hh in *. pose proof (unit_length b) as L.
  assert (Q : forall x, (x < 2)%nat -> nth (2 * j + x) (turned b (2 * i)) false = nth (2 * ((i + j) mod h) + x) (sync_unit b) false).
  { intros x Hx. unfold turned. destruct (le_lt_dec h (i + j)) as [G|G].
    - rewrite app_nth2 by (rewrite skipn_length; lia). rewrite skipn_length, L, nth_firstn by lia. f_equal.
      replace (i + j)%nat with (i + j - h + 1 * h)%nat by lia. rewrite Nat.mod_add, Nat.mod_small by lia. lia.
    - rewrite app_nth1 by (rewrite skipn_length; lia). rewrite nth_skipn, Nat.mod_small by lia. f_equal. lia. }
  unfold chip_pair. rewrite (Q 1%nat) by lia. pose proof (Q 0%nat ltac:(lia)) as Q0. rewrite !Nat.add_0_r in Q0. now rewrite Q0.
Qed.

Lemma turning_skip g w e n sig r h : (h <= length r)%nat -> heard_turning g w e n sig r -> heard_turning (Cmult (unit_at (w * INR h)) g) w e (n + h) sig (skipn h r).
Proof.
  intros Hh [L H]. split; [rewrite skipn_length; lia|]. intros t Ht. rewrite skipn_length in Ht. rewrite nth_skipn. specialize (H (h + t)%nat ltac:(lia)).
  rewrite Cmod_mult, unit_size, Rmult_1_l. eapply Rle_trans; [|exact H]. apply Req_le. f_equal. rewrite <- Nat.add_assoc. change unit_at with cis. rewrite plus_INR.
  replace (w * (INR h + INR t))%R with (w * INR t + w * INR h)%R by ring. rewrite cis_add. ring.
Qed.
Lemma sqrt2_bound : (7 / 5 < sqrt 2 < 14143 / 10000)%R.
Proof.
  split; [replace (7 / 5)%R with (sqrt ((7 / 5) * (7 / 5))) by (apply sqrt_square; lra)|replace (14143 / 10000)%R with (sqrt ((14143 / 10000) * (14143 / 10000))) by (apply sqrt_square; lra)]; apply sqrt_lt_1_alt; lra.
Qed.
Lemma pair_mod c j : Cmod (chip_pair c j) = sqrt 2.
Proof. pose proof (chip_pair_size c j) as H. rewrite <- H. symmetry. apply sqrt_pow2, Cmod_ge_0. Qed.
Lemma pair_turn c c' i j : exists q, (q = RtoC 1 \/ q = RtoC (-1) \/ q = Ci \/ q = Copp Ci)
  /\ Cmult (chip_pair c' j) (Cconj (chip_pair c i)) = Cmult (RtoC 2) q /\ Cmult (chip_pair c i) q = chip_pair c' j.
Proof.
  unfold chip_pair, polar. destruct (nth (2 * i) c false), (nth (2 * i + 1) c false), (nth (2 * j) c' false), (nth (2 * j + 1) c' false);
  first [exists (RtoC 1); split; [tauto|]; split; unfold Cmult, Cconj, RtoC; cbn [fst snd]; f_equal; lra
        |exists (RtoC (-1)); split; [tauto|]; split; unfold Cmult, Cconj, RtoC; cbn [fst snd]; f_equal; lra
        |exists Ci; split; [tauto|]; split; unfold Cmult, Cconj, RtoC, Ci; cbn [fst snd]; f_equal; lra
        |exists (Copp Ci); split; [tauto|]; split; unfold Cmult, Cconj, RtoC, Ci, Copp; cbn [fst snd]; f_equal; lra].
Qed.

Section acquisition.
Context (b : Frequency_band) (Tc : R) (sps m : nat) (c : list bool) (sig : list C).
Context (HT : (0 < Tc)%R) (Hm : (match b with Band_915MHz | Band_2450MHz => 3 | _ => 2 end <= sps)%nat) (Hg : pulse_regular b (Z.of_nat sps)).
Context (N : forall j k, (j < m)%nat -> (k < sps)%nat -> nth (j * sps + k) sig c0 = Cmult (chip_pair c j) (RtoC (pulse b Tc sps k))).
Context (Hc : firstn (header_start b) c = shr_chips b) (Lc : length c = (2 * m)%nat) (Ls : length sig = (m * sps + (sps - 1))%nat).
Context (w e : R).
Lemma sps0 : (0 < sps)%nat. Proof. destruct b; lia. Qed.
(** *** timing *)
Lemma loud g n r t : heard_turning g w e n sig r -> (t < sps)%nat -> (n + 2 * sps <= m * sps)%nat ->
  (Rabs (loudness b sps r t - Cmod g ^ 2 * (2 * overlap b sps ((n + t) mod sps))) <= Cmod g ^ 2 * ripple b sps e ((n + t) mod sps))%R.
Proof.
  intros [L H] Ht Hn. pose proof sps0 as Hp. unfold loudness, overlap, ripple. set (d := ((n + t) mod sps)%nat).
  rewrite <- !sum_to_scal. match goal with |- (Rabs (?A - ?B) <= _)%R => replace (A - B)%R with (A + (-1) * B)%R by ring end. rewrite <- sum_to_scal, <- sum_to_plus.
  eapply Rle_trans; [apply sum_to_Rabs|]. apply sum_to_le. intros k Hk.
  assert (D : ((k + d) mod sps = (n + (t + k)) mod sps)%nat). { unfold d. rewrite Nat.add_mod_idemp_r by lia. f_equal. lia. }
  specialize (H (t + k)%nat ltac:(lia)). set (i := (n + (t + k))%nat) in *.
  pose proof (Nat.div_mod i sps ltac:(lia)) as DM. pose proof (Nat.mod_upper_bound i sps ltac:(lia)) as U.
  assert (Hi : (i / sps < m)%nat) by (apply Nat.div_lt_upper_bound; [lia|unfold i; lia]).
  pose proof (N (i / sps) (i mod sps) Hi U) as E. replace (i / sps * sps + i mod sps)%nat with i in E by lia. rewrite (pulse_scale b Tc) in E by assumption. rewrite E in H. rewrite D.
  set (p := pulse b 1 sps (i mod sps)) in *. set (P := chip_pair c (i / sps)) in *. set (z := nth (t + k) r c0) in *. set (q := pulse b 1 sps k).
  set (a := (sqrt 2 * Rabs p)%R).
  assert (A : Cmod (unit_at (w * INR (t + k)) * (g * (P * RtoC p)))%C = (Cmod g * a)%R) by (rewrite !Cmod_mult, unit_size, Cmod_R; unfold P; rewrite pair_mod; unfold a; ring).
  assert (S2 : (sqrt 2 * sqrt 2 = 2)%R) by (apply sqrt_sqrt; lra). assert (A2 : (a ^ 2 = 2 * p ^ 2)%R) by (unfold a; rewrite Rpow_mult_distr, pow2_abs; replace (sqrt 2 ^ 2)%R with (sqrt 2 * sqrt 2)%R by ring; rewrite S2; ring).
  set (s := (unit_at (w * INR (t + k)) * (g * (P * RtoC p)))%C) in *.
  assert (B1 : (Cmod z <= Cmod g * a + e * Cmod g)%R). { replace z with (s + (z - s))%C by ring. eapply Rle_trans; [apply Cmod_triangle|]. lra. }
  assert (B2 : (Cmod g * a - e * Cmod g <= Cmod z)%R).
  { assert (Cmod s <= Cmod z + Cmod (z - s)%C)%R; [|lra]. replace s with (z + - (z - s))%C at 1 by ring. eapply Rle_trans; [apply Cmod_triangle|]. rewrite Cmod_opp. lra. }
  assert (a0 : (0 <= a)%R) by (apply Rmult_le_pos; [apply sqrt_pos|apply Rabs_pos]). pose proof (Cmod_ge_0 z) as z0. pose proof (Cmod_ge_0 g) as g0.
  replace (Cmod z ^ 2 * q ^ 2 + -1 * (Cmod g ^ 2 * (2 * (p ^ 2 * q ^ 2))))%R with ((Cmod z ^ 2 - (Cmod g * a) ^ 2) * q ^ 2)%R by (rewrite Rpow_mult_distr, A2; ring).
  rewrite Rabs_mult, (Rabs_pos_eq (q ^ 2)) by apply pow2_ge_0. rewrite <- Rmult_assoc. apply Rmult_le_compat_r; [apply pow2_ge_0|].
  replace (2 * sqrt 2 * e * Rabs p)%R with (2 * e * a)%R by (unfold a; ring).
  set (x := Cmod z) in *. set (G := Cmod g) in *. assert (X : (Rabs (x - G * a) <= e * G)%R) by (apply Rabs_le; lra).
  replace (x ^ 2 - (G * a) ^ 2)%R with ((x - G * a) * (x + G * a))%R by ring. rewrite Rabs_mult, (Rabs_pos_eq (x + G * a)) by (assert (0 <= G * a)%R by (apply Rmult_le_pos; assumption); lra).
  apply Rle_trans with (e * G * (2 * G * a + e * G))%R; [|apply Req_le; ring]. apply Rmult_le_compat; [apply Rabs_pos|assert (0 <= G * a)%R by (apply Rmult_le_pos; assumption); lra|assumption|lra].
Qed.
Lemma turning_timing g n r : g <> c0 -> heard_turning g w e n sig r -> timing_clear b sps e -> (n + 2 * sps <= m * sps)%nat ->
  envelope_timing b sps r = ((sps - n mod sps) mod sps)%nat.
Proof.
  intros Hz H TC Hn. pose proof sps0 as Hp. pose proof (next_boundary sps n Hp) as NB. set (t := ((sps - n mod sps) mod sps)%nat) in *.
  assert (Ht : (t < sps)%nat) by (apply Nat.mod_upper_bound; lia). assert (Gp : (0 < Cmod g)%R) by now apply Cmod_gt_0.
  unfold envelope_timing. apply best_is; [assumption|]. intros h Hh Nh.
  pose proof (loud g n r t H Ht Hn) as L1. rewrite NB, Nat.mod_mul in L1 by lia. pose proof (loud g n r h H Hh Hn) as L2. set (d := ((n + h) mod sps)%nat) in *.
  assert (Hd : (0 < d < sps)%nat).
  { split; [|apply Nat.mod_upper_bound; lia]. destruct (Nat.eq_dec d 0) as [Z|]; [exfalso|lia]. apply Nh. unfold d in Z. apply Nat.mod_divides in Z as [q Z]; [|lia].
    set (K := pairs_before sps n) in *. assert (q = K) by nia. nia. }
  specialize (TC d Hd). assert (G2 : (0 < Cmod g ^ 2)%R) by (apply pow_lt; assumption). assert (RB : forall x y : R, (Rabs x <= y -> - y <= x <= y)%R) by (intros x y Q; unfold Rabs in Q; destruct (Rcase_abs x); lra). apply RB in L1, L2. clear RB. set (G := (Cmod g ^ 2)%R) in *.
  assert (G * (ripple b sps e 0 + ripple b sps e d) < G * (2 * (overlap b sps 0 - overlap b sps d)))%R by (apply Rmult_lt_compat_l; assumption). lra.
Qed.
(** *** the filtered pairs *)
Let v : R := (w * INR sps)%R.
Context (g : C) (J : nat) (r : list C) (Hg0 : g <> c0) (H : heard_turning g w e (J * sps) sig r) (Gp : (0 < gathered b sps w)%R).
Context (Hq : (e * pulse_sum b sps <= 3 / 20 * gathered b sps w)%R).
Let G : C := Cmult g (csum (fun k => Cmult (RtoC (pulse b 1 sps k ^ 2)) (unit_at (w * INR k))) sps).
Lemma G_size : Cmod G = (Cmod g * gathered b sps w)%R.
Proof. unfold G. now rewrite Cmod_mult. Qed.
Lemma G_pos : (0 < Cmod G)%R.
Proof. rewrite G_size. apply Rmult_lt_0_compat; [now apply Cmod_gt_0|assumption]. Qed.
Lemma filtered j : (J + j < m)%nat -> exists mu, (Cmod mu <= 3 / 20)%R /\ correlate b sps r j = Cmult (Cmult (unit_at (v * INR j)) G) (Cplus (chip_pair c (J + j)) mu).
Proof.
  intro Hj. pose proof sps0 as Hp. destruct H as [L Hr]. pose proof G_pos as GP. assert (GN : G <> c0) by (now apply Cmod_gt_0). set (P := chip_pair c (J + j)). set (U := unit_at (v * INR j)).
  assert (UN : U <> c0) by (apply Cmod_gt_0; unfold U; rewrite unit_size; lra).
  set (er := fun k => (nth (j * sps + k) r c0 - unit_at (w * INR (j * sps + k)) * (g * (P * RtoC (pulse b 1 sps k))))%C).
  assert (B : forall k, (k < sps)%nat -> (Cmod (er k) <= e * Cmod g)%R).
  { intros k Hk. specialize (Hr (j * sps + k)%nat). replace (J * sps + (j * sps + k))%nat with ((J + j) * sps + k)%nat in Hr by lia. rewrite N in Hr by assumption. rewrite pulse_scale in Hr by assumption. apply Hr. rewrite L, Ls. nia. }
  set (X := csum (fun k => Cmult (er k) (RtoC (pulse b 1 sps k))) sps).
  assert (XB : (Cmod X <= 3 / 20 * Cmod G)%R).
  { eapply Rle_trans; [apply (csum_triangle _ (fun k => e * Cmod g * Rabs (pulse b 1 sps k))%R)|].
    - intros k Hk. rewrite Cmod_mult, Cmod_R. apply Rmult_le_compat_r; [apply Rabs_pos|now apply B].
    - rewrite sum_to_scal. fold (pulse_sum b sps). rewrite G_size. replace (e * Cmod g * pulse_sum b sps)%R with (Cmod g * (e * pulse_sum b sps))%R by ring.
      replace (3 / 20 * (Cmod g * gathered b sps w))%R with (Cmod g * (3 / 20 * gathered b sps w))%R by ring. apply Rmult_le_compat_l; [apply Cmod_ge_0|assumption]. }
  exists (Cdiv X (Cmult U G)). split.
  - unfold Cdiv. rewrite Cmod_mult, Cmod_inv, Cmod_mult by (now apply Cmult_neq_0). unfold U at 1. rewrite unit_size, Rmult_1_l. apply (Rmult_le_reg_r (Cmod G)); [assumption|]. rewrite Rmult_assoc, Rinv_l, Rmult_1_r by lra. assumption.
  - rewrite correlate_csum. rewrite (csum_same _ (fun k => Cplus (Cmult (Cmult (Cmult U g) P) (Cmult (RtoC (pulse b 1 sps k ^ 2)) (unit_at (w * INR k)))) (Cmult (er k) (RtoC (pulse b 1 sps k))))).
    + rewrite csum_add, csum_times. fold X. transitivity (Cplus (Cmult (Cmult U G) P) X); [unfold G; ring|field; split; assumption].
    + intros k _. unfold er, U, v. rewrite plus_INR, mult_INR. replace (w * (INR j * INR sps + INR k))%R with (w * INR sps * INR j + w * INR k)%R by ring. change unit_at with cis. rewrite cis_add.
      replace (pulse b 1 sps k ^ 2)%R with (pulse b 1 sps k * pulse b 1 sps k)%R by ring. rewrite RtoC_mult. ring.
Qed.
Lemma stepped j : (J + S j < m)%nat -> exists de, (Cmod de <= 9 / 20)%R
  /\ pair_step b sps r j = Cmult (Cmult (RtoC (Cmod G ^ 2)) (unit_at v)) (Cplus (Cmult (chip_pair c (J + S j)) (Cconj (chip_pair c (J + j)))) de).
Proof.
  intro Hj. destruct (filtered j ltac:(lia)) as (mu & Hmu & E). destruct (filtered (S j) Hj) as (mu' & Hmu' & E').
  set (P := chip_pair c (J + j)) in *. set (P' := chip_pair c (J + S j)) in *.
  exists (P' * Cconj mu + mu' * Cconj P + mu' * Cconj mu)%C. split.
  - eapply Rle_trans; [apply Cmod_triangle|]. eapply Rle_trans; [apply Rplus_le_compat_r, Cmod_triangle|]. rewrite !Cmod_mult, !Cmod_conj. unfold P, P'. rewrite !pair_mod.
    pose proof sqrt2_bound as S2. pose proof (Cmod_ge_0 mu). pose proof (Cmod_ge_0 mu'). nra.
  - unfold pair_step. rewrite E, E'. rewrite S_INR. replace (v * (INR j + 1))%R with (v + v * INR j)%R by ring. change unit_at with cis. rewrite cis_add.
    assert (CC : forall x y, Cconj (Cmult x y) = Cmult (Cconj x) (Cconj y)) by (intros x y; apply injective_projections; cbn; ring).
    assert (CP : forall x y, Cconj (Cplus x y) = Cplus (Cconj x) (Cconj y)) by (intros x y; apply injective_projections; cbn; ring).
    rewrite !CC, CP. assert (G2 : RtoC (Cmod G ^ 2) = Cmult G (Cconj G)). { rewrite Cmod_pow2. unfold RtoC, Cmult, Cconj. cbn [fst snd]. f_equal; ring. }
    assert (C1 : Cmult (cis (v * INR j)) (Cconj (cis (v * INR j))) = RtoC 1). { rewrite cis_conj, <- cis_add. replace (v * INR j + - (v * INR j))%R with 0%R by ring. apply cis_0. }
    rewrite G2. transitivity (Cmult (Cmult (cis (v * INR j)) (Cconj (cis (v * INR j)))) (G * Cconj G * cis v * ((P' + mu') * (Cconj P + Cconj mu)))%C); [ring|]. rewrite C1. ring.
Qed.
(** *** where in the preamble *)
Context (HJ : (2 * J + period b + 2 <= preamble_bits b * spread_chips (shr_codes b))%nat) (HJm : (J + period b / 2 < m)%nat).
Let h : nat := (period b / 2)%nat.
Let k0 : nat := (J mod h)%nat.
Lemma h_pos : (0 < h)%nat /\ period b = (2 * h)%nat. Proof. destruct (period_even b) as (x & P & H0 & Hx). unfold h. lia. Qed.
Lemma k0_less : (k0 < h)%nat. Proof. apply Nat.mod_upper_bound. pose proof h_pos. lia. Qed.
Lemma preamble_pair j : (j <= h)%nat -> chip_pair c (J + j) = unit_pair b (k0 + j).
Proof.
  intro Hj. destruct h_pos as [hp P]. unfold unit_pair. fold h. unfold k0. rewrite Nat.add_mod_idemp_l by lia.
  destruct (Nat.eq_dec j h) as [->|Nj].
  - replace (J + h)%nat with (J + 1 + (h - 1))%nat by lia. rewrite (pairs_turned b sps m c Hm Hc Lc (J + 1) (h - 1)) by (fold h; lia). rewrite turned_unit by (fold h; first [apply Nat.mod_upper_bound; lia|lia]).
    fold h. now rewrite Nat.add_mod_idemp_l by lia.
  - rewrite (pairs_turned b sps m c Hm Hc Lc J j) by (fold h; lia). rewrite turned_unit by (fold h; first [apply Nat.mod_upper_bound; lia|lia]). fold h. now rewrite Nat.add_mod_idemp_l by lia.
Qed.
Lemma match_close i : exists D, (Cmod D <= 9 / 10 * INR h)%R
  /\ match_step b sps r i = Cmult (Cmult (RtoC (Cmod G ^ 2)) (unit_at v)) (Cplus (zc (dots (turns b i) (turns b k0))) D).
Proof.
  assert (X : exists de : nat -> C, forall j, (j < h)%nat -> (Cmod (de j) <= 9 / 20)%R /\ pair_step b sps r j = Cmult (Cmult (RtoC (Cmod G ^ 2)) (unit_at v)) (Cplus (unit_step b (k0 + j)) (de j))).
  { exists (fun j => Cminus (Cdiv (pair_step b sps r j) (Cmult (RtoC (Cmod G ^ 2)) (unit_at v))) (unit_step b (k0 + j))). intros j Hj. fold h in HJm. destruct (stepped j ltac:(lia)) as (de & Bd & E).
    assert (F : Cmult (RtoC (Cmod G ^ 2)) (unit_at v) <> c0). { apply Cmult_neq_0; apply Cmod_gt_0; [rewrite Cmod_R, Rabs_pos_eq by apply pow2_ge_0; apply pow_lt, G_pos|rewrite unit_size; lra]. }
    assert (E2 : Cmult (chip_pair c (J + S j)) (Cconj (chip_pair c (J + j))) = unit_step b (k0 + j)). { rewrite !preamble_pair by lia. unfold unit_step. do 2 f_equal. lia. }
    rewrite E2 in E. rewrite E. set (W := Cmult (RtoC _) _) in *. split; [|field; assumption]. replace (Cminus (Cdiv (W * (unit_step b (k0 + j) + de)) W) (unit_step b (k0 + j)))%C with de by (field; assumption). assumption. }
  destruct X as (de & X). exists (csum (fun j => Cmult (Cconj (unit_step b (i + j))) (de j)) h). split.
  - replace (9 / 10 * INR h)%R with (INR h * (9 / 10))%R by ring. rewrite <- sum_to_const. apply csum_triangle. intros j Hj. destruct (X j Hj) as [B _]. rewrite Cmod_mult, Cmod_conj.
    unfold unit_step. rewrite Cmod_mult, Cmod_conj. unfold unit_pair. rewrite !pair_mod. rewrite sqrt_sqrt by lra. lra.
  - unfold match_step. fold h. rewrite (csum_same _ (fun j => Cmult (Cmult (RtoC (Cmod G ^ 2)) (unit_at v)) (Cplus (Cmult (Cconj (zc (usz b (i + j)))) (zc (usz b (k0 + j)))) (Cmult (Cconj (unit_step b (i + j))) (de j))))).
    + rewrite csum_times, csum_add, dots_sum. reflexivity.
    + intros j Hj. destruct (X j Hj) as [_ ->]. rewrite !unit_step_z. ring.
Qed.
Lemma W_size : Cmod (Cmult (RtoC (Cmod G ^ 2)) (unit_at v)) = (Cmod G ^ 2)%R.
Proof. rewrite Cmod_mult, unit_size, Cmod_R, Rabs_pos_eq by apply pow2_ge_0. ring. Qed.
Lemma phase_found : step_phase b sps r = k0.
Proof.
  destruct h_pos as [hp P]. pose proof k0_less as Hk. pose proof G_pos as GP. unfold step_phase. fold h. apply best_is; [assumption|]. intros i Hi Ni.
  destruct (match_close i) as (D & BD & ->). destruct (match_close k0) as (D' & BD' & ->). rewrite !Cmod_mult. rewrite unit_size, Cmod_R, Rabs_pos_eq, Rmult_1_r by apply pow2_ge_0. apply Rmult_lt_compat_l; [apply pow_lt; assumption|].
  pose proof (turn_phases b k0 k0 Hk Hk) as C1. cbv zeta in C1. rewrite Nat.eqb_refl in C1. rewrite C1. pose proof (turn_phases b i k0 Hi Hk) as C2. cbv zeta in C2. apply Nat.eqb_neq in Ni. rewrite Ni in C2. fold h in C1, C2 |- *.
  set (z := dots (turns b i) (turns b k0)) in *.
  assert (h0 : (1 <= INR h)%R) by (apply (le_INR 1); lia).
  assert (Z1 : (Cmod (zc z) < 2 * INR h)%R).
  { apply lt_by_squares; [lra|]. rewrite Cmod_pow2. unfold zc. cbn [fst snd]. apply IZR_lt in C2. rewrite !mult_IZR, plus_IZR, !mult_IZR, <- INR_IZR_INZ in C2. lra. }
  assert (Z2 : Cmod (zc (4 * Z.of_nat h, 0)) = (4 * INR h)%R). { unfold zc. cbn [fst snd]. rewrite mult_IZR, <- INR_IZR_INZ. change (4 * INR h, 0)%R with (RtoC (4 * INR h)). rewrite Cmod_R, Rabs_pos_eq by lra. reflexivity. }
  assert (A : (Cmod (zc z + D)%C < 29 / 10 * INR h)%R) by (eapply Rle_lt_trans; [apply Cmod_triangle|]; lra).
  set (x := zc (4 * Z.of_nat h, 0)) in *.
  assert (B : (31 / 10 * INR h <= Cmod (x + D')%C)%R).
  { assert (Cmod x <= Cmod (x + D')%C + Cmod D')%R; [|lra]. replace x with (x + D' + - D')%C at 1 by ring. eapply Rle_trans; [apply Cmod_triangle|]. rewrite Cmod_opp. lra. }
  lra.
Qed.
Lemma turn_found : (Rabs v + 9 / 20 < PI)%R -> (Rabs (offset_turn b sps r - v) <= 9 / 20)%R.
Proof.
  intro Hv. destruct h_pos as [hp P]. pose proof k0_less as Hk. pose proof G_pos as GP. unfold offset_turn. rewrite phase_found. destruct (match_close k0) as (D & BD & ->).
  pose proof (turn_phases b k0 k0 Hk Hk) as C1. cbv zeta in C1. rewrite Nat.eqb_refl in C1. rewrite C1. fold h. assert (h0 : (1 <= INR h)%R) by (apply (le_INR 1); lia).
  assert (G2 : (0 < Cmod G ^ 2)%R) by (apply pow_lt; assumption).
  replace (Cmult (Cmult (RtoC (Cmod G ^ 2)) (unit_at v)) (Cplus (zc (4 * Z.of_nat h, 0)) D)) with (cis v * (RtoC (Cmod G ^ 2 * (4 * INR h)) + RtoC (Cmod G ^ 2) * D))%C.
  - replace (9 / 20)%R with (2 * (9 / 40))%R by lra. apply angle_noise; [apply Rmult_lt_0_compat; lra|lra| |lra].
    rewrite Cmod_mult, Cmod_R, Rabs_pos_eq by lra. replace (9 / 40 * (Cmod G ^ 2 * (4 * INR h)))%R with (Cmod G ^ 2 * (9 / 10 * INR h))%R by field. apply Rmult_le_compat_l; lra.
  - assert (Z : zc (4 * Z.of_nat h, 0) = RtoC (4 * INR h)) by (unfold zc; cbn [fst snd]; rewrite mult_IZR, <- INR_IZR_INZ; reflexivity). rewrite Z, (RtoC_mult (Cmod G ^ 2)). change unit_at with cis. ring.
Qed.
Lemma quarter_found j : (Rabs v + 9 / 20 < PI)%R -> (J + S j < m)%nat ->
  Cmult (chip_pair c (J + j)) (quarter_turn (Cmult (pair_step b sps r j) (unit_at (- offset_turn b sps r)))) = chip_pair c (J + S j).
Proof.
  intros Hv Hj. pose proof (turn_found Hv) as T. set (v' := offset_turn b sps r) in *. destruct (stepped j Hj) as (de & Bd & ->). pose proof G_pos as GP.
  destruct (pair_turn c c (J + j) (J + S j)) as (q & Q & E & E'). rewrite E. rewrite <- E'. f_equal. rewrite (Cmult_comm (RtoC 2)).
  replace (Cmult (Cmult (Cmult (RtoC (Cmod G ^ 2)) (unit_at v)) (Cplus (Cmult q (RtoC 2)) de)) (unit_at (- v'))) with (RtoC (Cmod G ^ 2) * (cis (v - v') * (RtoC 2 * q + de)))%C.
  2:{ change unit_at with cis. unfold Rminus. rewrite cis_add. ring. }
  apply quarter_exact; [assumption|apply pow_lt; assumption|].
  replace (cis (v - v') * (RtoC 2 * q + de) - RtoC 2 * q)%C with (RtoC 2 * (q * (cis (v - v') - RtoC 1)) + cis (v - v') * de)%C by ring.
  eapply Rle_trans; [apply Cmod_triangle|]. rewrite !Cmod_mult, Cmod_cis, Cmod_R, Rabs_pos_eq by lra. pose proof (cis_near (v - v')) as CN. rewrite Rabs_minus_sym in T.
  assert (Q1 : Cmod q = 1%R).
  { assert (CI : Cmod Ci = 1%R) by (unfold Cmod, Ci; cbn [fst snd]; replace (0 ^ 2 + 1 ^ 2)%R with 1%R by ring; apply sqrt_1). destruct Q as [->|[->|[->| ->]]]; rewrite ?Cmod_opp, ?CI, ?Cmod_R; try reflexivity; [apply Rabs_R1|rewrite Rabs_left; lra]. }
  rewrite Q1. lra.
Qed.
Lemma pairs_chain : (Rabs v + 9 / 20 < PI)%R -> forall n j, (J + j + n < m)%nat ->
  pairs_from (chip_pair c (J + j)) (map (fun j => quarter_turn (Cmult (pair_step b sps r j) (unit_at (- offset_turn b sps r)))) (seq j n)) = map (fun i => chip_pair c (J + i)) (seq j (S n)).
Proof.
  intros Hv. induction n as [|n IH]; intros j Hj; [reflexivity|]. cbn [seq map pairs_from]. f_equal. rewrite quarter_found by (assumption || lia). apply IH. lia.
Qed.
Lemma turning_chips : (Rabs v + 9 / 20 < PI)%R -> turned_chips b sps r = skipn (2 * J) c.
Proof.
  intro Hv. pose proof sps0 as Hp. destruct h_pos as [hp P]. destruct H as [L _].
  assert (Lr : (length r / sps = m - J)%nat). { rewrite L, Ls. symmetry. apply (Nat.div_unique _ _ _ (sps - 1)); [lia|]. nia. }
  unfold turned_chips. cbv zeta. rewrite Lr, phase_found. pose proof (preamble_pair 0 ltac:(lia)) as E0. rewrite !Nat.add_0_r in E0. rewrite <- E0. 
  pose proof (pairs_chain Hv (m - J - 1) 0 ltac:(lia)) as C. rewrite Nat.add_0_r in C. rewrite C. clear C. replace (S (m - J - 1)) with (m - J)%nat by lia.
  rewrite (pairs_seq (skipn (2 * J) c) (m - J)) by (rewrite skipn_length; lia). rewrite !flat_map_concat_map, map_map. f_equal. apply map_ext_in. intros j Hj. apply in_seq in Hj. rewrite !nth_skipn.
  assert (PP : forall x, positive (polar x) = x) by (intro x; unfold positive, polar; destruct x, (Rlt_dec _ _); try reflexivity; exfalso; lra).
  unfold chip_pair. cbn [fst snd]. rewrite !PP. f_equal; [f_equal; lia|]. f_equal. f_equal. lia.
Qed.
End acquisition.

(** ** C101 *)
Lemma rate_pos gl p b rm sm sps s a sig f : oq_used p b rm sm sps s -> snd (q_bytesToIQ gl p a s) = Ok (sig, f) -> (0 < f)%R.
Proof.
  intros Hu E. pose proof (C57_frames gl p b rm sm sps s (Octets a) Hu) as H. cbn [oq_send oq_signal] in H. rewrite E in H.
  destruct (snd (q_bytesToChips p a s)) as [[c z]|e] eqn:Ec; [|congruence]. destruct H as (rate & sg & -> & P1 & P2 & Es & _). injection Es as _ ->. apply IZR_lt. nia.
Qed.
(** timing, whatever gain, phase and carrier offset *)
Theorem C101_timing gl p b rm sm sps s a zs sig f g turn e n r : oq_used p b rm sm sps s -> oq_supported b rm sm -> pulse_regular b sps ->
  (match b with Band_915MHz | Band_2450MHz => 3 | _ => 2 end <= sps) -> g <> c0 ->
  holds_octets a zs -> Forall is_octet zs -> 1 <= zlen zs <= 2047 -> snd (q_bytesToIQ gl p a s) = Ok (sig, f) ->
  let m := Z.to_nat sps in heard_turning g turn e n sig r -> timing_clear b m e ->
  (2 * pairs_before m n + period b + 2 <= preamble_bits b * spread_chips (shr_codes b))%nat ->
  envelope_timing b m r = ((m - n mod m) mod m)%nat.
Proof.
  intros Hu Hs Hg Hm Hz Ha Ho Hl E m Hr TC Hn. assert (Hp : 0 < sps) by (destruct b; lia).
  destruct (sent_signal gl p b rm sm sps s a zs sig f Hu Hs Hg Hp Ha Ho Hl E) as (c & z & rate & k & _ & HT & Lc & Ls & N & Hc & Hh). fold m in Ls, N. pose proof (period_pos b) as Pp.
  assert (Hw : (0 < m)%nat) by (unfold m; lia).
  assert (Hm' : (match b with Band_915MHz | Band_2450MHz => 3 | _ => 2 end <= m)%nat) by (unfold m; destruct b; lia).
  assert (Hg' : pulse_regular b (Z.of_nat m)) by (unfold m; rewrite Z2Nat.id by lia; assumption).
  apply (turning_timing b (Tc_of rate) m k c sig HT Hm' Hg' N Hc Lc Ls turn e g n r); try assumption.
  pose proof (next_boundary m n Hw). unfold header_start in Hh. destruct (period_even b) as (h & P & H0 & Ph). nia.
Qed.
Print Assumptions C101_timing.
(** the chips from the next chip pair on: with the carrier off by [df] *)
Theorem C101_chips gl p b rm sm sps s a zs sig f g df e n r : oq_used p b rm sm sps s -> oq_supported b rm sm -> pulse_regular b sps ->
  (match b with Band_915MHz | Band_2450MHz => 3 | _ => 2 end <= sps) -> g <> c0 ->
  holds_octets a zs -> Forall is_octet zs -> 1 <= zlen zs <= 2047 -> snd (q_bytesToIQ gl p a s) = Ok (sig, f) ->
  let m := Z.to_nat sps in let turn := (2 * PI * df / f)%R in heard_turning g turn e n sig r ->
  timing_clear b m e -> (e * pulse_sum b m <= 3 / 20 * gathered b m turn)%R -> (2 * PI * Rabs df * IZR sps / f + 9 / 20 < PI)%R ->
  (2 * pairs_before m n + period b + 2 <= preamble_bits b * spread_chips (shr_codes b))%nat ->
  exists chips z, snd (q_bytesToChips p a s) = Ok (chips, z) /\ offset_chips b m r = skipn (2 * pairs_before m n) chips.
Proof.
  intros Hu Hs Hg Hm Hz Ha Ho Hl E m turn Hr TC Hq Hv Hn. assert (Hp : 0 < sps) by (destruct b; lia). assert (Hw : (0 < m)%nat) by (unfold m; lia).
  pose proof (C101_timing gl p b rm sm sps s a zs sig f g turn e n r Hu Hs Hg Hm Hz Ha Ho Hl E Hr TC Hn) as T. fold m in T.
  destruct (sent_signal gl p b rm sm sps s a zs sig f Hu Hs Hg Hp Ha Ho Hl E) as (c & z & rate & k & Ec & HT & Lc & Ls & N & Hc & Hh). fold m in Ls, N.
  exists c, z. split; [assumption|]. unfold offset_chips. rewrite T. set (t := ((m - n mod m) mod m)%nat) in *.
  assert (Hm' : (match b with Band_915MHz | Band_2450MHz => 3 | _ => 2 end <= m)%nat) by (unfold m; destruct b; lia).
  assert (Hg' : pulse_regular b (Z.of_nat m)) by (unfold m; rewrite Z2Nat.id by lia; assumption).
  pose proof (next_boundary m n Hw) as NB. fold t in NB. set (J := pairs_before m n) in *. destruct (period_even b) as (h & P & H0 & Ph). unfold header_start in Hh.
  assert (HJ : (J + period b / 2 < k)%nat) by lia. assert (Ht : (t <= length r)%nat) by (destruct Hr as [L _]; rewrite L, Ls; nia).
  pose proof (turning_skip g turn e n sig r t Ht Hr) as Hr'. rewrite NB in Hr'.
  pose proof (rate_pos gl p b rm sm sps s a sig f Hu E) as fp.
  assert (V : (Rabs (turn * INR m) = 2 * PI * Rabs df * IZR sps / f)%R).
  { unfold turn, m. rewrite INR_IZR_INZ, Z2Nat.id by lia. replace (2 * PI * df / f * IZR sps)%R with ((2 * PI * IZR sps / f) * df)%R by (field; lra). rewrite Rabs_mult. rewrite Rabs_pos_eq; [field; lra|].
    apply Rmult_le_pos; [|left; now apply Rinv_0_lt_compat]. apply IZR_lt in Hp. pose proof PI_RGT_0. nra. }
  assert (GP : (0 < gathered b m turn)%R).
  { apply gathered_pos; [assumption| |].
    - apply pulse_energy_pos. destruct b; lia.
    - apply Rle_lt_trans with (Rabs (turn * INR m)); [|lra]. rewrite Rabs_mult, (Rabs_pos_eq (INR m)) by apply pos_INR. apply Rmult_le_compat_l; [apply Rabs_pos|]. apply le_INR. lia. }
  apply (turning_chips b (Tc_of rate) m k c sig HT Hm' Hg' N Hc Lc Ls turn e (Cmult (unit_at (turn * INR t)) g) J (skipn t r)); try assumption.
  - apply Cmod_gt_0. rewrite Cmod_mult, unit_size, Rmult_1_l. now apply Cmod_gt_0.
  - lra.
Qed.
Print Assumptions C101_chips.
(** every mode and size: the fields of the header *)
Theorem C101_header gl p b rm sm sps s a zs sig f g df e n r : oq_used p b rm sm sps s -> oq_supported b rm sm -> pulse_regular b sps ->
  (match b with Band_915MHz | Band_2450MHz => 3 | _ => 2 end <= sps) -> g <> c0 ->
  holds_octets a zs -> Forall is_octet zs -> 1 <= zlen zs <= 2047 -> snd (q_bytesToIQ gl p a s) = Ok (sig, f) ->
  let m := Z.to_nat sps in let turn := (2 * PI * df / f)%R in heard_turning g turn e n sig r ->
  timing_clear b m e -> (e * pulse_sum b m <= 3 / 20 * gathered b m turn)%R -> (2 * PI * Rabs df * IZR sps / f + 9 / 20 < PI)%R ->
  (2 * pairs_before m n + period b + 2 <= preamble_bits b * spread_chips (shr_codes b))%nat ->
  offset_mode b m r = Some (sm =? 1, rm, zlen zs).
Proof.
  intros Hu Hs Hg Hm Hz Ha Ho Hl E m turn Hr TC Hq Hv Hn. assert (Hp : 0 < sps) by (destruct b; lia).
  destruct (C101_chips gl p b rm sm sps s a zs sig f g df e n r Hu Hs Hg Hm Hz Ha Ho Hl E Hr TC Hq Hv Hn) as (c & z & Ec & A). fold m in A. unfold offset_mode. rewrite A.
  apply (C93_header p b rm sm sps s a zs c z); try assumption; [reflexivity|fold m; lia|apply clean_sync|apply clean_within].
Qed.
Print Assumptions C101_header.
(** DSSS, at most 7 octets: the payload too *)
Theorem C101_receiver gl p b rm sps s a zs sig f g df e n r : oq_used p b rm 0 sps s -> oq_supported b rm 0 -> pulse_regular b sps ->
  (match b with Band_915MHz | Band_2450MHz => 3 | _ => 2 end <= sps) -> g <> c0 ->
  holds_octets a zs -> Forall is_octet zs -> 1 <= zlen zs <= 7 -> snd (q_bytesToIQ gl p a s) = Ok (sig, f) ->
  let m := Z.to_nat sps in let turn := (2 * PI * df / f)%R in heard_turning g turn e n sig r ->
  timing_clear b m e -> (e * pulse_sum b m <= 3 / 20 * gathered b m turn)%R -> (2 * PI * Rabs df * IZR sps / f + 9 / 20 < PI)%R ->
  (2 * pairs_before m n + period b + 2 <= preamble_bits b * spread_chips (shr_codes b))%nat ->
  offset_receiver b m r = Some {| f_mdsss := false; f_rate_mode := rm; f_octets := zlen zs; f_bits := octet_bits zs |}.
Proof.
  intros Hu Hs Hg Hm Hz Ha Ho Hl E m turn Hr TC Hq Hv Hn. assert (Hp : 0 < sps) by (destruct b; lia).
  destruct (C101_chips gl p b rm 0 sps s a zs sig f g df e n r Hu Hs Hg Hm Hz Ha Ho ltac:(lia) E Hr TC Hq Hv Hn) as (c & z & Ec & A). fold m in A. unfold offset_receiver. rewrite A.
  apply (C93_receiver p b rm sps s a zs c z); try assumption; [reflexivity|fold m; lia|apply clean_sync|apply clean_within|].
  unfold payload_legible. destruct (psdu_codes b rm); [apply clean_within|reflexivity].
Qed.
Print Assumptions C101_receiver.
(** the conditions on the noise hold for every pulse and every such offset, up to some level *)
Lemma ripple_small b sps e d : (0 <= e <= 1)%R -> (ripple b sps e d <= e * ripple b sps 1 d)%R.
Proof.
  intro H. unfold ripple. rewrite <- sum_to_scal. apply sum_to_le. intros k _. rewrite <- Rmult_assoc. apply Rmult_le_compat_r; [apply pow2_ge_0|].
  pose proof (Rabs_pos (pulse b 1 sps ((k + d) mod sps))). assert (0 <= sqrt 2)%R by apply sqrt_pos. nra.
Qed.
Lemma ripple_pos b sps d : (0 <= ripple b sps 1 d)%R.
Proof. apply sum_to_nonneg. intros k _. apply Rmult_le_pos; [|apply pow2_ge_0]. pose proof (Rabs_pos (pulse b 1 sps ((k + d) mod sps))). assert (0 <= sqrt 2)%R by apply sqrt_pos. nra. Qed.
Theorem C101_noise b sps turn : (match b with Band_915MHz | Band_2450MHz => 3 | _ => 2 end <= sps) -> pulse_regular b sps -> (Rabs turn * (IZR sps - 1) < PI)%R ->
  exists e0, (0 < e0)%R /\ forall e, (0 <= e <= e0)%R -> timing_clear b (Z.to_nat sps) e /\ (e * pulse_sum b (Z.to_nat sps) <= 3 / 20 * gathered b (Z.to_nat sps) turn)%R.
Proof.
  intros Hm Hg Hw. assert (Hp : 0 < sps) by (destruct b; lia). set (m := Z.to_nat sps). assert (Em : Z.of_nat m = sps) by (unfold m; lia).
  assert (Hm' : (match b with Band_915MHz | Band_2450MHz => 3 | _ => 2 end <= m)%nat) by (unfold m; destruct b; lia).
  assert (Hg' : pulse_regular b (Z.of_nat m)) by (rewrite Em; assumption).
  assert (GP : (0 < gathered b m turn)%R).
  { apply gathered_pos; [destruct b; lia|apply pulse_energy_pos; destruct b; lia|]. rewrite minus_INR by (destruct b; lia). rewrite INR_IZR_INZ, Em. exact Hw. }
  assert (A : forall k, (k <= m)%nat -> exists e0, (0 < e0 <= 1)%R /\ forall e d, (0 <= e <= e0)%R -> (0 < d < k)%nat -> (ripple b m e 0 + ripple b m e d < 2 * (overlap b m 0 - overlap b m d))%R).
  { induction k as [|k IH]; intro Hk; [exists 1%R; split; [lra|intros; lia]|]. destruct (IH ltac:(lia)) as (e1 & He1 & H1). destruct (Nat.eq_dec k 0) as [->|Nk]; [exists e1; split; [assumption|intros; lia]|].
    pose proof (overlap_less b m k Hm' Hg' ltac:(lia)) as O. pose proof (ripple_pos b m 0) as R0. pose proof (ripple_pos b m k) as R1. set (S := (ripple b m 1 0 + ripple b m 1 k + 1)%R). assert (Sp : (0 < S)%R) by (unfold S; lra).
    set (x := ((overlap b m 0 - overlap b m k) / S)%R). assert (Xp : (0 < x)%R) by (apply Rdiv_lt_0_compat; lra).
    exists (Rmin e1 x). split; [split; [apply Rmin_glb_lt; lra|eapply Rle_trans; [apply Rmin_l|lra]]|]. intros e d He Hd. pose proof (Rmin_l e1 x). pose proof (Rmin_r e1 x).
    destruct (Nat.eq_dec d k) as [->|Nd]; [|apply H1; [lra|lia]]. pose proof (ripple_small b m e 0 ltac:(lra)). pose proof (ripple_small b m e k ltac:(lra)).
    assert (e * S <= overlap b m 0 - overlap b m k)%R. { apply Rle_trans with (x * S)%R; [apply Rmult_le_compat_r; lra|]. apply Req_le. unfold x. field. lra. }
    unfold S in *. nra. }
  destruct (A m (le_n m)) as (e1 & He1 & H1). assert (PS : (0 <= pulse_sum b m)%R) by (apply sum_to_nonneg; intros; apply Rabs_pos).
  set (y := (3 / 20 * gathered b m turn / (pulse_sum b m + 1))%R). assert (Yp : (0 < y)%R) by (apply Rdiv_lt_0_compat; lra).
  exists (Rmin e1 y). split; [apply Rmin_glb_lt; lra|]. intros e He. pose proof (Rmin_l e1 y). pose proof (Rmin_r e1 y). split.
  - intros d Hd. apply H1; [lra|lia].
  - apply Rle_trans with (y * (pulse_sum b m + 1))%R; [apply Rmult_le_compat; lra|]. apply Req_le. unfold y. field. lra.
Qed.
Print Assumptions C101_noise.
Example C101_case gl : exists s sig f e, oq_used Wrapping Band_915MHz 0 0 8 s /\ oq_supported Band_915MHz 0 0 /\ pulse_regular Band_915MHz 8
  /\ snd (q_bytesToIQ gl Wrapping (ABytes [x55; x0f]) s) = Ok (sig, f) /\ (0 < e)%R
  /\ timing_clear Band_915MHz 8 e /\ (e * pulse_sum Band_915MHz 8 <= 3 / 20 * gathered Band_915MHz 8 (2 * PI * (f / 100) / f))%R /\ (2 * PI * Rabs (f / 100) * IZR 8 / f + 9 / 20 < PI)%R
  /\ (2 * pairs_before 8 1000 + period Band_915MHz + 2 <= preamble_bits Band_915MHz * spread_chips (shr_codes Band_915MHz))%nat
  /\ forall r, heard_turning (0, 3)%R (2 * PI * (f / 100) / f) e 1000 sig r ->
     offset_receiver Band_915MHz 8 r = Some {| f_mdsss := false; f_rate_mode := 0; f_octets := 2; f_bits := octet_bits [0x55; 0x0f] |}.
Proof.
  destruct (example_3 gl) as (sig & f & E). pose proof (example_used 0) as U. assert (S : oq_supported Band_915MHz 0 0) by (split; [lia|now left]).
  pose proof (rate_pos gl _ _ _ _ _ _ _ _ _ U E) as fp. pose proof PI_RGT_0 as Pp. pose proof PI2_3_2 as P3.
  assert (W : (2 * PI * (f / 100) / f = PI / 50)%R) by (field; lra).
  assert (V : (2 * PI * Rabs (f / 100) * IZR 8 / f + 9 / 20 < PI)%R). { rewrite Rabs_pos_eq by lra. replace (2 * PI * (f / 100) * 8 / f)%R with (4 / 25 * PI)%R by (field; lra). lra. }
  destruct (C101_noise Band_915MHz 8 (PI / 50) ltac:(lia) I) as (e & He & HE). { rewrite Rabs_pos_eq by lra. lra. }
  destruct (HE e ltac:(lra)) as [TC Hq]. change (Z.to_nat 8) with 8%nat in *.
  exists (example_object 0), sig, f, e. split; [assumption|]. split; [assumption|]. split; [exact I|]. split; [assumption|]. split; [assumption|]. split; [assumption|]. split; [rewrite W; assumption|]. split; [assumption|].
  assert (L : (2 * pairs_before 8 1000 + period Band_915MHz + 2 <= preamble_bits Band_915MHz * spread_chips (shr_codes Band_915MHz))%nat) by (vm_compute; lia). split; [assumption|]. intros r Hr.
  apply (C101_receiver gl Wrapping Band_915MHz 0 8 (example_object 0) (ABytes [x55; x0f]) [0x55; 0x0f] sig f (0, 3)%R (f / 100)%R e 1000 r); try assumption; try lia; try lra; try exact I.
  - intro K. injection K. lra.
  - exact (HO_bytes [x55; x0f]).
  - repeat constructor; unfold is_octet; lia.
  - cbn. lia.
  - change (Z.to_nat 8) with 8%nat. rewrite W. assumption.
Qed.
