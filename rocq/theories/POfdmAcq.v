(** * Proofs: estimate of the carrier offset in noise *)
From Coq Require Import Reals Lra.
From Coquelicot Require Import Complex.
From Verif Require Import Py PList MModul MOfdm Tables MMrOfdm MTime SOfdm SMrOfdm STime PTime SMrRx SGap PGap PPower PChannel SCfo PCfo SOfdmAcq.

Local Open Scope C_scope.
Local Notation c0 := (RtoC 0).

(** ** argument of a number close to the positive reals *)
Lemma sin_half x : (0 <= x <= PI / 2)%R -> (x <= 2 * sin x)%R.
Proof.
  intros [H0 H1]. pose proof PI_4 as P4. pose proof PI_RGT_0 as Pp. set (y := (x / 2)%R). assert (Ex : x = (2 * y)%R) by (unfold y; field). assert (Y : (0 <= y <= PI / 4)%R) by lra.
  assert (S : (5 / 6 * y <= sin y)%R).
  { destruct Y as [[Y0|<-] Y1]; [|rewrite sin_0; lra]. pose proof (sin_bound y 0 ltac:(lra) ltac:(lra)) as [B _]. unfold sin_approx, sin_term in B. cbn in B. nra. }
  assert (C : (7 / 10 <= cos y)%R).
  { apply Rle_trans with (cos (PI / 4)); [|apply cos_decr_1; lra]. rewrite cos_PI4. assert (T : (0 < sqrt 2 <= 10 / 7)%R).
    { split; [apply sqrt_lt_R0; lra|]. replace (10 / 7)%R with (sqrt (10 / 7 * (10 / 7))) by (apply sqrt_square; lra). apply sqrt_le_1_alt. lra. }
    assert (sqrt 2 * (1 / sqrt 2) = 1)%R by (field; lra). nra. }
  rewrite Ex, sin_2a. assert (5 / 6 * y * (7 / 10) <= sin y * cos y)%R by (apply Rmult_le_compat; lra). lra.
Qed.
Lemma polar (u : C) rho : (0 <= rho < 1)%R -> (Cmod (u - RtoC 1)%C <= rho)%R -> exists m x : R, (0 < m)%R /\ (Rabs x <= 2 * rho)%R /\ u = RtoC m * cis x.
Proof.
  intros Hr Hu. destruct u as [a b]. assert (Q : ((a - 1) ^ 2 + b ^ 2 <= rho ^ 2)%R).
  { assert (Z : (Cmod ((a, b) - RtoC 1)%C ^ 2 <= rho ^ 2)%R) by (apply pow_incr; split; [apply Cmod_ge_0|assumption]).
    unfold Cmod in Z. rewrite pow2_sqrt in Z by (apply Rplus_le_le_0_compat; apply pow2_ge_0). unfold Cminus, RtoC in Z. cbn [fst snd Cplus Copp] in Z. nra. }
  assert (A : (0 < a)%R) by nra. set (x := atan (b / a)). exists (sqrt (a ^ 2 + b ^ 2)), x.
  assert (M : (0 < sqrt (a ^ 2 + b ^ 2))%R) by (apply sqrt_lt_R0; nra). pose proof (atan_bound (b / a)) as AB. fold x in AB.
  assert (CP : (0 < cos x)%R) by (apply cos_gt_0; lra).
  assert (T : (sin x * a = b * cos x)%R).
  { assert (tan x = b / a)%R by apply tan_atan. unfold tan in H. apply (Rmult_eq_reg_r (/ (cos x * a))); [|apply Rinv_neq_0_compat; nra].
    replace (sin x * a * / (cos x * a))%R with (sin x / cos x)%R by (field; lra). rewrite H. field. lra. }
  pose proof (sin2_cos2 x) as SC. unfold Rsqr in SC. set (m := sqrt (a ^ 2 + b ^ 2)) in *. assert (MM : (m * m = a ^ 2 + b ^ 2)%R) by (unfold m; apply sqrt_sqrt; nra).
  assert (Ca : (m * cos x = a)%R).
  { apply Rsqr_inj; [nra|lra|]. unfold Rsqr. assert (E : (a * a * (cos x * cos x) + b * b * (cos x * cos x) = a * a)%R).
    { replace (b * b * (cos x * cos x))%R with ((b * cos x) * (b * cos x))%R by ring. rewrite <- T. replace (a * a)%R with (a * a * (sin x * sin x + cos x * cos x))%R at 2 by (rewrite SC; ring). ring. }
    nra. }
  assert (Sb : (m * sin x = b)%R) by (apply (Rmult_eq_reg_r a); [|lra]; rewrite Rmult_assoc, T, <- Ca; ring).
  split; [assumption|]. split.
  - assert (SQ : (sin x ^ 2 <= rho ^ 2)%R).
    { rewrite <- Ca, <- Sb in Q. assert (0 <= (m - cos x) ^ 2)%R by apply pow2_ge_0. nra. }
    assert (SA : (Rabs (sin x) <= rho)%R) by (apply Rabs_le; split; nra).
    unfold Rabs in *. destruct (Rcase_abs x) as [L|L].
    + pose proof (sin_half (- x) ltac:(lra)) as J. rewrite sin_neg in J. destruct (Rcase_abs (sin x)); lra.
    + pose proof (sin_half x ltac:(lra)) as J. destruct (Rcase_abs (sin x)); lra.
  - unfold cis, Cmult, RtoC. cbn [fst snd]. f_equal; lra.
Qed.
Lemma angle_noise E x (e : C) rho : (0 < E)%R -> (0 <= rho < 1)%R -> (Cmod e <= rho * E)%R -> (Rabs x + 2 * rho < PI)%R ->
  (Rabs (angle (cis x * (RtoC E + e))%C - x) <= 2 * rho)%R.
Proof.
  intros HE Hr He Hx. assert (EC : RtoC E <> c0) by (intro Z; apply RtoC_inj in Z; lra).
  destruct (polar (RtoC 1 + e / RtoC E) rho Hr) as (m & y & M & Y & U).
  { replace (RtoC 1 + e / RtoC E - RtoC 1) with (e / RtoC E) by ring. unfold Cdiv. rewrite Cmod_mult, Cmod_inv, Cmod_R, Rabs_pos_eq by (assumption || lra).
    apply (Rmult_le_reg_r E); [assumption|]. rewrite Rmult_assoc, Rinv_l, Rmult_1_r by lra. assumption. }
  replace (cis x * (RtoC E + e)) with (RtoC (E * m) * cis (x + y)).
  - rewrite angle_cis; [now replace (x + y - x)%R with y by ring|now apply Rmult_lt_0_compat|]. pose proof (Rabs_triang x y). lra.
  - rewrite RtoC_mult, cis_add. replace (RtoC E + e) with (RtoC E * (RtoC 1 + e / RtoC E)) by (field; assumption). rewrite U. ring.
Qed.

(** ** sums *)
Lemma rsum_ext f g n : (forall i, (i < n)%nat -> f i = g i) -> rsum f n = rsum g n.
Proof. induction n as [|n IH]; intro H; [reflexivity|]. cbn [rsum]. rewrite IH by (intros; apply H; lia). now rewrite H by lia. Qed.
Lemma rsum_le f g n : (forall i, (i < n)%nat -> (f i <= g i)%R) -> (rsum f n <= rsum g n)%R.
Proof. induction n as [|n IH]; intro H; cbn [rsum]; [lra|]. assert (rsum f n <= rsum g n)%R by (apply IH; intros; apply H; lia). specialize (H n ltac:(lia)). lra. Qed.
Lemma rsum_add f n m : rsum f (n + m) = (rsum f n + rsum (fun i => f (n + i)%nat) m)%R.
Proof. induction m as [|m IH]; [rewrite Nat.add_0_r; cbn [rsum]; ring|]. rewrite Nat.add_succ_r. cbn [rsum]. rewrite IH. ring. Qed.
Lemma rsum_scal c f n : rsum (fun i => c * f i)%R n = (c * rsum f n)%R.
Proof. induction n as [|n IH]; cbn [rsum]; [ring|]. rewrite IH. ring. Qed.
Lemma rsum_plus f g n : rsum (fun i => f i + g i)%R n = (rsum f n + rsum g n)%R.
Proof. induction n as [|n IH]; cbn [rsum]; [ring|]. rewrite IH. ring. Qed.
Lemma rsum_const c n : rsum (fun _ => c) n = (INR n * c)%R.
Proof. induction n as [|n IH]; [cbn; ring|]. cbn [rsum]. rewrite IH, S_INR. ring. Qed.
(** k periods of P *)
Lemma rsum_periodic f P k : (forall i, (i + P < k * P)%nat -> f (i + P)%nat = f i) -> rsum f (k * P) = (INR k * rsum f P)%R.
Proof.
  induction k as [|k IH]; intro H; [cbn; ring|]. replace (S k * P)%nat with (k * P + P)%nat by lia. rewrite rsum_add, IH by (intros; apply H; nia). rewrite S_INR.
  rewrite (rsum_ext (fun i => f (k * P + i)%nat) f); [ring|]. intros i Hi. clear IH. induction k as [|k IHk]; [reflexivity|].
  replace (S k * P + i)%nat with (k * P + i + P)%nat by lia. rewrite H by nia. apply IHk. intros j Hj. apply H. nia.
Qed.
Lemma energy_rsum' l : energy l = rsum (fun i => Cmod (nth i l c0) ^ 2)%R (length l).
Proof.
  assert (HS : forall f n, rsum f (S n) = (f 0%nat + rsum (fun i => f (S i)) n)%R).
  { intros f n. change (S n) with (1 + n)%nat. rewrite rsum_add. change (rsum f 1) with (0 + f 0%nat)%R. change (rsum (fun i => f (1 + i)%nat) n) with (rsum (fun i => f (S i)) n). ring. }
  induction l as [|z l IH]; [reflexivity|]. cbn [energy length]. rewrite HS, IH. reflexivity.
Qed.
Lemma Csum_RtoC f n : Csum (fun i => RtoC (f i)) n = RtoC (rsum f n).
Proof. induction n as [|n IH]; cbn [Csum rsum]; [reflexivity|]. now rewrite IH, RtoC_plus. Qed.
(** correlation of two noisy copies of a *)
Lemma noisy_sum (a u v : nat -> C) (e : R) n : (0 <= e)%R -> (forall j, (j < n)%nat -> (Cmod (u j) <= e)%R /\ (Cmod (v j) <= e)%R) ->
  (Cmod (Csum (fun j => (a j + v j) * Cconj (a j + u j)) n - RtoC (rsum (fun j => Cmod (a j) ^ 2)%R n))%C <= rsum (fun j => 2 * e * Cmod (a j) + e ^ 2)%R n)%R.
Proof.
  intros He H. induction n as [|n IH]; [cbn [Csum rsum]; replace (c0 - c0) with c0 by ring; rewrite Cmod_0; lra|].
  cbn [Csum rsum]. rewrite RtoC_plus. specialize (IH ltac:(intros; apply H; lia)). destruct (H n ltac:(lia)) as [U V].
  match goal with |- (Cmod (?A + ?B - (?D + ?F))%C <= _)%R => replace (A + B - (D + F)) with ((A - D) + (B - F)) by ring end.
  eapply Rle_trans; [apply Cmod_triangle|]. apply Rplus_le_compat; [exact IH|]. rewrite Cmod_sq.
  assert (CM : forall z, Cmod (Cconj z) = Cmod z) by (intro z; unfold Cmod, Cconj; cbn [fst snd]; now replace ((- snd z) ^ 2)%R with (snd z ^ 2)%R by ring).
  assert (CC : Cconj (a n + u n) = Cconj (a n) + Cconj (u n)) by (apply injective_projections; cbn; ring). rewrite CC.
  replace ((a n + v n) * (Cconj (a n) + Cconj (u n)) - a n * Cconj (a n)) with (v n * Cconj (a n) + a n * Cconj (u n) + v n * Cconj (u n)) by ring.
  eapply Rle_trans; [apply Cmod_triangle|]. eapply Rle_trans; [apply Rplus_le_compat_r, Cmod_triangle|]. rewrite !Cmod_mult, !CM.
  pose proof (Cmod_ge_0 (a n)). pose proof (Cmod_ge_0 (u n)). pose proof (Cmod_ge_0 (v n)). set (x := Cmod (a n)) in *. set (y := Cmod (u n)) in *. set (z := Cmod (v n)) in *. nra.
Qed.
