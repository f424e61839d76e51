(** * Lemmas about the size of the MR-O-QPSK pulse *)
From Coq Require Import Reals Lra.
From Coquelicot Require Import Complex.
From Verif Require Import Py Tables SWave.
Local Open Scope R_scope.

Lemma cos_4 a : -2 <= a <= 2 -> cos a <= 1 - a ^ 2 / 2 + a ^ 4 / 24.
Proof.
  intros [H1 H2]. destruct (pre_cos_bound a 0 H1 H2) as [_ H]. eapply Rle_trans; [exact H|]. right.
  unfold cos_approx, cos_term. simpl. field.
Qed.
Lemma PI_upper : PI < 34 / 10.
Proof.
  destruct (Rlt_dec PI (34 / 10)) as [H|H]; [exact H|exfalso].
  assert (C : 0 <= cos (17 / 10)) by (apply cos_ge_0; pose proof PI_RGT_0; lra). pose proof (cos_4 (17 / 10) ltac:(lra)). lra.
Qed.
Lemma sin_abs y : Rabs (sin y) <= Rabs y.
Proof.
  assert (S : forall y, 0 <= y -> Rabs (sin y) <= y).
  { clear. intros y Hy. destruct (Rle_dec y 1) as [H|H].
    - destruct Hy as [Hy|<-]; [|rewrite sin_0, Rabs_R0; lra]. pose proof PI2_1. pose proof (sin_lt_x y Hy). assert (0 <= sin y) by (apply sin_ge_0; lra). rewrite Rabs_pos_eq; lra.
    - pose proof (SIN_bound y). apply Rabs_le. lra. }
  destruct (Rle_dec 0 y) as [H|H]; [rewrite (Rabs_pos_eq y H); now apply S|].
  rewrite <- Rabs_Ropp, <- sin_neg, (Rabs_left y) by lra. apply S. lra.
Qed.
(** the numerator of the second factor of the raised cosine against its denominator *)
Lemma cos_quadratic u : Rabs (cos (PI * u / 2)) <= Rabs (1 - u ^ 2).
Proof.
  assert (S : forall u, 0 <= u -> Rabs (cos (PI * u / 2)) <= Rabs (1 - u ^ 2)).
  { clear. intros u H. pose proof PI_upper as Pu. assert (P3 : 3 < PI) by (pose proof PI2_3_2; lra).
    destruct (Rle_dec u 1) as [H1|H1].
    - rewrite (Rabs_pos_eq (1 - u ^ 2)) by nra. rewrite Rabs_pos_eq by (apply cos_ge_0; nra).
      destruct (Rle_dec u (7 / 10)) as [H7|H7].
      + eapply Rle_trans; [apply cos_4; split; nra|]. set (p := PI ^ 2). assert (Hp : 9 <= p <= 12) by (unfold p; nra).
        replace ((PI * u / 2) ^ 2) with (p * u ^ 2 / 4) by (unfold p; field). replace ((PI * u / 2) ^ 4) with (p ^ 2 * u ^ 4 / 16) by (unfold p; field).
        assert (Hu : 0 <= u ^ 2 <= 49 / 100) by nra. replace (u ^ 4) with (u ^ 2 * u ^ 2) by ring. set (q := u ^ 2) in *.
        assert (K : p ^ 2 * q / 384 <= p / 8 - 1).
        { assert (Q : 0 <= (p - 9) * (12 - p)) by (apply Rmult_le_pos; lra). assert (P2 : p ^ 2 <= 21 * p - 108) by nra.
          assert (P4 : 0 <= p ^ 2) by nra. set (r := p ^ 2) in *. assert (r * q <= r * (49 / 100)) by (apply Rmult_le_compat_l; lra). lra. }
        nra.
      + replace (PI * u / 2) with (PI / 2 - PI * (1 - u) / 2) by field. rewrite cos_shift.
        eapply Rle_trans; [apply Rle_abs|]. eapply Rle_trans; [apply sin_abs|]. rewrite Rabs_pos_eq by nra. nra.
    - assert (U : 1 < u) by lra.
      assert (U2 : u ^ 2 = 1 + (u - 1) * 2 + (u - 1) * (u - 1)) by ring. assert (V : 0 <= (u - 1) * (u - 1)) by (apply Rmult_le_pos; lra). rewrite (Rabs_left1 (1 - u ^ 2)) by lra. replace (PI * u / 2) with (PI * (u - 1) / 2 + PI / 2) by field. rewrite cos_plus, cos_PI2, sin_PI2.
      replace (cos (PI * (u - 1) / 2) * 0 - sin (PI * (u - 1) / 2) * 1) with (- sin (PI * (u - 1) / 2)) by ring. rewrite Rabs_Ropp.
      eapply Rle_trans; [apply sin_abs|]. assert (W : 0 <= PI * (u - 1)) by (apply Rmult_le_pos; lra). assert (W2 : PI * (u - 1) <= 34 / 10 * (u - 1)) by (apply Rmult_le_compat_r; lra). rewrite Rabs_pos_eq by lra. lra. }
  destruct (Rle_dec 0 u) as [H|H]; [now apply S|]. replace (PI * u / 2) with (- (PI * (- u) / 2)) by field. rewrite cos_neg.
  replace (u ^ 2) with ((- u) ^ 2) by ring. apply S. lra.
Qed.
Lemma ratio_le a b : Rabs a <= Rabs b -> Rabs (a / b) <= 1.
Proof.
  intro H. destruct (Req_dec b 0) as [->|N].
  - rewrite Rabs_R0 in H. assert (a = 0) as ->. { destruct (Req_dec a 0) as [E|E]; [exact E|]. apply Rabs_pos_lt in E. lra. } unfold Rdiv. rewrite Rmult_0_l, Rabs_R0. lra.
  - unfold Rdiv. rewrite Rabs_mult, Rabs_inv. apply Rabs_pos_lt in N. apply (Rmult_le_reg_r (Rabs b)); [exact N|]. rewrite Rmult_assoc, Rinv_l by lra. lra.
Qed.
Lemma raised_cosine_small Tc t : Rabs (raised_cosine_shape Tc t) <= 1.
Proof.
  unfold raised_cosine_shape. cbv zeta. destruct (Req_EM_T _ _) as [E|N]; [rewrite Rabs_R1; lra|]. set (x := t / Tc) in *.
  assert (A : Rabs (sin (PI * x) / (PI * x)) <= 1) by (apply ratio_le, sin_abs).
  assert (B : Rabs (cos (PI * (8 / 10) * x) / (1 - (2 * (8 / 10) * x) ^ 2)) <= 1).
  { apply ratio_le. replace (PI * (8 / 10) * x) with (PI * (2 * (8 / 10) * x) / 2) by field. apply cos_quadratic. }
  rewrite Rabs_mult. pose proof (Rabs_pos (sin (PI * x) / (PI * x))). pose proof (Rabs_pos (cos (PI * (8 / 10) * x) / (1 - (2 * (8 / 10) * x) ^ 2))). nra.
Qed.
Lemma half_sine_small Tc t : Rabs (half_sine_shape Tc t) <= 1.
Proof.
  unfold half_sine_shape. destruct (Rle_dec _ _); [destruct (Rle_dec _ _)|]; try (rewrite Rabs_R0; lra). apply Rabs_le, SIN_bound.
Qed.
Lemma shape_small b Tc t : Rabs (shape b Tc t) <= 1.
Proof. destruct b; cbn [shape]; first [apply half_sine_small|apply raised_cosine_small]. Qed.
