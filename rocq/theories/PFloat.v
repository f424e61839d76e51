(** * np.arange in binary64: the model's SpecFloat computation against rounding over the reals *)
From Coq Require Import ZArith Reals Lra Lia SpecFloat.
From Flocq Require Import Core IEEE754.BinarySingleNaN.
From Flocq Require Relative.
From Verif Require Import Py MFsk SFloat.
Local Open Scope R_scope.

Lemma Hp53 : FLX.Prec_gt_0 53. Proof. unfold FLX.Prec_gt_0. lia. Qed.
Lemma Hm1024 : Prec_lt_emax 53 1024. Proof. unfold Prec_lt_emax. lia. Qed.
Notation bf := (binary_float 53 1024).
Definition bmul (x y : bf) : bf := @Bmult 53 1024 Hp53 Hm1024 mode_NE x y.
Definition bdiv (x y : bf) : bf := @Bdiv 53 1024 Hp53 Hm1024 mode_NE x y.
Definition bofz (z : Z) : bf := binary_normalize 53 1024 Hp53 Hm1024 mode_NE z 0 false.

Lemma round_ne_eq s m l : round_nearest_even m l = choice_mode mode_NE s m l.
Proof. destruct l as [|c]; [reflexivity|]. destruct c; try reflexivity. cbn. unfold Round.cond_incr. now destruct (Z.even m). Qed.
Lemma round_aux_eq sx mx ex lx : SpecFloat.binary_round_aux 53 1024 sx mx ex lx = binary_round_aux 53 1024 mode_NE sx mx ex lx.
Proof.
  unfold SpecFloat.binary_round_aux, binary_round_aux. destruct (shr_fexp _ _ _ _ _) as [mrs e]. cbn. now rewrite (round_ne_eq sx).
Qed.
Lemma bmul_sf x y : SFmul 53 1024 (B2SF x) (B2SF y) = B2SF (bmul x y).
Proof.
  destruct x as [sx|sx| |sx mx ex Bx], y as [sy|sy| |sy my ey By]; try reflexivity. cbn -[SpecFloat.binary_round_aux binary_round_aux Pos.mul Z.add].
  rewrite B2SF_SF2B. apply round_aux_eq.
Qed.
Lemma bdiv_sf x y : SFdiv 53 1024 (B2SF x) (B2SF y) = B2SF (bdiv x y).
Proof.
  destruct x as [sx|sx| |sx mx ex Bx], y as [sy|sy| |sy my ey By]; try reflexivity. unfold bdiv. cbn -[SpecFloat.binary_round_aux binary_round_aux SFdiv_core_binary].
  rewrite B2SF_SF2B. destruct (SFdiv_core_binary _ _ _ _ _ _) as [[mz ez] lz]. apply round_aux_eq.
Qed.
Lemma bofz_sf z : sf_of_Z z = B2SF (bofz z).
Proof.
  unfold sf_of_Z, bofz. destruct z as [|p|p]; [reflexivity| |]; cbn -[SpecFloat.binary_round binary_round]; rewrite B2SF_SF2B;
  unfold SpecFloat.binary_round, binary_round, shl_align_fexp; destruct (shl_align _ _ _); apply round_aux_eq.
Qed.
Lemma fexp_eq : SpecFloat.fexp 53 1024 = FLT_exp (-1074) 53.
Proof. reflexivity. Qed.
Lemma rnd_eq x : round radix2 (SpecFloat.fexp 53 1024) (round_mode mode_NE) x = rnd x.
Proof. reflexivity. Qed.
Local Instance v_exp : Valid_exp (FLT_exp (-1074) 53) := @FLT_exp_valid (-1074) 53 Hp53.
Lemma format_dyadic m e : (Z.abs m <= 2 ^ 53)%Z -> (-1074 <= e)%Z -> generic_format radix2 (FLT_exp (-1074) 53) (IZR m * bpow radix2 e).
Proof.
  intros Hm He. destruct (Z.eq_dec (Z.abs m) (2 ^ 53)) as [E|E].
  - assert (G : generic_format radix2 (FLT_exp (-1074) 53) (bpow radix2 (53 + e))).
    { apply generic_format_bpow. unfold FLT_exp. lia. }
    destruct (Z.abs_spec m) as [[_ Q]|[_ Q]].
    + replace (IZR m * bpow radix2 e) with (bpow radix2 (53 + e)); [exact G|]. rewrite bpow_plus. f_equal. replace m with (2 ^ 53)%Z by lia. reflexivity.
    + replace (IZR m * bpow radix2 e) with (- bpow radix2 (53 + e)); [now apply generic_format_opp|]. rewrite bpow_plus. replace m with (- 2 ^ 53)%Z by lia. rewrite opp_IZR.
      change (bpow radix2 53) with (IZR (2 ^ 53)). ring.
  - apply generic_format_FLT. exists (Float radix2 m e); [reflexivity|cbn [Fnum]; change (Zpower radix2 53) with (2 ^ 53)%Z; lia|exact He].
Qed.
Lemma rnd_format x : generic_format radix2 (FLT_exp (-1074) 53) x -> rnd x = x.
Proof. intro H. unfold rnd. apply round_generic; [apply valid_rnd_N|exact H]. Qed.
Lemma rnd_Z z : (Z.abs z <= 2 ^ 53)%Z -> rnd (IZR z) = IZR z.
Proof. intro H. apply rnd_format. rewrite <- (Rmult_1_r (IZR z)). apply (format_dyadic z 0); lia. Qed.
Lemma rnd_le x y : x <= y -> rnd x <= rnd y.
Proof. intro H. unfold rnd. apply round_le; [apply v_exp|apply valid_rnd_N|exact H]. Qed.
Lemma rnd_ge_0 x : 0 <= x -> 0 <= rnd x.
Proof. intro H. rewrite <- (rnd_Z 0) by (cbn; lia). now apply rnd_le. Qed.
Lemma bofz_val z : (Z.abs z <= 2 ^ 53)%Z -> B2R (bofz z) = IZR z /\ is_finite (bofz z) = true.
Proof.
  intro H. pose proof (binary_normalize_correct 53 1024 Hp53 Hm1024 mode_NE z 0 false) as C. cbv zeta in C. rewrite rnd_eq in C.
  assert (F : F2R (Float radix2 z 0) = IZR z) by (unfold F2R; cbn; ring). rewrite F, rnd_Z in C by exact H.
  rewrite Rlt_bool_true in C; [destruct C as (A & B & _); now split|]. rewrite <- abs_IZR.
  apply Rle_lt_trans with (IZR (2 ^ 53)); [now apply IZR_le|]. change (IZR (2 ^ 53)) with (bpow radix2 53). apply bpow_lt. lia.
Qed.
Lemma big : bpow radix2 60 < bpow radix2 1024. Proof. apply bpow_lt. lia. Qed.
Lemma bmul_val x y : is_finite x = true -> is_finite y = true -> Rabs (rnd (B2R x * B2R y)) <= bpow radix2 60 ->
  B2R (bmul x y) = rnd (B2R x * B2R y) /\ is_finite (bmul x y) = true.
Proof.
  intros Fx Fy H. pose proof (@Bmult_correct 53 1024 Hp53 Hm1024 mode_NE x y) as C. rewrite rnd_eq in C.
  rewrite Rlt_bool_true in C by (eapply Rle_lt_trans; [exact H|apply big]). destruct C as (A & B & _). split; [exact A|]. unfold bmul. now rewrite B, Fx, Fy.
Qed.
Lemma bdiv_val x y : is_finite x = true -> B2R y <> 0 -> Rabs (rnd (B2R x / B2R y)) <= bpow radix2 60 ->
  B2R (bdiv x y) = rnd (B2R x / B2R y) /\ is_finite (bdiv x y) = true.
Proof.
  intros Fx Hy H. pose proof (@Bdiv_correct 53 1024 Hp53 Hm1024 mode_NE x y Hy) as C. rewrite rnd_eq in C.
  rewrite Rlt_bool_true in C by (eapply Rle_lt_trans; [exact H|apply big]). destruct C as (A & B & _). split; [exact A|]. unfold bdiv. now rewrite B.
Qed.

(** values in the normal range keep a relative error of 2^-53 *)
Lemma rnd_rel x : bpow radix2 (-1000) <= x -> exists e, Rabs e <= bpow radix2 (-53) /\ rnd x = x * (1 + e).
Proof.
  intro H. assert (P : 0 < x) by (eapply Rlt_le_trans; [apply bpow_gt_0|exact H]).
  destruct (Relative.relative_error_N_FLT_ex radix2 (-1074) 53 Hp53 (fun z => negb (Z.even z)) x) as (e & He & E).
  { rewrite Rabs_pos_eq by lra. eapply Rle_trans; [|exact H]. apply bpow_le. lia. }
  exists e. split; [|exact E]. eapply Rle_trans; [exact He|]. replace (/ 2) with (bpow radix2 (-1)) by (cbn; lra).
  rewrite <- bpow_plus. apply bpow_le. lia.
Qed.
Lemma b53 : bpow radix2 53 = IZR (2 ^ 53). Proof. reflexivity. Qed.
Lemma rnd_bpow e : (-1074 <= e)%Z -> rnd (bpow radix2 e) = bpow radix2 e.
Proof. intro H. rewrite <- (Rmult_1_l (bpow radix2 e)). apply rnd_format. apply (format_dyadic 1 e); [cbn; lia|exact H]. Qed.

Section Step.
Variables rate n : Z.
Hypothesis Hr : (1 <= rate <= 2 ^ 53)%Z.
Hypothesis Hn : (1 <= n <= 2 ^ 51)%Z.
Let fr := IZR rate. Let r1 := rnd (1 / IZR rate). Let d := time_step rate. Let t := rnd (d * IZR n).
Lemma fr_bounds : 1 <= fr <= bpow radix2 53.
Proof. unfold fr. rewrite b53. split; [apply (IZR_le 1)|apply IZR_le]; lia. Qed.
Lemma r1_bounds : bpow radix2 (-53) <= r1 <= 1.
Proof.
  pose proof fr_bounds as [A B]. unfold r1. fold fr. split.
  - rewrite <- (rnd_bpow (-53)) by lia. apply rnd_le. change (bpow radix2 (-53)) with (bpow radix2 (- (53))). rewrite (bpow_opp radix2 53). unfold Rdiv. rewrite Rmult_1_l. apply Rinv_le; lra.
  - rewrite <- (rnd_Z 1) at 2 by (cbn; lia). apply rnd_le. unfold Rdiv. rewrite Rmult_1_l. rewrite <- Rinv_1. apply Rinv_le; lra.
Qed.
Lemma d_bounds : bpow radix2 (-58) <= d <= 1.
Proof.
  pose proof r1_bounds as [A B]. unfold d, time_step. fold r1. split.
  - rewrite <- (rnd_bpow (-58)) by lia. apply rnd_le. change (-58)%Z with (-53 + -5)%Z. rewrite bpow_plus.
    pose proof (bpow_gt_0 radix2 (-53)). replace (bpow radix2 (-5)) with (/ 32) by (cbn; lra). lra.
  - rewrite <- (rnd_Z 1) by (cbn; lia). apply rnd_le. pose proof (bpow_gt_0 radix2 (-53)). lra.
Qed.
Lemma n_bounds : 1 <= IZR n <= bpow radix2 51.
Proof. change (bpow radix2 51) with (IZR (2 ^ 51)). split; [apply (IZR_le 1)|apply IZR_le]; lia. Qed.
Lemma t_rel : exists e, Rabs e <= bpow radix2 (-53) /\ t = d * IZR n * (1 + e).
Proof.
  pose proof d_bounds as [A B]. pose proof n_bounds as [C D]. pose proof (bpow_gt_0 radix2 (-58)). apply rnd_rel.
  apply Rle_trans with (bpow radix2 (-58)); [apply bpow_le; lia|]. nra.
Qed.
Lemma quot_bounds : IZR n - / 2 <= t / d <= IZR n + / 2.
Proof.
  pose proof d_bounds as [A B]. pose proof n_bounds as [C D]. pose proof (bpow_gt_0 radix2 (-58)). destruct t_rel as (e & He & ->).
  replace (d * IZR n * (1 + e) / d) with (IZR n + IZR n * e) by (field; lra).
  assert (K : Rabs (IZR n * e) <= / 2).
  { rewrite Rabs_mult, (Rabs_pos_eq (IZR n)) by lra. apply Rle_trans with (bpow radix2 51 * bpow radix2 (-53)).
    - apply Rmult_le_compat; [lra|apply Rabs_pos|exact D|exact He].
    - rewrite <- bpow_plus. cbn. lra. }
  apply Rabs_le_inv in K. lra.
Qed.
Lemma half_format z : (Z.abs z <= 2 ^ 53)%Z -> rnd (IZR z * / 2) = IZR z * / 2.
Proof. intro H. apply rnd_format. replace (/ 2) with (bpow radix2 (-1)) by (cbn; lra). apply format_dyadic; lia. Qed.
Lemma wanted_bounds : IZR n - / 2 <= points_wanted rate n <= IZR n + / 2.
Proof.
  pose proof quot_bounds as [A B]. unfold points_wanted. fold d. fold t. split.
  - replace (IZR n - / 2) with (IZR (2 * n - 1) * / 2) by (rewrite minus_IZR, mult_IZR; lra).
    rewrite <- half_format by lia. apply rnd_le. rewrite minus_IZR, mult_IZR. lra.
  - replace (IZR n + / 2) with (IZR (2 * n + 1) * / 2) by (rewrite plus_IZR, mult_IZR; lra).
    rewrite <- half_format by lia. apply rnd_le. rewrite plus_IZR, mult_IZR. lra.
Qed.
Lemma wanted_below : rnd (d * IZR n) <= d * IZR n -> points_wanted rate n <= IZR n.
Proof.
  intro H. pose proof d_bounds as [A _]. pose proof (bpow_gt_0 radix2 (-58)). unfold points_wanted. fold d.
  rewrite <- (rnd_Z n) at 2 by lia. apply rnd_le. apply Rmult_le_reg_r with d; [lra|]. unfold Rdiv. rewrite Rmult_assoc, Rinv_l by lra. lra.
Qed.
Lemma big_le x : 0 <= x <= bpow radix2 60 -> Rabs x <= bpow radix2 60.
Proof. intros [A B]. now rewrite Rabs_pos_eq. Qed.
Definition b_dt : bf := bdiv (bdiv (bofz 1) (bofz rate)) (bofz 20).
Definition b_q : bf := bdiv (bmul b_dt (bofz n)) b_dt.
Lemma one_60 : 1 <= bpow radix2 60. Proof. apply (bpow_le radix2 0 60). lia. Qed.
Lemma b_dt_val : B2R b_dt = d /\ is_finite b_dt = true.
Proof.
  destruct (bofz_val 1 ltac:(lia)) as [V1 F1]. destruct (bofz_val rate ltac:(lia)) as [V2 F2]. destruct (bofz_val 20 ltac:(lia)) as [V3 F3].
  pose proof r1_bounds as Q1. pose proof d_bounds as Q2. pose proof (bpow_gt_0 radix2 (-53)). pose proof (bpow_gt_0 radix2 (-58)). pose proof one_60. pose proof fr_bounds as Q3.
  destruct (bdiv_val (bofz 1) (bofz rate) F1) as [V4 F4].
  { rewrite V2. fold fr. lra. }
  { rewrite V1, V2. fold r1. apply big_le. lra. }
  rewrite V1, V2 in V4. fold r1 in V4. unfold b_dt.
  destruct (bdiv_val (bdiv (bofz 1) (bofz rate)) (bofz 20) F4) as [V5 F5].
  { rewrite V3. lra. }
  { rewrite V4, V3. change (rnd (r1 / 20)) with d. apply big_le. lra. }
  rewrite V4, V3 in V5. now split.
Qed.
Lemma b_q_val : B2R b_q = points_wanted rate n /\ is_finite b_q = true.
Proof.
  destruct b_dt_val as [V F]. destruct (bofz_val n ltac:(lia)) as [Vn Fn].
  pose proof d_bounds as Q. pose proof n_bounds as Qn. pose proof (bpow_gt_0 radix2 (-58)). pose proof one_60.
  assert (B51 : bpow radix2 51 <= bpow radix2 60) by (apply bpow_le; lia).
  assert (B59 : bpow radix2 51 + 1 <= bpow radix2 60).
  { apply Rle_trans with (bpow radix2 51 + bpow radix2 51); [pose proof (bpow_le radix2 0 51 ltac:(lia)) as K; cbn [bpow] in K; lra|].
    replace (bpow radix2 51 + bpow radix2 51) with (bpow radix2 51 * bpow radix2 1) by (change (bpow radix2 1) with 2; lra). rewrite <- bpow_plus. apply bpow_le. lia. }
  destruct (bmul_val b_dt (bofz n) F Fn) as [V1 F1].
  { rewrite V, Vn. apply big_le. split; [apply rnd_ge_0|]. 1: nra.
    apply Rle_trans with (rnd (bpow radix2 51)); [apply rnd_le; nra|rewrite rnd_bpow by lia; exact B51]. }
  rewrite V, Vn in V1. unfold b_q. destruct (bdiv_val (bmul b_dt (bofz n)) b_dt F1) as [V2 F2].
  { rewrite V. lra. }
  { rewrite V1, V. pose proof wanted_bounds as W. unfold points_wanted in W. fold d in W. apply big_le. lra. }
  rewrite V1, V in V2. now split.
Qed.
End Step.

Lemma ceil_div_Zceil v e : (0 < e)%Z -> ceil_div v (2 ^ e) = Zceil (IZR v * bpow radix2 (- e)).
Proof.
  intro He. assert (P : (0 < 2 ^ e)%Z) by (apply Z.pow_pos_nonneg; lia).
  assert (B : bpow radix2 (- e) = / IZR (2 ^ e)) by (rewrite bpow_opp, <- IZR_Zpower by lia; reflexivity).
  unfold ceil_div, Zceil. rewrite B. f_equal. rewrite Ropp_mult_distr_l, <- opp_IZR.
  change (IZR (- v) * / IZR (2 ^ e)) with (IZR (- v) / IZR (2 ^ e)). symmetry. apply Zfloor_div. lia.
Qed.
Lemma sf_ceil_val (q : bf) : is_finite q = true -> sf_ceil (B2SF q) = Some (Zceil (B2R q)).
Proof.
  destruct q as [s|s| |s m e B]; intro F; try discriminate F.
  - cbn. now rewrite Zceil_IZR.
  - cbn [B2SF sf_ceil B2R]. f_equal. unfold F2R. cbn [Fnum Fexp].
    assert (K : cond_Zopp s (Z.pos m) = if s then Z.neg m else Z.pos m) by now destruct s. rewrite K. set (v := if s then Z.neg m else Z.pos m).
    destruct (Z.leb_spec 0 e) as [H|H].
    + rewrite <- (IZR_Zpower radix2) by exact H. rewrite <- mult_IZR, Zceil_IZR. reflexivity.
    + rewrite ceil_div_Zceil by lia. now rewrite Z.opp_involutive.
Qed.
Theorem arange_points rate n : (1 <= rate <= 2 ^ 53)%Z -> (1 <= n <= 2 ^ 51)%Z ->
  arange_size rate 20 n = Some (if Rle_dec (points_wanted rate n) (IZR n) then n else (n + 1)%Z).
Proof.
  intros Hr Hn. unfold arange_size, k_dt. rewrite !bofz_sf, !bdiv_sf. fold (b_dt rate). rewrite bmul_sf, bdiv_sf. fold (b_q rate n).
  destruct (b_q_val rate n Hr Hn) as [V F]. rewrite sf_ceil_val, V by exact F. f_equal. pose proof (wanted_bounds rate n Hr Hn) as W.
  destruct (Rle_dec _ _) as [L|L]; apply Zceil_imp; rewrite ?minus_IZR, ?plus_IZR; lra.
Qed.

(** symbol rates that are powers of two: 1 / (20 rate) is rounded up by the relative error 2^-54 exactly *)
Lemma step_pow2 j : (0 <= j <= 53)%Z -> time_step (2 ^ j) = IZR 7205759403792794 * bpow radix2 (-57 - j).
Proof.
  intro Hj. unfold time_step.
  assert (E : 1 / IZR (2 ^ j) = bpow radix2 (- j)).
  { rewrite bpow_opp, <- IZR_Zpower by lia. unfold Rdiv. now rewrite Rmult_1_l. }
  rewrite E, rnd_bpow by lia. set (x := bpow radix2 (- j) / 20).
  assert (P : 0 < bpow radix2 (-57 - j)) by apply bpow_gt_0.
  assert (S : forall k, bpow radix2 (k - j) = bpow radix2 (k + 57) * bpow radix2 (-57 - j)) by (intro k; rewrite <- bpow_plus; f_equal; lia).
  assert (X : x = IZR (2 ^ 57) / 20 * bpow radix2 (-57 - j)).
  { unfold x. replace (- j)%Z with (0 - j)%Z by lia. rewrite (S 0%Z). change (bpow radix2 (0 + 57)) with (IZR (2 ^ 57)). field. }
  assert (M : mag radix2 x = (-4 - j)%Z :> Z).
  { apply mag_unique_pos. rewrite X. replace (-4 - j - 1)%Z with (-5 - j)%Z by lia. rewrite (S (-5)%Z), (S (-4)%Z).
    change (bpow radix2 (-5 + 57)) with (IZR (2 ^ 52)). change (bpow radix2 (-4 + 57)) with (IZR (2 ^ 53)). 
    split; [apply Rmult_le_compat_r|apply Rmult_lt_compat_r]; try lra; change (2 ^ 57)%Z with 144115188075855872%Z; change (2 ^ 52)%Z with 4503599627370496%Z; change (2 ^ 53)%Z with 9007199254740992%Z; lra. }
  unfold rnd, round, scaled_mantissa, cexp. rewrite M. unfold FLT_exp.
  replace (Z.max (-4 - j - 53) (-1074)) with (-57 - j)%Z by lia. unfold F2R. cbn [Fnum Fexp]. f_equal. f_equal.
  apply Znearest_imp. rewrite X, Rmult_assoc, <- bpow_plus. replace (-57 - j + - (-57 - j))%Z with 0%Z by lia. cbn [bpow].
  change (2 ^ 57)%Z with 144115188075855872%Z. rewrite Rabs_left; lra.
Qed.
Lemma pow2_fits j k : (0 <= j <= 53)%Z -> (1 <= k <= 2 ^ 46)%Z -> points_wanted (2 ^ j) (20 * k) <= IZR (20 * k).
Proof.
  intros Hj Hk. apply wanted_below; [split; [|apply Z.pow_le_mono_r; lia]|lia|].
  { pose proof (Z.pow_pos_nonneg 2 j). lia. }
  rewrite step_pow2 by exact Hj.
  set (g := IZR k * bpow radix2 (- j)).
  assert (P : 0 < bpow radix2 (- j)) by apply bpow_gt_0.
  assert (K : 1 <= IZR k) by (apply (IZR_le 1); lia).
  assert (G : 0 < g) by (unfold g; apply Rmult_lt_0_compat; lra).
  assert (F : generic_format radix2 (FLT_exp (-1074) 53) g) by (apply format_dyadic; lia).
  assert (Y : IZR 7205759403792794 * bpow radix2 (-57 - j) * IZR (20 * k) = g + g * bpow radix2 (-54)).
  { unfold g. replace (-57 - j)%Z with (-57 + - j)%Z by lia. rewrite bpow_plus, mult_IZR.
    change (bpow radix2 (-54)) with (/ IZR (2 ^ 54)). change (bpow radix2 (-57)) with (/ IZR (2 ^ 57)).
    change (2 ^ 57)%Z with 144115188075855872%Z. change (2 ^ 54)%Z with 18014398509481984%Z. field. }
  rewrite Y. apply Rle_trans with g; [|pose proof (bpow_gt_0 radix2 (-54)); nra].
  unfold rnd. apply (@round_N_le_midp radix2 (FLT_exp (-1074) 53) v_exp); [exact F|].
  rewrite succ_eq_pos by lra. 
  assert (U : g * bpow radix2 (-53) < ulp radix2 (FLT_exp (-1074) 53) g).
  { rewrite ulp_neq_0 by lra. unfold cexp, FLT_exp. apply Rlt_le_trans with (bpow radix2 (mag radix2 g - 53)); [|apply bpow_le; lia].
    unfold Z.sub. rewrite bpow_plus. apply Rmult_lt_compat_r; [apply bpow_gt_0|].
    destruct (mag radix2 g) as [e He]. cbn. specialize (He ltac:(lra)). rewrite Rabs_pos_eq in He by lra. apply He. }
  replace (bpow radix2 (-53)) with (2 * bpow radix2 (-54)) in U by (change 2 with (bpow radix2 1); rewrite <- bpow_plus; f_equal). lra.
Qed.
