(** * Proofs: DFT of a symbol received through a multipath channel, and of an error signal *)
From Coq Require Import Reals Lra.
From Coquelicot Require Import Complex.
From Verif Require Import Py PList MModul MOfdm Tables MMrOfdm MTime SOfdm SMrOfdm STime PTime SMrRx SGap PGap.

Local Open Scope C_scope.
Local Notation c0 := (RtoC 0).

Lemma Csum_head (g : nat -> C) m : Csum g (S m) = g 0%nat + Csum (fun j => g (S j)) m.
Proof. induction m as [|m IH]; [cbn [Csum]; ring|]. change (Csum g (S (S m))) with (Csum g (S m) + g (S m)). rewrite IH. cbn [Csum]. ring. Qed.
Lemma Csum_rotate1 (g : nat -> C) N : (0 < N)%nat -> Csum (fun j => g ((j + 1) mod N)%nat) N = Csum g N.
Proof.
  intro HN. destruct N as [|m]; [lia|]. rewrite (Csum_head g m). cbn [Csum]. rewrite Nat.add_1_r, Nat.mod_same by lia.
  rewrite (Csum_ext _ (fun j => g (S j))); [ring|]. intros j Hj. f_equal. rewrite Nat.mod_small; lia.
Qed.
Lemma Csum_rotate a : forall (g : nat -> C) N, (0 < N)%nat -> Csum (fun j => g ((j + a) mod N)%nat) N = Csum g N.
Proof.
  induction a as [|a IH]; intros g N HN.
  - apply Csum_ext. intros j Hj. f_equal. rewrite Nat.add_0_r. now apply Nat.mod_small.
  - rewrite <- (IH g N HN). rewrite <- (Csum_rotate1 (fun j => g ((j + a) mod N)%nat) N HN). apply Csum_ext. intros j Hj. f_equal.
    rewrite Nat.add_mod_idemp_l by lia. f_equal. lia.
Qed.
Lemma cis_shift (f z : Z) (N : nat) x : (0 < N)%nat -> cis (- (2 * PI * (IZR f * (x + IZR z * INR N) / INR N))) = cis (- (2 * PI * (IZR f * x / INR N))).
Proof.
  intro HN. assert (INR N <> 0)%R by (apply not_0_INR; lia).
  replace (- (2 * PI * (IZR f * (x + IZR z * INR N) / INR N)))%R with (- (2 * PI * (IZR f * x / INR N)) + 2 * PI * IZR (- (f * z)))%R.
  - rewrite cis_add, cis_2PI_Z. ring.
  - rewrite opp_IZR, mult_IZR. field. assumption.
Qed.
(** DFT of a delayed periodic sequence *)
Lemma delayed_sum (b : nat -> C) (N l : nat) f : (0 < N)%nat -> (l <= N)%nat ->
  Csum (fun j => b ((j + (N - l)) mod N)%nat * cis (- (2 * PI * (IZR f * INR j / INR N)))) N
  = cis (- (2 * PI * (IZR f * INR l / INR N))) * Csum (fun j => b j * cis (- (2 * PI * (IZR f * INR j / INR N)))) N.
Proof.
  intros HN Hl. rewrite <- (Csum_rotate (N - l) (fun j => b j * cis (- (2 * PI * (IZR f * INR j / INR N)))) N HN), <- Csum_scal.
  apply Csum_ext. intros j Hj. set (r := ((j + (N - l)) mod N)%nat). rewrite Cmult_assoc, (Cmult_comm (cis _) (b r)), <- Cmult_assoc, <- cis_add. f_equal.
  pose proof (Nat.div_mod (j + (N - l)) N ltac:(lia)) as D. fold r in D. set (d := ((j + (N - l)) / N)%nat) in *.
  assert (E : INR j = (INR l + INR r + IZR (Z.of_nat d - 1) * INR N)%R).
  { rewrite !INR_IZR_INZ, <- mult_IZR, <- !plus_IZR. f_equal. lia. }
  rewrite E. rewrite cis_shift by assumption. f_equal. assert (INR N <> 0)%R by (apply not_0_INR; lia). field. assumption.
Qed.
(** [s] around position W repeats the symbol b: window of N samples and the L samples before *)
Theorem window_through h s b W N L f : (0 < N)%nat -> length b = N -> (length h <= S L)%nat -> (L <= W)%nat -> (L <= N)%nat -> (W + N <= length s)%nat ->
  (forall i, (i < L + N)%nat -> nth (W - L + i) s c0 = nth ((i + (N - L)) mod N) b c0) ->
  analyse (firstn N (skipn W (through h s))) f = response (Z.of_nat N) h f * analyse b f.
Proof.
  intros HN Lb Hh HW HL Hs Hper.
  assert (Lt : length (through h s) = length s) by (unfold through; now rewrite map_length, seq_length).
  assert (Lw : length (firstn N (skipn W (through h s))) = N) by (rewrite firstn_length, skipn_length, Lt; lia).
  rewrite !analyse_eq, Lw, Lb. set (k := (/ RtoC (sqrt (INR N)))%C). set (rs := response _ _ _). match goal with |- _ = rs * (k * ?A) => replace (rs * (k * A)) with (k * (rs * A)) by ring end. f_equal. unfold rs.
  unfold response. change csum with Csum.
  rewrite (Csum_ext _ (fun j => Csum (fun l => nth l h c0 * (nth ((j + (N - l)) mod N) b c0 * cis (- (2 * PI * (IZR f * INR j / INR N))))) (length h))).
  2:{ intros j Hj. rewrite nth_firstn, nth_skipn by lia. unfold through. rewrite nth_map_seq by lia. change csum with Csum.
      rewrite (Cmult_comm (Csum _ _)), <- Csum_scal. apply Csum_ext. intros l Hl. destruct (Nat.leb_spec l (W + j)); [|lia].
      replace (W + j - l)%nat with (W - L + (j + L - l))%nat by lia. rewrite Hper by lia.
      replace (j + L - l + (N - L))%nat with (j + (N - l))%nat by lia. ring. }
  rewrite Csum_swap. rewrite (Cmult_comm (Csum _ (length h))), <- Csum_scal. apply Csum_ext. intros l Hl. rewrite Csum_scal.
  rewrite (delayed_sum (fun j => nth j b c0) N l f HN ltac:(lia)). change unit_at with cis. rewrite <- INR_IZR_INZ. ring.
Qed.

(** ** errors *)
Lemma Csum_minus f g n : Csum (fun i => f i - g i) n = Csum f n - Csum g n.
Proof. induction n as [|n IH]; cbn [Csum]; [ring|]. rewrite IH. ring. Qed.
Fixpoint rsum (f : nat -> R) (n : nat) : R := match n with O => 0%R | S m => (rsum f m + f m)%R end.
Lemma Cmod_Csum f n : (Cmod (Csum f n) <= rsum (fun i => Cmod (f i)) n)%R.
Proof. induction n as [|n IH]; cbn [Csum rsum]; [rewrite Cmod_0; lra|]. pose proof (Cmod_triangle (Csum f n) (f n)). lra. Qed.
Lemma rsum_sq (f : nat -> R) n : (rsum f n ^ 2 <= INR n * rsum (fun i => f i ^ 2) n)%R.
Proof.
  assert (P : forall m, (0 <= rsum (fun i => f i ^ 2) m)%R) by (induction m as [|m IH]; cbn [rsum]; [lra|]; pose proof (pow2_ge_0 (f m)); lra).
  induction n as [|n IH]; [cbn; lra|]. cbn [rsum]. rewrite S_INR. set (a := rsum f n) in *. set (q := rsum (fun i => f i ^ 2)%R n) in *. set (x := f n).
  specialize (P n). fold q in P. pose proof (pos_INR n) as Hn. set (m := INR n) in *. clearbody a q x m.
  destruct (Req_dec m 0) as [->|Nz].
  - assert (a = 0)%R by nra. subst a. nra.
  - assert (Hm : (0 < m)%R) by lra.
    assert (B : (2 * a * x <= q + m * x ^ 2)%R).
    { assert (0 <= (a - m * x) ^ 2)%R by apply pow2_ge_0. assert ((2 * a * x) * m <= (q + m * x ^ 2) * m)%R by nra. nra. }
    nra.
Qed.
Lemma gap_rsum x : forall y, length x = length y -> gap x y = rsum (fun i => (Cmod (nth i x c0 - nth i y c0)%C ^ 2)%R) (length x).
Proof.
  assert (H : forall f n, rsum f (S n) = (f 0%nat + rsum (fun i => f (S i)) n)%R).
  { intros f n. induction n as [|n IH]; [cbn [rsum]; ring|]. change (rsum f (S (S n))) with (rsum f (S n) + f (S n))%R. rewrite IH. cbn [rsum]. ring. }
  induction x as [|a x IH]; intros [|b y] L; try discriminate; [reflexivity|]. cbn [length] in *. rewrite H. cbn [gap nth]. now rewrite IH by lia.
Qed.
(** an error of energy E moves no subcarrier by more than sqrt E *)
Theorem analyse_error x y f : length x = length y -> (Cmod (analyse x f - analyse y f)%C ^ 2 <= gap x y)%R.
Proof.
  intro L. destruct (Nat.eq_dec (length x) 0) as [Z|NZ].
  - destruct x; [|discriminate]. destruct y; [|discriminate]. replace (analyse [] f - analyse [] f) with c0 by ring. rewrite Cmod_0. cbn. lra.
  - rewrite gap_rsum by assumption. rewrite !analyse_eq, <- L. set (N := length x) in *. set (k := (/ RtoC (sqrt (INR N)))%C).
    match goal with |- context [k * ?A - k * ?B] => replace (k * A - k * B) with (k * (A - B)) by ring end. rewrite <- Csum_minus.
    rewrite (Csum_ext _ (fun i => (nth i x c0 - nth i y c0) * cis (- (2 * PI * (IZR f * INR i / INR N))))) by (intros; ring).
    rewrite Cmod_mult, Rpow_mult_distr.
    assert (HN : (0 < INR N)%R) by (apply lt_0_INR; lia). assert (Hs : (0 < sqrt (INR N))%R) by now apply sqrt_lt_R0.
    assert (K : (Cmod k ^ 2 = / INR N)%R).
    { unfold k. rewrite Cmod_inv by (intro E; apply RtoC_inj in E; lra). rewrite Cmod_R, Rabs_pos_eq by lra. rewrite pow_inv, pow2_sqrt by lra. reflexivity. }
    rewrite K. set (e := fun i => Cmod (nth i x c0 - nth i y c0)).
    assert (B : (Cmod (Csum (fun i => (nth i x c0 - nth i y c0) * cis (- (2 * PI * (IZR f * INR i / INR N))))%C N) <= rsum e N)%R).
    { eapply Rle_trans; [apply Cmod_Csum|]. apply Req_le. unfold e.
      assert (RE : forall (g h : nat -> R) n, (forall i, g i = h i) -> rsum g n = rsum h n) by (intros g h n E; induction n as [|n IH]; [reflexivity|]; cbn [rsum]; now rewrite IH, E).
      apply RE. intro i.
      rewrite Cmod_mult. replace (Cmod (cis _)) with 1%R; [ring|]. unfold Cmod, cis. cbn [fst snd].
      match goal with |- context [cos ?t] => pose proof (sin2_cos2 t) as T end. unfold Rsqr in T.
      symmetry. rewrite <- sqrt_1. f_equal. lra. }
    pose proof (rsum_sq e N) as Q. pose proof (Cmod_ge_0 (Csum (fun i => (nth i x c0 - nth i y c0) * cis (- (2 * PI * (IZR f * INR i / INR N)))) N)) as P.
    set (A := Cmod (Csum _ _)) in *. assert (A ^ 2 <= INR N * rsum (fun i => e i ^ 2) N)%R by nra.
    apply (Rmult_le_reg_l (INR N)); [assumption|]. rewrite <- Rmult_assoc, Rinv_r, Rmult_1_l by lra. exact H.
Qed.
