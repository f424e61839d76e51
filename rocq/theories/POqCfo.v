(** * Lemmas for C101: turns from chip pair to chip pair in noise *)
From Coq Require Import Reals Lra.
From Coquelicot Require Import Complex.
From Verif Require Import Py PList PBits MWave MTime STime PTime PPower PCfo Tables SOqpsk SOqRx SWave PWave SOqGap SOqMf POqNoise SOqSync SOqAcq POqAcq SCfo POfdmAcq SOqCfo.

Local Open Scope C_scope.
Local Notation c0 := (RtoC 0).
Lemma Cmod_conj z : Cmod (Cconj z) = Cmod z.
Proof. unfold Cmod, Cconj; cbn [fst snd]; now replace ((- snd z) ^ 2)%R with (snd z ^ 2)%R by ring. Qed.
Lemma unit_size x : Cmod (unit_at x) = 1%R.
Proof. rewrite cis_unit. apply Cmod_cis. Qed.
Lemma csum_triangle f (B : nat -> R) n : (forall k, (k < n)%nat -> (Cmod (f k) <= B k)%R) -> (Cmod (csum f n) <= sum_to B n)%R.
Proof.
  induction n as [|n IH]; intro H; cbn [csum sum_to]; [rewrite Cmod_0; lra|]. eapply Rle_trans; [apply Cmod_triangle|].
  apply Rplus_le_compat; [apply IH; intros; apply H; lia|apply H; lia].
Qed.
Lemma csum_add f g n : csum (fun k => f k + g k) n = csum f n + csum g n.
Proof. induction n as [|n IH]; cbn [csum]; [ring|]. rewrite IH. ring. Qed.
Lemma csum_times a f n : csum (fun k => a * f k) n = a * csum f n.
Proof. induction n as [|n IH]; cbn [csum]; [ring|]. rewrite IH. ring. Qed.
Lemma csum_same f g n : (forall k, (k < n)%nat -> f k = g k) -> csum f n = csum g n.
Proof. induction n as [|n IH]; intro H; [reflexivity|]. cbn [csum]. rewrite IH by (intros; apply H; lia). now rewrite H by lia. Qed.
Lemma correlate_csum b sps r j : correlate b sps r j = csum (fun k => nth (j * sps + k) r c0 * RtoC (pulse b 1 sps k)) sps.
Proof.
  unfold correlate. generalize (pulse b 1 sps). intro p. set (f := fun k => nth (j * sps + k)%nat r c0).
  assert (G : forall n, (sum_to (fun k => fst (f k) * p k)%R n, sum_to (fun k => snd (f k) * p k)%R n) = csum (fun k => f k * RtoC (p k)) n); [|exact (G sps)]. clearbody f.
  induction n as [|n IH]; [reflexivity|]. cbn [csum sum_to]. rewrite <- IH. unfold Cmult, Cplus, RtoC. cbn [fst snd]. f_equal; ring.
Qed.

(** ** the pulse turning: what the filter gathers *)
Lemma fst_csum f n : fst (csum f n) = sum_to (fun k => fst (f k)) n.
Proof. induction n as [|n IH]; [reflexivity|]. cbn [csum sum_to]. rewrite <- IH. reflexivity. Qed.
Lemma gathered_pos b sps w : (0 < sps)%nat -> (0 < pulse_energy b (Z.of_nat sps))%R -> (Rabs w * INR (sps - 1) < PI)%R -> (0 < gathered b sps w)%R.
Proof.
  intros Hs HE Hw. unfold gathered. set (c := (w * INR (sps - 1) / 2)%R).
  assert (E : Cmod (csum (fun k => RtoC (pulse b 1 sps k ^ 2) * unit_at (w * INR k)) sps) = Cmod (csum (fun k => RtoC (pulse b 1 sps k ^ 2) * unit_at (w * INR k - c)) sps)).
  { match goal with |- Cmod ?A = _ => transitivity (Cmod (unit_at (- c) * A)); [rewrite Cmod_mult, unit_size; ring|] end. rewrite <- csum_times. f_equal. apply csum_same. intros k _. change unit_at with cis.
    unfold Rminus. rewrite cis_add. ring. }
  rewrite E. eapply Rlt_le_trans; [|eapply Rle_trans; [apply Rle_abs|apply (proj1 (conj (Rle_trans _ _ _ (Rmax_l _ _) (Rmax_Cmod _)) I))]]. rewrite fst_csum.
  assert (P : forall k, (k < sps)%nat -> (0 < cos (w * INR k - c))%R).
  { intros k Hk. apply cos_gt_0; apply (Rmult_lt_reg_l 2); try lra; replace (2 * (w * INR k - c))%R with (w * (2 * INR k - INR (sps - 1)))%R by (unfold c; field).
    - assert (A : (Rabs (w * (2 * INR k - INR (sps - 1))) < PI)%R).
      { rewrite Rabs_mult. eapply Rle_lt_trans; [|exact Hw]. apply Rmult_le_compat_l; [apply Rabs_pos|]. apply Rabs_le. assert (INR k <= INR (sps - 1))%R by (apply le_INR; lia). pose proof (pos_INR k). lra. }
      apply Rabs_def2 in A. lra.
    - assert (A : (Rabs (w * (2 * INR k - INR (sps - 1))) < PI)%R).
      { rewrite Rabs_mult. eapply Rle_lt_trans; [|exact Hw]. apply Rmult_le_compat_l; [apply Rabs_pos|]. apply Rabs_le. assert (INR k <= INR (sps - 1))%R by (apply le_INR; lia). pose proof (pos_INR k). lra. }
      apply Rabs_def2 in A. lra. }
  assert (X : exists i, (i < sps)%nat /\ pulse b 1 sps i <> 0%R).
  { unfold pulse_energy in HE. rewrite Nat2Z.id in HE. clear - HE. revert HE. generalize (pulse b 1 sps). induction sps as [|n IH]; intros p H; cbn [sum_to] in H; [lra|].
    destruct (Req_dec (p n) 0) as [Z|NZ]; [|exists n; split; [lia|assumption]]. rewrite Z in H. destruct (IH p ltac:(lra)) as (i & Hi & Q). exists i. split; [lia|assumption]. }
  destruct X as (i & Hi & Q).
  assert (F : forall k, fst (RtoC (pulse b 1 sps k ^ 2) * unit_at (w * INR k - c)) = (pulse b 1 sps k ^ 2 * cos (w * INR k - c))%R) by (intro k; unfold unit_at, Cmult, RtoC; cbn [fst snd]; ring).
  rewrite (sum_to_ext _ _ _ (fun k _ => F k)). replace 0%R with (sum_to (fun _ => 0%R) sps) by (rewrite sum_to_const; ring).
  apply (sum_to_lt _ _ sps i); [|assumption|].
  - intros k Hk. apply Rmult_le_pos; [apply pow2_ge_0|]. left. now apply P.
  - apply Rmult_lt_0_compat; [|now apply P]. rewrite <- Rsqr_pow2. now apply Rsqr_pos_lt.
Qed.

(** ** overlap *)
Lemma overlap_less b sps d : (match b with Band_915MHz | Band_2450MHz => 3 | _ => 2 end <= sps)%nat -> pulse_regular b (Z.of_nat sps) -> (0 < d < sps)%nat ->
  (overlap b sps d < overlap b sps 0)%R.
Proof.
  intros Hm Hg Hd. assert (H : exists i, (i < sps)%nat /\ Rabs (pulse b 1 sps ((i + d) mod sps)) <> Rabs (pulse b 1 sps i)).
  { unfold pulse. destruct b; cbn [shape pulse_regular] in *; first [apply half_sine_moved|apply raised_cosine_moved]; assumption. }
  destruct H as (i & Hi & N). pose proof (autocorrelation (fun k => pulse b 1 sps k ^ 2)%R sps d i Hd Hi) as A. cbn beta in A.
  assert (P : forall k, Rabs (pulse b 1 sps k ^ 2) = (pulse b 1 sps k ^ 2)%R) by (intro k; apply Rabs_pos_eq, pow2_ge_0). rewrite !P in A.
  unfold overlap. eapply Rle_lt_trans; [|eapply Rlt_le_trans; [apply A|]].
  - apply Req_le, sum_to_ext. intros k _. now rewrite !P.
  - intro K. apply N. rewrite <- (pow2_abs (pulse b 1 sps ((i + d) mod sps))), <- (pow2_abs (pulse b 1 sps i)) in K.
    apply Rsqr_inj; [apply Rabs_pos|apply Rabs_pos|]. rewrite !Rsqr_pow2. exact K.
  - apply Req_le, sum_to_ext. intros k Hk. rewrite Nat.add_0_r, Nat.mod_small by lia. ring.
Qed.
(** ** the nearest quarter turn *)
Lemma quarter_exact q (m : R) (z : C) : (q = RtoC 1 \/ q = RtoC (-1) \/ q = Ci \/ q = Copp Ci) -> (0 < m)%R -> (Cmod (z - RtoC 2 * q)%C <= 27 / 20)%R -> quarter_turn (RtoC m * z) = q.
Proof.
  intros Hq Hm Hz. destruct z as [x y].
  assert (Q : ((x - 2 * fst q) ^ 2 + (y - 2 * snd q) ^ 2 <= (27 / 20) ^ 2)%R).
  { assert (Z : (Cmod ((x, y) - RtoC 2 * q)%C ^ 2 <= (27 / 20) ^ 2)%R) by (apply pow_incr; split; [apply Cmod_ge_0|assumption]).
    unfold Cmod in Z. rewrite pow2_sqrt in Z by (apply Rplus_le_le_0_compat; apply pow2_ge_0). unfold Cminus, RtoC in Z. cbn [fst snd Cplus Copp Cmult] in Z.
    eapply Rle_trans; [|exact Z]. apply Req_le. ring. }
  assert (F : RtoC m * (x, y) = (m * x, m * y)%R) by (unfold Cmult, RtoC; cbn [fst snd]; f_equal; ring). rewrite F. unfold quarter_turn. cbn [fst snd].
  rewrite !Rabs_mult, (Rabs_pos_eq m) by lra.
  assert (B : forall a c : R, ((a - 2) ^ 2 + c ^ 2 <= (27 / 20) ^ 2 -> Rabs c < a)%R).
  { intros a c H. assert (A1 : forall c', (c' ^ 2 = c ^ 2 -> c' < a)%R).
    { intros c' E. destruct (Rlt_dec c' a) as [|G]; [assumption|exfalso]. assert (S1 : (0 <= (a - 2 + c') ^ 2)%R) by apply pow2_ge_0. assert (S2 : (2 ^ 2 <= (c' - a + 2) ^ 2)%R) by (apply pow_incr; lra). nra. }
    pose proof (A1 c eq_refl) as A2. pose proof (A1 (- c)%R ltac:(ring)) as A3. apply Rabs_def1; lra. }
  destruct Hq as [->|[->|[->| ->]]]; unfold RtoC, Ci, Copp in Q; cbn [fst snd] in Q.
  - assert (K : (Rabs y < x)%R) by (apply B; nra). pose proof (Rabs_pos y). rewrite (Rabs_pos_eq x) by lra.
    destruct (Rlt_dec _ _) as [|G]; [|exfalso; apply G; nra]. destruct (Rlt_dec _ _) as [|G]; [reflexivity|exfalso; apply G; nra].
  - assert (K : (Rabs y < - x)%R) by (apply B; nra). pose proof (Rabs_pos y). rewrite (Rabs_left x) by lra.
    destruct (Rlt_dec _ _) as [|G]; [|exfalso; apply G; nra]. destruct (Rlt_dec _ _) as [G|G]; [exfalso; nra|reflexivity].
  - assert (K : (Rabs x < y)%R) by (apply B; nra). pose proof (Rabs_pos x). rewrite (Rabs_pos_eq y) by lra.
    destruct (Rlt_dec _ _) as [G|G]; [exfalso; nra|]. destruct (Rlt_dec _ _) as [|G']; [reflexivity|exfalso; apply G'; nra].
  - assert (K : (Rabs x < - y)%R) by (apply B; nra). pose proof (Rabs_pos x). rewrite (Rabs_left y) by lra.
    destruct (Rlt_dec _ _) as [G|G]; [exfalso; nra|]. destruct (Rlt_dec _ _) as [G'|G']; [exfalso; nra|reflexivity].
Qed.
Lemma cis_near x : (Cmod (cis x - RtoC 1)%C <= Rabs x)%R.
Proof.
  assert (S : (Cmod (cis x - RtoC 1)%C ^ 2 <= Rabs x ^ 2)%R).
  { rewrite pow2_abs. unfold Cmod. rewrite pow2_sqrt by (apply Rplus_le_le_0_compat; apply pow2_ge_0). unfold cis, Cminus, RtoC, Cplus, Copp. cbn [fst snd].
    replace ((cos x + - (1)) ^ 2 + (sin x + - 0) ^ 2)%R with (4 * sin (x / 2) ^ 2)%R.
    - assert (A : (sin (x / 2) ^ 2 <= (x / 2) ^ 2)%R).
      { assert (P : forall y, (0 <= y -> sin y ^ 2 <= y ^ 2)%R).
        { intros y Hy. destruct (Rle_dec y 1) as [L|L].
          - assert (0 <= sin y)%R by (apply sin_ge_0; pose proof PI_RGT_0; pose proof PI2_1; lra). assert (sin y <= y)%R by (destruct Hy as [Hy|<-]; [left; now apply sin_lt_x|rewrite sin_0; lra]). nra.
          - pose proof (SIN_bound y). nra. }
        destruct (Rle_dec 0 (x / 2)) as [H|H]; [now apply P|]. specialize (P (- (x / 2)) ltac:(lra))%R. rewrite sin_neg in P. nra. }
      nra.
    - replace x with (2 * (x / 2))%R at 2 3 by field. rewrite cos_2a_sin, sin_2a. pose proof (sin2_cos2 (x / 2)) as T. unfold Rsqr in T.
      set (s := sin (x / 2)) in *. set (c := cos (x / 2)) in *. replace (s ^ 2)%R with (s * s)%R by ring. assert (C2 : (c * c = 1 - s * s)%R) by lra.
      transitivity ((4 * (s * s) * (s * s) + 4 * (s * s) * (c * c))%R); [rewrite C2; ring|ring]. }
  pose proof (Rabs_pos x). pose proof (Cmod_ge_0 (cis x - RtoC 1)). nra.
Qed.
