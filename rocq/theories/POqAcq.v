(** * Lemmas for C95: the pulses of MR-O-QPSK correlate with themselves most at the right instant *)
From Coq Require Import Reals Lra.
From Coquelicot Require Import Complex.
From Verif Require Import Py PList PBits MWave PTime Tables SOqpsk SOqRx STime SWave PWave SOqGap SOqMf POqNoise SOqAcq.

Local Notation c0 := (RtoC 0).
Section sums.
Local Open Scope R_scope.
Lemma sum_to_app f a b : sum_to f (a + b) = sum_to f a + sum_to (fun k => f (a + k)%nat) b.
Proof. induction b as [|b IH]; [rewrite Nat.add_0_r; cbn; lra|]. rewrite Nat.add_succ_r. cbn [sum_to]. rewrite IH. ring. Qed.
Lemma sum_to_cyclic f n d : (d < n)%nat -> sum_to (fun k => f ((k + d) mod n)%nat) n = sum_to f n.
Proof.
  intro H. set (F := fun k => f ((k + d) mod n)%nat). assert (A : sum_to F n = sum_to F ((n - d) + d)) by (f_equal; lia). rewrite A, sum_to_app. unfold F. assert (E : sum_to f n = sum_to f d + sum_to (fun k => f (d + k)%nat) (n - d)) by (rewrite <- sum_to_app; f_equal; lia). rewrite E.
  rewrite (sum_to_ext _ (fun k => f (d + k)%nat)). 2:{ intros k Hk. f_equal. rewrite Nat.mod_small by lia. lia. }
  rewrite (sum_to_ext (fun k => f ((n - d + k + d) mod n)%nat) f). 2:{ intros k Hk. f_equal. replace (n - d + k + d)%nat with (k + 1 * n)%nat by lia. rewrite Nat.mod_add, Nat.mod_small by lia. reflexivity. }
  ring.
Qed.
Lemma sum_to_le f g n : (forall k, (k < n)%nat -> f k <= g k) -> sum_to f n <= sum_to g n.
Proof. induction n as [|n IH]; intro H; cbn [sum_to]; [lra|]. specialize (IH ltac:(intros; apply H; lia)). specialize (H n ltac:(lia)). lra. Qed.
Lemma sum_to_lt f g n i : (forall k, (k < n)%nat -> f k <= g k) -> (i < n)%nat -> f i < g i -> sum_to f n < sum_to g n.
Proof.
  induction n as [|n IH]; intros H Hi G; [lia|]. cbn [sum_to]. destruct (Nat.eq_dec i n) as [->|N].
  - pose proof (sum_to_le f g n ltac:(intros; apply H; lia)). lra.
  - specialize (IH ltac:(intros; apply H; lia) ltac:(lia) G). specialize (H n ltac:(lia)). lra.
Qed.
Lemma sum_to_Rabs f n : Rabs (sum_to f n) <= sum_to (fun k => Rabs (f k)) n.
Proof. induction n as [|n IH]; cbn [sum_to]; [rewrite Rabs_R0; lra|]. pose proof (Rabs_triang (sum_to f n) (f n)). lra. Qed.
(** the circular autocorrelation of the absolute values is largest at 0, strictly if the values are not repeated *)
Lemma autocorrelation q n d i : (0 < d < n)%nat -> (i < n)%nat -> Rabs (q ((i + d) mod n)%nat) <> Rabs (q i) ->
  sum_to (fun k => Rabs (q ((k + d) mod n)%nat) * Rabs (q k)) n < sum_to (fun k => q k ^ 2) n.
Proof.
  intros Hd Hi N. assert (E : sum_to (fun k => q k ^ 2) n = sum_to (fun k => / 2 * (q ((k + d) mod n)%nat ^ 2 + q k ^ 2)) n).
  { rewrite sum_to_scal, sum_to_plus, (sum_to_cyclic (fun k => q k ^ 2)) by lia. lra. }
  rewrite E. assert (S : forall x y, / 2 * (x ^ 2 + y ^ 2) - Rabs x * Rabs y = / 2 * (Rabs x - Rabs y) ^ 2).
  { intros x y. rewrite <- (pow2_abs x), <- (pow2_abs y). field. }
  apply (sum_to_lt _ _ n i); [|assumption|].
  - intros k _. specialize (S (q ((k + d) mod n)%nat) (q k)). pose proof (pow2_ge_0 (Rabs (q ((k + d) mod n)%nat) - Rabs (q k))). lra.
  - specialize (S (q ((i + d) mod n)%nat) (q i)). assert (0 < (Rabs (q ((i + d) mod n)%nat) - Rabs (q i)) ^ 2); [|lra]. rewrite <- Rsqr_pow2. apply Rsqr_pos_lt. lra.
Qed.
End sums.

Section pulses.
Local Open Scope R_scope.
Lemma half_sine_zero n k : (0 < n)%nat -> (k < n)%nat -> half_sine_shape 1 (pulse_time 1 n k) = 0 <-> (2 * k <= n)%nat.
Proof.
  intros Hn Hk. assert (Pn : 0 < INR n) by (apply lt_0_INR; lia).
  assert (T : pulse_time 1 n k = 2 * (2 * INR k - INR n) / INR n) by (unfold pulse_time; field; lra).
  assert (K : INR (2 * k) = 2 * INR k) by (rewrite mult_INR; cbn; ring). assert (Kn : INR k < INR n) by (apply lt_INR; lia).
  unfold half_sine_shape. destruct (Rle_dec 0 _) as [A|A].
  - assert (L : INR n <= 2 * INR k). { rewrite T in A. apply Rmult_le_compat_r with (r := INR n) in A; [|lra]. replace (2 * (2 * INR k - INR n) / INR n * INR n) with (2 * (2 * INR k - INR n)) in A by (field; lra). lra. }
    destruct (Rle_dec _ _) as [B|B].
    2:{ exfalso. apply B. rewrite T. apply Rmult_le_reg_r with (INR n); [assumption|]. replace (2 * (2 * INR k - INR n) / INR n * INR n) with (2 * (2 * INR k - INR n)) by (field; lra). lra. }
    split; intro H.
    + destruct (le_lt_dec (2 * k) n) as [|G]; [assumption|]. exfalso. apply lt_INR in G. rewrite K in G.
      assert (0 < sin (PI * pulse_time 1 n k / (2 * 1))); [|lra]. apply sin_gt_0; rewrite T; pose proof PI_RGT_0.
      * replace (PI * (2 * (2 * INR k - INR n) / INR n) / (2 * 1)) with (PI * ((2 * INR k - INR n) / INR n)) by (field; lra). apply Rmult_lt_0_compat; [assumption|]. apply Rdiv_lt_0_compat; lra.
      * replace (PI * (2 * (2 * INR k - INR n) / INR n) / (2 * 1)) with (PI * ((2 * INR k - INR n) / INR n)) by (field; lra). rewrite <- (Rmult_1_r PI) at 2. apply Rmult_lt_compat_l; [assumption|].
        apply Rmult_lt_reg_r with (INR n); [assumption|]. replace ((2 * INR k - INR n) / INR n * INR n) with (2 * INR k - INR n) by (field; lra). lra.
    + apply le_INR in H. rewrite K in H. replace (pulse_time 1 n k) with 0. { replace (PI * 0 / (2 * 1)) with 0 by field. apply sin_0. }
      rewrite T. replace (2 * INR k - INR n) with 0 by lra. field. lra.
  - split; [intros _|reflexivity]. destruct (le_lt_dec (2 * k) n) as [|G]; [assumption|]. exfalso. apply A. apply lt_INR in G. rewrite K in G. rewrite T. apply Rmult_le_pos; [lra|]. left. now apply Rinv_0_lt_compat.
Qed.
Lemma half_sine_moved n d : (3 <= n)%nat -> (0 < d < n)%nat ->
  exists i, (i < n)%nat /\ Rabs (half_sine_shape 1 (pulse_time 1 n ((i + d) mod n))) <> Rabs (half_sine_shape 1 (pulse_time 1 n i)).
Proof.
  intros Hn Hd. set (h := (n / 2 + 1)%nat). pose proof (Nat.div_mod n 2 ltac:(lia)) as D. pose proof (Nat.mod_upper_bound n 2 ltac:(lia)) as U.
  assert (Hh : (n < 2 * h /\ h < n)%nat) by (unfold h; lia).
  assert (Z : forall i, (i < n)%nat -> (2 * i <= n)%nat -> Rabs (half_sine_shape 1 (pulse_time 1 n i)) = 0) by (intros i Hi Hz; rewrite (proj2 (half_sine_zero n i ltac:(lia) Hi) Hz); apply Rabs_R0).
  assert (NZ : forall i, (i < n)%nat -> (n < 2 * i)%nat -> Rabs (half_sine_shape 1 (pulse_time 1 n i)) <> 0). { intros i Hi Hz. apply Rabs_no_R0. intro K. apply half_sine_zero in K; lia. }
  destruct (le_lt_dec d h) as [G|G].
  - exists (h - d)%nat. split; [lia|]. replace (h - d + d)%nat with h by lia. rewrite Nat.mod_small by lia. rewrite (Z (h - d)%nat) by (unfold h in *; lia). apply NZ; lia.
  - exists h. split; [lia|]. replace (h + d)%nat with (h + d - n + 1 * n)%nat by lia. rewrite Nat.mod_add, Nat.mod_small by lia. rewrite (Z (h + d - n)%nat) by (unfold h in *; lia). intro K. symmetry in K. revert K. apply NZ; lia.
Qed.
Lemma raised_cosine_zero n k : (0 < n)%nat -> (k < n)%nat -> ~ (32 | Z.of_nat n)%Z ->
  raised_cosine_shape 1 (pulse_time 1 n k) = 0 <-> (k = 0 \/ 4 * k = n \/ 4 * k = 3 * n)%nat.
Proof.
  intros Hn Hk Hg. assert (Pn : 0 < INR n) by (apply lt_0_INR; lia). pose proof PI_RGT_0 as HP.
  assert (T : pulse_time 1 n k / 1 = (4 * INR k - 2 * INR n) / INR n) by (unfold pulse_time; field; lra).
  unfold raised_cosine_shape. rewrite T. set (x := (4 * INR k - 2 * INR n) / INR n). assert (X : x * INR n = 4 * INR k - 2 * INR n) by (unfold x; field; lra).
  destruct (Req_EM_T x 0) as [Z0|NZ].
  - split; [lra|]. intro H. exfalso. rewrite Z0 in X. assert (E : IZR (4 * Z.of_nat k) = IZR (2 * Z.of_nat n)) by (rewrite !mult_IZR, <- !INR_IZR_INZ; lra). apply eq_IZR in E. lia.
  - assert (D : 1 - (2 * (8 / 10) * x) ^ 2 <> 0).
    { intro K. assert (K1 : (8 * x - 5) * (8 * x + 5) = 0) by nra. apply Rmult_integral in K1. apply Hg. destruct K1 as [K1|K1].
      - assert (E : IZR (32 * Z.of_nat k) = IZR (21 * Z.of_nat n)) by (rewrite !mult_IZR, <- !INR_IZR_INZ; nra). apply eq_IZR in E. apply (Z.gauss _ 21); [exists (Z.of_nat k); lia|reflexivity].
      - assert (E : IZR (32 * Z.of_nat k) = IZR (11 * Z.of_nat n)) by (rewrite !mult_IZR, <- !INR_IZR_INZ; nra). apply eq_IZR in E. apply (Z.gauss _ 11); [exists (Z.of_nat k); lia|reflexivity]. }
    split.
    + intro H. apply Rmult_integral in H as [H|H].
      * assert (S : sin (PI * x) = 0). { apply Rmult_eq_reg_r with (/ (PI * x)); [|apply Rinv_neq_0_compat; nra]. unfold Rdiv in H. rewrite H. ring. }
        apply sin_eq_0_0 in S as [m Hm]. assert (Hx : x = IZR m) by (apply Rmult_eq_reg_l with PI; lra). rewrite Hx in X.
        assert (E : IZR (4 * Z.of_nat k) = IZR ((m + 2) * Z.of_nat n)) by (rewrite !mult_IZR, plus_IZR, <- !INR_IZR_INZ; lra). apply eq_IZR in E.
        assert (m <> 0)%Z by (intros ->; lra). assert (-2 <= m <= 1)%Z by nia. assert (m = -2 \/ m = -1 \/ m = 1)%Z as [-> | [-> | ->]] by lia; lia.
      * exfalso. assert (S : cos (PI * (8 / 10) * x) = 0). { revert H D. generalize (cos (PI * (8 / 10) * x)) (1 - (2 * (8 / 10) * x) ^ 2). intros u v H D. replace u with (u / v * v) by (field; assumption). rewrite H. ring. }
        apply cos_eq_0_0 in S as [m Hm]. assert (Hx : 8 * x = 10 * IZR m + 5) by (apply Rmult_eq_reg_l with PI; lra).
        assert (E : IZR (32 * Z.of_nat k) = IZR ((10 * m + 21) * Z.of_nat n)) by (rewrite !mult_IZR, plus_IZR, mult_IZR, <- !INR_IZR_INZ; nra). apply eq_IZR in E.
        apply Hg. apply (Z.gauss _ (10 * m + 21)); [exists (Z.of_nat k); lia|].
        apply Znumtheory.Zgcd_1_rel_prime. change 32%Z with (2 ^ 5)%Z. apply Znumtheory.rel_prime_sym, Zpow_facts.rel_prime_Zpower_r; [lia|]. apply Znumtheory.rel_prime_sym.
        apply Znumtheory.bezout_rel_prime. apply (Znumtheory.Bezout_intro _ _ _ (- (5 * m + 10)) 1). ring.
    + intro H. assert (exists m, (m = -2 \/ m = -1 \/ m = 1)%Z /\ x = IZR m) as (m & _ & Hm).
      { destruct H as [H|[H|H]]; [exists (-2)%Z|exists (-1)%Z|exists 1%Z]; (split; [tauto|]); apply Rmult_eq_reg_r with (INR n); try lra; rewrite X.
        - subst k. cbn. lra.
        - apply (f_equal INR) in H. rewrite mult_INR in H. cbn in H. lra.
        - apply (f_equal INR) in H. rewrite !mult_INR in H. cbn in H. lra. }
      assert (S : sin (PI * x) = 0) by (apply sin_eq_0_1; exists m; rewrite Hm; ring). rewrite S. unfold Rdiv. ring.
Qed.
Lemma raised_cosine_moved n d : (2 <= n)%nat -> (0 < d < n)%nat -> ~ (32 | Z.of_nat n)%Z ->
  exists i, (i < n)%nat /\ Rabs (raised_cosine_shape 1 (pulse_time 1 n ((i + d) mod n))) <> Rabs (raised_cosine_shape 1 (pulse_time 1 n i)).
Proof.
  intros Hn Hd Hg.
  assert (Z : forall i, (i < n)%nat -> (i = 0 \/ 4 * i = n \/ 4 * i = 3 * n)%nat -> Rabs (raised_cosine_shape 1 (pulse_time 1 n i)) = 0) by (intros i Hi Hz; rewrite (proj2 (raised_cosine_zero n i ltac:(lia) Hi Hg) Hz); apply Rabs_R0).
  assert (NZ : forall i, (i < n)%nat -> ~ (i = 0 \/ 4 * i = n \/ 4 * i = 3 * n)%nat -> Rabs (raised_cosine_shape 1 (pulse_time 1 n i)) <> 0) by (intros i Hi Hz; apply Rabs_no_R0; intro K; apply raised_cosine_zero in K; tauto || lia).
  destruct (Nat.eq_dec (4 * d) n) as [E|E]; [|destruct (Nat.eq_dec (4 * d) (3 * n)) as [E'|E']].
  - exists d. split; [lia|]. rewrite Nat.mod_small by lia. rewrite (Z d) by lia. apply NZ; lia.
  - exists d. split; [lia|]. replace (d + d)%nat with (d + d - n + 1 * n)%nat by lia. rewrite Nat.mod_add, Nat.mod_small by lia. rewrite (Z d) by lia. apply NZ; lia.
  - exists 0%nat. split; [lia|]. rewrite Nat.add_0_l, Nat.mod_small by lia. rewrite (Z 0%nat) by lia. apply NZ; lia.
Qed.
Lemma pulse_moved b sps d : (match b with Band_915MHz | Band_2450MHz => 3 | _ => 2 end <= sps)%nat -> pulse_regular b (Z.of_nat sps) -> (0 < d < sps)%nat ->
  sum_to (fun k => Rabs (pulse b 1 sps ((k + d) mod sps)) * Rabs (pulse b 1 sps k)) sps < pulse_energy b (Z.of_nat sps).
Proof.
  intros Hm Hg Hd. unfold pulse_energy. rewrite Nat2Z.id.
  assert (H : exists i, (i < sps)%nat /\ Rabs (pulse b 1 sps ((i + d) mod sps)) <> Rabs (pulse b 1 sps i)).
  { unfold pulse. destruct b; cbn [shape pulse_regular] in *; first [apply half_sine_moved|apply raised_cosine_moved]; assumption. }
  destruct H as (i & Hi & N). now apply (autocorrelation (pulse b 1 sps) sps d i).
Qed.
End pulses.

(** ** windows of a signal *)
Section windows.
Local Open Scope R_scope.
Context (b : Frequency_band) (Tc : R) (sps n : nat) (c : list bool) (sig : list C).
Context (HT : 0 < Tc) (Hm : (match b with Band_915MHz | Band_2450MHz => 3 | _ => 2 end <= sps)%nat) (Hg : pulse_regular b (Z.of_nat sps)).
Context (N : forall j k, (j < n)%nat -> (k < sps)%nat -> nth (j * sps + k) sig c0 = Cmult (chip_pair c j) (RtoC (pulse b Tc sps k))).
Lemma sps_pos : (0 < sps)%nat.
Proof. destruct b; lia. Qed.
Lemma at_boundary J j : (J + j < n)%nat -> correlate b sps (skipn (J * sps) sig) j = Cmult (chip_pair c (J + j)) (RtoC (pulse_energy b (Z.of_nat sps))).
Proof.
  intro H. pose proof sps_pos as Hp. unfold correlate, pulse_energy. rewrite Nat2Z.id.
  assert (V : forall k, (k < sps)%nat -> nth (j * sps + k) (skipn (J * sps) sig) c0 = Cmult (chip_pair c (J + j)) (RtoC (pulse b 1 sps k))).
  { intros k Hk. rewrite nth_skipn. replace (J * sps + (j * sps + k))%nat with ((J + j) * sps + k)%nat by lia. rewrite N by assumption. now rewrite pulse_scale. }
  rewrite (sum_to_ext _ (fun k => fst (chip_pair c (J + j)) * pulse b 1 sps k ^ 2)) by (intros k Hk; rewrite V by assumption; cbn; ring).
  rewrite (sum_to_ext (fun k => snd _ * _) (fun k => snd (chip_pair c (J + j)) * pulse b 1 sps k ^ 2)) by (intros k Hk; rewrite V by assumption; cbn; ring).
  rewrite !sum_to_scal. unfold Cmult, RtoC. cbn [fst snd]. f_equal; ring.
Qed.
Lemma chip_pair_size j : Cmod (chip_pair c j) ^ 2 = 2.
Proof. rewrite Cmod_pow2. unfold chip_pair. cbn [fst snd]. unfold polar. destruct (nth _ c false), (nth _ c false); ring. Qed.
Lemma strength_boundary J : (J < n)%nat -> Cmod (correlate b sps (skipn (J * sps) sig) 0) ^ 2 = 2 * pulse_energy b (Z.of_nat sps) ^ 2.
Proof. intro H. rewrite at_boundary by lia. rewrite Cmod_mult, Rpow_mult_distr, chip_pair_size, Cmod_R, pow2_abs. reflexivity. Qed.
Lemma axis_bound (f : nat -> R) d : (0 < d < sps)%nat -> (forall k, (k < sps)%nat -> exists e, f k = polar e * pulse b 1 sps ((k + d) mod sps)) ->
  (sum_to (fun k => f k * pulse b 1 sps k) sps) ^ 2 < pulse_energy b (Z.of_nat sps) ^ 2.
Proof.
  intros Hd Hf. pose proof (pulse_moved b sps d Hm Hg Hd) as P. 
  assert (A : Rabs (sum_to (fun k => f k * pulse b 1 sps k) sps) < pulse_energy b (Z.of_nat sps)).
  { eapply Rle_lt_trans; [apply sum_to_Rabs|]. eapply Rle_lt_trans; [|apply P]. apply sum_to_le. intros k Hk. destruct (Hf k Hk) as [e ->]. rewrite !Rabs_mult.
    replace (Rabs (polar e)) with 1; [rewrite Rmult_1_l; lra|]. unfold polar. destruct e; [symmetry; apply Rabs_R1|]. rewrite Rabs_left; lra. }
  rewrite <- (pow2_abs (sum_to _ _)). pose proof (Rabs_pos (sum_to (fun k => f k * pulse b 1 sps k) sps)). nra.
Qed.
Lemma strength_inside J d : (0 < d < sps)%nat -> (J + 1 < n)%nat -> Cmod (correlate b sps (skipn (J * sps + d) sig) 0) ^ 2 < 2 * pulse_energy b (Z.of_nat sps) ^ 2.
Proof.
  intros Hd HJ. pose proof sps_pos as Hp.
  assert (V : forall k, (k < sps)%nat -> exists j, nth (0 * sps + k) (skipn (J * sps + d) sig) c0 = Cmult (chip_pair c j) (RtoC (pulse b 1 sps ((k + d) mod sps)))).
  { intros k Hk. rewrite nth_skipn. exists (J + (k + d) / sps)%nat. rewrite <- (pulse_scale b Tc) by assumption.
    pose proof (Nat.div_mod (k + d) sps ltac:(lia)) as D. pose proof (Nat.mod_upper_bound (k + d) sps ltac:(lia)) as U.
    assert ((k + d) / sps <= 1)%nat. { apply Nat.lt_succ_r. apply Nat.div_lt_upper_bound; lia. }
    rewrite <- N by lia. f_equal. lia. }
  rewrite Cmod_pow2. unfold correlate. cbn [fst snd].
  assert (A : sum_to (fun k => fst (nth (0 * sps + k) (skipn (J * sps + d) sig) c0) * pulse b 1 sps k) sps ^ 2 < pulse_energy b (Z.of_nat sps) ^ 2).
  { apply (axis_bound _ d Hd). intros k Hk. destruct (V k Hk) as [j ->]. eexists. unfold chip_pair. cbn. rewrite Rmult_0_r, Rminus_0_r. reflexivity. }
  assert (B : sum_to (fun k => snd (nth (0 * sps + k) (skipn (J * sps + d) sig) c0) * pulse b 1 sps k) sps ^ 2 < pulse_energy b (Z.of_nat sps) ^ 2).
  { apply (axis_bound _ d Hd). intros k Hk. destruct (V k Hk) as [j ->]. eexists. unfold chip_pair. cbn. rewrite Rmult_0_r, Rplus_0_l. reflexivity. }
  lra.
Qed.
End windows.

Lemma argmax (f : nat -> R) g : forall l i, In g (i :: l) -> (forall h, In h (i :: l) -> h <> g -> (f h < f g)%R) ->
  fold_left (fun i j => if Rlt_dec (f i) (f j) then j else i) l i = g.
Proof.
  induction l as [|h l IH]; intros i Hi Hu; [destruct Hi as [->|[]]; reflexivity|]. cbn [fold_left]. apply IH.
  - destruct (Rlt_dec (f i) (f h)) as [G|G].
    + destruct (Nat.eq_dec h g) as [->|Nh]; [now left|]. destruct Hi as [->|Hi]; [|]. { specialize (Hu h ltac:(right; now left) Nh). lra. } destruct Hi as [->|Hi]; [now left|now right].
    + destruct (Nat.eq_dec i g) as [->|Ni]; [now left|]. destruct Hi as [->|[->|Hi]]; [congruence| |now right]. specialize (Hu i ltac:(now left) Ni). lra.
  - intros x Hx Nx. apply Hu; [|assumption]. destruct Hx as [Hx|Hx]; [|right; now right]. destruct (Rlt_dec _ _); [right; now left|now left].
Qed.
Lemma best_is f n g : (g < n)%nat -> (forall h, (h < n)%nat -> h <> g -> (f h < f g)%R) -> best f n = g.
Proof.
  intros Hg H. unfold best. apply argmax; [right; apply in_seq; lia|]. intros h Hh Nh. apply H; [|assumption]. destruct Hh as [<-|Hh]; [lia|]. apply in_seq in Hh. lia.
Qed.
