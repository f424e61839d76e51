(** * Proofs: carrier frequency offset *)
From Coq Require Import Reals Lra.
From Coquelicot Require Import Complex.
From Verif Require Import Py PList MModul MOfdm Tables MMrOfdm MTime SOfdm SMrOfdm STime PTime SMrRx SGap PGap PPower PChannel SCfo.

Local Open Scope C_scope.
Local Notation c0 := (RtoC 0).

(** ** argument *)
Lemma angle_cis E x : (0 < E)%R -> (Rabs x < PI)%R -> angle (RtoC E * cis x) = x.
Proof.
  intros HE Hx. unfold angle. rewrite Cmod_mult, Cmod_R, Cmod_cis, (Rabs_pos_eq E), Rmult_1_r by lra.
  replace (fst (RtoC E * cis x)%C / E)%R with (cos x) by (unfold cis; cbn; field; lra).
  replace (snd (RtoC E * cis x)) with (E * sin x)%R by (unfold cis; cbn; ring).
  apply Rabs_def2 in Hx as [H1 H2]. destruct (Rle_dec 0 (E * sin x)) as [P|P]; destruct (Rle_lt_dec 0 x) as [Q|Q].
  - apply acos_cos. lra.
  - exfalso. assert (0 < sin (- x))%R by (apply sin_gt_0; lra). rewrite sin_neg in H. nra.
  - exfalso. assert (0 <= sin x)%R by (apply sin_ge_0; lra). nra.
  - rewrite <- cos_neg, acos_cos by lra. ring.
Qed.

(** ** shifts *)
Lemma shifted_length w r : length (shifted w r) = length r.
Proof. unfold shifted. now rewrite map_length, seq_length. Qed.
Lemma shifted_nth w r t : nth t (shifted w r) c0 = cis (w * INR t) * nth t r c0.
Proof.
  destruct (Nat.lt_ge_cases t (length r)).
  - unfold shifted. now rewrite nth_map_seq.
  - rewrite !nth_overflow by (rewrite ?shifted_length; lia). ring.
Qed.
Lemma shifted_back w r : shifted (- w) (shifted w r) = r.
Proof.
  apply (nth_ext _ _ c0 c0); [now rewrite !shifted_length|]. intros t _. rewrite !shifted_nth, Cmult_assoc, <- cis_add.
  replace (- w * INR t + w * INR t)%R with 0%R by ring. rewrite cis_0. ring.
Qed.

(** ** inverse DFT, and sequences whose tones are multiples of a step *)
Lemma analyse_inverse b n : (n < length b)%nat ->
  nth n b c0 = / RtoC (sqrt (INR (length b))) * Csum (fun k => analyse b (Z.of_nat k) * cis (2 * PI * (INR k * INR n / INR (length b)))) (length b).
Proof.
  intro Hn. set (N := length b) in *. assert (HN : (0 < N)%nat) by lia. destruct (sqrt_N_sq N HN) as [Q Q0].
  assert (HR : INR N <> 0%R) by (apply not_0_INR; lia).
  rewrite (Csum_ext _ (fun k => Csum (fun m => / RtoC (sqrt (INR N)) * nth m b c0 * cis (2 * PI * (IZR (Z.of_nat n - Z.of_nat m) * INR k / INR N))) N)).
  - rewrite Csum_swap. rewrite (Csum_ext _ (fun m => / RtoC (sqrt (INR N)) * nth m b c0 * (if (((Z.of_nat n - Z.of_nat m) mod Z.of_nat N) =? 0)%Z then RtoC (INR N) else c0))).
    + rewrite (Csum_single _ N n Hn).
      * rewrite Z.sub_diag, Z.mod_0_l by lia. cbn [Z.eqb]. rewrite <- Q. field. assumption.
      * intros m Hm Hne. replace (((Z.of_nat n - Z.of_nat m) mod Z.of_nat N) =? 0)%Z with false; [ring|]. symmetry. apply Z.eqb_neq. intro E. apply Hne.
        apply Z.mod_divide in E as [p Hp]; [|lia]. assert (p = 0)%Z by nia. subst p. lia.
    + intros m Hm. rewrite Csum_scal, orthogonality by assumption. reflexivity.
  - intros k Hk. rewrite analyse_eq. fold N.
    match goal with |- ?i * ?S * ?c = _ => replace (i * S * c) with (i * c * S) by ring end. rewrite <- Csum_scal.
    apply Csum_ext. intros m Hm.
    replace (2 * PI * (IZR (Z.of_nat n - Z.of_nat m) * INR k / INR N))%R with (2 * PI * (INR k * INR n / INR N) + - (2 * PI * (IZR (Z.of_nat k) * INR m / INR N)))%R.
    + rewrite cis_add. ring.
    + rewrite minus_IZR, <- !INR_IZR_INZ. field. assumption.
Qed.
Lemma analyse_period b f z : (0 < length b)%nat -> analyse b (f + z * Z.of_nat (length b)) = analyse b f.
Proof.
  intro HN. rewrite !analyse_eq. f_equal. apply Csum_ext. intros n Hn. f_equal.
  assert (INR (length b) <> 0%R) by (apply not_0_INR; lia). pose proof (cis_shift (Z.of_nat n) z (length b) (IZR f) HN) as S. rewrite <- !INR_IZR_INZ in S.
  rewrite plus_IZR, mult_IZR, <- !INR_IZR_INZ. rewrite (Rmult_comm (IZR f)), <- S. f_equal. field. assumption.
Qed.
Lemma periodic b P k n : (0 < P)%nat -> length b = (k * P)%nat -> (n + P < length b)%nat ->
  (forall f, (0 <= f < Z.of_nat (length b))%Z -> (f mod Z.of_nat k <> 0)%Z -> analyse b f = c0) ->
  nth (n + P) b c0 = nth n b c0.
Proof.
  intros HP L Hn Hz. rewrite !analyse_inverse by lia. f_equal. apply Csum_ext. intros j Hj. set (N := length b) in *.
  destruct (Z.eq_dec (Z.of_nat j mod Z.of_nat k) 0) as [E|E].
  - f_equal. apply Z.mod_divide in E as [m Hm]; [|nia].
    assert (R1 : INR P <> 0%R) by (apply not_0_INR; lia). assert (R2 : INR k <> 0%R) by (apply not_0_INR; nia).
    assert (EN : INR N = (INR k * INR P)%R) by (rewrite L, mult_INR; reflexivity).
    replace (2 * PI * (INR j * INR (n + P) / INR N))%R with (2 * PI * (INR j * INR n / INR N) + 2 * PI * IZR m)%R.
    + rewrite cis_add, cis_2PI_Z. ring.
    + rewrite (INR_IZR_INZ j), Hm, EN, plus_INR, mult_IZR, <- INR_IZR_INZ. field. auto.
  - rewrite Hz by (try assumption; lia). ring.
Qed.
Lemma Csum_energy (x : nat -> C) n : exists E : R, (0 <= E)%R /\ Csum (fun j => x j * Cconj (x j)) n = RtoC E /\ (E = 0%R -> forall j, (j < n)%nat -> x j = c0).
Proof.
  induction n as [|n (E & P & S & Z)]; [exists 0%R; split; [lra|]; split; [reflexivity|]; intros; lia|].
  exists (E + Cmod (x n) ^ 2)%R. pose proof (pow2_ge_0 (Cmod (x n))) as Q. split; [lra|]. split.
  - cbn [Csum]. rewrite S, <- Cmod_sq, RtoC_plus. reflexivity.
  - intros H j Hj. destruct (Nat.eq_dec j n) as [->|Ne]; [|apply Z; [lra|lia]]. apply Cmod_eq_0. nra.
Qed.
