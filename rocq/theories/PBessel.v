(** * Proofs: the energy of an error bounds the energy of its subcarriers *)
From Coq Require Import Reals Lra Permutation.
From Coquelicot Require Import Complex.
From Verif Require Import Py PList MModul MOfdm MTime SOfdm SMrOfdm STime POfdm PTime SGap PGap PCfo SMrRx SVit PSoft.

Lemma ifft_analysis b : (0 < length b)%nat -> ifft_ortho (map (fun k => analyse b (Z.of_nat k)) (seq 0 (length b))) = b.
Proof.
  intro Hb. apply (nth_ext _ _ (RtoC 0) (RtoC 0)); [now rewrite ifft_length, map_length, seq_length|]. rewrite ifft_length, map_length, seq_length. intros n Hn.
  rewrite (analyse_inverse b n Hn). unfold ifft_ortho. rewrite map_length, seq_length. rewrite nth_map_seq by assumption. f_equal. apply Csum_ext. intros k Hk.
  now rewrite nth_map_seq.
Qed.
Lemma energy_tot l : energy l = rtot (fun i => Cmod (nth i l (RtoC 0)) ^ 2)%R (seq 0 (length l)).
Proof.
  induction l as [|z l IH]; [reflexivity|]. cbn [energy length seq]. unfold rtot in *. cbn [map fold_right nth]. rewrite IH. f_equal. rewrite <- seq_shift, map_map. reflexivity.
Qed.
Lemma rtot_nonneg f l : (forall i, (0 <= f i)%R) -> (0 <= rtot f l)%R.
Proof. intro H. induction l as [|i l IH]; unfold rtot in *; cbn [map fold_right]; [lra|]. specialize (H i). lra. Qed.
Lemma NoDup_both {A} (a b : list A) : NoDup a -> NoDup b -> (forall x, In x a -> In x b -> False) -> NoDup (a ++ b).
Proof.
  induction a as [|x a IH]; intros Ha Hb H; [assumption|]. inversion Ha; subst. cbn [app]. constructor.
  - rewrite in_app_iff. intros [Q|Q]; [contradiction|]. apply (H x); [now left|assumption].
  - apply IH; auto. intros y Hy. apply H. now right.
Qed.
Lemma rtot_subset f l N : (forall i, (0 <= f i)%R) -> NoDup l -> (forall i, In i l -> (i < N)%nat) -> (rtot f l <= rtot f (seq 0 N))%R.
Proof.
  intros Hf Hd Hl. set (l' := filter (fun i => if in_dec Nat.eq_dec i l then false else true) (seq 0 N)).
  assert (P : Permutation (seq 0 N) (l ++ l')).
  { apply NoDup_Permutation; [apply seq_NoDup| |].
    - apply NoDup_both; [assumption|apply NoDup_filter, seq_NoDup|]. intros i Hi Hi'. apply filter_In in Hi' as [_ Hi']. destruct (in_dec Nat.eq_dec i l); [discriminate|contradiction].
    - intro i. rewrite in_app_iff. unfold l'. rewrite filter_In, in_seq. split.
      + intro Hi. destruct (in_dec Nat.eq_dec i l); [now left|right; auto].
      + intros [Hi|[Hi _]]; [specialize (Hl i Hi); lia|lia]. }
  rewrite (rtot_perm f _ _ P), rtot_app. pose proof (rtot_nonneg f l' Hf). lra.
Qed.

(** ** one symbol *)
Lemma map2_length (x y : list C) : length x = length y -> length (map2 Cminus x y) = length x.
Proof. revert y. induction x as [|a x IH]; intros [|b y] L; cbn in *; try lia. rewrite IH; lia. Qed.
Lemma map2_nth (x y : list C) n : length x = length y -> nth n (map2 Cminus x y) (RtoC 0) = (nth n x (RtoC 0) - nth n y (RtoC 0))%C.
Proof.
  revert y n. induction x as [|a x IH]; intros [|b y] n L; cbn [length] in L; try lia.
  - destruct n; cbn; ring.
  - destruct n as [|n]; cbn [map2 nth]; [reflexivity|]. apply IH. lia.
Qed.
Lemma analyse_minus x y f : length x = length y -> (analyse x f - analyse y f)%C = analyse (map2 Cminus x y) f.
Proof.
  intro L. unfold analyse. rewrite map2_length, <- L by assumption.
  match goal with |- (?c * ?u - ?c * ?v)%C = _ => transitivity (c * (u - v))%C; [ring|] end. f_equal. rewrite csum_minus. apply Csum_ext. intros n Hn.
  rewrite map2_nth by assumption. ring.
Qed.
Lemma energy_analysis b : (0 < length b)%nat -> energy b = rtot (fun k => Cmod (analyse b (Z.of_nat k)) ^ 2)%R (seq 0 (length b)).
Proof.
  intro Hb. rewrite <- (ifft_analysis b Hb) at 1. rewrite ifft_energy, energy_tot, map_length, seq_length. apply rtot_ext. intros k Hk. apply in_seq in Hk. now rewrite nth_map_seq by lia.
Qed.
Lemma bessel b (fs : list Z) : (0 < length b)%nat -> NoDup fs -> (forall f g, In f fs -> In g fs -> Z.abs (f - g) < Z.of_nat (length b)) ->
  (fold_right Rplus 0 (map (fun f => Cmod (analyse b f) ^ 2) fs) <= energy b)%R.
Proof.
  intros Hb Hd Hr. rewrite (energy_analysis b Hb). set (N := length b) in *. set (c := fun f => Z.to_nat (f mod Z.of_nat N)).
  assert (E : fold_right Rplus 0%R (map (fun f => (Cmod (analyse b f) ^ 2)%R) fs) = rtot (fun k => Cmod (analyse b (Z.of_nat k)) ^ 2)%R (map c fs)).
  { unfold rtot. rewrite map_map. f_equal. apply map_ext. intro f. unfold c. rewrite Z2Nat.id by (apply Z.mod_pos_bound; lia).
    rewrite <- (analyse_period b (f mod Z.of_nat N) (f / Z.of_nat N)) by assumption. do 3 f_equal. fold N. pose proof (Z.div_mod f (Z.of_nat N) ltac:(lia)). lia. }
  rewrite E. apply rtot_subset.
  - intro k. apply pow2_ge_0.
  - clear E. induction fs as [|f fs IH]; [constructor|]. inversion Hd; subst. cbn [map]. constructor.
    + intro Q. apply in_map_iff in Q as (g & Q & Hg). assert (f = g); [|subst; contradiction]. specialize (Hr f g (or_introl eq_refl) (or_intror Hg)). unfold c in Q.
      pose proof (Z.mod_pos_bound f (Z.of_nat N) ltac:(lia)). pose proof (Z.mod_pos_bound g (Z.of_nat N) ltac:(lia)). assert (f mod Z.of_nat N = g mod Z.of_nat N) by lia.
      pose proof (Z.div_mod f (Z.of_nat N) ltac:(lia)). pose proof (Z.div_mod g (Z.of_nat N) ltac:(lia)). set (u := f / Z.of_nat N) in *. set (v := g / Z.of_nat N) in *. assert (f - g = Z.of_nat N * (u - v)) by lia. assert (u - v = 0) by nia. nia.
    + apply IH; [assumption|]. intros; apply Hr; now right.
  - intros i Hi. apply in_map_iff in Hi as (f & <- & _). unfold c. pose proof (Z.mod_pos_bound f (Z.of_nat N) ltac:(lia)). lia.
Qed.
Lemma freqs_NoDup N : NoDup (freqs N).
Proof. unfold freqs. apply FinFun.Injective_map_NoDup; [|apply seq_NoDup]. intros x y. lia. Qed.

(** ** a run of symbols *)
Lemma gap_split n : forall x y, (n <= length x)%nat -> length x = length y -> gap x y = (gap (firstn n x) (firstn n y) + gap (skipn n x) (skipn n y))%R.
Proof.
  intros x y H L. rewrite <- (firstn_skipn n x) at 1. rewrite <- (firstn_skipn n y) at 1. apply gap_app. rewrite !firstn_length. lia.
Qed.
Lemma tone_error_cons opt t t' a k : tone_error opt t t' a (S k) =
  (fold_right Rplus 0 (map (fun f => Cmod (t a f - t' a f)%C ^ 2) (data_freqs opt a)) + tone_error opt t t' (S a) k)%R.
Proof. unfold tone_error. cbn [seq flat_map]. apply fold_plus_app. Qed.
Lemma tone_error_nonneg opt t t' a k : (0 <= tone_error opt t t' a k)%R.
Proof.
  revert a. induction k as [|k IH]; intro a; [unfold tone_error; cbn; lra|]. rewrite tone_error_cons. specialize (IH (S a)).
  assert (0 <= fold_right Rplus 0 (map (fun f => Cmod (t a f - t' a f)%C ^ 2) (data_freqs opt a)))%R; [|lra].
  clear IH. induction (data_freqs opt a) as [|f l IHl]; cbn [map fold_right]; [lra|]. pose proof (pow2_ge_0 (Cmod (t a f - t' a f)%C)). lra.
Qed.
Lemma symbol_error opt r sig n : 1 <= opt <= 4 -> length r = length sig -> ((35 + 5 * n) * quarter opt <= length sig)%nat ->
  (fold_right Rplus 0 (map (fun f => Cmod (rx_tone opt r n f - rx_tone opt sig n f)%C ^ 2) (data_freqs opt n)) <= gap (rx_body opt r n) (rx_body opt sig n))%R.
Proof.
  intros Ho L Hs. assert (Q : fft_size opt = 4 * Z.of_nat (quarter opt) /\ (0 < quarter opt)%nat).
  { assert (Ho' : opt = 1 \/ opt = 2 \/ opt = 3 \/ opt = 4) by lia. clear -Ho'. destruct Ho' as [->|[->|[->| ->]]]; vm_compute; split; (reflexivity || lia). }
  destruct Q as [Q Q0]. set (q := quarter opt) in *.
  assert (L1 : length (rx_body opt r n) = (4 * q)%nat) by (unfold rx_body; fold q; rewrite firstn_length, skipn_length; nia).
  assert (L2 : length (rx_body opt sig n) = (4 * q)%nat) by (unfold rx_body; fold q; rewrite firstn_length, skipn_length; nia).
  rewrite gap_energy. unfold rx_tone. set (x := rx_body opt r n) in *. set (y := rx_body opt sig n) in *.
  erewrite map_ext; [|intro f; rewrite analyse_minus by congruence; reflexivity].
  assert (Lm : length (map2 Cminus x y) = (4 * q)%nat) by (rewrite map2_length; congruence).
  apply bessel; [lia|unfold data_freqs; apply NoDup_filter, freqs_NoDup|].
  intros f g Hf Hg. rewrite Lm. unfold data_freqs in Hf, Hg. apply filter_In in Hf as [Hf _]. apply filter_In in Hg as [Hg _]. apply freqs_In in Hf, Hg. lia.
Qed.
Lemma run_error opt r sig k : 1 <= opt <= 4 -> length r = length sig -> forall a, ((30 + 5 * (a + k)) * quarter opt <= length sig)%nat ->
  (tone_error opt (rx_tone opt r) (rx_tone opt sig) a k <= gap (skipn ((30 + 5 * a) * quarter opt) r) (skipn ((30 + 5 * a) * quarter opt) sig))%R.
Proof.
  intros Ho L. induction k as [|k IH]; intros a Ha; [unfold tone_error; cbn [seq flat_map fold_right]; apply gap_nonneg|].
  rewrite tone_error_cons. specialize (IH (S a) ltac:(nia)). pose proof (symbol_error opt r sig a Ho L ltac:(nia)) as S1. set (q := quarter opt) in *.
  set (x := skipn ((30 + 5 * a) * q) r). set (y := skipn ((30 + 5 * a) * q) sig).
  assert (Lx : length x = (length sig - (30 + 5 * a) * q)%nat) by (unfold x; rewrite skipn_length; congruence). assert (Ly : length x = length y) by (unfold y; rewrite skipn_length; lia).
  rewrite (gap_split q x y) by (nia || assumption). rewrite (gap_split (4 * q) (skipn q x) (skipn q y)) by (rewrite !skipn_length; nia).
  assert (SK : forall (l : list C) u v, skipn u (skipn v l) = skipn (v + u) l).
  { intros l u v. revert l. induction v as [|v IHv]; intro l; [reflexivity|]. destruct l as [|z l]; [now rewrite !skipn_nil|]. cbn [skipn Nat.add]. apply IHv. }
  unfold x, y. rewrite !SK. pose proof (gap_nonneg (firstn q (skipn ((30 + 5 * a) * q) r)) (firstn q (skipn ((30 + 5 * a) * q) sig))).
  replace ((30 + 5 * a) * q + q + 4 * q)%nat with ((30 + 5 * S a) * q)%nat by lia. replace ((30 + 5 * a) * q + q)%nat with ((31 + 5 * a) * q)%nat by lia.
  fold (rx_body opt r a). unfold rx_body in S1. fold q in S1. lra.
Qed.
Lemma error_gap opt r sig a k : 1 <= opt <= 4 -> length r = length sig -> ((30 + 5 * (a + k)) * quarter opt <= length sig)%nat ->
  (tone_error opt (rx_tone opt r) (rx_tone opt sig) a k <= gap r sig)%R.
Proof.
  intros Ho L H. eapply Rle_trans; [apply run_error; assumption|]. rewrite (gap_split ((30 + 5 * a) * quarter opt) r sig) by (nia || assumption).
  pose proof (gap_nonneg (firstn ((30 + 5 * a) * quarter opt) r) (firstn ((30 + 5 * a) * quarter opt) sig)). lra.
Qed.
