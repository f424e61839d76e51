(** * Proofs: soft bits, and the receiver of [SVit] *)
From Coq Require Import Reals Lra Permutation.
From Coquelicot Require Import Complex.
From Verif Require Import Py PList SBits MBits PBits MPn9 SPn9 PPn9 MRate SRate PConv PRate PRate34 MFields PFields SCrc MModul MOfdm Tables SOfdm SMrOfdm PModul POfdm MMrOfdm PStd PMrOfdm PMrRx MTime STime PTime SGap PGap SMrRx PRecv SVit PVit.

(** ** what it costs to change bits *)
Fixpoint loss (a b : list bool) (s : list R) : R :=
  match a, b, s with
  | x :: a', y :: b', z :: s' => ((if xorb x y then 1 - 2 * agree x z else 0) + loss a' b' s')%R
  | _, _, _ => 0%R
  end.
Lemma corr_loss a : forall b s, length a = length b -> length a = length s -> (corr a s - corr b s = INR (distance a b) - loss a b s)%R.
Proof.
  unfold distance. induction a as [|x a IH]; intros [|y b] [|z s] L1 L2; cbn [length] in *; try lia; [cbn; lra|].
  cbn [corr xor_bits weight loss]. specialize (IH b s ltac:(lia) ltac:(lia)). rewrite plus_INR. destruct x, y; cbn [xorb agree INR] in *; lra.
Qed.
Lemma loss_app a1 a2 b1 b2 s1 s2 : length a1 = length b1 -> length a1 = length s1 -> loss (a1 ++ a2) (b1 ++ b2) (s1 ++ s2) = (loss a1 b1 s1 + loss a2 b2 s2)%R.
Proof.
  revert b1 s1. induction a1 as [|x a1 IH]; intros [|y b1] [|z s1] L1 L2; cbn [length] in *; try lia; cbn [app loss]; [lra|]. rewrite IH by lia. lra.
Qed.
(** [s] is good enough: every word at distance d or more from [a] agrees less *)
Definition decodes (d : nat) (a : list bool) (s : list R) : Prop :=
  length s = length a /\ forall b, length b = length a -> (d <= distance a b)%nat -> (corr b s < corr a s)%R.

(** ** one axis *)
Lemma clip_low x : (x <= -1)%R -> clip x = (-1)%R.
Proof. intro H. unfold clip. rewrite Rmin_right by lra. apply Rmax_left. lra. Qed.
Lemma clip_high x : (1 <= x)%R -> clip x = 1%R.
Proof. intro H. unfold clip. rewrite Rmin_left by lra. apply Rmax_right. lra. Qed.
Lemma clip_mid x : (-1 <= x <= 1)%R -> clip x = x.
Proof. intro H. unfold clip. rewrite Rmin_right by lra. apply Rmax_right. lra. Qed.
Lemma clip_cases x : ((x <= -1 /\ clip x = -1) \/ (1 <= x /\ clip x = 1) \/ (-1 <= x <= 1 /\ clip x = x))%R.
Proof. destruct (Rle_dec x (-1)); [left; split; [lra|now apply clip_low]|]. destruct (Rle_dec 1 x); [right; left; split; [lra|now apply clip_high]|]. right; right. split; [lra|]. apply clip_mid. lra. Qed.
Lemma loss_axis1 b c x : (loss [b] [c] [clip x] <= (x - IZR (level b)) ^ 2)%R.
Proof.
  pose proof (pow2_ge_0 (x - IZR (level b))) as P. cbn [loss]. destruct (clip_cases x) as [[H ->]|[[H ->]|[H ->]]]; destruct b, c; cbn [xorb agree level IZR] in *; try lra; nra.
Qed.
Lemma loss_axis2 b0 b1 c0 c1 x : (loss [b0; b1] [c0; c1] [clip x; clip (2 - Rabs x)] <= (x - IZR (level4 b0 b1)) ^ 2)%R.
Proof.
  pose proof (pow2_ge_0 (x - IZR (level4 b0 b1))) as P. cbn [loss].
  assert (A : (0 <= x /\ Rabs x = x)%R \/ (x <= 0 /\ Rabs x = - x)%R).
  { destruct (Rle_dec 0 x); [left; split; [lra|apply Rabs_pos_eq; lra]|right; split; [lra|apply Rabs_left1; lra]]. }
  destruct (clip_cases x) as [[H ->]|[[H ->]|[H ->]]]; destruct (clip_cases (2 - Rabs x)) as [[G ->]|[[G ->]|[G ->]]];
  destruct A as [[A EA]|[A EA]]; rewrite ?EA in *; clear EA; destruct b0, b1, c0, c1; cbn [xorb agree level4 IZR] in *; try lra; pose proof (pow2_ge_0 (x + 2)); pose proof (pow2_ge_0 (x - 2)); nra.
Qed.

Lemma norm_pos' m : (0 < norm_factor m)%R.
Proof. destruct m; cbn [norm_factor]; [lra| |]; apply Rdiv_lt_0_compat; try lra; apply sqrt_lt_R0; lra. Qed.
Lemma Cmod2 (z : C) : (Cmod z ^ 2 = fst z ^ 2 + snd z ^ 2)%R.
Proof. unfold Cmod. rewrite pow2_sqrt; [reflexivity|]. pose proof (pow2_ge_0 (fst z)). pose proof (pow2_ge_0 (snd z)). lra. Qed.
Lemma axis_scale k x l : (0 < k)%R -> ((x / k - l) ^ 2 = (x - k * l) ^ 2 / k ^ 2)%R.
Proof. intro K. field. lra. Qed.
Lemma soft_length m z : length (soft m z) = group_size m.
Proof. destruct m; reflexivity. Qed.
(** one point: the cost of changing any of its bits is at most the squared error *)
Lemma loss_point m z g h : length g = group_size m -> length h = group_size m ->
  (loss g h (soft m z) <= Cmod (Cminus z (amplitude (norm_factor m) (TData (point m g)))) ^ 2 / norm_factor m ^ 2)%R.
Proof.
  intros Lg Lh. pose proof (norm_pos' m) as K. set (k := norm_factor m) in *. assert (K2 : (0 < k ^ 2)%R) by now apply pow_lt.
  assert (A : forall p q : Z, (Cmod (Cminus z (amplitude k (TData (p, q)))) ^ 2 / k ^ 2 = (fst z / k - IZR p) ^ 2 + (snd z / k - IZR q) ^ 2)%R).
  { intros p q. rewrite Cmod2. destruct z as [x y]. cbn [amplitude Cminus Cplus Copp fst snd]. field. lra. }
  destruct m; cbn [group_size] in *.
  - destruct g as [|a [|]]; try discriminate. destruct h as [|b [|]]; try discriminate. cbn [point]. rewrite A. unfold soft. fold k.
    pose proof (loss_axis1 a b (fst z / k)). pose proof (pow2_ge_0 (snd z / k - 0)). lra.
  - destruct g as [|a [|a2 [|]]]; try discriminate. destruct h as [|b [|b2 [|]]]; try discriminate. cbn [point]. rewrite A. unfold soft. fold k.
    change (loss [a; a2] [b; b2] [clip (fst z / k); clip (snd z / k)]) with (loss ([a] ++ [a2]) ([b] ++ [b2]) ([clip (fst z / k)] ++ [clip (snd z / k)])).
    rewrite loss_app by reflexivity. pose proof (loss_axis1 a b (fst z / k)). pose proof (loss_axis1 a2 b2 (snd z / k)). lra.
  - destruct g as [|a [|a2 [|a3 [|a4 [|]]]]]; try discriminate. destruct h as [|b [|b2 [|b3 [|b4 [|]]]]]; try discriminate. cbn [point]. rewrite A. unfold soft. fold k.
    match goal with |- (loss _ _ [?p; ?q; ?r; ?t] <= _)%R => change (loss [a; a2; a3; a4] [b; b2; b3; b4] [p; q; r; t]) with (loss ([a; a2] ++ [a3; a4]) ([b; b2] ++ [b3; b4]) ([p; q] ++ [r; t])) end.
    rewrite loss_app by reflexivity. pose proof (loss_axis2 a a2 b b2 (fst z / k)). pose proof (loss_axis2 a3 a4 b3 b4 (snd z / k)). lra.
Qed.

(** ** combining the copies *)
Definition rtot (f : nat -> R) (l : list nat) : R := fold_right Rplus 0%R (map f l).
Lemma rtot_le f g l : (forall i, In i l -> (f i <= g i)%R) -> (rtot f l <= rtot g l)%R.
Proof. induction l as [|i l IH]; intro H; unfold rtot; cbn [map fold_right]; [lra|]. apply Rplus_le_compat; [apply H; now left|]. apply IH. intros; apply H; now right. Qed.
Lemma rtot_plus f g l : rtot (fun i => f i + g i)%R l = (rtot f l + rtot g l)%R.
Proof. induction l as [|i l IH]; unfold rtot in *; cbn [map fold_right]; [lra|]. rewrite IH. lra. Qed.
Lemma rtot_scal c f l : rtot (fun i => c * f i)%R l = (c * rtot f l)%R.
Proof. induction l as [|i l IH]; unfold rtot in *; cbn [map fold_right]; [lra|]. rewrite IH. lra. Qed.
Lemma rtot_app f a b : rtot f (a ++ b) = (rtot f a + rtot f b)%R.
Proof. induction a as [|i l IH]; unfold rtot in *; cbn [app map fold_right]; [lra|]. rewrite IH. lra. Qed.
Lemma rtot_ext f g l : (forall i, In i l -> f i = g i) -> rtot f l = rtot g l.
Proof. intro H. unfold rtot. f_equal. apply map_ext_in. exact H. Qed.
Lemma rtot_swap f la lb : rtot (fun i => rtot (f i) lb) la = rtot (fun j => rtot (fun i => f i j) la) lb.
Proof.
  induction la as [|i la IH]; [induction lb as [|j lb IHb]; [reflexivity|]; unfold rtot in *; cbn [map fold_right] in *; lra|].
  transitivity (rtot (f i) lb + rtot (fun i => rtot (f i) lb) la)%R; [reflexivity|]. rewrite IH, <- rtot_plus. apply rtot_ext. intros j _. reflexivity.
Qed.
Lemma Csum_S f n : csum f (S n) = Cplus (csum f n) (f n). Proof. reflexivity. Qed.
Lemma csum_minus f g n : (csum f n - csum g n)%C = csum (fun i => f i - g i)%C n.
Proof. induction n as [|n IH]; [cbn [csum]; ring|]. cbn [csum]. rewrite <- IH. ring. Qed.
Lemma csum_const c n : csum (fun _ => c) n = (RtoC (INR n) * c)%C.
Proof. induction n as [|n IH]; [cbn; ring|]. rewrite Csum_S, IH, S_INR, RtoC_plus. ring. Qed.
(** squared modulus of a sum of n terms: at most n times the sum of the squares *)
Lemma csum_square f n : (Cmod (csum f n) ^ 2 <= INR n * rtot (fun j => Cmod (f j) ^ 2) (seq 0 n))%R.
Proof.
  assert (X : (Cmod (csum f n) <= rtot (fun j => Cmod (f j)) (seq 0 n))%R).
  { induction n as [|n IH]; [cbn [csum]; rewrite Cmod_0; unfold rtot; cbn; lra|]. rewrite Csum_S, seq_S, rtot_app. eapply Rle_trans; [apply Cmod_triangle|].
    unfold rtot at 2. cbn [map fold_right Nat.add]. lra. }
  set (g := fun j => Cmod (f j)) in *. assert (G : forall j, (0 <= g j)%R) by (intro; apply Cmod_ge_0).
  assert (Y : (rtot g (seq 0 n) ^ 2 <= INR n * rtot (fun j => g j ^ 2) (seq 0 n))%R).
  { clear X. clearbody g. induction n as [|n IH]; [unfold rtot; cbn; lra|]. rewrite seq_S, !rtot_app, S_INR. cbn [Nat.add].
    assert (Z : forall h, rtot h [n] = h n) by (intro; unfold rtot; cbn; lra). rewrite !Z.
    set (A := rtot g (seq 0 n)) in *. set (B := rtot (fun j => (g j ^ 2)%R) (seq 0 n)) in *.
    assert (W : (2 * A * g n <= B + INR n * g n ^ 2)%R).
    { unfold A, B. clear IH. assert (E : INR n = INR (length (seq 0 n))) by now rewrite seq_length. rewrite E. clear E. set (c := g n). clearbody c. induction (seq 0 n) as [|i l IHl]; [unfold rtot; cbn; lra|].
      unfold rtot in *. cbn [map fold_right]. change (length (i :: l)) with (S (length l)). rewrite S_INR. pose proof (pow2_ge_0 (g i - c)) as Q.
      replace ((g i - c) ^ 2)%R with (g i ^ 2 - 2 * g i * c + c ^ 2)%R in Q by ring. rewrite Rmult_plus_distr_r, Rmult_1_l, Rmult_plus_distr_l, Rmult_plus_distr_r. lra. }
    nra. }
  eapply Rle_trans; [|exact Y]. apply pow_incr. split; [apply Cmod_ge_0|exact X].
Qed.
Lemma turn_back_minus n a b : (turn_back n a - turn_back n b)%C = turn_back n (a - b)%C.
Proof.
  destruct a as [a1 a2], b as [b1 b2]. unfold turn_back. pose proof (Z.mod_pos_bound n 4 ltac:(lia)) as H.
  assert (n mod 4 = 0 \/ n mod 4 = 1 \/ n mod 4 = 2 \/ n mod 4 = 3) as E by lia.
  destruct E as [E|[E|[E|E]]]; rewrite E; apply injective_projections; cbn [Cminus Cplus Copp fst snd]; ring.
Qed.
Lemma turn_back_mod n z : (Cmod (turn_back n z) ^ 2 = Cmod z ^ 2)%R.
Proof.
  rewrite !Cmod2. destruct z as [x y]. unfold turn_back. pose proof (Z.mod_pos_bound n 4 ltac:(lia)) as H.
  assert (n mod 4 = 0 \/ n mod 4 = 1 \/ n mod 4 = 2 \/ n mod 4 = 3) as E by lia.
  destruct E as [E|[E|[E|E]]]; rewrite E; cbn [fst snd]; ring.
Qed.
Lemma turn_back_turn k n g : turn_back n (amplitude k (TData (turn n g))) = amplitude k (TData g).
Proof.
  destruct g as [x y]. unfold turn_back, turn. pose proof (Z.mod_pos_bound n 4 ltac:(lia)) as H.
  assert (n mod 4 = 0 \/ n mod 4 = 1 \/ n mod 4 = 2 \/ n mod 4 = 3) as E by lia.
  destruct E as [E|[E|[E|E]]]; rewrite E; cbn [amplitude fst snd]; apply injective_projections; cbn [fst snd]; rewrite ?opp_IZR; ring.
Qed.

(** ** one symbol *)
Lemma loss_flat (G H : nat -> list bool) (S : nat -> list R) l : (forall i, In i l -> length (G i) = length (H i) /\ length (G i) = length (S i)) ->
  loss (flat_map G l) (flat_map H l) (flat_map S l) = rtot (fun i => loss (G i) (H i) (S i)) l.
Proof.
  induction l as [|i l IH]; intro L; [reflexivity|]. cbn [flat_map]. destruct (L i (or_introl eq_refl)) as [L1 L2]. rewrite loss_app by assumption.
  rewrite IH by (intros; apply L; now right). reflexivity.
Qed.
Lemma rtot_blocks e s p : rtot e (seq 0 (s * p)) = rtot (fun j => rtot (fun i => e (j * p + i)%nat) (seq 0 p)) (seq 0 s).
Proof.
  induction s as [|s IH]; [reflexivity|]. rewrite seq_S, rtot_app, <- IH. replace (S s * p)%nat with (s * p + p)%nat by lia. rewrite seq_app, rtot_app. f_equal.
  unfold rtot at 2. cbn [map fold_right Nat.add]. rewrite Rplus_0_r. unfold rtot. f_equal. clear. 
  assert (X : forall a, seq a p = map (fun i => a + i)%nat (seq 0 p)).
  { induction p as [|p IHp]; intro a; [reflexivity|]. cbn [seq map]. f_equal; [lia|]. rewrite (IHp (S a)), (IHp 1%nat), map_map. apply map_ext. intro; lia. }
  rewrite (X (s * p)%nat), map_map. reflexivity.
Qed.
Lemma chunks_flat c (l : list bool) : (0 < c)%nat -> Nat.modulo (length l) c = 0%nat -> l = flat_map (fun i => firstn c (skipn (i * c) l)) (seq 0 (length l / c)).
Proof. intros Hc M. rewrite <- (concat_chunks c l Hc) at 1. rewrite chunks_as_map by assumption. symmetry. apply flat_map_concat_map. Qed.
Lemma soft_symbol_length tone opt mcs n : supported opt mcs -> length (soft_symbol tone opt mcs n) = coded_bits opt mcs.
Proof.
  intro H. rewrite (coded_points opt mcs H). unfold soft_symbol. fold (points opt mcs). rewrite (flat_map_block_length _ (group_size (mcs_modulation mcs))); [reflexivity|]. intro. apply soft_length.
Qed.
Lemma soft_symbol_loss opt mcs col v bits n k n0 (tone tone' : nat -> Z -> C) cs : supported opt mcs -> length bits = (k * coded_bits opt mcs)%nat -> (n < k)%nat ->
  (n0 mod length (pilot_sets opt) = Z.to_nat ((col + Z.of_nat n) mod zlen (std_sets opt)))%nat ->
  (forall f, In f (data_freqs opt n0) -> tone' n0 f = amplitude (norm_factor (mcs_modulation mcs)) (tone_at (fft_size opt) (sym opt mcs col v bits n) f)) ->
  length cs = coded_bits opt mcs ->
  (loss (block opt mcs bits n) cs (soft_symbol tone opt mcs n0) * (norm_factor (mcs_modulation mcs) ^ 2 * INR (mcs_spreading mcs))
   <= fold_right Rplus 0 (map (fun f => Cmod (tone n0 f - tone' n0 f)%C ^ 2) (data_freqs opt n0)))%R.
Proof.
  intros H Hl Hn Hcol Ht Lc. set (m := mcs_modulation mcs) in *. set (kk := norm_factor m) in *. set (sf := mcs_spreading mcs). set (p := points opt mcs).
  pose proof (norm_pos' m) as K. fold kk in K. assert (K2 : (0 < kk ^ 2)%R) by now apply pow_lt.
  assert (Hsf : (0 < sf)%nat) by (revert H; clear; unfold sf; each; vm_compute; lia). assert (SF : (0 < INR sf)%R) by now apply lt_0_INR.
  pose proof (group_size_pos m) as Hg. pose proof (block_length opt mcs bits n k Hl Hn) as Lb. rewrite (coded_points opt mcs H) in Lb, Lc. fold m p in Lb, Lc.
  assert (Mb : Nat.modulo (length (block opt mcs bits n)) (group_size m) = 0%nat) by (rewrite Lb; apply mod_mult; lia).
  assert (Mc : Nat.modulo (length cs) (group_size m) = 0%nat) by (rewrite Lc; apply mod_mult; lia).
  set (blk := block opt mcs bits n) in *. set (fs := data_freqs opt n0).
  set (a := map (point m) (chunks (group_size m) blk)). assert (La : length a = p) by (unfold a; rewrite map_length, chunks_length, Lb by assumption; apply Nat.div_mul; lia).
  assert (ED : fs = filter (is_data (fft_size opt) (guard_left opt) (guard_right opt) (pset_of opt col n)) (freqs (fft_size opt))).
  { unfold fs, data_freqs, pilots_of, pset_of. change (pilot_sets opt) with (std_sets opt) in *. now rewrite Hcol. }
  assert (R : map (fun f => tone_data (tone_at (fft_size opt) (sym opt mcs col v bits n) f)) fs = spread sf a).
  { rewrite ED. exact (sym_read opt mcs col v bits n k H Hl Hn). }
  assert (Lfs : length fs = (sf * p)%nat).
  { apply (f_equal (@length gauss)) in R. rewrite map_length in R. rewrite R. unfold spread. rewrite (flat_map_block_length _ (length a)); [now rewrite La|]. intro. now rewrite map_length, seq_length. }
  set (err := fun t => (Cmod (tone n0 (nth t fs 0%Z) - tone' n0 (nth t fs 0%Z))%C ^ 2)%R).
  assert (EE : fold_right Rplus 0%R (map (fun f => (Cmod (tone n0 f - tone' n0 f)%C ^ 2)%R) fs) = rtot err (seq 0 (sf * p))).
  { unfold rtot. f_equal. rewrite (as_map 0 fs) at 1. rewrite map_map, Lfs. reflexivity. }
  rewrite EE, rtot_blocks, rtot_swap.
  rewrite (chunks_flat (group_size m) blk), (chunks_flat (group_size m) cs) by assumption. rewrite Lb, Lc, Nat.div_mul by lia.
  unfold soft_symbol. fold (points opt mcs) m. fold p. rewrite loss_flat.
  2:{ intros i Hi. apply in_seq in Hi. rewrite !firstn_length, !skipn_length, soft_length, Lb, Lc. nia. }
  rewrite Rmult_comm, <- rtot_scal. apply rtot_le. intros i Hi. apply in_seq in Hi.
  set (gi := firstn (group_size m) (skipn (i * group_size m) blk)). set (hi := firstn (group_size m) (skipn (i * group_size m) cs)).
  assert (Lgi : length gi = group_size m) by (unfold gi; rewrite firstn_length, skipn_length, Lb; nia).
  assert (Lhi : length hi = group_size m) by (unfold hi; rewrite firstn_length, skipn_length, Lc; nia).
  pose proof (loss_point m (combined tone opt mcs n0 i) gi hi Lgi Lhi) as LP. fold kk in LP.
  assert (Ai : nth i a (0, 0) = point m gi).
  { unfold a. rewrite chunks_as_map, map_map by assumption. rewrite nth_map_seq by (rewrite Lb, Nat.div_mul by lia; lia). reflexivity. }
  (* the copies *)
  assert (CP : forall j, (j < sf)%nat -> tone' n0 (nth (j * p + i) fs 0) = amplitude kk (TData (turn (spread_phase (Z.of_nat sf) (Z.of_nat j) (Z.of_nat i)) (point m gi)))).
  { intros j Hj. assert (Hji : (j * p + i < length fs)%nat) by (rewrite Lfs; nia). pose proof (nth_In fs 0 Hji) as If. rewrite (Ht _ If).
    destruct (data_freqs_tones opt mcs col v bits n0 n _ Hcol If) as [g Eg]. rewrite Eg. do 2 f_equal.
    assert (X : nth (j * p + i) (map (fun f => tone_data (tone_at (fft_size opt) (sym opt mcs col v bits n) f)) fs) (0, 0) = g).
    { rewrite (nth_map _ _ _ 0) by assumption. now rewrite Eg. }
    rewrite R in X. rewrite <- X, <- La. rewrite spread_nth by lia. now rewrite Ai. }
  assert (DD : (Cmod (combined tone opt mcs n0 i - amplitude kk (TData (point m gi)))%C ^ 2 <= / INR sf * rtot (fun j => err (j * p + i)%nat) (seq 0 sf))%R).
  { unfold combined. cbv zeta. fold (points opt mcs). fold p. fold sf. fold fs.
    set (F := fun j => turn_back (spread_phase (Z.of_nat sf) (Z.of_nat j) (Z.of_nat i)) (tone n0 (nth (j * p + i) fs 0))).
    assert (Y : (RtoC (/ INR sf) * csum F sf - amplitude kk (TData (point m gi)))%C
       = (RtoC (/ INR sf) * csum (fun j => F j - amplitude kk (TData (point m gi))) sf)%C).
    { rewrite <- csum_minus, csum_const. set (A := amplitude kk _). 
      transitivity (RtoC (/ INR sf) * csum F sf - RtoC (/ INR sf * INR sf) * A)%C; [rewrite Rinv_l by lra; ring|]. rewrite RtoC_mult. ring. }
    rewrite Y, Cmod_mult, Cmod_R, Rpow_mult_distr, pow2_abs. pose proof (csum_square (fun j => F j - amplitude kk (TData (point m gi)))%C sf) as Q.
    assert (Z0 : rtot (fun j => Cmod (F j - amplitude kk (TData (point m gi)))%C ^ 2)%R (seq 0 sf) = rtot (fun j => err (j * p + i)%nat) (seq 0 sf)).
    { apply rtot_ext. intros j Hj. apply in_seq in Hj. unfold F, err. rewrite (CP j) by lia. rewrite <- (turn_back_turn kk (spread_phase (Z.of_nat sf) (Z.of_nat j) (Z.of_nat i)) (point m gi)) at 1.
      now rewrite turn_back_minus, turn_back_mod. }
    cbv beta in Q. rewrite Z0 in Q. set (T := rtot (fun j => err (j * p + i)%nat) (seq 0 sf)) in *. apply Rle_trans with ((/ INR sf) ^ 2 * (INR sf * T))%R; [apply Rmult_le_compat_l; [apply pow2_ge_0|exact Q]|].
    right. field. lra. }
  set (T := rtot (fun j => err (j * p + i)%nat) (seq 0 sf)) in *. set (D := (Cmod _ ^ 2)%R) in *.
  apply Rle_trans with (kk ^ 2 * INR sf * (D / kk ^ 2))%R; [apply Rmult_le_compat_l; [nra|exact LP]|].
  apply Rle_trans with (INR sf * D)%R; [right; field; lra|]. apply Rle_trans with (INR sf * (/ INR sf * T))%R; [apply Rmult_le_compat_l; lra|]. right. field. lra.
Qed.

(** ** a run of symbols *)
Lemma fold_plus_app a b : fold_right Rplus 0%R (a ++ b) = (fold_right Rplus 0 a + fold_right Rplus 0 b)%R.
Proof. induction a as [|x a IH]; cbn [app fold_right]; [lra|]. rewrite IH. lra. Qed.
Lemma run_loss opt mcs col v bits k m first (tone tone' : nat -> Z -> C) cs : supported opt mcs -> length bits = (k * coded_bits opt mcs)%nat -> (m <= k)%nat ->
  (forall n, ((first + n) mod length (pilot_sets opt) = Z.to_nat ((col + Z.of_nat n) mod zlen (std_sets opt)))%nat) ->
  (forall n f, (n < m)%nat -> In f (data_freqs opt (first + n)) ->
     tone' (first + n)%nat f = amplitude (norm_factor (mcs_modulation mcs)) (tone_at (fft_size opt) (sym opt mcs col v bits n) f)) ->
  length cs = (m * coded_bits opt mcs)%nat ->
  (loss (firstn (m * coded_bits opt mcs) bits) cs (flat_map (soft_symbol tone opt mcs) (seq first m)) * (norm_factor (mcs_modulation mcs) ^ 2 * INR (mcs_spreading mcs))
   <= tone_error opt tone tone' first m)%R
  /\ length (flat_map (soft_symbol tone opt mcs) (seq first m)) = (m * coded_bits opt mcs)%nat.
Proof.
  intros H Hl Hm Hc Ht. revert cs. induction m as [|m IH]; intros cs Lc.
  - split; [|reflexivity]. unfold tone_error. cbn. lra.
  - destruct (IH ltac:(lia) ltac:(intros; apply Ht; [lia|assumption]) (firstn (m * coded_bits opt mcs) cs) ltac:(rewrite firstn_length; nia)) as [E1 E2]. clear IH.
    rewrite seq_S, !flat_map_app. cbn [flat_map]. rewrite app_nil_r.
    split; [|rewrite app_length, E2, soft_symbol_length by assumption; lia].
    assert (EB : firstn (S m * coded_bits opt mcs) bits = firstn (m * coded_bits opt mcs) bits ++ block opt mcs bits m).
    { rewrite <- !(blocks_concat opt mcs bits) by nia. rewrite seq_S, flat_map_app. cbn [flat_map Nat.add]. now rewrite app_nil_r. }
    rewrite EB. rewrite <- (firstn_skipn (m * coded_bits opt mcs) cs).
    rewrite loss_app by (rewrite ?E2, !firstn_length; nia). 
    pose proof (soft_symbol_loss opt mcs col v bits m k (first + m) tone tone' (skipn (m * coded_bits opt mcs) cs) H Hl ltac:(lia) (Hc m) (fun f Hf => Ht m f ltac:(lia) Hf) ltac:(rewrite skipn_length; nia)) as E3.
    unfold tone_error in *. rewrite seq_S, flat_map_app, fold_plus_app. cbn [flat_map]. rewrite app_nil_r. lra.
Qed.
Lemma run_decodes opt mcs col v bits k m first (tone tone' : nat -> Z -> C) d : supported opt mcs -> length bits = (k * coded_bits opt mcs)%nat -> (m <= k)%nat ->
  (forall n, ((first + n) mod length (pilot_sets opt) = Z.to_nat ((col + Z.of_nat n) mod zlen (std_sets opt)))%nat) ->
  (forall n f, (n < m)%nat -> In f (data_freqs opt (first + n)) ->
     tone' (first + n)%nat f = amplitude (norm_factor (mcs_modulation mcs)) (tone_at (fft_size opt) (sym opt mcs col v bits n) f)) ->
  (tone_error opt tone tone' first m < INR d * (norm_factor (mcs_modulation mcs) ^ 2 * INR (mcs_spreading mcs)))%R ->
  decodes d (firstn (m * coded_bits opt mcs) bits) (flat_map (soft_symbol tone opt mcs) (seq first m)).
Proof.
  intros H Hl Hm Hc Ht He. set (c := (norm_factor (mcs_modulation mcs) ^ 2 * INR (mcs_spreading mcs))%R) in *.
  assert (Lb : length (firstn (m * coded_bits opt mcs) bits) = (m * coded_bits opt mcs)%nat) by (rewrite firstn_length; nia).
  assert (C0 : (0 < c)%R).
  { apply Rmult_lt_0_compat; [apply pow_lt, norm_pos'|]. apply lt_0_INR. clear -H. revert H. each; vm_compute; lia. }
  split.
  - rewrite Lb. apply (run_loss opt mcs col v bits k m first tone tone' (firstn (m * coded_bits opt mcs) bits)); assumption.
  - intros b Lb' Hd. rewrite Lb in Lb'. destruct (run_loss opt mcs col v bits k m first tone tone' b H Hl Hm Hc Ht Lb') as [E1 E2]. fold c in E1.
    pose proof (corr_loss (firstn (m * coded_bits opt mcs) bits) b (flat_map (soft_symbol tone opt mcs) (seq first m)) ltac:(congruence) ltac:(congruence)) as E3.
    apply le_INR in Hd. set (X := loss _ _ _) in *. assert (X < INR d)%R by (apply (Rmult_lt_reg_r c); lra). lra.
Qed.

(** ** deinterleaving and decoding *)
Lemma rtot_perm f l l' : Permutation l l' -> rtot f l = rtot f l'.
Proof. unfold rtot. induction 1; cbn [map fold_right]; lra. Qed.
Lemma corr_maps (f : nat -> bool) (g : nat -> R) l : corr (map f l) (map g l) = rtot (fun i => agree (f i) (g i)) l.
Proof. unfold rtot. induction l as [|i l IH]; [reflexivity|]. cbn [map corr fold_right]. now rewrite IH. Qed.
Definition undo (ij : list Z) (k : nat) (s : list R) : list R := map (fun j => nth j s 0%R) (il_index ij k).
Lemma corr_undo n ij y s k : is_perm n ij -> (0 < n)%nat -> length y = (k * n)%nat -> length s = (k * n)%nat -> corr y (undo ij k s) = corr (il_apply ij y) s.
Proof.
  intros Hp Hn Ly Ls. pose proof (il_undo_apply n ij y Hp Hn) as U. rewrite Ly, Nat.div_mul, firstn_all2 in U by lia.
  rewrite <- U at 1. rewrite il_undo_index, il_apply_length, Ly. replace (length ij) with n by (symmetry; apply Hp). rewrite Nat.div_mul by lia.
  unfold undo. rewrite corr_maps, (rtot_perm _ _ _ (il_index_perm n ij k Hp)).
  pose proof (as_map false (il_apply ij y)) as A1. pose proof (as_map 0%R s) as A2. rewrite il_apply_length, Ly in A1. rewrite Ls in A2.
  transitivity (corr (map (fun i => nth i (il_apply ij y) false) (seq 0 (k * n))) (map (fun i => nth i s 0%R) (seq 0 (k * n)))); [now rewrite corr_maps|]. now rewrite <- A1, <- A2.
Qed.
Lemma deinterleave_soft_undo opt mcs il s k : supported opt mcs -> il_ok il -> length s = (k * il_block opt mcs il)%nat ->
  deinterleave_soft opt mcs il s = undo (std_ij opt mcs il) k s.
Proof.
  intros H Hi Ls. destruct (std_perm opt mcs il H Hi) as (L & _ & _). pose proof (il_block_pos opt mcs il H Hi) as P.
  assert (E : std_ij opt mcs il = map (fun k => rx_position opt mcs il (Z.of_nat k)) (seq 0 (il_block opt mcs il))).
  { clear L Ls. set (leq := fix leq (a b : list Z) : bool := match a, b with [], [] => true | x :: a', y :: b' => Z.eqb x y && leq a' b' | _, _ => false end).
    assert (LEQ : forall a b, leq a b = true -> a = b).
    { induction a as [|x a IH]; intros [|y b] HH; try discriminate; [reflexivity|]. cbn [leq] in HH. apply andb_prop in HH as [H1 H2]. apply Z.eqb_eq in H1. f_equal; auto. }
    apply LEQ. clear LEQ.
    destruct Hi as [-> | ->].
    - apply (supported_forall (fun o m => leq (std_ij o m 0) (map (fun k => rx_position o m 0 (Z.of_nat k)) (seq 0 (il_block o m 0))))); [vm_compute; reflexivity|assumption].
    - apply (supported_forall (fun o m => leq (std_ij o m 1) (map (fun k => rx_position o m 1 (Z.of_nat k)) (seq 0 (il_block o m 1))))); [vm_compute; reflexivity|assumption]. }
  unfold deinterleave_soft, undo, il_index. cbv zeta. rewrite Ls, Nat.div_mul, L by lia. rewrite <- flat_map_map. apply flat_map_ext. intro b. rewrite E at 1. now rewrite !map_map.
Qed.
Lemma decode_block q n ij k x vals d : is_perm n ij -> (0 < n)%nat -> length (code_of q x) = (k * n)%nat -> (q = true -> Nat.modulo (length x) 3 = 0%nat) ->
  decodes d (il_apply ij (code_of q x)) vals ->
  length (pairs q (undo ij k vals)) = length x /\
  forall known, allowed known x -> (forall y, allowed known y -> y <> x -> (d <= distance (code_of q x) (code_of q y))%nat) -> viterbi known (pairs q (undo ij k vals)) = x.
Proof.
  intros Hp Hn Lx Mx [Lv D]. rewrite il_apply_length, Lx in Lv.
  assert (LU : length (undo ij k vals) = (k * n)%nat).
  { unfold undo. rewrite map_length, (Permutation_length (il_index_perm n ij k Hp)). apply seq_length. }
  destruct (corr_pairs q x (undo ij k vals) (length x) eq_refl Mx ltac:(congruence)) as [Ex El]. split; [exact El|]. intros known Hx Hd.
  assert (Lk : length known = length x) by (clear -Hx; induction Hx; cbn; congruence).
  apply viterbi_found; [congruence|assumption|]. intros y Hy Ny.
  assert (Lxy : length y = length x) by (rewrite <- Lk; clear -Hy; induction Hy; cbn; congruence).
  assert (Ly : length (code_of q y) = (k * n)%nat).
  { rewrite <- Lx. unfold code_of. destruct q; [unfold code_34; rewrite Lxy|now rewrite !code_12_length, Lxy].
    clear. generalize (seq 0 (length x / 3)). intro l. induction l as [|i l IH]; [reflexivity|]. cbn [flat_map]. now rewrite !app_length, IH. }
  destruct (corr_pairs q y (undo ij k vals) (length y) eq_refl ltac:(rewrite Lxy; exact Mx) ltac:(congruence)) as [Ey _]. rewrite <- Ex, <- Ey.
  rewrite !(corr_undo n) by assumption. apply D; [rewrite !il_apply_length; congruence|]. rewrite (il_apply_distance n ij _ _ k) by assumption. now apply Hd.
Qed.
Lemma allowed_app k1 k2 x1 x2 : allowed k1 x1 -> allowed k2 x2 -> allowed (k1 ++ k2) (x1 ++ x2).
Proof. apply Forall2_app. Qed.
Lemma allowed_free x : allowed (repeat None (length x)) x.
Proof. induction x as [|b x IH]; cbn; constructor; auto. Qed.
Lemma allowed_some l : allowed (map Some l) l.
Proof. induction l; cbn; constructor; auto. Qed.
Lemma allowed_inv n l y : allowed (repeat None n ++ map Some l) y -> exists z, length z = n /\ y = z ++ l.
Proof.
  revert y. induction n as [|n IH]; intros y H.
  - exists []. split; [reflexivity|]. cbn [repeat app] in *. revert y H. induction l as [|b l IHl]; intros y H; inversion H; subst; [reflexivity|]. f_equal. now apply IHl.
  - cbn [repeat app] in H. inversion H as [|? b ? y' _ H']; subst. destruct (IH y' H') as (z & Lz & ->). exists (b :: z). split; [cbn; lia|reflexivity].
Qed.
(** words with a common end of six bits or more *)
Lemma tail_distance q x y t : length x = length y -> x <> y -> (6 <= length t)%nat -> (q = true -> Nat.modulo (length (x ++ t)) 3 = 0%nat) ->
  ((if q then 5 else 10) <= distance (code_of q (x ++ t)) (code_of q (y ++ t)))%nat.
Proof.
  intros L N T M. pose proof (r12_new_range 0) as R0.
  assert (Np : x ++ t <> y ++ t) by (intro E; apply app_inv_tail in E; contradiction).
  assert (Lp : length (x ++ t) = length (y ++ t)) by (rewrite !app_length; lia).
  assert (Fe : fin rstep (r12_new 0) (x ++ t) = fin rstep (r12_new 0) (y ++ t)) by now apply fin_common_tail.
  unfold code_of. destruct q; change 0 with (r12_new 0).
  - rewrite <- !enc34_code. apply enc34_distance; auto.
  - rewrite <- !enc_code_12. apply enc12_distance; auto.
Qed.

(** ** the receiver *)
Lemma plain_known opt mcs scr x : plain opt mcs scr x = scrambler x (scrambling_seed scr) ++ map (known_after opt mcs scr (length x)) (seq (length x) (length (plain opt mcs scr x) - length x))
  /\ (length x + 6 <= length (plain opt mcs scr x))%nat.
Proof.
  set (n := length x). assert (LT : length (plain opt mcs scr x) = (n + (6 + pad_bits opt mcs n))%nat) by (rewrite plain_length; unfold padded; now rewrite app_length, repeat_length).
  split; [|lia]. rewrite <- (firstn_skipn n (plain opt mcs scr x)) at 1. unfold n at 1. rewrite plain_prefix. f_equal. rewrite LT. replace (n + (6 + pad_bits opt mcs n) - n)%nat with (6 + pad_bits opt mcs n)%nat by lia.
  set (p := pad_bits opt mcs n) in *.
  set (w := scrambler (padded opt mcs x) (scrambling_seed scr)). assert (Lw : length w = (n + (6 + p))%nat) by (unfold w; rewrite scrambler_length; unfold padded; now rewrite app_length, repeat_length).
  assert (W : forall i, (n <= i < n + (6 + p))%nat -> nth i w false = pn9_bit (scrambling_seed scr) i).
  { intros i Hi. unfold w. rewrite scrambler_nth by (rewrite <- Lw in Hi; unfold w in Hi; rewrite scrambler_length in Hi; lia). unfold padded. rewrite app_nth2 by (fold n; lia). rewrite nth_repeat_false. now destruct (pn9_bit _ _). }
  apply list_eq_nth with false; [rewrite skipn_length, map_length, seq_length, LT; lia|]. rewrite skipn_length, LT. intros i Hi. rewrite nth_skipn.
  rewrite (nth_map _ _ _ 0%nat) by (rewrite seq_length; lia). rewrite seq_nth by lia. unfold known_after. fold p. unfold plain. cbv zeta. fold n w p.
  destruct (Nat.eqb_spec p 0) as [E|E]; cbn [negb andb].
  - apply W. lia.
  - destruct (Nat.ltb_spec (n + i) (n + 6)).
    + rewrite app_nth2; rewrite firstn_length; [|lia]. rewrite app_nth1 by (rewrite repeat_length; lia). apply nth_repeat_false.
    + rewrite app_nth2; rewrite firstn_length; [|lia]. rewrite app_nth2; rewrite repeat_length; [|lia]. rewrite nth_skipn. replace (n + 6 + (n + i - Nat.min n (length w) - 6))%nat with (n + i)%nat by lia. apply W. lia.
Qed.
Theorem vit_core opt mcs il scr zs (val : Z -> nat -> list R) : supported opt mcs -> il_ok il -> scr_ok scr -> Forall is_octet zs -> 1 <= zlen zs <= 2047 ->
  (let m := Z.to_nat (phr_symbols il opt) in
   decodes 10 (firstn (m * coded_bits opt (lowest_mcs opt)) (hdr_sent opt mcs il scr (zlen zs))) (flat_map (val (lowest_mcs opt)) (seq 0 m))) ->
  decodes (if mcs_three_quarters mcs then 5 else 10) (pay_sent opt mcs il scr (octet_bits zs)) (flat_map (val mcs) (seq (nphr opt mcs il) (npay opt mcs (length (octet_bits zs))))) ->
  vit_receiver val opt il = {| f_mcs := mcs; f_scrambler := scr; f_octets := zs |}.
Proof.
  intros H Hi Hs Hz Hl D1 D2. pose proof (supported_low opt mcs H) as Hlow. cbv zeta in D1.
  pose proof (header_symbols_eq opt mcs il H Hi) as HS. pose proof (nphr_ge opt mcs il H Hi) as G.
  assert (L8 : length (octet_bits zs) = Z.to_nat (8 * zlen zs)) by (rewrite octet_bits_length; unfold zlen; lia).
  assert (NP : payload_symbols_of opt mcs (zlen zs) = npay opt mcs (length (octet_bits zs))) by (unfold payload_symbols_of, npay; now rewrite L8).
  set (low := lowest_mcs opt) in *. set (m := Z.to_nat (phr_symbols il opt)) in *.
  (* header *)
  destruct (phr_whole opt mcs il H Hi) as (w & h & W1 & W2 & W3 & W4). fold low m in W1, W2.
  pose proof (hdr_sent_length opt mcs il scr (zlen zs) H Hi) as Ls. fold low in Ls.
  assert (EX : firstn (m * coded_bits opt low) (hdr_sent opt mcs il scr (zlen zs)) = il_apply (std_ij opt low il) (code_12 0 (firstn h (hdr opt mcs il scr (zlen zs))))).
  { unfold hdr_sent in Ls |- *. fold low in Ls |- *.
    rewrite W1, (il_apply_firstn (il_block opt low il) _ _ w (std_perm opt low il Hlow Hi) (il_block_pos opt low il Hlow Hi)).
    - rewrite <- W1, W2. now rewrite code_12_firstn.
    - rewrite <- W1. rewrite il_apply_length in Ls. rewrite Ls. fold m in G. nia. }
  rewrite EX in D1. set (x := firstn h (hdr opt mcs il scr (zlen zs))) in *.
  assert (Lh : length (hdr opt mcs il scr (zlen zs)) = header_bits opt mcs il) by (apply phr_layout_length, header_30; assumption).
  assert (Lx : length x = h) by (unfold x; rewrite firstn_length; lia).
  assert (Ex : x = firstn 30 (hdr opt mcs il scr (zlen zs)) ++ repeat false (h - 30)).
  { unfold x, hdr, phr_layout. cbv zeta. set (g := _ ++ _ ++ _ ++ _ ++ _ ++ _). 
    assert (Lg : length (g ++ crc8_ofdm g) = 30%nat).
    { rewrite app_length. pose proof (phr_layout_length mcs (zlen zs) scr 30 ltac:(lia)) as P. unfold phr_layout in P. cbv zeta in P. fold g in P. rewrite !app_length, repeat_length in P. lia. }
    rewrite app_assoc. set (u := g ++ crc8_ofdm g) in *. clearbody u. rewrite !firstn_app, Lg, Nat.sub_diag, firstn_O, app_nil_r, !(firstn_all2 u) by lia. f_equal.
    replace (header_bits opt mcs il - 30)%nat with (h - 30 + (header_bits opt mcs il - h))%nat by lia. rewrite repeat_app, firstn_app, repeat_length, Nat.sub_diag, firstn_O, app_nil_r, firstn_all2 by (rewrite repeat_length; lia). reflexivity. }
  assert (L30 : length (firstn 30 (hdr opt mcs il scr (zlen zs))) = 30%nat) by (rewrite firstn_length; lia).
  assert (Sb : forall k, repeat (Some false) k = map (@Some bool) (repeat false k)) by (induction k; cbn; congruence).
  destruct (decode_block false (il_block opt low il) (std_ij opt low il) w x _ 10 (std_perm opt low il Hlow Hi) (il_block_pos opt low il Hlow Hi)
     ltac:(cbn [code_of]; rewrite code_12_length; lia) ltac:(discriminate) D1) as [P1 P2].
  assert (Lv : length (flat_map (val low) (seq 0 m)) = (w * il_block opt low il)%nat).
  { destruct D1 as [D1 _]. rewrite D1, il_apply_length, code_12_length. lia. }
  assert (VH : vit_header val opt il = x).
  { unfold vit_header. fold low m. cbv zeta. rewrite (deinterleave_soft_undo opt low il _ w) by assumption. rewrite P1, Lx. apply P2.
    - rewrite Sb, Ex. apply allowed_app; [rewrite <- L30 at 1; apply allowed_free|apply allowed_some].
    - intros y Hy Ny. rewrite Sb in Hy. apply allowed_inv in Hy as (z & Lz & ->). rewrite Ex.
      apply (tail_distance false); [congruence|intro Q; apply Ny; rewrite Ex; now f_equal|rewrite repeat_length; lia|discriminate]. }
  assert (Hh : firstn 30 x = firstn 30 (phr_layout mcs (zlen zs) scr (header_bits opt mcs il))) by (unfold x; rewrite firstn_firstn, Nat.min_l by lia; reflexivity).
  pose proof (mcs_range _ _ H) as Rm. destruct (header_read mcs (zlen zs) scr _ _ Rm Hl Hs Hh) as (E1 & E2 & E3).
  unfold vit_receiver. cbv zeta. rewrite VH, E1, E2, E3. f_equal.
  (* payload *)
  set (bits := octet_bits zs) in *. set (q := mcs_three_quarters mcs) in *.
  assert (Hw : exists w', (npay opt mcs (length bits) * coded_bits opt mcs = w' * il_block opt mcs il)%nat).
  { unfold npay, il_block. destruct (il =? 0).
    - exists (groups opt mcs (length bits) * mcs_spreading mcs)%nat. lia.
    - exists (groups opt mcs (length bits)). lia. }
  destruct Hw as [w' Hw]. unfold pay_sent in D2. change (coded mcs (plain opt mcs scr bits)) with (code_of q (plain opt mcs scr bits)) in D2.
  assert (Lc : length (code_of q (plain opt mcs scr bits)) = (w' * il_block opt mcs il)%nat) by (rewrite <- Hw; now apply coded_length).
  assert (M3 : q = true -> Nat.modulo (length (plain opt mcs scr bits)) 3 = 0%nat) by (intro; now apply plain_3).
  destruct (decode_block q (il_block opt mcs il) (std_ij opt mcs il) w' (plain opt mcs scr bits) _ _ (std_perm opt mcs il H Hi) (il_block_pos opt mcs il H Hi) Lc M3 D2) as [Q1 Q2].
  assert (Lv2 : length (flat_map (val mcs) (seq (nphr opt mcs il) (npay opt mcs (length bits)))) = (w' * il_block opt mcs il)%nat).
  { destruct D2 as [D2 _]. rewrite D2, il_apply_length. exact Lc. }
  destruct (plain_known opt mcs scr bits) as [PK PL]. set (sx := scrambler bits (scrambling_seed scr)) in *. assert (Lsx : length sx = length bits) by apply scrambler_length.
  unfold vit_payload. cbv zeta. fold q. rewrite HS, NP, <- L8. rewrite (deinterleave_soft_undo opt mcs il _ w') by assumption. rewrite Q1.
  set (tl := seq (length bits) (length (plain opt mcs scr bits) - length bits)) in *.
  assert (EV : viterbi (repeat None (length bits) ++ map (fun i => Some (known_after opt mcs scr (length bits) i)) tl) (pairs q (undo (std_ij opt mcs il) w' (flat_map (val mcs) (seq (nphr opt mcs il) (npay opt mcs (length bits)))))) = plain opt mcs scr bits).
  { rewrite <- (map_map (known_after opt mcs scr (length bits)) Some). set (t := map (known_after opt mcs scr (length bits)) tl) in *.
    assert (Lt : (6 <= length t)%nat) by (unfold t, tl; rewrite map_length, seq_length; lia).
    apply Q2.
    - rewrite PK. apply allowed_app; [rewrite <- Lsx; apply allowed_free|apply allowed_some].
    - intros y Hy Ny. apply allowed_inv in Hy as (z & Lz & ->). rewrite PK. apply tail_distance; [congruence|intro Q; apply Ny; rewrite PK; now f_equal|assumption|]. rewrite <- PK. exact M3. }
  rewrite EV. rewrite plain_prefix, unscramble_eq, scrambler_involutive. now apply octets_of_bits.
Qed.
(** hard decisions *)
Definition sign_of (b : bool) : R := if b then 1%R else (-1)%R.
Lemma corr_signs a h : length a = length h -> corr a (map sign_of h) = (INR (length a) - 2 * INR (distance a h))%R.
Proof.
  unfold distance. revert h. induction a as [|x a IH]; intros [|y h] L; cbn [length] in *; try lia; [cbn; lra|].
  cbn [map corr xor_bits weight]. rewrite IH by lia. rewrite plus_INR. change (S (length a)) with (1 + length a)%nat. rewrite plus_INR. destruct x, y; cbn [agree sign_of xorb INR]; lra.
Qed.
Lemma hard_decodes d a h : length a = length h -> (2 * distance a h < d)%nat -> decodes d a (map sign_of h).
Proof.
  intros L Hd. split; [rewrite map_length; congruence|]. intros b Lb Hb. rewrite !corr_signs by congruence. rewrite Lb.
  assert (T : (distance a b <= distance a h + distance b h)%nat).
  { clear -L Lb. unfold distance. revert h b L Lb. induction a as [|x a IH]; intros [|y h] [|z b] L Lb; cbn [length] in *; try lia. cbn [xor_bits weight]. specialize (IH h b ltac:(lia) ltac:(lia)). destruct x, y, z; cbn [xorb]; lia. }
  assert (INR (distance a h) < INR (distance b h))%R by (apply lt_INR; lia). lra.
Qed.
