(** * Proofs: costs of the MR-FSK correctors *)
From Coq Require Import Qreals Reals Lra.
From Coquelicot Require Import Complex.
From Verif Require Import Py PList SBits MBits PBits MPn9 MFsk PConv SFsk PFsk PFskGap MTime PTime SGap PGap MFskWave SFskGap PFskNoise SFskRx PSync SFskVit PFskVit.
Local Open Scope R_scope.

(** ** sums *)
Lemma tot_le f g l : (forall i, In i l -> f i <= g i) -> tot f l <= tot g l.
Proof. unfold tot. induction l as [|i l IH]; intro H; cbn [map fold_right]; [lra|]. pose proof (H i (or_introl eq_refl)). specialize (IH (fun j Hj => H j (or_intror Hj))). lra. Qed.
Lemma tot_plus f g l : tot (fun i => f i + g i) l = tot f l + tot g l.
Proof. unfold tot. induction l as [|i l IH]; cbn [map fold_right]; [lra|]. rewrite IH. lra. Qed.
Lemma tot_scal c f l : tot (fun i => c * f i) l = c * tot f l.
Proof. unfold tot. induction l as [|i l IH]; cbn [map fold_right]; [lra|]. rewrite IH. lra. Qed.
Lemma tot_nonneg f l : (forall i, 0 <= f i) -> 0 <= tot f l.
Proof. intro H. unfold tot. induction l as [|i l IH]; cbn [map fold_right]; [lra|]. specialize (H i). lra. Qed.
Lemma tot_indicator (p : nat -> bool) l : tot (fun i => if p i then 1 else 0) l = INR (length (filter p l)).
Proof. unfold tot. induction l as [|i l IH]; cbn [map fold_right filter]; [reflexivity|]. rewrite IH. destruct (p i); cbn [length]; rewrite ?S_INR; lra. Qed.
Lemma tot_pairs f n : tot (fun k => f (2 * k)%nat + f (2 * k + 1)%nat) (seq 0 n) = tot f (seq 0 (2 * n)).
Proof.
  induction n as [|n IH]; [reflexivity|]. rewrite seq_S, tot_app, IH. replace (2 * S n)%nat with (S (S (2 * n))) by lia. rewrite !seq_S, !tot_app. cbn [Nat.add].
  unfold tot. cbn [map fold_right]. replace (2 * n + 1)%nat with (S (2 * n)) by lia. ring.
Qed.
Lemma tot_shift f a n : tot f (seq a n) = tot (fun i => f (a + i)%nat) (seq 0 n).
Proof. rewrite seq_from, tot_map. reflexivity. Qed.

(** ** bits *)
Lemma bit_total r a : Nat.even (length a) = true -> (length a <= length r)%nat -> total (bit_cost r) a = INR (distance r a).
Proof.
  intros Ev L. apply Nat.even_spec in Ev as [n Hn]. unfold total. replace (length a / 2)%nat with n by (rewrite Hn, Nat.mul_comm, Nat.div_mul; lia).
  rewrite (tot_pairs (fun j => if xorb (nth j r false) (nth j a false) then 1 else 0) n) || (unfold bit_cost; rewrite (tot_pairs (fun j => if xorb (nth j r false) (nth j a false) then 1 else 0) n)).
  rewrite tot_indicator, distance_count, Nat.min_r by assumption. now rewrite Hn.
Qed.
Lemma bit_separates r a : Nat.even (length a) = true -> (length a <= length r)%nat -> (distance r a <= 2)%nat -> separates (bit_cost r) a.
Proof.
  intros Ev L D b Lb H. rewrite !bit_total by (rewrite ?Lb; assumption). apply lt_INR. pose proof (distance_triangle a b r ltac:(lia)). lia.
Qed.

(** ** samples *)
Lemma block_length x j : (20 * j + 20 <= length x)%nat -> length (block x j) = 20%nat.
Proof. intro H. unfold block. rewrite firstn_length, skipn_length. lia. Qed.
Lemma tone_samples_length h t j : length (tone_samples h t j) = 20%nat.
Proof. unfold tone_samples. now rewrite map_length, seq_length. Qed.
Lemma gap_blocks (F : nat -> list C) x n : (forall j, length (F j) = 20%nat) -> forall a, (20 * (a + n) <= length x)%nat ->
  gap (skipn (20 * a) x) (flat_map F (seq a n)) = tot (fun j => gap (block x j) (F j)) (seq a n).
Proof.
  intro HF. induction n as [|n IH]; intros a H.
  - cbn [seq flat_map]. unfold tot. cbn [map fold_right]. destruct (skipn (20 * a) x); reflexivity.
  - cbn [seq flat_map]. unfold tot. cbn [map fold_right]. fold (tot (fun j => gap (block x j) (F j)) (seq (S a) n)). rewrite <- IH by lia.
    rewrite <- (firstn_skipn 20 (skipn (20 * a) x)) at 1. rewrite gap_app; [|rewrite HF; apply (block_length x a); lia].
    replace (20 * S a)%nat with (20 * a + 20)%nat by lia. unfold block. f_equal. f_equal. rewrite skipn_twice. f_equal. lia.
Qed.
(** symbols of a frame after [first] others *)
Definition body_tones (fsk4 : bool) (h : R) (first : nat) (a : list bool) (j : nat) : list C := tone_samples h (symbol_tone fsk4 a j) (first + j).
Lemma sample_total fsk4 h first x a : Nat.even (length a) = true ->
  total (sample_cost fsk4 h first x) a = tot (fun j => gap (block x (first + j)) (body_tones fsk4 h first a j)) (seq 0 (symbols fsk4 a)).
Proof.
  intro Ev. apply Nat.even_spec in Ev as [n Hn]. unfold total. replace (length a / 2)%nat with n by (rewrite Hn, Nat.mul_comm, Nat.div_mul; lia).
  unfold symbols. destruct fsk4.
  - replace (length a / 2)%nat with n by (rewrite Hn, Nat.mul_comm, Nat.div_mul; lia). apply tot_ext. intros k _. reflexivity.
  - rewrite Hn. rewrite <- (tot_pairs (fun j => gap (block x (first + j)) (body_tones false h first a j)) n). apply tot_ext. intros k _. unfold sample_cost, tone_cost, body_tones, symbol_tone. rewrite <- Nat.add_assoc. reflexivity.
Qed.
Lemma tones_apart fsk4 h first a b : 1 / 4 <= h <= 5 / 2 -> length a = length b -> Nat.even (length a) = true -> (6 <= distance a b)%nat ->
  fsk_margin fsk4 true <= tot (fun j => gap (body_tones fsk4 h first a j) (body_tones fsk4 h first b j)) (seq 0 (symbols fsk4 a)).
Proof.
  intros Hh L Ev D.
  apply Rle_trans with (3 * INR (differing_symbols fsk4 a b)).
  - assert (W : ((if fsk4 then 3 else 6) <= differing_symbols fsk4 a b)%nat).
    { destruct fsk4; [|rewrite differing_2; lia]. apply Nat.even_spec in Ev as Ev'. destruct Ev' as [n Hn]. pose proof (differing_4 n a b Hn ltac:(now rewrite <- L)). lia. }
    apply le_INR in W. unfold fsk_margin. destruct fsk4; cbn [INR] in W; lra.
  - unfold differing_symbols. replace (Nat.min (symbols fsk4 a) (symbols fsk4 b)) with (symbols fsk4 a) by (unfold symbols; rewrite L, Nat.min_id; reflexivity).
    rewrite <- tot_indicator, <- tot_scal. apply tot_le. intros j _.
    destruct (Z.eqb_spec (symbol_tone fsk4 a j) (symbol_tone fsk4 b j)) as [E|E]; cbn [negb].
    + rewrite Rmult_0_r. apply gap_nonneg.
    + rewrite Rmult_1_r. apply (symbol_gap h _ _ (first + j)); auto; apply symbol_tone_cases.
Qed.
Lemma sample_separates fsk4 h first x a : 1 / 4 <= h <= 5 / 2 -> Nat.even (length a) = true -> (20 * (first + symbols fsk4 a) <= length x)%nat ->
  total (sample_cost fsk4 h first x) a < fsk_margin fsk4 true / 4 -> separates (sample_cost fsk4 h first x) a.
Proof.
  intros Hh Ev L G b Lb D. rewrite !sample_total in * by (rewrite ?Lb; assumption). 
  assert (Sy : symbols fsk4 b = symbols fsk4 a) by (unfold symbols; now rewrite Lb). rewrite Sy.
  pose proof (tones_apart fsk4 h first a b Hh ltac:(congruence) Ev D) as M.
  assert (T : tot (fun j => gap (body_tones fsk4 h first a j) (body_tones fsk4 h first b j)) (seq 0 (symbols fsk4 a))
    <= tot (fun j => 2 * gap (block x (first + j)) (body_tones fsk4 h first a j) + 2 * gap (block x (first + j)) (body_tones fsk4 h first b j)) (seq 0 (symbols fsk4 a))).
  { apply tot_le. intros j Hj. apply in_seq in Hj. apply gap_par. unfold body_tones. rewrite tone_samples_length. apply block_length. lia. }
  rewrite tot_plus, !tot_scal in T. lra.
Qed.
Lemma total_prefix cost a n : (forall k u v, 0 <= cost k u v) -> Nat.even n = true -> (n <= length a)%nat -> total cost (firstn n a) <= total cost a.
Proof.
  intros P Ev L. apply Nat.even_spec in Ev as [m ->]. unfold total. rewrite firstn_length, Nat.min_l by assumption. rewrite (Nat.mul_comm 2 m), Nat.div_mul by lia.
  assert (Lm : (m <= length a / 2)%nat) by (apply Nat.div_le_lower_bound; lia).
  replace (length a / 2)%nat with (m + (length a / 2 - m))%nat by lia. rewrite seq_app, tot_app.
  rewrite (tot_ext (fun k => cost k (nth (2 * k) (firstn (m * 2) a) false) (nth (2 * k + 1) (firstn (m * 2) a) false)) (fun k => cost k (nth (2 * k) a false) (nth (2 * k + 1) a false))).
  - pose proof (tot_nonneg (fun k => cost k (nth (2 * k) a false) (nth (2 * k + 1) a false)) (seq (0 + m) (length a / 2 - m)) ltac:(intro; apply P)). lra.
  - intros k Hk. apply in_seq in Hk. rewrite !nth_firstn by lia. reflexivity.
Qed.
Lemma sample_cost_nonneg fsk4 h first x k u v : 0 <= sample_cost fsk4 h first x k u v.
Proof. unfold sample_cost, tone_cost. destruct fsk4; repeat apply Rplus_le_le_0_compat; apply gap_nonneg. Qed.
