(** * Distances between sample sequences, constellation points and coded bits *)
From Coq Require Import Reals Lra Permutation.
From Coquelicot Require Import Complex.
From Verif Require Import Py PList SBits MBits MPn9 SPn9 PPn9 MRate SRate PConv PRate PRate34 MFields PFields SCrc MModul MOfdm Tables SOfdm SMrOfdm PModul POfdm MMrOfdm PStd PMrOfdm PMrRx MTime STime PTime SGap.

(** ** squared distance of complex sequences *)
Lemma gap_nonneg x y : (0 <= gap x y)%R.
Proof. revert y. induction x as [|a x IH]; intros [|b y]; cbn [gap]; try lra. specialize (IH y). pose proof (pow2_ge_0 (Cmod (a - b)%C)). lra. Qed.
Lemma gap_app a b c d : length a = length b -> gap (a ++ c) (b ++ d) = (gap a b + gap c d)%R.
Proof.
  revert b. induction a as [|x a IH]; intros [|y b] L; cbn [length] in L; try lia; cbn [app gap]; [lra|]. rewrite IH by lia. lra.
Qed.
Lemma gap_same a : gap a a = 0%R.
Proof.
  induction a as [|x a IH]; cbn [gap]; [reflexivity|]. rewrite IH. replace (x - x)%C with (RtoC 0) by ring. rewrite Cmod_0. lra.
Qed.
Lemma gap_sym a b : gap a b = gap b a.
Proof.
  revert b. induction a as [|x a IH]; intros [|y b]; cbn [gap]; try reflexivity. rewrite IH. f_equal. f_equal.
  replace (x - y)%C with (- (y - x))%C by ring. apply Cmod_opp.
Qed.
Lemma gap_energy x y : gap x y = energy (map2 Cminus x y).
Proof. revert y. induction x as [|a x IH]; intros [|b y]; cbn [gap map2 energy]; try reflexivity. now rewrite IH. Qed.
(** the parallelogram bound *)
Lemma cmod_par a b r : (Cmod (a - b)%C ^ 2 <= 2 * Cmod (r - a)%C ^ 2 + 2 * Cmod (r - b)%C ^ 2)%R.
Proof.
  assert (H : forall z : C, (Cmod z ^ 2 = fst z ^ 2 + snd z ^ 2)%R).
  { intro z. unfold Cmod. rewrite pow2_sqrt; [reflexivity|]. pose proof (pow2_ge_0 (fst z)). pose proof (pow2_ge_0 (snd z)). lra. }
  rewrite !H. destruct a as [a1 a2], b as [b1 b2], r as [r1 r2]. cbn [fst snd Cminus Cplus Copp].
  pose proof (pow2_ge_0 (r1 + - a1 + (r1 + - b1))). pose proof (pow2_ge_0 (r2 + - a2 + (r2 + - b2))). nra.
Qed.
Lemma gap_par x y r : length r = length x -> (gap x y <= 2 * gap r x + 2 * gap r y)%R.
Proof.
  revert y r. induction x as [|a x IH]; intros y [|c r] L; cbn [length] in L; try lia.
  - cbn [gap]. lra.
  - destruct y as [|b y].
    + cbn [gap]. pose proof (pow2_ge_0 (Cmod (c - a)%C)). pose proof (gap_nonneg r x). lra.
    + cbn [gap]. pose proof (cmod_par a b c). specialize (IH y r ltac:(lia)). lra.
Qed.

(** ** the transform keeps distances *)
Lemma nth_map2_minus x y i : length x = length y -> nth i (map2 Cminus x y) (RtoC 0) = (nth i x (RtoC 0) - nth i y (RtoC 0))%C.
Proof.
  revert y i. induction x as [|a x IH]; intros [|b y] i L; cbn [length] in L; try lia.
  - destruct i; cbn; ring.
  - destruct i; cbn [map2 nth]; [reflexivity|]. apply IH. lia.
Qed.
Lemma map2_skipn {A B D} (f : A -> B -> D) n x y : map2 f (skipn n x) (skipn n y) = skipn n (map2 f x y).
Proof.
  revert x y. induction n as [|n IH]; intros x y; [reflexivity|]. destruct x, y; cbn [skipn map2]; try reflexivity; [destruct (skipn n x); reflexivity|]. apply IH.
Qed.
Lemma map2_firstn {A B D} (f : A -> B -> D) n x y : map2 f (firstn n x) (firstn n y) = firstn n (map2 f x y).
Proof.
  revert x y. induction n as [|n IH]; intros x y; [reflexivity|]. destruct x, y; cbn [firstn map2]; try reflexivity. f_equal. apply IH.
Qed.
Lemma map2_app_eq {A B D} (f : A -> B -> D) a b c d : length a = length b -> map2 f (a ++ c) (b ++ d) = map2 f a b ++ map2 f c d.
Proof. revert b. induction a; intros [|y b] L; cbn [length] in L; try lia; cbn [app map2]; [reflexivity|]. f_equal. apply IHa. lia. Qed.
Lemma ifft_minus x y : length x = length y -> map2 Cminus (ifft_ortho x) (ifft_ortho y) = ifft_ortho (map2 Cminus x y).
Proof.
  intro L. apply list_eq_nth with (RtoC 0).
  - rewrite map2_length, !ifft_length, map2_length. lia.
  - intros i Hi. rewrite map2_length, !ifft_length in Hi. rewrite nth_map2_minus by (rewrite !ifft_length; assumption).
    unfold ifft_ortho. rewrite !nth_map_seq by (rewrite ?map2_length; lia). rewrite map2_length, <- L, Nat.min_id.
    assert (N1 : RtoC (-1) = Copp (RtoC 1)) by (apply injective_projections; cbn; ring).
    set (w := Cinv _). transitivity (w * (Csum (fun k => nth k x (RtoC 0) * cis (2 * PI * (INR k * INR i / INR (length x)))) (length x)
      + (RtoC (-1)) * Csum (fun k => nth k y (RtoC 0) * cis (2 * PI * (INR k * INR i / INR (length x)))) (length x)))%C.
    { rewrite N1. ring. }
    f_equal. rewrite <- Csum_scal, <- Csum_plus. apply Csum_ext. intros k Hk. rewrite nth_map2_minus by assumption. rewrite N1. ring.
Qed.
Lemma o_ifft_minus x y : length x = length y -> map2 Cminus (o_ifft x) (o_ifft y) = o_ifft (map2 Cminus x y).
Proof.
  intro L. unfold o_ifft. rewrite ifft_minus by (unfold ifftshift; rewrite !app_length, !skipn_length, !firstn_length; lia).
  f_equal. unfold ifftshift. rewrite map2_length, <- L, Nat.min_id, map2_app_eq by (rewrite !skipn_length; lia).
  now rewrite map2_skipn, map2_firstn.
Qed.
Lemma gap_o_ifft x y : length x = length y -> gap (o_ifft x) (o_ifft y) = gap x y.
Proof. intro L. now rewrite !gap_energy, o_ifft_minus, o_ifft_energy. Qed.
Lemma gap_symbol q x y : (0 < q)%nat -> length x = (4 * q)%nat -> length y = (4 * q)%nat ->
  length (symbol_samples (1 # 4) x) = (5 * q)%nat /\ length (symbol_samples (1 # 4) y) = (5 * q)%nat
  /\ (gap x y <= gap (symbol_samples (1 # 4) x) (symbol_samples (1 # 4) y))%R.
Proof.
  intros Hq Hx Hy. assert (P : forall c, length c = (4 * q)%nat -> symbol_samples (1 # 4) c = prefixed q (o_ifft c)).
  { intros c Hc. unfold symbol_samples. apply quarter_prefix; [now rewrite o_ifft_length|assumption]. }
  assert (LT : forall c : list C, length c = (4 * q)%nat -> length (tail_of q (o_ifft c)) = q).
  { intros c Hc. unfold tail_of. rewrite skipn_length, o_ifft_length. lia. }
  rewrite !P by assumption. unfold prefixed. rewrite !app_length, !LT, !o_ifft_length by assumption.
  split; [lia|]. split; [lia|]. rewrite gap_app by (now rewrite !LT). rewrite gap_o_ifft by lia.
  pose proof (gap_nonneg (tail_of q (o_ifft x)) (tail_of q (o_ifft y))). lra.
Qed.

(** ** constellation points *)
Fixpoint gdist (a b : list gauss) : Z := match a, b with x :: a', y :: b' => dist2 x y + gdist a' b' | _, _ => 0 end.
Lemma gdist_app a b c d : length a = length b -> gdist (a ++ c) (b ++ d) = gdist a b + gdist c d.
Proof. revert b. induction a as [|x a IH]; intros [|y b] L; cbn [length] in L; try lia; cbn [app gdist]; [lia|]. rewrite IH by lia. lia. Qed.
Lemma dist2_turn n a b : dist2 (turn n a) (turn n b) = dist2 a b.
Proof.
  unfold turn, dist2. destruct a as [a1 a2], b as [b1 b2]. pose proof (Z.mod_pos_bound n 4 ltac:(lia)) as H.
  assert (n mod 4 = 0 \/ n mod 4 = 1 \/ n mod 4 = 2 \/ n mod 4 = 3) as E by lia.
  destruct E as [E|[E|[E|E]]]; rewrite E; cbn [fst snd]; lia.
Qed.
Lemma gdist_turns (e : nat -> Z) a b : length a = length b ->
  gdist (map (fun k => turn (e k) (nth k a (0, 0))) (seq 0 (length a))) (map (fun k => turn (e k) (nth k b (0, 0))) (seq 0 (length b))) = gdist a b.
Proof.
  revert e b. induction a as [|x a IH]; intros e [|y b] L; cbn [length] in L; try lia; [reflexivity|].
  cbn [length seq map gdist nth]. rewrite dist2_turn. f_equal. rewrite <- !seq_shift, !map_map. cbn [nth].
  apply (IH (fun k => e (S k))). lia.
Qed.
Lemma gdist_spread sf a b : length a = length b -> gdist (spread sf a) (spread sf b) = Z.of_nat sf * gdist a b.
Proof.
  intro L. unfold spread. set (ph := spread_phase (Z.of_nat sf)).
  assert (G : forall l, gdist (flat_map (fun j => map (fun k => turn (ph (Z.of_nat j) (Z.of_nat k)) (nth k a (0, 0))) (seq 0 (length a))) l)
     (flat_map (fun j => map (fun k => turn (ph (Z.of_nat j) (Z.of_nat k)) (nth k b (0, 0))) (seq 0 (length b))) l) = Z.of_nat (length l) * gdist a b).
  { induction l as [|j l IH]; [reflexivity|]. cbn [flat_map]. rewrite gdist_app by (rewrite !map_length, !seq_length; assumption).
    rewrite IH, (gdist_turns (fun k => ph (Z.of_nat j) (Z.of_nat k))) by assumption. cbn [length]. lia. }
  rewrite G, seq_length. reflexivity.
Qed.
Lemma point_dist m g h : length g = group_size m -> length h = group_size m -> 4 * Z.of_nat (distance g h) <= dist2 (point m g) (point m h).
Proof.
  intros Hg Hh. destruct m; cbn [group_size] in *.
  - destruct g as [|a [|]]; try discriminate. destruct h as [|b [|]]; try discriminate. destruct a, b; vm_compute; discriminate.
  - destruct g as [|a [|a2 [|]]]; try discriminate. destruct h as [|b [|b2 [|]]]; try discriminate. destruct a, a2, b, b2; vm_compute; discriminate.
  - destruct g as [|a [|a2 [|a3 [|a4 [|]]]]]; try discriminate. destruct h as [|b [|b2 [|b3 [|b4 [|]]]]]; try discriminate.
    destruct a, a2, a3, a4, b, b2, b3, b4; vm_compute; discriminate.
Qed.
Lemma points_dist m x y : Nat.modulo (length x) (group_size m) = 0%nat -> length x = length y ->
  4 * Z.of_nat (distance x y) <= gdist (map (point m) (chunks (group_size m) x)) (map (point m) (chunks (group_size m) y)).
Proof.
  pose proof (group_size_pos m) as Hp. intro M. revert y. revert x M.
  apply (block_ind (group_size m) (fun x => forall y, length x = length y -> 4 * Z.of_nat (distance x y) <=
     gdist (map (point m) (chunks (group_size m) x)) (map (point m) (chunks (group_size m) y)))); [assumption| |].
  - intros y L. destruct y; [|discriminate]. cbn. lia.
  - intros a x La IH y L. rewrite app_length in L. rewrite <- (firstn_skipn (group_size m) y).
    assert (Ly : length (firstn (group_size m) y) = group_size m) by (rewrite firstn_length; lia).
    rewrite distance_app by lia. rewrite !chunks_app by assumption. cbn [map gdist].
    specialize (IH (skipn (group_size m) y)). rewrite skipn_length in IH. specialize (IH ltac:(lia)).
    pose proof (point_dist m a (firstn (group_size m) y) La Ly). lia.
Qed.
Lemma symbol_data_dist m sf x y : Nat.modulo (length x) (group_size m) = 0%nat -> length x = length y ->
  4 * Z.of_nat sf * Z.of_nat (distance x y) <= gdist (symbol_data m sf x) (symbol_data m sf y).
Proof.
  intros M L. unfold symbol_data. pose proof (group_size_pos m).
  rewrite gdist_spread by (rewrite !map_length, !chunks_length by (try assumption; congruence); now rewrite L).
  pose proof (points_dist m x y M L). nia.
Qed.

(** ** one symbol *)
Lemma gap_data k a b : gap (map (tone_value k) (map TData a)) (map (tone_value k) (map TData b)) = (k ^ 2 * IZR (gdist a b))%R.
Proof.
  revert b. induction a as [|x a IH]; intros [|y b]; cbn [map gap gdist]; try (rewrite Rmult_0_r; reflexivity).
  rewrite IH, plus_IZR, Rmult_plus_distr_l. f_equal. cbn [tone_value].
  replace (RtoC k * (IZR (fst x), IZR (snd x)) - RtoC k * (IZR (fst y), IZR (snd y)))%C
    with (RtoC k * ((IZR (fst x) - IZR (fst y))%R, (IZR (snd x) - IZR (snd y))%R))%C by (apply injective_projections; cbn; ring).
  rewrite Cmod_mult, Cmod_R, Rpow_mult_distr, pow2_abs. f_equal. unfold Cmod. rewrite pow2_sqrt; cycle 1.
  { match goal with |- (0 <= ?u ^ 2 + ?v ^ 2)%R => pose proof (pow2_ge_0 u); pose proof (pow2_ge_0 v) end. lra. }
  cbn [fst snd]. unfold dist2. rewrite plus_IZR, !(Z.pow_2_r), !mult_IZR, !minus_IZR. ring.
Qed.
Lemma gap_layout k N pl pr pset pv d1 d2 : length d1 = n_data N pl pr pset -> length d2 = n_data N pl pr pset ->
  gap (map (tone_value k) (layout N pl pr pset pv d1)) (map (tone_value k) (layout N pl pr pset pv d2)) = (k ^ 2 * IZR (gdist d1 d2))%R.
Proof.
  intros L1 L2. rewrite <- gap_data.
  assert (R : forall d, length d = n_data N pl pr pset -> map TData d = map (layout_tone N pl pr pset pv d) (filter (is_data N pl pr pset) (freqs N))).
  { intros d Ld. rewrite <- (read_data_layout N pl pr pset pv d Ld) at 1. unfold read_data. rewrite map_map. apply map_ext_in. intros f Hf.
    apply filter_In in Hf as [Hf Hd]. unfold tone_at, layout.
    assert (Ef : tone_at N (layout N pl pr pset pv d) f = layout_tone N pl pr pset pv d f).
    { unfold tone_at, layout. unfold freqs in Hf. apply in_map_iff in Hf as (i & <- & Hi). apply in_seq in Hi.
      replace (Z.to_nat (Z.of_nat i - N / 2 + N / 2)) with i by lia. rewrite (nth_map _ _ i 0) by (unfold freqs; rewrite map_length, seq_length; lia).
      f_equal. unfold freqs. rewrite nth_map_seq by lia. reflexivity. }
    unfold tone_at, layout in Ef. rewrite Ef. unfold layout_tone, is_data in *. apply andb_prop in Hd as [H1 H2].
    destruct (memb f pset); [discriminate|]. destruct (guard_or_dc N pl pr f); [discriminate|]. reflexivity. }
  rewrite (R d1 L1), (R d2 L2). clear R. unfold layout. induction (freqs N) as [|f l IH]; [reflexivity|].
  cbn [map filter gap]. destruct (is_data N pl pr pset f) eqn:E.
  - cbn [map gap]. now rewrite IH.
  - rewrite IH. replace (tone_value k (layout_tone N pl pr pset pv d1 f)) with (tone_value k (layout_tone N pl pr pset pv d2 f)).
    + replace (_ - _)%C with (RtoC 0) by ring. rewrite Cmod_0. lra.
    + unfold layout_tone, is_data in *. destruct (memb f pset); [reflexivity|]. destruct (guard_or_dc N pl pr f); [reflexivity|discriminate].
Qed.
Lemma gap_sym_tones opt mcs col v k b1 b2 n m : supported opt mcs -> length b1 = (m * coded_bits opt mcs)%nat -> length b2 = (m * coded_bits opt mcs)%nat -> (n < m)%nat ->
  (k ^ 2 * (4 * INR (mcs_spreading mcs)) * INR (distance (block opt mcs b1 n) (block opt mcs b2 n))
   <= gap (map (tone_value k) (sym opt mcs col v b1 n)) (map (tone_value k) (sym opt mcs col v b2 n)))%R.
Proof.
  intros H H1 H2 Hn. unfold sym. fold (pset_of opt col n).
  destruct (pset_of_ok opt mcs col n H) as [Hp Hz].
  pose proof (good_nd (std_cfg opt mcs) _ _ (pset_of opt col n) (std_good opt mcs H) Hp) as E.
  rewrite (std_np opt mcs H) in E. specialize (E Hz). cbn [std_cfg o_N o_pl o_pr] in E. pose proof (points_tones opt mcs H) as PT.
  rewrite gap_layout; [| rewrite (sym_data_length opt mcs b1 n m H H1 Hn), E; lia | rewrite (sym_data_length opt mcs b2 n m H H2 Hn), E; lia].
  rewrite !INR_IZR_INZ. rewrite <- (mult_IZR 4). rewrite !Rmult_assoc. apply Rmult_le_compat_l; [apply pow2_ge_0|]. rewrite <- mult_IZR. apply IZR_le.
  pose proof (block_length opt mcs b1 n m H1 Hn) as B1. pose proof (block_length opt mcs b2 n m H2 Hn) as B2.
  apply symbol_data_dist; [|congruence]. rewrite B1, (coded_points opt mcs H). apply mod_mult. pose proof (group_size_pos (mcs_modulation mcs)). lia.
Qed.

(** ** runs of symbols *)
Lemma gap_flat_map (F G : nat -> list C) (w : nat -> nat) c l :
  (forall n, In n l -> length (F n) = length (G n) /\ (c * INR (w n) <= gap (F n) (G n))%R) ->
  (c * INR (list_sum (map w l)) <= gap (flat_map F l) (flat_map G l))%R.
Proof.
  induction l as [|n l IH]; intro H; [cbn; lra|]. cbn [map list_sum fold_right flat_map].
  destruct (H n (or_introl eq_refl)) as [L E]. rewrite gap_app by assumption. change (fold_right Nat.add 0%nat (map w l)) with (list_sum (map w l)).
  rewrite plus_INR, Rmult_plus_distr_l. apply Rplus_le_compat; [exact E|]. apply IH. intros k Hk. apply H. now right.
Qed.
Lemma blocks_distance c k : forall x y, length x = (k * c)%nat -> length y = (k * c)%nat ->
  list_sum (map (fun n => distance (firstn c (skipn (n * c) x)) (firstn c (skipn (n * c) y))) (seq 0 k)) = distance x y.
Proof.
  induction k as [|k IH]; intros x y Lx Ly.
  - destruct x; [|discriminate]. destruct y; [|discriminate]. reflexivity.
  - cbn [seq map list_sum fold_right]. rewrite <- seq_shift, map_map. cbn [Nat.mul skipn].
    assert (E : distance x y = (distance (firstn c x) (firstn c y) + distance (skipn c x) (skipn c y))%nat).
    { rewrite <- distance_app by (rewrite !firstn_length; lia). now rewrite !firstn_skipn. }
    rewrite E. f_equal.
    rewrite <- (IH (skipn c x) (skipn c y)) by (rewrite skipn_length; lia). unfold list_sum. f_equal. apply map_ext. intro n.
    rewrite !skipn_plus. reflexivity.
Qed.
Lemma block_firstn {A} (b : list A) n m c : (n < m)%nat -> firstn c (skipn (n * c) b) = firstn c (skipn (n * c) (firstn (m * c) b)).
Proof. intro H. rewrite skipn_firstn_comm, firstn_firstn. f_equal. nia. Qed.
Lemma quarter_of opt : opt_ok opt -> exists q, fft_size opt = 4 * Z.of_nat q /\ (0 < q)%nat.
Proof.
  intro H. unfold opt_ok in H. assert (E : opt = 1 \/ opt = 2 \/ opt = 3 \/ opt = 4) by lia.
  destruct E as [->|[->|[->| ->]]]; [exists 32%nat|exists 16%nat|exists 8%nat|exists 4%nat]; split; (reflexivity || lia).
Qed.
(** the first [m] symbols of two runs *)
Lemma gap_run opt mcs col v k b1 b2 m : supported opt mcs -> (m * coded_bits opt mcs <= length b1)%nat -> (m * coded_bits opt mcs <= length b2)%nat ->
  (k ^ 2 * (4 * INR (mcs_spreading mcs)) * INR (distance (firstn (m * coded_bits opt mcs) b1) (firstn (m * coded_bits opt mcs) b2))
   <= gap (m_samples k (map (sym opt mcs col v b1) (seq 0 m))) (m_samples k (map (sym opt mcs col v b2) (seq 0 m))))%R.
Proof.
  intros H L1 L2. set (c := coded_bits opt mcs) in *.
  set (f1 := firstn (m * c) b1). set (f2 := firstn (m * c) b2).
  assert (F1 : length f1 = (m * c)%nat) by (unfold f1; rewrite firstn_length; lia).
  assert (F2 : length f2 = (m * c)%nat) by (unfold f2; rewrite firstn_length; lia).
  assert (S : forall b n, (n < m)%nat -> sym opt mcs col v b n = sym opt mcs col v (firstn (m * c) b) n).
  { intros b n Hn. unfold sym. do 2 f_equal. unfold block. fold c. now apply block_firstn. }
  unfold m_samples. rewrite !flat_map_concat_map, !map_map, <- !flat_map_concat_map.
  rewrite <- (blocks_distance c m f1 f2 F1 F2). apply gap_flat_map. intros n Hn. apply in_seq in Hn.
  rewrite (S b1 n), (S b2 n) by lia. fold f1 f2.
  pose proof (supported_opt _ _ H) as Ho. destruct (quarter_of opt Ho) as (q & Hq & Hq0).
  destruct (gap_symbol q (map (tone_value k) (sym opt mcs col v f1 n)) (map (tone_value k) (sym opt mcs col v f2 n)) Hq0) as (A & B & D).
  { rewrite map_length. unfold sym, layout. rewrite map_length, freqs_length. lia. } { rewrite map_length. unfold sym, layout. rewrite map_length, freqs_length. lia. }
  split; [congruence|]. eapply Rle_trans; [|exact D]. apply (gap_sym_tones opt mcs col v k f1 f2 n m); try assumption. lia.
Qed.

(** ** interleaving keeps the Hamming distance *)
Lemma distance_maps {A} (f g : A -> bool) l : distance (map f l) (map g l) = length (filter (fun i => xorb (f i) (g i)) l).
Proof.
  unfold distance. induction l as [|a l IH]; [reflexivity|]. cbn [map xor_bits weight filter]. rewrite IH. destruct (xorb (f a) (g a)); reflexivity.
Qed.
Lemma as_map {A} (d : A) l : l = map (fun i => nth i l d) (seq 0 (length l)).
Proof. apply list_eq_nth with d; [now rewrite map_length, seq_length|]. intros i Hi. now rewrite nth_map_seq. Qed.
Lemma filter_perm_length {A} (p : A -> bool) l l' : Permutation l l' -> length (filter p l) = length (filter p l').
Proof. induction 1; cbn [filter]; try destruct (p x); try destruct (p y); cbn [length]; congruence. Qed.
Definition il_index (ij : list Z) (k : nat) : list nat := flat_map (fun b => map (fun i => (b * length ij + Z.to_nat i)%nat) ij) (seq 0 k).
Lemma il_index_perm n ij k : is_perm n ij -> Permutation (il_index ij k) (seq 0 (k * n)).
Proof.
  intros (Hl & Hd & Hr). unfold il_index. rewrite Hl. induction k as [|k IH]; [constructor|].
  rewrite seq_S, flat_map_app. cbn [flat_map Nat.add]. rewrite app_nil_r. replace (S k * n)%nat with (k * n + n)%nat by lia. rewrite seq_app. apply Permutation_app; [exact IH|].
  cbn [Nat.add]. apply NoDup_Permutation_bis.
  - rewrite Forall_forall in Hr. clear IH Hl. induction ij as [|i ij IHi]; [constructor|]. cbn [map]. inversion Hd; subst. constructor.
    + rewrite in_map_iff. intros (j & E & Hj). assert (0 <= i < Z.of_nat n) by (apply Hr; now left). assert (0 <= j < Z.of_nat n) by (apply Hr; now right).
      assert (j = i) by lia. subst. contradiction.
    + apply IHi; [assumption|]. intros j Hj. apply Hr. now right.
  - rewrite map_length, seq_length. lia.
  - intros j Hj. apply in_map_iff in Hj as (i & <- & Hi). rewrite Forall_forall in Hr. specialize (Hr i Hi). apply in_seq. lia.
Qed.
Lemma flat_map_map {A B D} (f : A -> list B) (g : B -> D) l : flat_map (fun a => map g (f a)) l = map g (flat_map f l).
Proof. induction l; [reflexivity|]. cbn [flat_map]. rewrite map_app. now f_equal. Qed.
Lemma il_undo_index ij y : il_undo ij y = map (fun j => nth j y false) (il_index ij (length y / length ij)).
Proof.
  unfold il_undo, il_index. rewrite <- flat_map_map. apply flat_map_ext. intro b. rewrite map_map. reflexivity.
Qed.
Lemma il_apply_distance n ij x y k : is_perm n ij -> (0 < n)%nat -> length x = (k * n)%nat -> length y = (k * n)%nat ->
  distance (il_apply ij x) (il_apply ij y) = distance x y.
Proof.
  intros Hp Hn Lx Ly.
  pose proof (il_undo_apply n ij x Hp Hn) as Ux. pose proof (il_undo_apply n ij y Hp Hn) as Uy.
  rewrite Lx, Nat.div_mul, firstn_all2 in Ux by lia. rewrite Ly, Nat.div_mul, firstn_all2 in Uy by lia.
  rewrite <- Ux at 2. rewrite <- Uy at 2. rewrite !il_undo_index, !il_apply_length, Lx, Ly. replace (length ij) with n by (symmetry; apply Hp).
  rewrite Nat.div_mul by lia. rewrite distance_maps, (filter_perm_length _ _ _ (il_index_perm n ij k Hp)).
  rewrite (as_map false (il_apply ij x)) at 1. rewrite (as_map false (il_apply ij y)) at 1. rewrite !il_apply_length, Lx, Ly. apply distance_maps.
Qed.
Lemma distance_firstn n x y : (n <= length x)%nat -> (n <= length y)%nat -> (distance (firstn n x) (firstn n y) <= distance x y)%nat.
Proof.
  intros Hx Hy. rewrite <- (firstn_skipn n x) at 2. rewrite <- (firstn_skipn n y) at 2. rewrite distance_app by (rewrite !firstn_length; lia). lia.
Qed.
(** interleaving of whole blocks, then of the rest *)
Lemma il_apply_firstn n ij x k : is_perm n ij -> (0 < n)%nat -> (k * n <= length x)%nat -> firstn (k * n) (il_apply ij x) = il_apply ij (firstn (k * n) x).
Proof.
  intros Hp Hn L.
  assert (Inj : forall a b, length a = (k * n)%nat -> length b = (k * n)%nat -> il_undo ij a = il_undo ij b -> a = b).
  { intros a b La Lb E. rewrite !il_undo_index, La, Lb in E. replace (length ij) with n in E by (symmetry; apply Hp). rewrite Nat.div_mul in E by lia.
    apply list_eq_nth with false; [lia|]. intros i Hi. rewrite La in Hi.
    assert (Ii : In i (il_index ij k)) by (apply (Permutation_in _ (Permutation_sym (il_index_perm n ij k Hp))), in_seq; lia).
    clear - E Ii. induction (il_index ij k) as [|j l IH]; [destruct Ii|]. cbn [map] in E. injection E as E1 E2. destruct Ii as [->|Ii]; [assumption|now apply IH]. }
  apply Inj.
  - rewrite firstn_length, il_apply_length. lia.
  - rewrite il_apply_length, firstn_length. lia.
  - rewrite (il_undo_apply n ij (firstn (k * n) x) Hp Hn). rewrite firstn_length, Nat.min_l, Nat.div_mul, firstn_firstn, Nat.min_id by lia.
    pose proof (il_undo_apply n ij x Hp Hn) as U.
    assert (K : (k <= length x / n)%nat) by (apply Nat.div_le_lower_bound; lia).
    apply (f_equal (firstn (k * n))) in U. rewrite firstn_firstn in U. replace (Nat.min (k * n) (length x / n * n)) with (k * n)%nat in U by nia. rewrite <- U.
    rewrite !il_undo_index, firstn_length, il_apply_length, Nat.min_l by lia. replace (length ij) with n by (symmetry; apply Hp). rewrite Nat.div_mul by lia.
    rewrite firstn_map. unfold il_index. replace (length x / n)%nat with (k + (length x / n - k))%nat by lia. rewrite seq_app, flat_map_app.
    rewrite firstn_app. fold (il_index ij k). assert (LI : length (il_index ij k) = (k * n)%nat) by (rewrite (Permutation_length (il_index_perm n ij k Hp)); apply seq_length).
    rewrite LI, Nat.sub_diag, firstn_O, app_nil_r, (firstn_all2 (il_index ij k)) by lia. apply map_ext_in. intros j Hj. apply (Permutation_in _ (il_index_perm n ij k Hp)), in_seq in Hj.
    now rewrite nth_firstn by lia.
Qed.


(** ** coded payloads of one length *)
Lemma plain_tail opt mcs scr x y : length x = length y ->
  skipn (length x) (plain opt mcs scr x) = skipn (length x) (plain opt mcs scr y) /\ (6 <= length (skipn (length x) (plain opt mcs scr x)))%nat.
Proof.
  intro L. split.
  2:{ rewrite skipn_length, plain_length. unfold padded. rewrite app_length, repeat_length. lia. }
  set (n := length x).
  assert (W : skipn n (scrambler (padded opt mcs x) (scrambling_seed scr)) = skipn n (scrambler (padded opt mcs y) (scrambling_seed scr))).
  { assert (Lp : length (padded opt mcs x) = length (padded opt mcs y)) by (unfold padded; rewrite !app_length, !repeat_length, L; lia).
    apply list_eq_nth with false; [rewrite !skipn_length, !scrambler_length; lia|]. intros i Hi. rewrite skipn_length, scrambler_length in Hi.
    rewrite !nth_skipn, !scrambler_nth by lia. f_equal. unfold padded. rewrite !app_nth2 by (subst n; lia). now rewrite !nth_repeat_false. }
  unfold plain. rewrite <- L. fold n. destruct (Nat.eqb (pad_bits opt mcs n) 0); [exact W|].
  assert (F : forall z, length z = n -> skipn n (firstn n (scrambler (padded opt mcs z) (scrambling_seed scr)) ++ repeat false 6 ++ skipn (n + 6) (scrambler (padded opt mcs z) (scrambling_seed scr)))
    = repeat false 6 ++ skipn 6 (skipn n (scrambler (padded opt mcs z) (scrambling_seed scr)))).
  { intros z Hz. rewrite skipn_app, skipn_firstn_comm, Nat.sub_diag, firstn_O. cbn [app]. rewrite firstn_length, scrambler_length. unfold padded at 1. rewrite app_length.
    replace (n - Nat.min n _)%nat with 0%nat by lia. rewrite skipn_plus. reflexivity. }
  rewrite !F by auto. now rewrite W.
Qed.
Lemma coded_distance opt mcs scr x y : supported opt mcs -> length x = length y -> x <> y ->
  ((if mcs_three_quarters mcs then 5 else 10) <= distance (coded mcs (plain opt mcs scr x)) (coded mcs (plain opt mcs scr y)))%nat.
Proof.
  intros H L N. destruct (plain_tail opt mcs scr x y L) as [T6 T].
  assert (Lp : length (plain opt mcs scr x) = length (plain opt mcs scr y)) by (rewrite !plain_length; unfold padded; rewrite !app_length, !repeat_length, L; lia).
  assert (Np : plain opt mcs scr x <> plain opt mcs scr y) by (intro E; apply N; now apply plain_inj in E).
  pose proof (plain_3 opt mcs scr x H) as M3. unfold coded. pose proof (r12_new_range 0) as R0.
  assert (Fe : fin rstep (r12_new 0) (plain opt mcs scr x) = fin rstep (r12_new 0) (plain opt mcs scr y)).
  { rewrite <- (firstn_skipn (length x) (plain opt mcs scr x)), <- (firstn_skipn (length x) (plain opt mcs scr y)), <- T6. now apply fin_common_tail. }
  destruct (mcs_three_quarters mcs).
  - rewrite <- !enc34_code. apply enc34_distance; auto.
  - rewrite <- !enc_code_12. apply enc12_distance; auto.
Qed.
(** ** headers *)
Lemma phr_whole opt mcs il : supported opt mcs -> il_ok il -> exists k h,
  (Z.to_nat (phr_symbols il opt) * coded_bits opt (lowest_mcs opt) = k * il_block opt (lowest_mcs opt) il)%nat
  /\ (Z.to_nat (phr_symbols il opt) * coded_bits opt (lowest_mcs opt) = 2 * h)%nat /\ (36 <= h)%nat /\ (h <= header_bits opt mcs il)%nat.
Proof.
  intros H Hi. set (a := (Z.to_nat (phr_symbols il opt) * coded_bits opt (lowest_mcs opt))%nat).
  exists (a / il_block opt (lowest_mcs opt) il)%nat, (a / 2)%nat. unfold a. destruct Hi as [-> | ->]; revert H; each; vm_compute; repeat split; lia.
Qed.
Lemma header_distance opt il m1 s1 l1 m2 s2 l2 h : supported opt m1 -> supported opt m2 -> il_ok il -> scr_ok s1 -> scr_ok s2 ->
  1 <= l1 <= 2047 -> 1 <= l2 <= 2047 -> (36 <= h)%nat -> (h <= header_bits opt m1 il)%nat -> (h <= header_bits opt m2 il)%nat ->
  ~ (m1 = m2 /\ l1 = l2 /\ s1 = s2) ->
  (10 <= distance (code_12 0 (firstn h (hdr opt m1 il s1 l1))) (code_12 0 (firstn h (hdr opt m2 il s2 l2))))%nat.
Proof.
  intros H1 H2 Hi S1 S2 L1 L2 Hh B1 B2 N.
  assert (G : forall m l s n, (h <= n)%nat -> firstn h (phr_layout m l s n) = firstn 30 (phr_layout m l s n) ++ repeat false (h - 30)
     /\ length (firstn 30 (phr_layout m l s n)) = 30%nat).
  { intros m l s n Hn. unfold phr_layout. set (g := _ ++ _ ++ _ ++ _ ++ _ ++ _).
    assert (Lg : length (g ++ crc8_ofdm g) = 30%nat).
    { rewrite app_length. pose proof (phr_layout_length m l s 30 ltac:(lia)) as P. unfold phr_layout in P. fold g in P. rewrite !app_length, repeat_length in P. lia. }
    rewrite app_assoc. set (w := g ++ crc8_ofdm g) in *. clearbody w. clear g. rewrite !firstn_app, Lg, Nat.sub_diag, firstn_O, app_nil_r, !(firstn_all2 w) by lia. split; [|exact Lg]. f_equal.
    replace (n - 30)%nat with (h - 30 + (n - h))%nat by lia. rewrite repeat_app, firstn_app, repeat_length, Nat.sub_diag, firstn_O, app_nil_r, firstn_all2 by (rewrite repeat_length; lia).
    reflexivity. }
  destruct (G m1 l1 s1 _ B1) as [E1 P1]. destruct (G m2 l2 s2 _ B2) as [E2 P2]. unfold hdr. rewrite E1, E2.
  change 0 with (r12_new 0). rewrite <- !enc_code_12. apply enc12_distance; [apply r12_new_range|rewrite !app_length; lia| |apply fin_common_tail; [apply r12_new_range|rewrite repeat_length; lia]].
  intro E. apply app_inv_tail in E. apply N. apply (header_fields m1 l1 s1 (header_bits opt m1 il) m2 l2 s2 (header_bits opt m2 il)); auto; [apply (mcs_range opt)|apply (mcs_range opt)]; assumption.
Qed.
Lemma code_12_firstn x h : firstn (2 * h) (code_12 0 x) = code_12 0 (firstn h x).
Proof. change 0 with (r12_new 0). rewrite <- !enc_code_12. apply enc_firstn. Qed.

(** ** whole frames *)
Definition pair_gap (opt m1 il s1 : Z) (b1 : list bool) (m2 s2 : Z) (b2 : list bool) : R :=
  let K := norm_factor (mcs_modulation (lowest_mcs opt)) in
  gap (m_samples K (frame_phr opt m1 il s1 b1) ++ m_samples (norm_factor (mcs_modulation m1)) (frame_payload opt m1 il s1 b1))
      (m_samples K (frame_phr opt m2 il s2 b2) ++ m_samples (norm_factor (mcs_modulation m2)) (frame_payload opt m2 il s2 b2)).
Lemma m_samples_app k a b : m_samples k (a ++ b) = m_samples k a ++ m_samples k b.
Proof. unfold m_samples. apply flat_map_app. Qed.
Lemma run_length opt mcs col v k b1 b2 m : opt_ok opt ->
  length (m_samples k (map (sym opt mcs col v b1) (seq 0 m))) = length (m_samples k (map (sym opt mcs col v b2) (seq 0 m))).
Proof.
  intro Ho. destruct (quarter_of opt Ho) as (q & Hq & Hq0). unfold m_samples. rewrite !flat_map_concat_map, !map_map, <- !flat_map_concat_map.
  rewrite !(flat_map_block_length _ (5 * q)); [reflexivity| |];
  (intros n; assert (L : length (map (tone_value k) (sym opt mcs col v b1 n)) = (4 * q)%nat) by (rewrite map_length; unfold sym, layout; rewrite map_length, freqs_length; lia);
   assert (L2 : length (map (tone_value k) (sym opt mcs col v b2 n)) = (4 * q)%nat) by (rewrite map_length; unfold sym, layout; rewrite map_length, freqs_length; lia);
   destruct (gap_symbol q _ _ Hq0 L L2) as (A & B & _); assumption).
Qed.
Lemma margin_low opt m : supported opt m -> (margin m <= margin (lowest_mcs opt))%R.
Proof.
  assert (A : ((2 * (1 / sqrt 2)) ^ 2 = 2)%R).
  { rewrite Rpow_mult_distr. unfold Rdiv. rewrite Rmult_1_l, pow_inv, pow2_sqrt by lra. lra. }
  assert (B : ((2 * (1 / sqrt 10)) ^ 2 = 2 / 5)%R).
  { rewrite Rpow_mult_distr. unfold Rdiv. rewrite Rmult_1_l, pow_inv, pow2_sqrt by lra. lra. }
  unfold margin, free_distance_of. each; cbn -[sqrt Rmult Rdiv pow IZR INR Rle]; unfold mcs_modulation; cbn -[sqrt Rmult Rdiv pow IZR INR Rle]; rewrite ?A, ?B; cbn [INR]; lra.
Qed.
Lemma margin_pos m : (0 < margin m)%R.
Proof.
  unfold margin, free_distance_of. assert (0 < norm_factor (mcs_modulation m))%R.
  { destruct (mcs_modulation m); cbn [norm_factor]; [lra| |]; apply Rdiv_lt_0_compat; try lra; apply sqrt_lt_R0; lra. }
  apply Rmult_lt_0_compat; [apply Rmult_lt_0_compat|].
  - destruct (mcs_three_quarters m); lra.
  - apply pow_lt. lra.
  - apply lt_0_INR. unfold mcs_spreading. destruct m as [|[p|[p|p|]|]|]; lia.
Qed.
Lemma frames_gap opt il m1 s1 b1 m2 s2 b2 : supported opt m1 -> supported opt m2 -> il_ok il -> scr_ok s1 -> scr_ok s2 ->
  1 <= zlen b1 / 8 <= 2047 -> 1 <= zlen b2 / 8 <= 2047 -> Nat.modulo (length b1) 8 = 0%nat -> Nat.modulo (length b2) 8 = 0%nat ->
  ~ (m1 = m2 /\ s1 = s2 /\ b1 = b2) -> (margin m1 <= pair_gap opt m1 il s1 b1 m2 s2 b2)%R.
Proof.
  intros H1 H2 Hi S1 S2 L1 L2 M1 M2 N. pose proof (supported_opt _ _ H1) as Ho. pose proof (supported_low opt m1 H1) as Hlow.
  assert (D : (m1 = m2 /\ zlen b1 / 8 = zlen b2 / 8 /\ s1 = s2) \/ ~ (m1 = m2 /\ zlen b1 / 8 = zlen b2 / 8 /\ s1 = s2)) by lia.
  destruct D as [(-> & El & ->)|D].
  - assert (Lb : length b1 = length b2).
    { unfold zlen in El. pose proof (Nat.div_mod (length b1) 8 ltac:(lia)). pose proof (Nat.div_mod (length b2) 8 ltac:(lia)).
      assert (Z.of_nat (length b1 / 8) = Z.of_nat (length b2 / 8)) by (rewrite !Nat2Z.inj_div; exact El). lia. }
    assert (Nb : b1 <> b2) by (intro E; apply N; auto). unfold pair_gap, frame_phr. rewrite El. rewrite gap_app, gap_same, Rplus_0_l by reflexivity.
    unfold frame_payload. rewrite Lb. set (col := Z.of_nat (nphr opt m2 il) mod zlen (std_sets opt)). set (v := pn_iter _ _).
    set (k := norm_factor (mcs_modulation m2)). set (n := npay opt m2 (length b2)).
    pose proof (pay_sent_length opt m2 il s2 b1 H2) as P1. pose proof (pay_sent_length opt m2 il s2 b2 H2) as P2. rewrite Lb in P1. fold n in P1, P2.
    eapply Rle_trans; [|apply (gap_run opt m2 col v k _ _ n H2); lia].
    rewrite !firstn_all2 by lia. unfold pay_sent.
    assert (Hw : exists w, (n * coded_bits opt m2 = w * il_block opt m2 il)%nat).
    { unfold n, npay, il_block. destruct (il =? 0).
      - exists (groups opt m2 (length b2) * mcs_spreading m2)%nat. lia.
      - exists (groups opt m2 (length b2)). lia. }
    destruct Hw as [w Hw]. rewrite (il_apply_distance (il_block opt m2 il) _ _ _ w (std_perm opt m2 il H2 Hi) (il_block_pos opt m2 il H2 Hi));
      [|rewrite coded_length, Lb by assumption; exact Hw|rewrite coded_length by assumption; exact Hw].
    pose proof (coded_distance opt m2 s2 b1 b2 H2 Lb Nb) as Cd. apply le_INR in Cd.
    unfold margin, free_distance_of. fold k. set (dd := INR (distance _ _)) in *.
    assert (K2 : (0 <= k ^ 2)%R) by apply pow2_ge_0. pose proof (pos_INR (mcs_spreading m2)) as K3. set (sf := INR (mcs_spreading m2)) in *.
    assert (Q : ((if mcs_three_quarters m2 then 5 else 10) <= dd)%R) by (destruct (mcs_three_quarters m2); cbn [INR] in Cd; lra).
    replace ((2 * k) ^ 2)%R with (4 * k ^ 2)%R by ring. assert (0 <= k ^ 2 * sf)%R by (apply Rmult_le_pos; assumption).
    replace ((if mcs_three_quarters m2 then 5 else 10) * (4 * k ^ 2) * sf)%R with (4 * (k ^ 2 * sf) * (if mcs_three_quarters m2 then 5 else 10))%R by ring.
    replace (k ^ 2 * (4 * sf) * dd)%R with (4 * (k ^ 2 * sf) * dd)%R by ring. apply Rmult_le_compat_l; lra.
  - eapply Rle_trans; [apply (margin_low opt m1 H1)|]. unfold pair_gap, frame_phr. set (low := lowest_mcs opt) in *. set (K := norm_factor (mcs_modulation low)).
    set (m := Z.to_nat (phr_symbols il opt)). pose proof (nphr_ge opt m1 il H1 Hi) as G1. pose proof (nphr_ge opt m2 il H2 Hi) as G2. fold m in G1, G2.
    destruct (phr_whole opt m1 il H1 Hi) as (w & h & W1 & W2 & W3 & W4). destruct (phr_whole opt m2 il H2 Hi) as (w' & h' & _ & W2' & _ & W4').
    fold low m in W1, W2, W2'. assert (h' = h) by lia. subst h'.
    replace (nphr opt m1 il) with (m + (nphr opt m1 il - m))%nat by lia. replace (nphr opt m2 il) with (m + (nphr opt m2 il - m))%nat by lia.
    rewrite !seq_app, !map_app, !m_samples_app, <- !app_assoc.
    rewrite gap_app by (apply run_length; assumption). match goal with |- (_ <= ?a + gap ?b ?c)%R => pose proof (gap_nonneg b c) as Gn; apply Rle_trans with a; [|lra] end. clear Gn.
    set (x1 := hdr_sent opt m1 il s1 (zlen b1 / 8)). set (x2 := hdr_sent opt m2 il s2 (zlen b2 / 8)).
    assert (Y1 : length x1 = (nphr opt m1 il * coded_bits opt low)%nat) by now apply hdr_sent_length.
    assert (Y2 : length x2 = (nphr opt m2 il * coded_bits opt low)%nat) by now apply hdr_sent_length.
    eapply Rle_trans; [|apply (gap_run opt low 0 511 K x1 x2 m Hlow); nia].
    assert (X : forall mm ss bb, supported opt mm -> (m <= nphr opt mm il)%nat -> firstn (m * coded_bits opt low) (hdr_sent opt mm il ss bb)
       = il_apply (std_ij opt low il) (code_12 0 (firstn h (hdr opt mm il ss bb)))).
    { intros mm ss bb Hm Gm. pose proof (hdr_sent_length opt mm il ss bb Hm Hi) as Ls. fold low in Ls. unfold hdr_sent in Ls |- *. fold low in Ls |- *.
      rewrite W1, (il_apply_firstn (il_block opt low il) _ _ w (std_perm opt low il Hlow Hi) (il_block_pos opt low il Hlow Hi)).
      - rewrite <- W1, W2. now rewrite code_12_firstn.
      - rewrite <- W1. rewrite il_apply_length in Ls. rewrite Ls. nia. }
    unfold x1, x2. rewrite !X by assumption.
    assert (LH : forall mm ss bb, (h <= header_bits opt mm il)%nat -> supported opt mm -> length (code_12 0 (firstn h (hdr opt mm il ss bb))) = (w * il_block opt low il)%nat).
    { intros mm ss bb Hb Hm. rewrite code_12_length, firstn_length. unfold hdr. rewrite phr_layout_length by (apply header_30; assumption). lia. }
    rewrite (il_apply_distance (il_block opt low il) _ _ _ w (std_perm opt low il Hlow Hi) (il_block_pos opt low il Hlow Hi)); [|apply LH; assumption|apply LH; assumption].
    pose proof (header_distance opt il m1 s1 (zlen b1 / 8) m2 s2 (zlen b2 / 8) h H1 H2 Hi S1 S2 L1 L2 W3 W4 W4' D) as Hd. apply le_INR in Hd. cbn [INR] in Hd.
    set (dd := INR (distance _ _)) in *. unfold margin, free_distance_of. unfold low at 1. rewrite (low_half opt m1 H1). fold K. pose proof (pos_INR (mcs_spreading low)) as K3. set (sf := INR (mcs_spreading low)) in *.
    replace (10 * (2 * K) ^ 2 * sf)%R with (4 * (K ^ 2 * sf) * 10)%R by ring. replace (K ^ 2 * (4 * sf) * dd)%R with (4 * (K ^ 2 * sf) * dd)%R by ring.
    assert (0 <= K ^ 2 * sf)%R by (apply Rmult_le_pos; [apply pow2_ge_0|assumption]). apply Rmult_le_compat_l; lra.
Qed.
