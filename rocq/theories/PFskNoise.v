(** * Energy between MR-FSK signals *)
From Coq Require Import Qreals Reals Lra Psatz.
From Coquelicot Require Import Complex.
From Verif Require Import Py PList SBits SFsk MFsk PFsk PFskGap MTime STime PTime SGap PGap MFskWave SFskGap.
Local Open Scope R_scope.

Lemma cis_gap a b : Cmod (cis a - cis b)%C ^ 2 = 2 - 2 * cos (a - b).
Proof.
  unfold Cmod, cis. rewrite pow2_sqrt by (apply Rplus_le_le_0_compat; apply pow2_ge_0). cbn [fst snd Cminus Cplus Copp]. rewrite cos_minus.
  pose proof (sin2_cos2 a) as A. pose proof (sin2_cos2 b) as B. unfold Rsqr in A, B. unfold Cminus, Cplus, Copp. cbn [fst snd]. nra.
Qed.
Definition c8 : R := cos (PI / 8).
Lemma c8_bound : 0 <= c8 <= 37 / 40.
Proof.
  pose proof PI_RGT_0 as P. assert (N : 0 <= c8) by (apply cos_ge_0; lra). split; [exact N|].
  assert (D : cos (PI / 4) = 2 * c8 * c8 - 1) by (unfold c8; rewrite <- cos_2a_cos; f_equal; lra).
  rewrite cos_PI4 in D. assert (Q : 1 / sqrt 2 <= 711 / 1000).
  { assert (S : sqrt 2 * sqrt 2 = 2) by (apply sqrt_sqrt; lra). assert (Pq : 0 < sqrt 2) by (apply sqrt_lt_R0; lra).
    apply Rmult_le_reg_r with (sqrt 2); [exact Pq|]. unfold Rdiv. rewrite Rmult_assoc, Rinv_l by lra. nra. }
  nra.
Qed.
Lemma cos_mid t : PI / 8 <= Rabs t <= 7 * (PI / 8) -> Rabs (cos t) <= c8.
Proof.
  intros [A B]. pose proof PI_RGT_0 as P. assert (E : cos t = cos (Rabs t)) by (unfold Rabs; destruct (Rcase_abs t); [now rewrite cos_neg|reflexivity]).
  rewrite E. apply Rabs_le. split.
  - replace (- c8) with (cos (7 * (PI / 8))).
    + destruct B as [B|B]; [|rewrite B; lra]. left. apply cos_decreasing_1; lra.
    + unfold c8. replace (7 * (PI / 8)) with (PI - PI / 8) by lra. rewrite Rtrigo_facts.cos_pi_minus. reflexivity.
  - unfold c8. destruct A as [A|A]; [|rewrite A; lra]. left. apply cos_decreasing_1; lra.
Qed.
Lemma cos_pair p t : Rabs (cos t) <= c8 -> cos p + cos (p + 2 * t) <= 2 * c8.
Proof.
  intro H. replace p with ((p + t) - t) at 1 by ring. replace (p + 2 * t) with ((p + t) + t) by ring. rewrite (cos_minus (p + t) t), (cos_plus (p + t) t).
  pose proof (COS_bound (p + t)) as [L U]. assert (H1 : cos t <= c8) by (eapply Rle_trans; [apply Rle_abs|exact H]). assert (H2 : - c8 <= cos t) by (unfold Rabs in H; destruct (Rcase_abs (cos t)); lra).
  assert (P1 : 0 <= (1 - cos (p + t)) * (c8 + cos t)) by (apply Rmult_le_pos; lra).
  assert (P2 : 0 <= (1 + cos (p + t)) * (c8 - cos t)) by (apply Rmult_le_pos; lra).
  lra.
Qed.
Fixpoint cos_sum (p th : R) (n : nat) : R := match n with O => 0 | S m => cos p + cos_sum (p + th) th m end.
Lemma cos_sum_20 p th : PI / 40 <= Rabs th <= 3 * PI / 4 -> cos_sum p th 20 <= 20 * c8.
Proof.
  intros [A B]. pose proof PI_RGT_0 as P. cbn [cos_sum]. destruct (Rle_dec (Rabs th) (7 * PI / 40)) as [C|C].
  - assert (H : Rabs (cos (5 * th)) <= c8) by (apply cos_mid; rewrite Rabs_mult, (Rabs_pos_eq 5) by lra; lra).
    pose proof (fun q => cos_pair q (5 * th) H) as K.
    pose proof (K p) as K0. pose proof (K (p + th)) as K1. pose proof (K (p + th + th)) as K2. pose proof (K (p + th + th + th)) as K3. pose proof (K (p + th + th + th + th)) as K4.
    pose proof (K (p + th + th + th + th + th)) as K5. pose proof (K (p + th + th + th + th + th + th)) as K6. pose proof (K (p + th + th + th + th + th + th + th)) as K7.
    pose proof (K (p + th + th + th + th + th + th + th + th)) as K8. pose proof (K (p + th + th + th + th + th + th + th + th + th)) as K9.
    assert (E : forall q, q + 2 * (5 * th) = q + th + th + th + th + th + th + th + th + th + th) by (intro; ring). rewrite E in K0, K1, K2, K3, K4, K5, K6, K7, K8, K9. lra.
  - assert (H : Rabs (cos th) <= c8) by (apply cos_mid; lra). pose proof (fun q => cos_pair q th H) as K.
    assert (E : forall q, q + 2 * th = q + th + th) by (intro; ring). 
    set (q1 := p + th). set (q2 := q1 + th). set (q3 := q2 + th). set (q4 := q3 + th). set (q5 := q4 + th). set (q6 := q5 + th). set (q7 := q6 + th). set (q8 := q7 + th). set (q9 := q8 + th).
    set (q10 := q9 + th). set (q11 := q10 + th). set (q12 := q11 + th). set (q13 := q12 + th). set (q14 := q13 + th). set (q15 := q14 + th). set (q16 := q15 + th). set (q17 := q16 + th). set (q18 := q17 + th). set (q19 := q18 + th).
    pose proof (K p) as K0. pose proof (K q1) as K1. pose proof (K q4) as K2. pose proof (K q5) as K3. pose proof (K q8) as K4. pose proof (K q9) as K5. pose proof (K q12) as K6. pose proof (K q13) as K7. pose proof (K q16) as K8. pose proof (K q17) as K9.
    rewrite E in K0, K1, K2, K3, K4, K5, K6, K7, K8, K9. 
    fold q1 in K0. fold q2 in K0. fold q2 in K1. fold q3 in K1. fold q5 in K2. fold q6 in K2. fold q6 in K3. fold q7 in K3. fold q9 in K4. fold q10 in K4. fold q10 in K5. fold q11 in K5.
    fold q13 in K6. fold q14 in K6. fold q14 in K7. fold q15 in K7. fold q17 in K8. fold q18 in K8. fold q18 in K9. fold q19 in K9. lra.
Qed.
(** samples of one symbol *)
Lemma gap_tones (u v : nat -> R) p th n k : (forall i, (k <= i < k + n)%nat -> u i - v i = p + INR (i - k) * th) ->
  gap (map (fun i => cis (u i)) (seq k n)) (map (fun i => cis (v i)) (seq k n)) = 2 * INR n - 2 * cos_sum p th n.
Proof.
  revert k p. induction n as [|n IH]; intros k p H; [cbn; lra|]. cbn [seq map gap]. rewrite cis_gap, (IH (S k) (p + th)).
  - rewrite H by lia. rewrite Nat.sub_diag. change (INR 0) with 0. rewrite Rmult_0_l, Rplus_0_r. rewrite S_INR. cbn [cos_sum]. lra.
  - intros i Hi. rewrite H by lia. replace (i - k)%nat with (S (i - S k)) by lia. rewrite S_INR. ring.
Qed.
Definition tone_phase (h : R) (t : Z) (i : nat) : R := 2 * PI * (IZR t * h * (INR i / 40)).
Lemma samples_blocks s fr f : fsk_samples {| sig_phase := phases s fr; sig_f := f |}
  = flat_map (fun j => map (fun i => cis (tone_phase (Q2R (k_h s)) (symbol_tone (k_fsk4 s) fr j) i)) (seq (20 * j) 20)) (seq 0 (symbols (k_fsk4 s) fr)).
Proof.
  unfold fsk_samples, phases. cbn [sig_phase]. rewrite map_map. generalize (symbols (k_fsk4 s) fr). induction n as [|n IH]; [reflexivity|].
  rewrite seq_S, flat_map_app, <- IH. cbn [flat_map Nat.add]. rewrite app_nil_r. replace (20 * S n)%nat with (20 * n + 20)%nat by lia.
  rewrite seq_app, map_app. f_equal. apply map_ext_in. intros i Hi. apply in_seq in Hi. unfold tone_phase. f_equal. f_equal.
  rewrite !Q2R_mult. replace (i / 20)%nat with n.
  - f_equal; [f_equal; unfold Q2R; cbn; field|]. unfold Q2R. cbn [Qnum Qden]. rewrite <- INR_IZR_INZ. reflexivity.
  - cbn [Nat.add] in Hi. apply Nat.div_unique with (i - 20 * n)%nat; lia.
Qed.
Lemma symbol_gap h ta tb j : 1 / 4 <= h <= 5 / 2 -> (ta = -3 \/ ta = -1 \/ ta = 1 \/ ta = 3)%Z -> (tb = -3 \/ tb = -1 \/ tb = 1 \/ tb = 3)%Z -> ta <> tb ->
  3 <= gap (map (fun i => cis (tone_phase h ta i)) (seq (20 * j) 20)) (map (fun i => cis (tone_phase h tb i)) (seq (20 * j) 20)).
Proof.
  intros Hh Ha Hb N. pose proof PI_RGT_0 as P.
  rewrite (gap_tones _ _ (tone_phase h (ta - tb) (20 * j)) (PI / 20 * (IZR (ta - tb) * h)) 20 (20 * j)).
  - assert (K : PI / 40 <= Rabs (PI / 20 * (IZR (ta - tb) * h)) <= 3 * PI / 4).
    { assert (D : 2 <= Rabs (IZR (ta - tb)) <= 6) by (rewrite <- abs_IZR; split; apply IZR_le; lia).
      rewrite !Rabs_mult, (Rabs_pos_eq h), (Rabs_pos_eq (PI / 20)) by lra.
      assert (D1 : 1 / 2 <= Rabs (IZR (ta - tb)) * h) by nra. assert (D2 : Rabs (IZR (ta - tb)) * h <= 15) by nra.
      split; nra. }
    pose proof (cos_sum_20 (tone_phase h (ta - tb) (20 * j)) _ K) as C. pose proof c8_bound as [_ C8]. assert (E : INR 20 = 20) by (cbn; lra). rewrite E. lra.
  - intros i Hi. unfold tone_phase. rewrite minus_INR by lia. rewrite minus_IZR. field.
Qed.
Lemma differing_2 fa fb : differing_symbols false fa fb = distance fa fb.
Proof.
  rewrite distance_count. unfold differing_symbols, symbols. apply filter_ext_in_length. intros j _. unfold symbol_tone, tone2.
  destruct (nth j fa false), (nth j fb false); reflexivity.
Qed.
Lemma symbols_4_cons x y l : symbols true (x :: y :: l) = S (symbols true l).
Proof. unfold symbols. cbn [length]. replace (S (S (length l))) with (length l + 1 * 2)%nat by lia. rewrite Nat.div_add by lia. lia. Qed.
Lemma differing_4_cons x y z w fa fb : differing_symbols true (x :: y :: fa) (z :: w :: fb)
  = ((if Bool.eqb x z && Bool.eqb y w then 0 else 1) + differing_symbols true fa fb)%nat.
Proof.
  unfold differing_symbols. rewrite !symbols_4_cons. cbn [Nat.min seq filter]. rewrite <- seq_shift.
  assert (E : forall l, length (filter (fun j => negb (symbol_tone true (x :: y :: fa) j =? symbol_tone true (z :: w :: fb) j)%Z) (map S l))
     = length (filter (fun j => negb (symbol_tone true fa j =? symbol_tone true fb j)%Z) l)).
  { induction l as [|j l IH]; [reflexivity|]. cbn [map filter].
    assert (T : forall a b f, symbol_tone true (a :: b :: f) (S j) = symbol_tone true f j) by (intros a b f; unfold symbol_tone; replace (2 * S j)%nat with (S (S (2 * j))) by lia; reflexivity).
    rewrite !T. destruct (negb _); cbn [length]; now rewrite IH. }
  change (symbol_tone true (x :: y :: fa) 0) with (tone4 x y). change (symbol_tone true (z :: w :: fb) 0) with (tone4 z w).
  replace (if Bool.eqb x z && Bool.eqb y w then 0 else 1)%nat with (if negb (tone4 x y =? tone4 z w)%Z then 1 else 0)%nat by (destruct x, y, z, w; reflexivity).
  destruct (negb (tone4 x y =? tone4 z w)%Z); cbn [length]; rewrite E; reflexivity.
Qed.
Lemma differing_4 : forall k fa fb, length fa = (2 * k)%nat -> Nat.even (length fb) = true -> (distance fa fb <= 2 * differing_symbols true fa fb)%nat.
Proof.
  induction k as [|k IH]; intros fa fb La Eb.
  - destruct fa; [cbn; lia|discriminate].
  - destruct fa as [|x [|y fa]]; [discriminate|cbn in La; lia|]. destruct fb as [|z [|w fb]]; [cbn; lia|discriminate|].
    rewrite differing_4_cons. specialize (IH fa fb ltac:(cbn in La; lia) Eb). unfold distance in *. cbn [xor_bits weight].
    destruct x, y, z, w; cbn [xorb Bool.eqb andb]; lia.
Qed.
Lemma list_sum_filter {A} (p : A -> bool) l : list_sum (map (fun j => if p j then 1 else 0)%nat l) = length (filter p l).
Proof. induction l as [|a l IH]; [reflexivity|]. cbn [map list_sum fold_right filter]. change (fold_right Nat.add 0%nat (map (fun j => if p j then 1 else 0)%nat l)) with (list_sum (map (fun j => if p j then 1 else 0)%nat l)). rewrite IH. destruct (p a); reflexivity. Qed.
Lemma flat_map_split {B} (F : nat -> list B) m n : (m <= n)%nat -> flat_map F (seq 0 n) = flat_map F (seq 0 m) ++ flat_map F (seq m (n - m)).
Proof. intro H. rewrite <- flat_map_app, <- seq_app. do 2 f_equal. lia. Qed.
Lemma flat_map_len {B} (F G : nat -> list B) l : (forall j, In j l -> length (F j) = length (G j)) -> length (flat_map F l) = length (flat_map G l).
Proof. intro H. induction l as [|j l IH]; [reflexivity|]. cbn [flat_map]. rewrite !app_length, IH, (H j); auto; [now left|intros; apply H; now right]. Qed.
Lemma phases_gap s t fa fb f g : 1 / 4 <= Q2R (k_h s) <= 5 / 2 -> k_h s = k_h t -> k_fsk4 s = k_fsk4 t ->
  3 * INR (differing_symbols (k_fsk4 s) fa fb)
  <= gap (fsk_samples {| sig_phase := phases s fa; sig_f := f |}) (fsk_samples {| sig_phase := phases t fb; sig_f := g |}).
Proof.
  intros Hh Eh E4. rewrite !samples_blocks, <- Eh, <- E4.
  set (F := fun j : nat => map _ (seq (20 * j) 20)). set (G := fun j : nat => map (fun i => cis (tone_phase (Q2R (k_h s)) (symbol_tone (k_fsk4 s) fb j) i)) (seq (20 * j) 20)).
  set (m := Nat.min (symbols (k_fsk4 s) fa) (symbols (k_fsk4 s) fb)).
  rewrite (flat_map_split F m) by lia. rewrite (flat_map_split G m) by lia.
  assert (Len : forall j, length (F j) = length (G j)) by (intro j; unfold F, G; now rewrite !map_length).
  rewrite gap_app by (apply flat_map_len; auto).
  apply Rle_trans with (gap (flat_map F (seq 0 m)) (flat_map G (seq 0 m))); [|pose proof (gap_nonneg (flat_map F (seq m (symbols (k_fsk4 s) fa - m))) (flat_map G (seq m (symbols (k_fsk4 s) fb - m)))); lra].
  unfold differing_symbols. fold m. rewrite <- list_sum_filter. apply gap_flat_map. intros j _. split; [apply Len|].
  destruct (Z.eqb_spec (symbol_tone (k_fsk4 s) fa j) (symbol_tone (k_fsk4 s) fb j)) as [E|E]; cbn [negb].
  - cbn [INR]. rewrite Rmult_0_r. apply gap_nonneg.
  - cbn [INR]. rewrite Rmult_1_r. apply symbol_gap; try assumption; apply symbol_tone_cases.
Qed.
