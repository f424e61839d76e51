(** * Proofs about the power of MR-OFDM signals *)
From Coq Require Import Reals Lra.
From Coquelicot Require Import Complex.
From Verif Require Import Py PList SBits MBits MPn9 SPn9 MModul MOfdm Tables SOfdm SMrOfdm PModul POfdm MMrOfdm PStd PMrOfdm PMrRx MTime STime PTime SGap PGap SPower Prop_Time.

Fixpoint rsum (l : list R) : R := match l with [] => 0%R | x :: r => (x + rsum r)%R end.
Lemma rsum_app a b : rsum (a ++ b) = (rsum a + rsum b)%R.
Proof. induction a as [|x a IH]; cbn [app rsum]; [lra|rewrite IH; lra]. Qed.
Lemma energy_rsum l : energy l = rsum (map (fun z => Cmod z ^ 2)%R l).
Proof. induction l as [|z l IH]; cbn [energy map rsum]; [reflexivity|]. now rewrite IH. Qed.
Lemma rsum_bounds {A} (h : A -> R) lo hi l : Forall (fun x => lo <= h x <= hi)%R l ->
  (INR (length l) * lo <= rsum (map h l) <= INR (length l) * hi)%R.
Proof.
  induction 1 as [|x l Hx F IH]; [cbn; lra|]. change (length (x :: l)) with (S (length l)). rewrite S_INR. cbn [map rsum]. lra.
Qed.

(** ** a sum over the subcarriers of a symbol *)
Lemma layout_data N pl pr pset pv d : length d = n_data N pl pr pset ->
  map TData d = map (layout_tone N pl pr pset pv d) (filter (is_data N pl pr pset) (freqs N)).
Proof.
  intros Ld. rewrite <- (read_data_layout N pl pr pset pv d Ld) at 1. unfold read_data. rewrite map_map. apply map_ext_in. intros f Hf.
  apply filter_In in Hf as [Hf Hd]. unfold tone_at, layout.
  assert (Ef : tone_at N (layout N pl pr pset pv d) f = layout_tone N pl pr pset pv d f).
  { unfold tone_at, layout. unfold freqs in Hf. apply in_map_iff in Hf as (i & <- & Hi). apply in_seq in Hi.
    replace (Z.to_nat (Z.of_nat i - N / 2 + N / 2)) with i by lia. rewrite (nth_map _ _ i 0) by (unfold freqs; rewrite map_length, seq_length; lia).
    f_equal. unfold freqs. rewrite nth_map_seq by lia. reflexivity. }
  unfold tone_at, layout in Ef. rewrite Ef. unfold layout_tone, is_data in *. apply andb_prop in Hd as [H1 H2].
  destruct (memb f pset); [discriminate|]. destruct (guard_or_dc N pl pr f); [discriminate|]. reflexivity.
Qed.
Lemma memb_position f l : memb f l = true -> (position f l < length l)%nat.
Proof.
  unfold memb. induction l as [|x l IH]; cbn [existsb position length]; [discriminate|]. rewrite (Z.eqb_sym f x). destruct (x =? f); [lia|]. cbn [orb]. intro H. specialize (IH H). lia.
Qed.
Lemma layout_sum (h : tone -> R) N pl pr pset pv d : length d = n_data N pl pr pset -> h TZero = 0%R ->
  Forall (fun p => h (TPilot p) = 1%R) pv -> (length pset <= length pv)%nat ->
  rsum (map h (layout N pl pr pset pv d)) = (rsum (map (fun g => h (TData g)) d) + INR (length (filter (fun f => memb f pset) (freqs N))))%R.
Proof.
  intros Ld H0 Hp Hl. rewrite <- (map_map TData h), (layout_data N pl pr pset pv d Ld). unfold layout. clear Ld. rewrite Forall_forall in Hp.
  induction (freqs N) as [|f l IH]; [cbn; lra|]. cbn [map filter rsum]. rewrite IH. clear IH. unfold is_data. unfold layout_tone at 1.
  destruct (memb f pset) eqn:M; cbn [negb andb].
  - cbn [length]. rewrite S_INR. rewrite Hp; [lra|]. apply nth_In. apply memb_position in M. lia.
  - destruct (guard_or_dc N pl pr f) eqn:G; cbn [negb].
    + rewrite H0. lra.
    + cbn [map rsum]. unfold layout_tone at 2. rewrite M, G. lra.
Qed.
Lemma pilots_count opt s : opt_ok opt -> In s (std_sets opt) -> length (filter (fun f => memb f s) (freqs (fft_size opt))) = npil opt.
Proof.
  intros Ho Hs. assert (T : forallb (fun s => Nat.eqb (length (filter (fun f => memb f s) (freqs (fft_size opt)))) (npil opt)) (std_sets opt) = true)
    by (destruct Ho as [->|[->|[->| ->]]]; vm_compute; reflexivity).
  rewrite forallb_forall in T. now apply Nat.eqb_eq, T.
Qed.
(** ** constellation points *)
Lemma power_turn n g : power (turn n g) = power g.
Proof.
  unfold turn, power. destruct g as [a b]. pose proof (Z.mod_pos_bound n 4 ltac:(lia)) as H.
  assert (n mod 4 = 0 \/ n mod 4 = 1 \/ n mod 4 = 2 \/ n mod 4 = 3) as E by lia.
  destruct E as [->|[->|[->| ->]]]; cbn [fst snd]; nia.
Qed.
Definition ring (m : modulation) (p : Z) : Prop := match m with BPSK => p = 1 | QPSK => p = 2 | QAM16 => p = 2 \/ p = 10 \/ p = 18 end.
Lemma power_point m g : length g = group_size m -> ring m (power (point m g)).
Proof.
  destruct m; cbn [group_size]; intro L.
  - destruct g as [|a [|]]; try discriminate. destruct a; reflexivity.
  - destruct g as [|a [|b [|]]]; try discriminate. destruct a, b; reflexivity.
  - destruct g as [|a [|b [|c [|d [|]]]]]; try discriminate. destruct a, b, c, d; vm_compute; auto.
Qed.
Lemma data_ring m sf x : Nat.modulo (length x) (group_size m) = 0%nat -> Forall (fun g => ring m (power g)) (symbol_data m sf x).
Proof.
  intro M. unfold symbol_data, spread. set (d := map (point m) _).
  assert (F : Forall (fun g => ring m (power g)) d).
  { unfold d. pose proof (group_size_pos m) as Hp. clear d. revert x M. apply (block_ind (group_size m) (fun x => Forall (fun g => ring m (power g)) (map (point m) (chunks (group_size m) x)))); [assumption| |].
    - constructor.
    - intros a x La IH. rewrite chunks_app by assumption. cbn [map]. constructor; [now apply power_point|exact IH]. }
  apply Forall_forall. intros g Hg. apply in_flat_map in Hg as (j & _ & Hg). apply in_map_iff in Hg as (k & <- & Hk). apply in_seq in Hk.
  rewrite power_turn. rewrite Forall_forall in F. apply F, nth_In. lia.
Qed.
Lemma tone_power k g : (Cmod (tone_value k (TData g)) ^ 2 = k ^ 2 * IZR (power g))%R.
Proof.
  cbn [tone_value]. rewrite Cmod_mult, Cmod_R, Rpow_mult_distr, pow2_abs. f_equal. unfold Cmod. rewrite pow2_sqrt; cycle 1.
  { match goal with |- (0 <= ?u ^ 2 + ?v ^ 2)%R => pose proof (pow2_ge_0 u); pose proof (pow2_ge_0 v) end. lra. }
  cbn [fst snd]. unfold power. rewrite plus_IZR, !(Z.pow_2_r), !mult_IZR. ring.
Qed.
Lemma norm_sq m : (norm_factor m ^ 2 = match m with BPSK => 1 | QPSK => / 2 | QAM16 => / 10 end)%R.
Proof.
  destruct m; cbn [norm_factor]; [ring| |]; unfold Rdiv; rewrite Rmult_1_l, pow_inv, pow2_sqrt by lra; reflexivity.
Qed.
Lemma ring_bounds m p : ring m p -> (weakest m <= norm_factor m ^ 2 * IZR p <= strongest m)%R.
Proof.
  rewrite norm_sq. destruct m; cbn [ring weakest strongest]; [intros ->; lra|intros ->; lra|intros [->|[->| ->]]; lra].
Qed.
Lemma pilot_one k v j : Cmod (tone_value k (TPilot (pn_pilot v j))) = 1%R.
Proof.
  unfold pn_pilot. cbn [tone_value fst snd]. unfold level. destruct (pn9_bit v j);
  (match goal with |- Cmod (Q2R ?a, Q2R ?b) = _ => replace (Q2R a) with (IZR (Qnum a)) by (unfold Q2R; cbn; lra); replace (Q2R b) with 0%R by (unfold Q2R; cbn; lra) end; cbn [Qnum inject_Z];
   match goal with |- Cmod (?a, 0%R) = _ => change (a, 0%R) with (RtoC a) end; rewrite Cmod_R).
  - rewrite Rabs_right; lra.
  - rewrite Rabs_left; lra.
Qed.
Lemma sym_sum (h : tone -> R) lo hi opt mcs col v b n m : supported opt mcs -> length b = (m * coded_bits opt mcs)%nat -> (n < m)%nat ->
  h TZero = 0%R -> (forall j, h (TPilot (pn_pilot v j)) = 1%R) -> (forall g, ring (mcs_modulation mcs) (power g) -> lo <= h (TData g) <= hi)%R ->
  (IZR (data_tones opt) * lo + IZR (pilot_tones opt) <= rsum (map h (sym opt mcs col v b n)) <= IZR (data_tones opt) * hi + IZR (pilot_tones opt))%R.
Proof.
  intros H Hb Hn H0 Hp Hd. unfold sym. fold (pset_of opt col n). destruct (pset_of_ok opt mcs col n H) as [Hs Hz].
  pose proof (good_nd (std_cfg opt mcs) _ _ (pset_of opt col n) (std_good opt mcs H) Hs) as E.
  rewrite (std_np opt mcs H) in E. specialize (E Hz). cbn [std_cfg o_N o_pl o_pr] in E. pose proof (points_tones opt mcs H) as PT.
  pose proof (sym_data_length opt mcs b n m H Hb Hn) as LD. pose proof (supported_opt _ _ H) as Ho.
  rewrite layout_sum; cycle 1.
  - rewrite LD, E. lia.
  - assumption.
  - apply Forall_forall. intros p Hq. apply in_map_iff in Hq as (j & <- & _). apply Hp.
  - rewrite map_length, seq_length. unfold zlen in Hz. lia.
  - rewrite pilots_count; [|assumption|].
    2:{ apply nth_In. pose proof (std_sets_pos opt Ho) as P. pose proof (Z.mod_pos_bound (col + Z.of_nat n) (zlen (std_sets opt)) P). unfold zlen in *. lia. }
    pose proof (block_length opt mcs b n m Hb Hn) as B.
    assert (F : Forall (fun g => lo <= h (TData g) <= hi)%R (symbol_data (mcs_modulation mcs) (mcs_spreading mcs) (block opt mcs b n))).
    { eapply Forall_impl; [|apply data_ring]; [exact Hd|]. rewrite B, (coded_points opt mcs H). apply mod_mult. pose proof (group_size_pos (mcs_modulation mcs)). lia. }
    apply rsum_bounds in F. rewrite LD in F. unfold npil. rewrite !INR_IZR_INZ in *.
    replace (Z.of_nat (Z.to_nat (data_tones opt))) with (data_tones opt) in F by (destruct Ho as [->|[->|[->| ->]]]; reflexivity).
    replace (Z.of_nat (Z.to_nat (pilot_tones opt))) with (pilot_tones opt) by (destruct Ho as [->|[->|[->| ->]]]; reflexivity). lra.
Qed.
(** ** largest sample *)
Definition amps (l : list C) : R := rsum (map Cmod l).
Lemma Cmod_Csum f n : (Cmod (Csum f n) <= rsum (map (fun k => Cmod (f k)) (seq 0 n)))%R.
Proof.
  induction n as [|n IH]; [cbn [Csum seq map rsum]; rewrite Cmod_0; lra|]. cbn [Csum]. rewrite seq_S, map_app, rsum_app. cbn [map rsum plus].
  pose proof (Cmod_triangle (Csum f n) (f n)). lra.
Qed.
Lemma Cmod_cis x : Cmod (cis x) = 1%R.
Proof. unfold cis, Cmod. cbn [fst snd]. replace (cos x ^ 2 + sin x ^ 2)%R with (Rsqr (sin x) + Rsqr (cos x))%R by (unfold Rsqr; ring). rewrite sin2_cos2. apply sqrt_1. Qed.
Lemma map_nth_seq (l : list C) : map (fun k => nth k l (RtoC 0)) (seq 0 (length l)) = l.
Proof.
  apply list_eq_nth with (RtoC 0); [now rewrite map_length, seq_length|]. intros i Hi. rewrite map_length, seq_length in Hi. now rewrite nth_map_seq.
Qed.
Lemma o_ifft_peak col : Forall (fun z => Cmod z <= amps col / sqrt (INR (length col)))%R (o_ifft col).
Proof.
  assert (LS : length (ifftshift col) = length col) by (unfold ifftshift; rewrite app_length, skipn_length, firstn_length; lia).
  assert (A : amps (ifftshift col) = amps col).
  { unfold amps, ifftshift. rewrite map_app, rsum_app, Rplus_comm, <- rsum_app, <- map_app, firstn_skipn. reflexivity. }
  unfold o_ifft, ifft_ortho. rewrite <- A, <- LS. set (X := ifftshift col). apply Forall_forall. intros z Hz. apply in_map_iff in Hz as (n & <- & Hn). apply in_seq in Hn.
  assert (P : (0 < sqrt (INR (length X)))%R) by (apply sqrt_lt_R0, lt_0_INR; lia).
  rewrite Cmod_mult, Cmod_inv by (intro E; apply RtoC_inj in E; lra). rewrite Cmod_R, Rabs_right by lra. unfold Rdiv. rewrite Rmult_comm.
  apply Rmult_le_compat_r; [left; now apply Rinv_0_lt_compat|]. eapply Rle_trans; [apply Cmod_Csum|]. right. unfold amps. transitivity (rsum (map Cmod (map (fun k => nth k X (RtoC 0)) (seq 0 (length X))))); [|now rewrite map_nth_seq]. rewrite map_map. f_equal.
  apply map_ext. intro k. rewrite Cmod_mult, Cmod_cis. ring.
Qed.
Lemma Forall_skipn' {A} (P : A -> Prop) n l : Forall P l -> Forall P (skipn n l).
Proof. intro F. rewrite <- (firstn_skipn n l) in F. now apply Forall_app in F. Qed.
Lemma Forall_firstn' {A} (P : A -> Prop) n l : Forall P l -> Forall P (firstn n l).
Proof. intro F. rewrite <- (firstn_skipn n l) in F. now apply Forall_app in F. Qed.
Lemma symbol_peak CP col : Forall (fun z => Cmod z <= amps col / sqrt (INR (length col)))%R (symbol_samples CP col).
Proof.
  unfold symbol_samples, o_cyclic_prefix. destruct (negb _); [|apply o_ifft_peak]. apply Forall_app. split; [|apply o_ifft_peak]. unfold take_last. apply Forall_skipn', o_ifft_peak.
Qed.
Lemma m_samples_peak k syms B : (forall s, In s syms -> amps (map (tone_value k) s) / sqrt (INR (length s)) <= B)%R -> Forall (fun z => Cmod z <= B)%R (m_samples k syms).
Proof.
  intro H. unfold m_samples. apply Forall_flat_map. apply Forall_forall. intros s Hs. eapply Forall_impl; [|apply symbol_peak]. intros z Hz. cbn beta in Hz. rewrite map_length in Hz. specialize (H s Hs). lra.
Qed.
