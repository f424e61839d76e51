(** * C99: complete reception of MR-OFDM frames *)
From Coq Require Import Reals Lra.
From Coquelicot Require Import Complex.
From Verif Require Import Py PList SBits SEntry MBits PBits PEntry MPn9 SPn9 MModul MOfdm Tables SOfdm SMrOfdm PModul POfdm MMrOfdm PStd PMrOfdm PMrRx MTime STime PTime SGap PGap SPower PPower SMrRx PRecv PChannel SCfo PCfo STrack SOfdmAcq POfdmAcq Prop_MrOfdm Prop_Time Prop_Power Prop_MrRx Prop_Cfo Prop_Track.

Lemma above_skip th b x : Forall (fun z => Cmod z <= th)%R b -> (th < Cmod (nth 0 x (RtoC 0)))%R -> x <> [] -> from_first_above th (b ++ x) = x.
Proof.
  intros F H Hx. induction F as [|z b Hz F IH]; cbn [app from_first_above].
  - destruct x as [|z x]; [now elim Hx|]. cbn [nth] in H. cbn [from_first_above]. destruct (Rle_dec (Cmod z) th); [lra|reflexivity].
  - destruct (Rle_dec (Cmod z) th); [exact IH|lra].
Qed.
Lemma stf_noise_pos opt e : (0 <= e)%R -> (0 <= stf_noise opt e)%R.
Proof. intro H. apply Rmult_le_pos; [assumption|apply sqrt_pos]. Qed.
Lemma active_pos opt : 1 <= opt <= 4 -> (1 <= IZR (active_tones opt))%R /\ (1 <= IZR (pilot_tones opt))%R /\ (0 <= IZR (data_tones opt))%R.
Proof. intro Ho. assert (Ho' : opt = 1 \/ opt = 2 \/ opt = 3 \/ opt = 4) by lia. repeat split; apply IZR_le; destruct Ho' as [->|[->|[->| ->]]]; vm_compute; discriminate. Qed.

(** the estimate of the carrier offset, in noise *)
Lemma estimate_noise opt mcs il scr s a zs sig fr g e w x : modulator opt mcs il scr s -> holds_octets a zs -> Forall is_octet zs -> 1 <= zlen zs <= 2047 ->
  snd (m_bytesToIQ a s) = Ok (sig, fr) -> g <> RtoC 0 -> (0 <= e)%R ->
  (forall t, (t < length sig)%nat -> (Cmod (nth t x (RtoC 0) - unit_at (w * INR t) * (g * nth t sig (RtoC 0)))%C <= e * Cmod g)%R) ->
  (stf_error opt e < 1)%R -> (Rabs (w * INR (stf_period opt)) + 2 * stf_error opt e < PI)%R ->
  (Rabs (offset_of opt x - w) * INR (stf_period opt) <= 2 * stf_error opt e)%R.
Proof.
  intros Hm Ha Hz Hl E Hg He Hx H1 H2. destruct (stf_signal _ _ _ _ _ _ _ _ _ Hm Ha Hz Hl E) as (Ho & Ls & body & Lb & _ & En & At & SP & _).
  destruct (quarter_4 opt Ho) as (Hq & Hq0 & N2). destruct (stf_numbers opt Ho) as (Hp & Hk & Hs & HN & _). destruct (active_pos opt Ho) as (Ap & _).
  pose proof (stf_noise_pos opt e He) as K0. set (kap := stf_noise opt e) in *. assert (R0 : (0 <= stf_error opt e)%R) by (unfold stf_error; fold kap; pose proof (pow2_ge_0 kap); lra).
  set (q := quarter opt) in *. set (p := stf_period opt) in *. set (rho := stf_error opt e) in *. set (M := (4 * q - p)%nat).
  assert (P0 : (0 < INR p)%R) by (apply lt_0_INR; lia). assert (G0 : (0 < Cmod g)%R) by now apply Cmod_gt_0.
  (* noise, turned back *)
  set (m := fun t => Cmult (cis (- (w * INR t))) (nth t x (RtoC 0) - unit_at (w * INR t) * (g * nth t sig (RtoC 0)))%C).
  assert (Mb : forall t, (t < length sig)%nat -> (Cmod (m t) <= e * Cmod g)%R) by (intros t Ht; unfold m; rewrite Cmod_mult, Cmod_cis, Rmult_1_l; now apply Hx).
  assert (Xm : forall t, nth t x (RtoC 0) = (cis (w * INR t) * (g * nth t sig (RtoC 0) + m t))%C).
  { intro t. unfold m. change (unit_at (w * INR t)) with (cis (w * INR t)). set (c := cis (w * INR t)). set (c' := cis (- (w * INR t))).
    assert (CC : (c * c' = RtoC 1)%C) by (unfold c, c'; rewrite <- cis_add, Rplus_opp_r; apply cis_0).
    transitivity (c * g * nth t sig (RtoC 0) + (c * c') * (nth t x (RtoC 0) - c * (g * nth t sig (RtoC 0))))%C; [rewrite CC|]; ring. }
  set (aj := fun j => Cmult g (nth (q + j) sig (RtoC 0))).
  assert (Co : correlation opt x = Cmult (cis (w * INR p)) (Csum (fun j => (aj j + m (q + j + p)%nat) * Cconj (aj j + m (q + j)%nat))%C M)).
  { unfold correlation. fold q p M. rewrite csum_Csum, <- Csum_scal. apply Csum_ext. intros j Hj. rewrite !Xm, SP by (unfold M in Hj; lia). fold (aj j).
    rewrite Cconj_mult, cis_conj. replace (w * INR (q + j + p))%R with (w * INR p + w * INR (q + j))%R by (rewrite (plus_INR (q + j) p); ring). rewrite cis_add.
    match goal with |- (?cp * ?c1 * ?y * (?c2 * ?z))%C = _ => transitivity (cp * (c1 * c2) * (y * z))%C; [ring|] end. rewrite <- cis_add, Rplus_opp_r, cis_0. ring. }
  (* energy *)
  set (E0 := rsum (fun j => Cmod (aj j) ^ 2)%R M). assert (PerA : forall i, (i + p < 4 * q)%nat -> aj (i + p)%nat = aj i).
  { intros i Hi. unfold aj. f_equal. rewrite <- (SP (q + i)%nat) by lia. f_equal. lia. }
  assert (Full : rsum (fun j => Cmod (aj j) ^ 2)%R (4 * q) = (Cmod g ^ 2 * (25 / 16 * IZR (active_tones opt)))%R).
  { rewrite <- En, energy_rsum', Lb, <- rsum_scal. apply rsum_ext. intros i Hi. unfold aj. rewrite Cmod_mult, Rpow_mult_distr. f_equal. f_equal. f_equal. rewrite At by lia.
    f_equal. replace (q + i + 3 * q)%nat with (i + 1 * (4 * q))%nat by lia. now rewrite Nat.mod_add, Nat.mod_small by lia. }
  set (k := Z.to_nat (stf_step opt)) in *. assert (Hk2 : (2 <= k)%nat) by nia.
  assert (EM : M = ((k - 1) * p)%nat) by (unfold M; rewrite Hk; nia).
  rewrite Hk, (rsum_periodic _ p k) in Full by (intros i Hi; now rewrite PerA by lia).
  assert (E0v : (E0 * INR (4 * q) = INR M * (Cmod g ^ 2 * (25 / 16 * IZR (active_tones opt))))%R).
  { unfold E0. rewrite EM, (rsum_periodic _ p (k - 1)) by (intros i Hi; now rewrite PerA by nia). rewrite <- Full, Hk, !mult_INR. ring. }
  assert (Mpos : (0 < INR M)%R) by (apply lt_0_INR; unfold M; lia). assert (Npos : (0 < INR (4 * q))%R) by (apply lt_0_INR; lia).
  assert (g2 : (0 < Cmod g ^ 2)%R) by nra. assert (E0p : (0 < E0)%R).
  { assert (Z : (0 < E0 * INR (4 * q))%R) by (rewrite E0v; apply Rmult_lt_0_compat; [assumption|]; apply Rmult_lt_0_compat; lra). nra. }
  (* kappa^2 = e^2 |g|^2 M / E0 *)
  assert (K2 : (kap ^ 2 * E0 = (e * Cmod g) ^ 2 * INR M)%R).
  { assert (EN : INR (4 * q) = IZR (fft_size opt)) by (rewrite INR_IZR_INZ; f_equal; lia). rewrite EN in *. unfold kap, stf_noise. rewrite !Rpow_mult_distr, pow2_sqrt.
    - apply (Rmult_eq_reg_r (IZR (fft_size opt))); [|lra]. rewrite !Rmult_assoc, E0v. field. lra.
    - apply Rlt_le, Rdiv_lt_0_compat; lra. }
  set (e' := (e * Cmod g)%R) in *. assert (e0 : (0 <= e')%R) by (unfold e'; apply Rmult_le_pos; lra).
  pose proof (noisy_sum aj (fun j => m (q + j)%nat) (fun j => m (q + j + p)%nat) e' M e0 ltac:(intros j Hj; unfold M in Hj; split; apply Mb; lia)) as NS. cbv beta in NS. fold E0 in NS.
  set (S := Csum _ M) in *. rewrite rsum_plus, rsum_const, rsum_scal in NS.
  pose proof (rsum_sq (fun j => Cmod (aj j)) M) as CS. fold E0 in CS. set (A1 := rsum (fun j => Cmod (aj j)) M) in *.
  assert (A10 : (0 <= A1)%R) by (unfold A1; apply Rle_trans with (rsum (fun _ => 0%R) M); [rewrite rsum_const; lra|apply rsum_le; intros; apply Cmod_ge_0]).
  assert (B1 : (e' * A1 <= kap * E0)%R).
  { apply Rsqr_incr_0_var; [|nra]. unfold Rsqr. assert (e' ^ 2 * A1 ^ 2 <= e' ^ 2 * (INR M * E0))%R by (apply Rmult_le_compat_l; [apply pow2_ge_0|exact CS]).
    replace (kap * E0 * (kap * E0))%R with (kap ^ 2 * E0 * E0)%R by ring. rewrite K2. lra. }
  assert (Err : (Cmod (S - RtoC E0)%C <= rho * E0)%R) by (unfold rho, stf_error; fold kap; nra).
  replace S with (RtoC E0 + (S - RtoC E0))%C in Co by ring.
  pose proof (angle_noise E0 (w * INR p) (S - RtoC E0)%C rho E0p (conj R0 H1) Err H2) as AN. rewrite <- Co in AN.
  unfold offset_of. fold p. replace (Rabs (angle (correlation opt x) / INR p - w) * INR p)%R with (Rabs (angle (correlation opt x) - w * INR p)); [exact AN|].
  transitivity (Rabs ((angle (correlation opt x) / INR p - w) * INR p)); [f_equal; field; lra|]. rewrite Rabs_mult, (Rabs_pos_eq (INR p)) by lra. reflexivity.
Qed.

Lemma sized_gap d : forall x y, length x = length y -> (forall i, (i < length x)%nat -> (Cmod (nth i x (RtoC 0) - nth i y (RtoC 0))%C <= d)%R) -> (gap x y <= INR (length x) * d ^ 2)%R.
Proof.
  intros x y L H. rewrite gap_rsum by assumption. rewrite <- rsum_const. apply rsum_le. intros i Hi. apply pow_incr. split; [apply Cmod_ge_0|now apply H].
Qed.

Theorem C99_complete opt mcs il scr s a zs sig fr g e df threshold before mid after :
  modulator opt mcs il scr s -> holds_octets a zs -> Forall is_octet zs -> 1 <= zlen zs <= 2047 -> snd (m_bytesToIQ a s) = Ok (sig, fr) ->
  (0 <= e)%R -> length mid = length sig ->
  (forall t, (t < length sig)%nat -> (Cmod (nth t mid (RtoC 0) - unit_at (2 * PI * df / fr * INR t) * (g * nth t sig (RtoC 0)))%C <= e * Cmod g)%R) ->
  Forall (fun z => Cmod z <= threshold)%R before -> (threshold < (Cmod (nth 0 sig (RtoC 0)) - e) * Cmod g)%R -> g <> RtoC 0 ->
  (2 * PI * Rabs df / (IZR (stf_step opt) * (31250 / 3)) + 2 * stf_error opt e < PI)%R ->
  ((IZR (stf_step opt) * stf_error opt e * sqrt (symbol_energy opt (strongest (mcs_modulation mcs))) + e * sqrt (IZR (fft_size opt)))
   * (1 + sqrt (strongest (mcs_modulation mcs)) + norm_factor (mcs_modulation mcs)) < norm_factor (mcs_modulation mcs))%R ->
  complete_receiver opt il threshold (before ++ mid ++ after) = {| f_mcs := mcs; f_scrambler := scr; f_octets := zs |}.
Proof.
  intros Hm Ha Hz Hl E He Lm Hx Hb Ht Hg Hw Hd.
  destruct (frame_parts _ _ _ _ _ _ _ _ _ Hm Ha Hz Hl E) as (H1 & H2 & H3 & lb & bd & P & _ & _). pose proof (p_length _ _ _ _ _ P) as Ls. clear P.
  assert (Ho : 1 <= opt <= 4) by (unfold supported in H1; lia). destruct (quarter_4 opt Ho) as (Hq & Hq0 & N2). destruct (stf_numbers opt Ho) as (Hp & Hk & Hs & HN & _).
  destruct (active_pos opt Ho) as (Ap & Pp & Dp). pose proof PI_RGT_0 as Hpi. assert (G0 : (0 < Cmod g)%R) by now apply Cmod_gt_0.
  pose proof (stf_noise_pos opt e He) as K0. assert (R0 : (0 <= stf_error opt e)%R) by (unfold stf_error; pose proof (pow2_ge_0 (stf_noise opt e)); lra).
  set (w := (2 * PI * df / fr)%R) in *. set (x := mid ++ after). set (rho := stf_error opt e) in *.
  assert (Xn : forall t, (t < length sig)%nat -> nth t x (RtoC 0) = nth t mid (RtoC 0)) by (intros t T; unfold x; apply app_nth1; lia).
  assert (Hx' : forall t, (t < length sig)%nat -> (Cmod (nth t x (RtoC 0) - unit_at (w * INR t) * (g * nth t sig (RtoC 0)))%C <= e * Cmod g)%R) by (intros t T; rewrite Xn by assumption; now apply Hx).
  (* the start *)
  assert (St : from_first_above threshold (before ++ x) = x).
  { apply above_skip; [assumption| |].
    - specialize (Hx' 0%nat ltac:(nia)). change (INR 0) with 0%R in Hx'. rewrite Rmult_0_r in Hx'. change (unit_at 0) with (cis 0) in Hx'. rewrite cis_0, Cmult_1_l in Hx'.
      set (z := nth 0 x (RtoC 0)) in *. set (u := Cmult g (nth 0 sig (RtoC 0))) in *. fold x.
      assert (T : (Cmod u <= Cmod (z - u)%C + Cmod z)%R).
      { replace (Cmod (z - u)%C) with (Cmod (u - z)%C) by (rewrite <- Cmod_opp; f_equal; ring). pose proof (Cmod_triangle (u - z)%C z) as Q. now replace (u - z + z)%C with u in Q by ring. }
      unfold u at 1 in T. rewrite Cmod_mult in T. fold z. lra.
    - unfold x. intro Z. apply (f_equal (@length C)) in Z. rewrite app_length, Lm, Ls in Z. cbn in Z. nia. }
  unfold complete_receiver. rewrite St.
  set (m := mcs_modulation mcs) in *. set (Es := symbol_energy opt (strongest m)) in *. set (k := norm_factor m) in *. set (T := sqrt (strongest m)) in *.
  assert (Kp : (0 < k)%R) by apply norm_pos. assert (T0 : (0 <= T)%R) by apply sqrt_pos.
  assert (Es1 : (1 <= Es)%R) by (unfold Es, symbol_energy; destruct m; cbn [strongest]; lra). assert (Sq1 : (1 <= sqrt Es)%R) by (rewrite <- sqrt_1 at 1; now apply sqrt_le_1_alt).
  assert (St2 : (2 <= IZR (stf_step opt))%R) by (apply IZR_le; nia).
  assert (eN : (0 <= e * sqrt (IZR (fft_size opt)))%R) by (apply Rmult_le_pos; [assumption|apply sqrt_pos]).
  assert (X1 : (rho <= IZR (stf_step opt) * rho * sqrt Es)%R).
  { rewrite <- (Rmult_1_l rho) at 1. rewrite (Rmult_comm (IZR (stf_step opt))), (Rmult_comm 1), Rmult_assoc. apply Rmult_le_compat_l; [assumption|]. nra. }
  assert (Rho1 : (rho < 1)%R) by nra.
  (* the carrier offset *)
  assert (P0 : (0 < INR (stf_period opt))%R) by (apply lt_0_INR; lia).
  assert (EN : IZR (fft_size opt) = (IZR (stf_step opt) * INR (stf_period opt))%R) by (rewrite HN, mult_IZR, <- INR_IZR_INZ; reflexivity).
  assert (FR : fr = (31250 / 3 * (IZR (stf_step opt) * INR (stf_period opt)))%R).
  { rewrite (rate_of opt mcs il scr s a zs sig fr Hm Ha Hz Hl E), <- EN. destruct (C43_sampling_rate opt Ho) as [_ F]. rewrite <- F. field. rewrite EN. nra. }
  assert (WP : (Rabs (w * INR (stf_period opt)) = 2 * PI * Rabs df / (IZR (stf_step opt) * (31250 / 3)))%R).
  { replace (w * INR (stf_period opt))%R with (2 * PI / (IZR (stf_step opt) * (31250 / 3)) * df)%R by (unfold w; rewrite FR; field; lra).
    rewrite Rabs_mult, Rabs_pos_eq; [field; lra|]. apply Rlt_le, Rdiv_lt_0_compat; nra. }
  rewrite <- WP in Hw. pose proof (estimate_noise opt mcs il scr s a zs sig fr g e w x Hm Ha Hz Hl E Hg He Hx' Rho1 Hw) as Est.
  unfold corrected. set (v := offset_of opt x) in *. set (dl := (v - w)%R) in *. set (q := quarter opt) in *.
  assert (Dq : (Rabs dl * INR (2 * q) <= IZR (stf_step opt) * rho)%R).
  { assert (Q : INR (2 * q) = (IZR (stf_step opt) * INR (stf_period opt) / 2)%R).
    { rewrite <- EN, INR_IZR_INZ. replace (fft_size opt) with (2 * Z.of_nat (2 * q)) by lia. rewrite mult_IZR. field. }
    rewrite Q. fold rho in Est. replace (Rabs dl * (IZR (stf_step opt) * INR (stf_period opt) / 2))%R with (IZR (stf_step opt) / 2 * (Rabs dl * INR (stf_period opt)))%R by field.
    replace (IZR (stf_step opt) * rho)%R with (IZR (stf_step opt) / 2 * (2 * rho))%R by field. apply Rmult_le_compat_l; lra. }
  pose (d := (Cmod g * (IZR (stf_step opt) * rho * sqrt Es + e * sqrt (IZR (fft_size opt))))%R).
  apply (C98_tracking opt mcs il scr s a zs sig fr _ (fun n => Cmult (cis (- dl * INR ((31 + 5 * n) * q + 2 * q))) g) (fun _ => d) Hm Ha Hz Hl E).
  - intros n f Hn _. cbv beta. pose proof (drift opt mcs il scr s a zs sig fr g (- dl) n f Hm Ha Hz Hl E Hn) as Dr. fold q m Es in Dr.
    set (y := shifted (- dl) (map (Cmult g) sig)) in *.
    assert (Lx : forall r, (length sig <= length r)%nat -> length (rx_body opt r n) = (4 * q)%nat) by (intros r Hr; unfold rx_body; fold q; rewrite firstn_length, skipn_length, Nat.min_l; [reflexivity|nia]).
    assert (L1 : length (rx_body opt (shifted (- v) x) n) = (4 * q)%nat) by (apply Lx; rewrite shifted_length; unfold x; rewrite app_length; lia).
    assert (L2 : length (rx_body opt y n) = (4 * q)%nat) by (apply Lx; unfold y; rewrite shifted_length, map_length; lia).
    assert (Gp : (gap (rx_body opt (shifted (- v) x) n) (rx_body opt y n) <= INR (length (rx_body opt (shifted (- v) x) n)) * (e * Cmod g) ^ 2)%R).
    { apply sized_gap; [lia|]. intros i Hi. rewrite L1 in Hi. unfold rx_body. fold q. rewrite !nth_firstn, !nth_skipn by lia. unfold y. rewrite !shifted_nth.
      set (t := ((31 + 5 * n) * q + i)%nat). assert (Tl : (t < length sig)%nat) by (unfold t; nia). rewrite (nth_map (Cmult g) sig t (RtoC 0) (RtoC 0)) by assumption.
      specialize (Hx' t Tl). change (unit_at (w * INR t)) with (cis (w * INR t)) in Hx'.
      replace (- dl * INR t)%R with (- v * INR t + w * INR t)%R by (unfold dl; ring). rewrite cis_add.
      match goal with |- (Cmod ?z <= _)%R => replace z with (cis (- v * INR t) * (nth t x (RtoC 0) - cis (w * INR t) * (g * nth t sig (RtoC 0))))%C by ring end.
      rewrite Cmod_mult, Cmod_cis, Rmult_1_l. exact Hx'. }
    rewrite L1 in Gp. pose proof (analyse_error (rx_body opt (shifted (- v) x) n) (rx_body opt y n) f ltac:(lia)) as AE.
    fold (rx_tone opt (shifted (- v) x) n f) (rx_tone opt y n f) in AE.
    assert (N4 : INR (4 * q) = IZR (fft_size opt)) by (rewrite INR_IZR_INZ; f_equal; lia). rewrite N4 in Gp.
    assert (AE' : (Cmod (rx_tone opt (shifted (- v) x) n f - rx_tone opt y n f)%C <= e * Cmod g * sqrt (IZR (fft_size opt)))%R).
    { apply Rsqr_incr_0_var; [|apply Rmult_le_pos; [apply Rmult_le_pos; lra|apply sqrt_pos]]. unfold Rsqr.
      replace (e * Cmod g * sqrt (IZR (fft_size opt)) * (e * Cmod g * sqrt (IZR (fft_size opt))))%R with (sqrt (IZR (fft_size opt)) * sqrt (IZR (fft_size opt)) * (e * Cmod g) ^ 2)%R by ring.
      rewrite sqrt_sqrt by (rewrite <- N4; apply pos_INR). nra. }
    rewrite Rabs_Ropp in Dr. set (G := (_ * g)%C) in *. set (z1 := rx_tone opt (shifted (- v) x) n f) in *. set (z2 := rx_tone opt y n f) in *. set (z3 := rx_tone opt sig n f) in *.
    replace (z1 - G * z3)%C with ((z1 - z2) + (z2 - G * z3))%C by ring. eapply Rle_trans; [apply Cmod_triangle|].
    assert (Cmod g * (Rabs dl * INR (2 * q)) * sqrt Es <= Cmod g * (IZR (stf_step opt) * rho) * sqrt Es)%R by (apply Rmult_le_compat_r; [apply sqrt_pos|]; apply Rmult_le_compat_l; lra).
    unfold d. lra.
  - intros n Hn. cbv beta. rewrite Cmod_mult, Cmod_cis, Rmult_1_l.
    assert (X0 : (0 <= IZR (stf_step opt) * rho * sqrt Es + e * sqrt (IZR (fft_size opt)))%R) by lra.
    pose proof (header_easier opt mcs il n _ H1 X0 Hd) as K. unfold d. set (ks := symbol_factor opt mcs il n) in *. set (u := (_ + _ + ks)%R) in *. set (D := (_ + _)%R) in *. nra.
Qed.
Print Assumptions C99_complete.

(** ** the first sample of a frame is loud *)
Fixpoint zsum (f : nat -> Z) (n : nat) : Z := match n with O => 0 | S m => zsum f m + f m end.
Lemma rsum_IZR f n : rsum (fun i => IZR (f i)) n = IZR (zsum f n).
Proof. induction n as [|n IH]; cbn [rsum zsum]; [reflexivity|]. now rewrite IH, plus_IZR. Qed.
Definition folded (opt : Z) (k : nat) : Z := if Z.of_nat k <? fft_size opt / 2 then Z.of_nat k else Z.of_nat k - fft_size opt.
Definition first_sign (opt : Z) (k : nat) : Z :=
  let f := folded opt k in
  if (f mod stf_step opt =? 0) && negb (f =? 0) && (Z.abs f <=? stf_edge opt) then (if stf_negative opt f then -1 else 1) * (if f mod 4 =? 0 then 1 else -1) else 0.
Theorem C99_first opt mcs il scr s a zs sig fr : modulator opt mcs il scr s -> holds_octets a zs -> Forall is_octet zs -> 1 <= zlen zs <= 2047 ->
  snd (m_bytesToIQ a s) = Ok (sig, fr) ->
  Cmod (nth 0 sig (RtoC 0)) = (5 / 4 * sqrt (IZR (active_tones opt) / IZR (2 * (stf_edge opt / stf_step opt)))
     * (match opt with 1 => 12 | 3 => 6 | _ => 2 end) / sqrt (IZR (fft_size opt)))%R.
Proof.
  intros Hm Ha Hz Hl E. destruct (stf_signal _ _ _ _ _ _ _ _ _ Hm Ha Hz Hl E) as (Ho & Ls & body & Lb & _ & _ & At & _ & Am).
  destruct (quarter_4 opt Ho) as (Hq & Hq0 & N2). destruct (stf_numbers opt Ho) as (Hp & Hk & Hs & HN & _). set (q := quarter opt) in *.
  rewrite At by lia. rewrite Nat.add_0_l, Nat.mod_small by lia. rewrite analyse_inverse by lia. rewrite Lb. set (A := sqrt (IZR (active_tones opt) / _)).
  assert (N4 : INR (4 * q) = IZR (fft_size opt)) by (rewrite INR_IZR_INZ; f_equal; lia). assert (Np : (0 < IZR (fft_size opt))%R) by (apply IZR_lt; lia).
  assert (Ho' : opt = 1 \/ opt = 2 \/ opt = 3 \/ opt = 4) by lia.
  rewrite (Csum_ext _ (fun k => RtoC (5 / 4 * A * IZR (first_sign opt k)))).
  - rewrite Csum_RtoC, rsum_scal, rsum_IZR, N4, Cmod_mult, Cmod_inv, !Cmod_R.
    + assert (ZS : zsum (first_sign opt) (4 * q) = match opt with 1 => 12 | 2 => 2 | 3 => 6 | _ => -2 end) by (unfold q; destruct Ho' as [->|[->|[->| ->]]]; vm_compute; reflexivity).
      rewrite ZS, !Rabs_mult, (Rabs_pos_eq A), (Rabs_pos_eq (5 / 4)), (Rabs_pos_eq (sqrt _)) by (apply sqrt_pos || lra).
      replace (Rabs (IZR (match opt with 1 => 12 | 2 => 2 | 3 => 6 | _ => -2 end))) with (match opt with 1 => 12 | 3 => 6 | _ => 2 end)%R.
      * field. apply Rgt_not_eq, sqrt_lt_R0. assumption.
      * destruct Ho' as [->|[->|[->| ->]]]; [rewrite Rabs_pos_eq by lra|rewrite Rabs_pos_eq by lra|rewrite Rabs_pos_eq by lra|rewrite Rabs_left by lra]; lra.
    + intro Z. apply RtoC_inj in Z. assert (0 < sqrt (IZR (fft_size opt)))%R by now apply sqrt_lt_R0. lra.
  - intros k Hk'. set (f := folded opt k).
    assert (Fr : - (fft_size opt / 2) <= f < fft_size opt / 2) by (unfold f, folded; destruct (Z.ltb_spec (Z.of_nat k) (fft_size opt / 2)); lia).
    assert (Ef : exists z, f = Z.of_nat k + z * Z.of_nat (length body)).
    { unfold f, folded. destruct (Z.ltb_spec (Z.of_nat k) (fft_size opt / 2)); [exists 0|exists (-1)]; lia. }
    destruct Ef as [z Ef]. rewrite <- (analyse_period body (Z.of_nat k) z) by lia. rewrite <- Ef, Am by assumption. unfold first_sign. cbv zeta. fold f. unfold stf_amplitude.
    destruct ((f mod stf_step opt =? 0) && negb (f =? 0) && (Z.abs f <=? stf_edge opt)) eqn:B; [|rewrite !Rmult_0_r; ring].
    fold A. assert (Ev : f mod 2 = 0).
    { apply andb_prop in B as [B _]. apply andb_prop in B as [B _]. apply Z.eqb_eq in B. assert (S2 : (2 | stf_step opt)) by (destruct Ho' as [->|[->|[->| ->]]]; [exists 4|exists 2|exists 2|exists 1]; reflexivity).
      destruct S2 as [c Hc]. apply Z.mod_divide in B as [d Hd]; [|lia]. apply Z.mod_divide; [lia|]. exists (d * c). lia. }
    assert (CI : cis (2 * PI * (INR k * INR (3 * q) / INR (4 * q))) = RtoC (IZR (if f mod 4 =? 0 then 1 else -1))).
    { assert (Q0 : (0 < INR q)%R) by (apply lt_0_INR; lia). replace (2 * PI * (INR k * INR (3 * q) / INR (4 * q)))%R with (PI * (3 * INR k / 2))%R by (rewrite !mult_INR; cbn [INR]; field; lra).
      assert (F4 : Z.of_nat k mod 4 = f mod 4) by (rewrite Ef; replace (z * Z.of_nat (length body)) with (z * Z.of_nat q * 4) by lia; now rewrite Z.mod_add by lia).
      assert (K : Z.of_nat k = 4 * (Z.of_nat k / 4) + f mod 4) by (rewrite <- F4; apply Z.div_mod; lia). rewrite INR_IZR_INZ, K, plus_IZR, mult_IZR. set (c := Z.of_nat k / 4).
      destruct (Z.eqb_spec (f mod 4) 0) as [F0|F0].
      - rewrite F0. replace (PI * (3 * (4 * IZR c + 0) / 2))%R with (2 * PI * IZR (3 * c))%R by (rewrite mult_IZR; field). apply cis_2PI_Z.
      - assert (F2 : f mod 4 = 2) by (Z.div_mod_to_equations; lia). rewrite F2.
        replace (PI * (3 * (4 * IZR c + 2) / 2))%R with (2 * PI * IZR (3 * c + 1) + PI)%R by (rewrite plus_IZR, mult_IZR; field). rewrite cis_add, cis_2PI_Z. unfold cis. rewrite cos_PI, sin_PI.
        apply injective_projections; cbn; ring. }
    rewrite CI, <- RtoC_mult. f_equal. rewrite mult_IZR. destruct (stf_negative opt f); ring.
Qed.
Print Assumptions C99_first.
(** option 4, MCS 2: noise of one hundredth of the gain, offset of 5 kHz, threshold at half the gain *)
Example C99_case : exists s, modulator 4 2 0 0 s /\ is_ok (snd (send (Octets (ABytes (repeat x55 60))) s)) = true
  /\ (2 * PI * Rabs 5000 / (IZR (stf_step 4) * (31250 / 3)) + 2 * stf_error 4 (/ 100) < PI)%R
  /\ ((IZR (stf_step 4) * stf_error 4 (/ 100) * sqrt (symbol_energy 4 (strongest (mcs_modulation 2))) + / 100 * sqrt (IZR (fft_size 4)))
      * (1 + sqrt (strongest (mcs_modulation 2)) + norm_factor (mcs_modulation 2)) < norm_factor (mcs_modulation 2))%R
  /\ (1 / 2 < (5 / 4 * sqrt (IZR (active_tones 4) / IZR (2 * (stf_edge 4 / stf_step 4))) * 2 / sqrt (IZR (fft_size 4)) - / 100) * 1)%R.
Proof.
  eexists. split; [exists (PInt 2), (PInt 4), (PInt 0), (PInt 0); eexists; exists []; repeat split; reflexivity|]. split; [vm_compute; reflexivity|].
  change (mcs_modulation 2) with QPSK. cbn [strongest norm_factor]. rewrite sqrt_1, Rabs_pos_eq by lra. unfold symbol_energy, stf_error, stf_noise.
  change (data_tones 4) with 12. change (pilot_tones 4) with 2. change (active_tones 4) with 14. change (stf_step 4) with 2. change (stf_edge 4) with 6. change (fft_size 4) with 16.
  change (2 * (6 / 2)) with 6. replace (12 * 1 + 2)%R with 14%R by ring. pose proof PI_RGT_0 as P0. assert (P2 : (2 < PI)%R) by (pose proof PI2_1; lra).
  assert (S14 : (0 <= sqrt 14 <= 4)%R) by (split; [apply sqrt_pos|]; replace 4%R with (sqrt (4 * 4)) by (apply sqrt_square; lra); apply sqrt_le_1_alt; lra).
  assert (S16 : sqrt 16 = 4%R) by (replace 16%R with (4 * 4)%R by ring; apply sqrt_square; lra).
  assert (Sk : (0 <= sqrt (16 * 16 / (25 * 14)) <= 1)%R) by (split; [apply sqrt_pos|]; rewrite <- sqrt_1; apply sqrt_le_1_alt; lra).
  assert (S6 : (1 <= sqrt (14 / 6))%R) by (rewrite <- sqrt_1 at 1; apply sqrt_le_1_alt; lra).
  assert (K : (7 / 10 <= 1 / sqrt 2 <= 1)%R).
  { assert (T : (1 <= sqrt 2 <= 10 / 7)%R).
    { split; [rewrite <- sqrt_1 at 1; apply sqrt_le_1_alt; lra|]. replace (10 / 7)%R with (sqrt (10 / 7 * (10 / 7))) by (apply sqrt_square; lra). apply sqrt_le_1_alt. lra. }
    assert (sqrt 2 * (1 / sqrt 2) = 1)%R by (field; lra). nra. }
  rewrite S16. set (k := (1 / sqrt 2)%R) in *. set (y := (/ 100 * sqrt (16 * 16 / (25 * 14)))%R). assert (Y : (0 <= y <= / 100)%R) by (unfold y; lra).
  assert (R : (0 <= 2 * y + y ^ 2 <= 3 / 100)%R) by nra. assert (R' : (2 * y + y ^ 2 <= 21 / 1000)%R) by nra. set (r := (2 * y + y ^ 2)%R) in *. split; [|split].
  - assert (2 * PI * 5000 / (2 * (31250 / 3)) <= PI / 2)%R by lra. lra.
  - assert (B : (0 <= 2 * r * sqrt 14 + / 100 * 4 <= 22 / 100)%R) by (split; nra). assert ((2 * r * sqrt 14 + / 100 * 4) * (1 + 1 + k) <= 22 / 100 * 3)%R by (apply Rmult_le_compat; lra). lra.
  - lra.
Qed.
