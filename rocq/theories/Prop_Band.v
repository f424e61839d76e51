(** * C112: MR-OFDM frames read from part of the band *)
From Coq Require Import Reals Lra.
From Coquelicot Require Import Complex.
From Verif Require Import Py PList SBits SEntry MBits PBits PEntry MPn9 SPn9 MModul MOfdm Tables SOfdm SMrOfdm PModul POfdm MMrOfdm PStd PMrOfdm PMrRx MTime STime PTime SGap PGap SPower PPower SMrRx PRecv PChannel Prop_MrOfdm Prop_Time Prop_MrRx SVit PSoft SBand PBand.

(** any copy of each data point will do: the other subcarriers may hold anything *)
Theorem C112_copies opt mcs il scr s a zs sig fr pick (tone : nat -> Z -> C) : modulator opt mcs il scr s -> holds_octets a zs -> Forall is_octet zs -> 1 <= zlen zs <= 2047 ->
  snd (m_bytesToIQ a s) = Ok (sig, fr) ->
  (forall n i, (n < frame_symbols_of opt mcs il (zlen zs))%nat -> let m := mcs_at opt mcs il n in (i < points_of opt m)%nat ->
     (pick m n i < mcs_spreading m)%nat /\ let f := copy_freq opt m n (pick m n i) i in (Cmod (tone n f - rx_tone opt sig n f)%C < symbol_factor opt mcs il n)%R) ->
  picking_receiver opt il pick tone = {| f_mcs := mcs; f_scrambler := scr; f_octets := zs |}.
Proof.
  intros Hm Ha Hz Hl E Hr. destruct (frame_parts _ _ _ _ _ _ _ _ _ Hm Ha Hz Hl E) as (H1 & H2 & H3 & lb & body & P & _ & A).
  assert (Ho : 1 <= opt <= 4) by (unfold supported in H1; lia). destruct (quarter_4 opt Ho) as (Hq & Hq0 & N2).
  apply picking_core; auto. intros n i Hn. cbv zeta. intro Hin. destruct (Hr n i Hn Hin) as [B1 B2]. split; [exact B1|]. intro Hf. apply data_freq_used in Hf as [Hf _].
  unfold rx_tone in B2. rewrite (parts_body _ _ _ _ _ _ P Hn), A in B2 by (auto; lia). exact B2.
Qed.
Print Assumptions C112_copies.

(** ** halves and quarters *)
Lemma data_freqs_length opt n : 1 <= opt <= 4 -> length (data_freqs opt n) = Z.to_nat (data_tones opt).
Proof.
  intro Ho. assert (K : (n mod length (pilot_sets opt) < length (pilot_sets opt))%nat) by (apply Nat.mod_upper_bound; assert (Ho' : opt = 1 \/ opt = 2 \/ opt = 3 \/ opt = 4) by lia; destruct Ho' as [->|[->|[->| ->]]]; discriminate).
  assert (F : forallb (fun ps => Nat.eqb (length (filter (is_data (fft_size opt) (guard_left opt) (guard_right opt) ps) (freqs (fft_size opt)))) (Z.to_nat (data_tones opt))) (pilot_sets opt) = true).
  { clear -Ho. assert (Ho' : opt = 1 \/ opt = 2 \/ opt = 3 \/ opt = 4) by lia. destruct Ho' as [->|[->|[->| ->]]]; vm_compute; reflexivity. }
  rewrite forallb_forall in F. specialize (F _ (nth_In _ [] K)). apply Nat.eqb_eq in F. exact F.
Qed.
Lemma points_divide opt m : supported opt m -> (points_of opt m * mcs_spreading m = Z.to_nat (data_tones opt))%nat /\ (0 < mcs_spreading m)%nat.
Proof. unfold points_of. each; vm_compute; split; (reflexivity || lia). Qed.
Lemma mcs_at_supported opt mcs il n : supported opt mcs -> supported opt (mcs_at opt mcs il n).
Proof. intro H. unfold mcs_at. destruct (Nat.ltb _ _); [now apply supported_low with mcs|assumption]. Qed.
Lemma lower_in opt m n i k : supported opt m -> (0 < k)%nat -> (k <= mcs_spreading m)%nat -> (i < points_of opt m)%nat -> In (copy_freq opt m n 0 i) (lower_part opt k n).
Proof.
  intros H Hk Hs Hi. destruct (points_divide opt m H) as [E Hp]. unfold copy_freq, lower_part. cbn [Nat.mul Nat.add].
  assert (Ho : 1 <= opt <= 4) by (unfold supported in H; lia). rewrite (data_freqs_length opt n Ho). rewrite <- E.
  assert (B : (points_of opt m <= points_of opt m * mcs_spreading m / k)%nat) by (apply Nat.div_le_lower_bound; nia).
  set (q := (points_of opt m * mcs_spreading m / k)%nat) in *. assert (Q : (q <= points_of opt m * mcs_spreading m)%nat) by (apply Nat.div_le_upper_bound; nia).
  assert (X : nth i (data_freqs opt n) 0 = nth i (firstn q (data_freqs opt n)) 0) by (symmetry; apply nth_firstn; lia). rewrite X. apply nth_In. rewrite firstn_length, data_freqs_length by assumption. rewrite <- E. lia.
Qed.
Lemma upper_in opt m n i k : supported opt m -> (0 < k)%nat -> (k <= mcs_spreading m)%nat -> (i < points_of opt m)%nat -> In (copy_freq opt m n (mcs_spreading m - 1) i) (upper_part opt k n).
Proof.
  intros H Hk Hs Hi. destruct (points_divide opt m H) as [E Hp]. unfold copy_freq, upper_part. cbv zeta.
  assert (Ho : 1 <= opt <= 4) by (unfold supported in H; lia). pose proof (data_freqs_length opt n Ho) as L. rewrite L, <- E.
  assert (B : (points_of opt m <= points_of opt m * mcs_spreading m / k)%nat) by (apply Nat.div_le_lower_bound; nia).
  set (q := (points_of opt m * mcs_spreading m / k)%nat) in *. assert (Q : (q <= points_of opt m * mcs_spreading m)%nat) by (apply Nat.div_le_upper_bound; nia).
  set (t := ((mcs_spreading m - 1) * points_of opt m + i)%nat). set (u := (points_of opt m * mcs_spreading m - q)%nat).
  assert (T : (u <= t /\ t < points_of opt m * mcs_spreading m)%nat) by (unfold t, u; nia).
  assert (X : nth t (data_freqs opt n) 0 = nth (t - u) (skipn u (data_freqs opt n)) 0) by (rewrite nth_skipn; f_equal; lia). fold t. rewrite X. apply nth_In. rewrite skipn_length, L. lia.
Qed.
(** with MCS 0, 1 and 2 (k = 2; k = 4 with MCS 0) the lower 1/k of the band is enough, and so is the upper *)
Theorem C112_lower opt mcs il scr s a zs sig fr k (tone : nat -> Z -> C) : modulator opt mcs il scr s -> holds_octets a zs -> Forall is_octet zs -> 1 <= zlen zs <= 2047 ->
  snd (m_bytesToIQ a s) = Ok (sig, fr) -> (0 < k <= mcs_spreading mcs)%nat -> (k <= mcs_spreading (lowest_mcs opt))%nat ->
  (forall n f, (n < frame_symbols_of opt mcs il (zlen zs))%nat -> In f (lower_part opt k n) -> (Cmod (tone n f - rx_tone opt sig n f)%C < symbol_factor opt mcs il n)%R) ->
  picking_receiver opt il lower_copy tone = {| f_mcs := mcs; f_scrambler := scr; f_octets := zs |}.
Proof.
  intros Hm Ha Hz Hl E Hk Hk' Hr. destruct (frame_parts _ _ _ _ _ _ _ _ _ Hm Ha Hz Hl E) as (H1 & _).
  eapply C112_copies; eauto. intros n i Hn. cbv zeta. intro Hi. pose proof (mcs_at_supported opt mcs il n H1) as S. destruct (points_divide opt _ S) as [_ P].
  split; [exact P|]. apply Hr; [assumption|]. apply lower_in; auto; [lia|]. unfold mcs_at. destruct (Nat.ltb _ _); lia.
Qed.
Print Assumptions C112_lower.
Theorem C112_upper opt mcs il scr s a zs sig fr k (tone : nat -> Z -> C) : modulator opt mcs il scr s -> holds_octets a zs -> Forall is_octet zs -> 1 <= zlen zs <= 2047 ->
  snd (m_bytesToIQ a s) = Ok (sig, fr) -> (0 < k <= mcs_spreading mcs)%nat -> (k <= mcs_spreading (lowest_mcs opt))%nat ->
  (forall n f, (n < frame_symbols_of opt mcs il (zlen zs))%nat -> In f (upper_part opt k n) -> (Cmod (tone n f - rx_tone opt sig n f)%C < symbol_factor opt mcs il n)%R) ->
  picking_receiver opt il upper_copy tone = {| f_mcs := mcs; f_scrambler := scr; f_octets := zs |}.
Proof.
  intros Hm Ha Hz Hl E Hk Hk' Hr. destruct (frame_parts _ _ _ _ _ _ _ _ _ Hm Ha Hz Hl E) as (H1 & _).
  eapply C112_copies; eauto. intros n i Hn. cbv zeta. intro Hi. pose proof (mcs_at_supported opt mcs il n H1) as S. destruct (points_divide opt _ S) as [_ P].
  split; [unfold upper_copy; lia|]. apply Hr; [assumption|]. apply upper_in; auto; [lia|]. unfold mcs_at. destruct (Nat.ltb _ _); lia.
Qed.
Print Assumptions C112_upper.

(** ** multipath: a point is lost only when the channel cancels all its copies *)
Lemma largest_spec v k : (largest v k <= k)%nat /\ forall j, (j <= k)%nat -> (v j <= v (largest v k))%R.
Proof.
  induction k as [|k [A B]]; cbn [largest]; cbv zeta.
  - split; [lia|]. intros j Hj. replace j with 0%nat by lia. lra.
  - destruct (Rlt_dec (v (largest v k)) (v (S k))) as [L|L].
    + split; [lia|]. intros j Hj. destruct (Nat.eq_dec j (S k)) as [->|]; [lra|]. specialize (B j ltac:(lia)). lra.
    + split; [lia|]. intros j Hj. destruct (Nat.eq_dec j (S k)) as [->|]; [lra|]. apply B. lia.
Qed.
Lemma copy_in opt m n j i : supported opt m -> (j < mcs_spreading m)%nat -> (i < points_of opt m)%nat -> In (copy_freq opt m n j i) (data_freqs opt n).
Proof.
  intros H Hj Hi. assert (Ho : 1 <= opt <= 4) by (unfold supported in H; lia). destruct (points_divide opt m H) as [E _]. apply nth_In. rewrite data_freqs_length, <- E by assumption. nia.
Qed.
Theorem C112_multipath opt mcs il scr s a zs sig fr h : modulator opt mcs il scr s -> holds_octets a zs -> Forall is_octet zs -> 1 <= zlen zs <= 2047 ->
  snd (m_bytesToIQ a s) = Ok (sig, fr) -> (length h <= S (quarter opt))%nat ->
  (forall n i, (n < frame_symbols_of opt mcs il (zlen zs))%nat -> let m := mcs_at opt mcs il n in (i < points_of opt m)%nat ->
     exists j, (j < mcs_spreading m)%nat /\ response (fft_size opt) h (copy_freq opt m n j i) <> RtoC 0) ->
  selecting_receiver opt il (through h sig) = {| f_mcs := mcs; f_scrambler := scr; f_octets := zs |}.
Proof.
  intros Hm Ha Hz Hl E Hh Hr. destruct (frame_parts _ _ _ _ _ _ _ _ _ Hm Ha Hz Hl E) as (H1 & H2 & H3 & lb & body & P & B & A).
  assert (Ho : 1 <= opt <= 4) by (unfold supported in H1; lia). destruct (quarter_4 opt Ho) as (Hq & Hq0 & N2).
  unfold selecting_receiver. apply picking_core; auto. intros n i Hn. cbv zeta. intro Hi. pose proof (mcs_at_supported opt mcs il n H1) as S. set (m := mcs_at opt mcs il n) in *.
  destruct (points_divide opt _ S) as [_ Pp]. unfold strongest_copy. set (v := fun j => Cmod _). destruct (largest_spec v (mcs_spreading m - 1)) as [L1 L2].
  set (j0 := largest v (mcs_spreading m - 1)) in *. split; [lia|]. intro Hf.
  assert (M : forall j, (j < mcs_spreading m)%nat -> v j = Cmod (response (fft_size opt) h (copy_freq opt m n j i))).
  { intros j Hj. unfold v. destruct (data_freq_used _ _ _ (copy_in opt m n j i S Hj Hi)) as [F G]. rewrite (C86_measured opt mcs il scr s a zs sig fr h) by (auto; lia). reflexivity. }
  destruct (Hr n i Hn Hi) as (j & Hj & Hj0). fold m in Hj, Hj0. assert (NZ : response (fft_size opt) h (copy_freq opt m n j0 i) <> RtoC 0).
  { intro Z. specialize (L2 j ltac:(lia)). rewrite (M j Hj), (M j0 ltac:(lia)), Z, Cmod_0 in L2. apply Hj0. apply Cmod_eq_0. pose proof (Cmod_ge_0 (response (fft_size opt) h (copy_freq opt m n j i))). lra. }
  apply data_freq_used in Hf as [Hf Hg].
  unfold equalised. rewrite (C86_measured opt mcs il scr s a zs sig fr h) by (auto; lia). rewrite (through_body _ _ _ _ _ _ _ _ P Ho Hh Hn), A by (auto; lia).
  match goal with |- (Cmod (Cminus (Cdiv (Cmult ?h0 ?x) _) _) < _)%R => replace (Cminus (Cdiv (Cmult h0 x) h0) x) with (RtoC 0) by (field; exact NZ) end.
  rewrite Cmod_0. unfold symbol_factor. apply norm_pos.
Qed.
Print Assumptions C112_multipath.

(** multipath and noise: as C86_noise, but for each point one copy received well enough will do *)
Theorem C112_noise opt mcs il scr s a zs sig fr h r d : modulator opt mcs il scr s -> holds_octets a zs -> Forall is_octet zs -> 1 <= zlen zs <= 2047 ->
  snd (m_bytesToIQ a s) = Ok (sig, fr) -> (length h <= S (quarter opt))%nat ->
  (forall n f, (n < frame_symbols_of opt mcs il (zlen zs))%nat -> In f (data_freqs opt n) ->
     (Cmod (analyse (rx_ltf opt r) f - analyse (rx_ltf opt (through h sig)) f)%C <= d)%R
     /\ (Cmod (rx_tone opt r n f - rx_tone opt (through h sig) n f)%C <= d)%R) ->
  (forall n i, (n < frame_symbols_of opt mcs il (zlen zs))%nat -> let m := mcs_at opt mcs il n in (i < points_of opt m)%nat ->
     exists j, (j < mcs_spreading m)%nat
       /\ (d * (1 + sqrt (strongest (symbol_modulation opt mcs il n)) + symbol_factor opt mcs il n)
           < symbol_factor opt mcs il n * Cmod (response (fft_size opt) h (copy_freq opt m n j i)))%R) ->
  selecting_receiver opt il r = {| f_mcs := mcs; f_scrambler := scr; f_octets := zs |}.
Proof.
  intros Hm Ha Hz Hl E Hh Hd Hr. destruct (frame_parts _ _ _ _ _ _ _ _ _ Hm Ha Hz Hl E) as (H1 & H2 & H3 & lb & body & P & B & A).
  assert (Ho : 1 <= opt <= 4) by (unfold supported in H1; lia). destruct (quarter_4 opt Ho) as (Hq & Hq0 & N2).
  unfold selecting_receiver. apply picking_core; auto. intros n i Hn. cbv zeta. intro Hi. pose proof (mcs_at_supported opt mcs il n H1) as Sm. set (m := mcs_at opt mcs il n) in *.
  destruct (points_divide opt _ Sm) as [_ Pp]. unfold strongest_copy. set (v := fun j => Cmod _). destruct (largest_spec v (mcs_spreading m - 1)) as [L1 L2].
  set (j0 := largest v (mcs_spreading m - 1)) in *. split; [lia|]. intro Hf.
  assert (LT : forall f, In f (data_freqs opt n) -> (Cmod (measured opt r f - response (fft_size opt) h f)%C <= d)%R).
  { intros f If. destruct (Hd n f Hn If) as [R1 _]. apply data_freq_used in If as [If Hg]. rewrite (through_ltf _ _ _ _ _ _ f P Ho Hh), B in R1 by lia.
    unfold measured. set (u := analyse (rx_ltf opt r) f) in *. set (H0 := response _ _ _) in *. set (g := RtoC (IZR (ltf_sign opt f))) in *.
    assert (G : Cmult g g = RtoC 1 /\ Cmod g = 1%R).
    { unfold g. rewrite <- RtoC_mult, <- mult_IZR, Cmod_R. destruct (ltf_sign_used opt f Ho ltac:(lia) Hg) as [-> | ->]; split; try reflexivity; [rewrite Rabs_right|rewrite Rabs_left]; lra. }
    destruct G as [G1 G2]. clearbody g H0 u.
    replace (u * g - H0)%C with ((u - H0 * g) * g)%C; [rewrite Cmod_mult, G2, Rmult_1_r; exact R1|]. transitivity (u * g - H0 * (g * g))%C; [ring|]. rewrite G1. ring. }
  destruct (Hr n i Hn Hi) as (j & Hj & Rj). fold m in Hj, Rj.
  pose proof (LT _ (copy_in opt m n j i Sm Hj Hi)) as D1. pose proof (LT _ Hf) as D2. destruct (Hd n _ Hn Hf) as [_ R2].
  pose proof (frame_bound opt mcs il scr zs n _ H1 H2 H3 Hl Hn Hf) as X.
  specialize (L2 j ltac:(lia)). unfold v in L2. set (f := copy_freq opt m n j0 i) in *. set (f1 := copy_freq opt m n j i) in *.
  apply data_freq_used in Hf as [Hf Hg]. rewrite (through_body _ _ _ _ _ _ _ f P Ho Hh Hn), A in R2 by (auto; lia).
  unfold equalised. set (k := symbol_factor opt mcs il n) in *. set (x := amplitude k _) in *. set (H0 := response _ _ f) in *. set (Hj0 := response _ _ f1) in *.
  set (w := rx_tone opt r n f) in *. set (S := sqrt (strongest _)) in *. set (m0 := measured opt r f) in *. set (m1 := measured opt r f1) in *.
  assert (K : (0 < k)%R) by (unfold k, symbol_factor; apply norm_pos). clear - K D1 D2 R2 X L2 Rj. clearbody k x H0 w S m0 m1 Hj0.
  pose proof (Cmod_ge_0 (m0 - H0)%C) as D0. pose proof (Cmod_ge_0 x) as X0. pose proof (Cmod_ge_0 (w - H0 * x)%C) as W0.
  assert (V1 : (Cmod Hj0 - d <= Cmod m1)%R).
  { pose proof (Cmod_triangle m1 (Hj0 - m1)%C) as T. replace (m1 + (Hj0 - m1))%C with Hj0 in T by ring. replace (Hj0 - m1)%C with (- (m1 - Hj0))%C in T by ring. rewrite Cmod_opp in T. lra. }
  assert (V2 : (Cmod Hj0 - d <= Cmod m0)%R) by lra.
  assert (Vp : (0 < Cmod m0)%R) by nra. assert (Vn : m0 <> RtoC 0) by now apply Cmod_gt_0.
  replace (Cminus (Cdiv w m0) x) with (Cdiv ((w - H0 * x) - (m0 - H0) * x)%C m0) by (field; assumption).
  unfold Cdiv. rewrite Cmod_mult, Cmod_inv by assumption. apply (Rmult_lt_reg_r (Cmod m0)); [assumption|]. rewrite Rmult_assoc, Rinv_l, Rmult_1_r by lra.
  assert (T : (Cmod ((w - H0 * x) - (m0 - H0) * x)%C <= d + d * S)%R).
  { unfold Cminus at 1. eapply Rle_trans; [apply Cmod_triangle|]. rewrite Cmod_opp, Cmod_mult.
    assert (Cmod (m0 - H0)%C * Cmod x <= d * S)%R by (apply Rmult_le_compat; assumption). unfold Cminus in *. lra. }
  nra.
Qed.
Print Assumptions C112_noise.

(** all headers are sent at least twice; with option 3 and MCS 1 a frame has 12 points in each half of the band *)
Example C112_case : exists s, modulator 3 1 1 2 s /\ is_ok (snd (send (Octets (ABytes [x55; x0f])) s)) = true
  /\ mcs_spreading 1 = 2%nat /\ mcs_spreading (lowest_mcs 3) = 2%nat
  /\ lower_part 3 2 0 = [-13; -12; -11; -10; -9; -8; -6; -5; -4; -3; -2; -1] /\ upper_part 3 2 0 = [1; 2; 3; 4; 5; 6; 8; 9; 10; 11; 12; 13]
  /\ lower_part 3 2 1 = [-13; -12; -10; -9; -8; -7; -6; -5; -4; -3; -2; -1].
Proof.
  eexists. split; [exists (PInt 1), (PInt 3), (PInt 1), (PInt 2); eexists; exists []; repeat split; reflexivity|]. split; [vm_compute; reflexivity|]. repeat split; reflexivity.
Qed.
(** two equal echoes, two samples apart, cancel subcarriers -8 and 8 of option 3 (in use); no point has all its copies there *)
Lemma two_echoes f : -16 < f < 16 -> Z.abs f <> 8 -> response 32 [RtoC 1; RtoC 0; RtoC 1] f <> RtoC 0.
Proof.
  intros Hf H8 E. unfold response in E. cbn [length csum nth] in E. change unit_at with cis in E.
  set (x0 := (- (2 * PI * (IZR f * INR 0 / 32)))%R) in E. set (x2 := (- (2 * PI * (IZR f * INR 2 / 32)))%R) in E.
  assert (E' : (cis x0 + cis x2)%C = RtoC 0) by (rewrite <- E; ring). clear E. replace x0 with 0%R in E' by (unfold x0; cbn [INR]; field).
  assert (X : x2 = (- (PI * (IZR f / 8)))%R) by (unfold x2; cbn [INR]; field). rewrite X in E'. unfold cis in E'. rewrite cos_0, sin_0, cos_neg, sin_neg in E'.
  injection E' as C S. assert (S' : sin (PI * (IZR f / 8)) = 0%R) by lra. apply sin_eq_0_0 in S' as [k Hk]. pose proof PI_RGT_0 as PP.
  assert (F : (IZR f = IZR (8 * k))%R) by (rewrite mult_IZR; nra). apply eq_IZR in F. assert (F0 : f = 0) by lia. rewrite F0 in C. clear -C. assert (Z : (PI * (IZR 0 / 8))%R = 0%R) by field. rewrite Z, cos_0 in C. lra.
Qed.
Lemma data_freqs_mod opt n : data_freqs opt (n mod length (pilot_sets opt)) = data_freqs opt n.
Proof.
  unfold data_freqs, pilots_of. destruct (Nat.eq_dec (length (pilot_sets opt)) 0) as [E|E]; [rewrite E; reflexivity|]. rewrite Nat.mod_mod by assumption. reflexivity.
Qed.
Lemma copy_freq_mod n j i : copy_freq 3 1 (n mod 7) j i = copy_freq 3 1 n j i.
Proof. assert (L7 : length (pilot_sets 3) = 7%nat) by reflexivity. rewrite <- L7. unfold copy_freq. rewrite (data_freqs_mod 3 n). reflexivity. Qed.
Lemma copy_freq_range n j i : (j < 2)%nat -> (i < 12)%nat -> -16 < copy_freq 3 1 n j i < 16.
Proof.
  intros Hj Hi. rewrite <- copy_freq_mod. assert (K : (n mod 7 < 7)%nat) by (apply Nat.mod_upper_bound; lia). set (t := (n mod 7)%nat) in *. clearbody t.
  assert (F : forallb (fun t => forallb (fun i => forallb (fun j => (-16 <? copy_freq 3 1 t j i) && (copy_freq 3 1 t j i <? 16)) (seq 0 2)) (seq 0 12)) (seq 0 7) = true) by (vm_compute; reflexivity).
  rewrite forallb_forall in F. specialize (F t ltac:(apply in_seq; lia)). rewrite forallb_forall in F. specialize (F i ltac:(apply in_seq; lia)).
  rewrite forallb_forall in F. specialize (F j ltac:(apply in_seq; lia)). apply andb_prop in F as [F1 F2]. apply Z.ltb_lt in F1, F2. split; assumption.
Qed.
Lemma copy_freq_nulls n i : (i < 12)%nat -> Z.abs (copy_freq 3 1 n 0 i) <> 8 \/ Z.abs (copy_freq 3 1 n 1 i) <> 8.
Proof.
  intro Hi. rewrite <- !(copy_freq_mod n). assert (K : (n mod 7 < 7)%nat) by (apply Nat.mod_upper_bound; lia). set (t := (n mod 7)%nat) in *. clearbody t.
  assert (F : forallb (fun t => forallb (fun i => negb ((Z.abs (copy_freq 3 1 t 0 i) =? 8) && (Z.abs (copy_freq 3 1 t 1 i) =? 8))) (seq 0 12)) (seq 0 7) = true) by (vm_compute; reflexivity).
  rewrite forallb_forall in F. specialize (F t ltac:(apply in_seq; lia)). rewrite forallb_forall in F. specialize (F i ltac:(apply in_seq; lia)).
  apply negb_true_iff in F. apply andb_false_iff in F as [F|F]; apply Z.eqb_neq in F; [left|right]; exact F.
Qed.
Lemma echoes_null : response 32 [RtoC 1; RtoC 0; RtoC 1] 8 = RtoC 0.
Proof.
  unfold response. cbn [length csum nth]. change unit_at with cis.
  assert (A2 : (- (2 * PI * (8 * INR 2 / 32)))%R = (- PI)%R) by (cbn [INR]; field). assert (A0 : (- (2 * PI * (8 * INR 0 / 32)))%R = 0%R) by (cbn [INR]; field). rewrite A0, A2.
  unfold cis. rewrite (cos_neg PI), (sin_neg PI), cos_PI, sin_PI, cos_0, sin_0. apply injective_projections; cbn; ring.
Qed.
Lemma echoes_points n i : (i < 12)%nat -> exists j, (j < 2)%nat /\ response 32 [RtoC 1; RtoC 0; RtoC 1] (copy_freq 3 1 n j i) <> RtoC 0.
Proof.
  intro Hi. destruct (copy_freq_nulls n i Hi) as [F|F].
  - exists 0%nat. split; [lia|]. apply two_echoes; [apply copy_freq_range; lia|exact F].
  - exists 1%nat. split; [lia|]. apply two_echoes; [apply copy_freq_range; lia|exact F].
Qed.
Lemma mcs_always n : mcs_at 3 1 1 n = 1.
Proof. unfold mcs_at. destruct (Nat.ltb _ _); reflexivity. Qed.
Example C112_multipath_case : exists s, modulator 3 1 1 2 s /\ is_ok (snd (send (Octets (ABytes [x55; x0f])) s)) = true
  /\ let h := [RtoC 1; RtoC 0; RtoC 1] in (length h <= S (quarter 3))%nat
     /\ response (fft_size 3) h 8 = RtoC 0 /\ In 8 (data_freqs 3 0)
     /\ forall n i, let m := mcs_at 3 1 1 n in (i < points_of 3 m)%nat ->
          exists j, (j < mcs_spreading m)%nat /\ response (fft_size 3) h (copy_freq 3 m n j i) <> RtoC 0.
Proof.
  eexists. split; [exists (PInt 1), (PInt 3), (PInt 1), (PInt 2); eexists; exists []; repeat split; reflexivity|]. split; [vm_compute; reflexivity|].
  cbv zeta. assert (N : fft_size 3 = 32) by reflexivity. rewrite N. split; [vm_compute; lia|]. split; [exact echoes_null|].
  split; [vm_compute; tauto|]. intros n i. rewrite mcs_always. assert (P : points_of 3 1 = 12%nat) by reflexivity. rewrite P. exact (echoes_points n i).
Qed.
