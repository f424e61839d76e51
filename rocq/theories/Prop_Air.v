(** * C111: MR-OFDM payloads go out at the data rate of the standard *)
From Coq Require Import Reals Lra.
From Coquelicot Require Import Complex.
From Verif Require Import Py MBits SBits SEntry MModul SOfdm MOfdm SMrOfdm MMrOfdm PMrOfdm MTime STime PTime Prop_MrOfdm Prop_Time SAir.
Local Open Scope Z_scope.

Ltac each_mcs H := unfold supported in H; destruct H as [[-> H]|[[-> H]|[[-> H]|[-> H]]]];
  match type of H with ?a <= ?m <= ?b => assert (m = 0 \/ m = 1 \/ m = 2 \/ m = 3 \/ m = 4 \/ m = 5 \/ m = 6) as [->|[->|[->|[->|[->|[->| ->]]]]]] by lia; try lia end.
Lemma rate_bits opt mcs : supported opt mcs -> data_bits opt mcs * 1000000 = ofdm_data_rate opt mcs * 120 * Z.of_nat (mcs_spreading mcs).
Proof. intro H. each_mcs H; reflexivity. Qed.
Lemma rate_pos opt mcs : supported opt mcs -> 0 < ofdm_data_rate opt mcs.
Proof. intro H. each_mcs H; reflexivity. Qed.

(** a frame lasts: the training fields, a header whose length does not depend on the payload, and the payload with its 6 tail
    bits at the data rate, rounded up to a multiple of [mcs_spreading] symbols *)
Theorem C111_airtime opt mcs il scr s a zs sig f : modulator opt mcs il scr s -> holds_octets a zs -> Forall is_octet zs -> 1 <= zlen zs <= 2047 ->
  snd (m_bytesToIQ a s) = Ok (sig, f) ->
  exists header payload : Z,
    (IZR (zlen sig) / f = IZR (training_symbols + header + payload) * symbol_seconds)%R
    /\ header = phr_symbols il opt * (if mcs_three_quarters mcs then 3 else 2) / 2
    /\ let sent := ((8 * IZR (zlen zs) + 6) / IZR (ofdm_data_rate opt mcs))%R in
       (sent <= IZR payload * symbol_seconds < sent + INR (mcs_spreading mcs) * symbol_seconds)%R.
Proof.
  intros Hm Ha Ho Hl E. destruct (C43_samples opt mcs il scr s a zs Hm Ha Ho Hl) as (sig' & E' & Ls). rewrite E in E'. injection E' as <- ->.
  assert (H : supported opt mcs) by (apply modulator_used in Hm; now destruct (used_inv _ _ _ _ _ Hm)).
  set (hd := phr_symbols il opt * _ / 2) in *. set (g := - ((- (8 * zlen zs + 6)) / data_bits opt mcs)) in *.
  exists hd, (Z.of_nat (mcs_spreading mcs) * g). split; [|split; [reflexivity|]].
  - assert (Ho' : 1 <= opt <= 4) by (unfold supported in H; lia). destruct (C43_sampling_rate opt Ho') as [R _].
    assert (E6 : zlen sig = (5 * fft_size opt / 4) * (training_symbols + hd + Z.of_nat (mcs_spreading mcs) * g)).
    { rewrite Ls. unfold training_symbols. set (w := Z.of_nat (mcs_spreading mcs) * g). assert (D : 5 * fft_size opt + 5 * fft_size opt / 2 = 5 * fft_size opt / 4 * 6).
      { clear -H. unfold supported in H. assert (opt = 1 \/ opt = 2 \/ opt = 3 \/ opt = 4) as [->|[->|[-> | ->]]] by lia; reflexivity. }
      lia. }
    rewrite E6, mult_IZR. unfold symbol_seconds. rewrite <- R. unfold Rdiv. ring.
  - cbv zeta. pose proof (rate_bits opt mcs H) as B. pose proof (rate_pos opt mcs H) as P. pose proof (data_bits_pos opt mcs H) as Dp. apply (f_equal IZR) in B. rewrite !mult_IZR in B. apply IZR_lt in P. apply IZR_lt in Dp as Dp'.
    assert (Sp : (0 < INR (mcs_spreading mcs))%R) by (apply lt_0_INR; clear -H; each_mcs H; cbn; lia).
    assert (G : 8 * zlen zs + 6 <= g * data_bits opt mcs < 8 * zlen zs + 6 + data_bits opt mcs).
    { unfold g. pose proof (Z.div_mod (- (8 * zlen zs + 6)) (data_bits opt mcs) ltac:(lia)). pose proof (Z.mod_pos_bound (- (8 * zlen zs + 6)) (data_bits opt mcs) Dp). nia. }
    rewrite mult_IZR, <- INR_IZR_INZ in *. unfold symbol_seconds. set (r := IZR (ofdm_data_rate opt mcs)) in *. set (d := IZR (data_bits opt mcs)) in *. set (sp := INR (mcs_spreading mcs)) in *.
    destruct G as [G1 G2]. apply IZR_le in G1. apply IZR_lt in G2. rewrite mult_IZR in G1, G2. rewrite !plus_IZR, !mult_IZR in G2. rewrite plus_IZR, mult_IZR in G1. fold d in G1, G2. set (n := IZR (zlen zs)) in *.
    assert (Ed : (sp * (120 / 1000000) = d / r)%R) by (apply Rmult_eq_reg_r with (r * 1000000)%R; [|nra]; field_simplify; [lra|lra]).
    assert (Eg : (sp * IZR g * (120 / 1000000) = IZR g * d / r)%R) by (replace (sp * IZR g * (120 / 1000000))%R with (IZR g * (sp * (120 / 1000000)))%R by ring; rewrite Ed; unfold Rdiv; ring).
    rewrite Eg, Ed. split.
    + unfold Rdiv. apply Rmult_le_compat_r; [left; now apply Rinv_0_lt_compat|exact G1].
    + unfold Rdiv. rewrite <- Rmult_plus_distr_r. apply Rmult_lt_compat_r; [now apply Rinv_0_lt_compat|exact G2].
Qed.
Print Assumptions C111_airtime.

(** bits_per_symbol() is the number of payload bits an OFDM symbol carries: true without frequency spreading ... *)
Theorem C111_bits_per_symbol_partial opt mcs il scr s : modulator opt mcs il scr s ->
  (IZR (m_bits_per_symbol s) = IZR (ofdm_data_rate opt mcs) * symbol_seconds)%R <-> 3 <= mcs.
Proof.
  intro Hm. apply modulator_used in Hm. destruct (used_inv _ _ _ _ _ Hm) as (H & _ & _ & P). 
  assert (E : m_bits_per_symbol s = data_bits opt mcs) by (change (m_ndbps (clear s) = data_bits opt mcs); rewrite P; reflexivity).
  rewrite E. pose proof (rate_bits opt mcs H) as B. unfold symbol_seconds.
  assert (Q : (IZR (data_bits opt mcs) = IZR (ofdm_data_rate opt mcs) * (120 / 1000000))%R <-> data_bits opt mcs * 1000000 = ofdm_data_rate opt mcs * 120).
  { split; intro X.
    - apply eq_IZR. rewrite !mult_IZR, X. field.
    - apply (f_equal IZR) in X. rewrite !mult_IZR in X. lra. }
  rewrite Q. clear -H. each_mcs H; split; intro X; (reflexivity || discriminate || lia || (exfalso; lia)).
Qed.
Print Assumptions C111_bits_per_symbol_partial.
(** ... with it, it is the number carried by 4 (MCS 0) or 2 (MCS 1, 2) symbols *)
Theorem C111_bits_per_symbol_refuted opt mcs il scr s : modulator opt mcs il scr s -> mcs <= 2 ->
  (IZR (m_bits_per_symbol s) = (if mcs =? 0 then 4 else 2) * (IZR (ofdm_data_rate opt mcs) * symbol_seconds))%R.
Proof.
  intros Hm L. apply modulator_used in Hm. destruct (used_inv _ _ _ _ _ Hm) as (H & _ & _ & P).
  assert (E : m_bits_per_symbol s = data_bits opt mcs) by (change (m_ndbps (clear s) = data_bits opt mcs); rewrite P; reflexivity).
  rewrite E. unfold symbol_seconds. clear -H L. each_mcs H; cbn [Z.eqb]; match goal with |- (IZR ?a = _ * (IZR ?b * _))%R => let x := eval vm_compute in a in let y := eval vm_compute in b in change (IZR a) with (IZR x); change (IZR b) with (IZR y) end; lra.
Qed.
Print Assumptions C111_bits_per_symbol_refuted.
(** 60 octets at option 1, MCS 2, and an object without spreading *)
Example C111_case : exists s s', modulator 1 2 0 3 s /\ modulator 4 6 1 0 s' /\ is_ok (snd (m_bytes_symbols (ABytes (repeat x55 60)) s)) = true
  /\ m_bits_per_symbol s = 96 /\ ofdm_data_rate 1 2 = 400000 /\ m_bits_per_symbol s' = 36 /\ ofdm_data_rate 4 6 = 300000.
Proof.
  do 2 eexists. split; [exists (PInt 2), (PInt 1), (PInt 0), (PInt 3); eexists; exists []; repeat split; reflexivity|].
  split; [exists (PInt 6), (PInt 4), (PInt 1), (PInt 0); eexists; exists []; repeat split; reflexivity|]. split; [vm_compute; reflexivity|]. repeat split; vm_compute; reflexivity.
Qed.
