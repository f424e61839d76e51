(** * Property C19 in binary64 arithmetic: which frames bytesToIQ can turn into a signal *)
From Coq Require Import Reals Lra.
From Flocq Require Import Core.
From Verif Require Import Py MBits MFsk SBits SEntry SFsk SFloat PFsk PFloat Prop_Fsk.
Local Open Scope Z_scope.

Lemma frame_samples s n : fsk_object s -> 1 <= n <= 2047 ->
  let N := 20 * (fsk_frame_bits (k_fsk4 s) (k_preamble s) (k_fec s) n / (if k_fsk4 s then 2 else 1)) in 1 <= N <= 20 * 100000 /\ 0 < k_rate s.
Proof.
  intros Hs Hn. apply object_valid in Hs. cbv zeta.
  assert (R : 0 < k_rate s /\ 4 <= k_preamble s <= 1000) by (unfold valid_fsk in Hs; tauto).
  destruct R as [R P]. split; [|exact R]. unfold fsk_frame_bits.
  destruct (k_fsk4 s), (k_fec s), (Z.even n); Z.div_mod_to_equations; lia.
Qed.

(** C19, exactly: with d the rounded time step and n the number of samples of the frame, the call succeeds when the rounded
    quotient (d * n) / d does not exceed n and raises ValueError when it does *)
Theorem C19_exact_partial : forall s a octets, fsk_object s -> k_rate s <= 2 ^ 53 -> holds_octets a octets -> octets <> [] ->
  Forall is_octet octets -> zlen octets <= 2047 ->
  let n := 20 * (fsk_frame_bits (k_fsk4 s) (k_preamble s) (k_fec s) (zlen octets) / (if k_fsk4 s then 2 else 1)) in
  ((points_wanted (k_rate s) n <= IZR n)%R ->
     exists sig, snd (k_bytesToIQ a s) = Ok sig /\ zlen (sig_phase sig) = n /\ sig_f sig = 20 * k_rate s)
  /\ ((IZR n < points_wanted (k_rate s) n)%R -> snd (k_bytesToIQ a s) = Err ValueError).
Proof.
  intros s a zs Hs Hr Ha Hne Ho L. cbv zeta.
  assert (L1 : 1 <= zlen zs) by (destruct zs; [congruence|unfold zlen; cbn [length]; lia]).
  destruct (frame_samples s (zlen zs) Hs ltac:(lia)) as [B R]. cbv zeta in B.
  destruct (C19_partial s a zs Hs Ha Hne Ho L) as [G F]. cbv zeta in G, F.
  set (n := 20 * _) in *. pose proof (arange_points (k_rate s) n ltac:(lia) ltac:(lia)) as A. split; intro H.
  - apply G. rewrite A. destruct (Rle_dec _ _); [reflexivity|contradiction].
  - apply F. rewrite A. destruct (Rle_dec _ _) as [Q|Q]; [lra|]. intro E. injection E. lia.
Qed.
Print Assumptions C19_exact_partial.

(** consequence: when the symbol rate is a power of two every legal payload succeeds *)
Theorem C19_power_of_two_partial : forall s a octets j, fsk_object s -> 0 <= j <= 53 -> k_rate s = 2 ^ j -> holds_octets a octets ->
  octets <> [] -> Forall is_octet octets -> zlen octets <= 2047 ->
  exists sig, snd (k_bytesToIQ a s) = Ok sig
    /\ zlen (sig_phase sig) = 20 * (fsk_frame_bits (k_fsk4 s) (k_preamble s) (k_fec s) (zlen octets) / (if k_fsk4 s then 2 else 1))
    /\ sig_f sig = 20 * 2 ^ j.
Proof.
  intros s a zs j Hs Hj Er Ha Hne Ho L.
  assert (L1 : 1 <= zlen zs) by (destruct zs; [congruence|unfold zlen; cbn [length]; lia]).
  destruct (frame_samples s (zlen zs) Hs ltac:(lia)) as [B R]. cbv zeta in B.
  assert (Hr : k_rate s <= 2 ^ 53) by (rewrite Er; apply Z.pow_le_mono_r; lia).
  rewrite <- Er. apply (proj1 (C19_exact_partial s a zs Hs Hr Ha Hne Ho L)). rewrite Er. apply pow2_fits; lia.
Qed.
Print Assumptions C19_power_of_two_partial.

(** both outcomes happen: symbol rate 65536 (a power of two), and 50000 with 17 octets (C19_refuted) *)
Example C19_float_case : (exists s, fsk_new (PInt 65536) (PInt 1) (PInt 0) (PStr "2FSK") (PBool false) (PInt 0) (PInt 0) (PBool false) (PBool false) (PInt 4) = Ok s /\ fsk_object s /\ k_rate s = 2 ^ 16)
  /\ (IZR (20 * 200) < points_wanted 50000 (20 * 200))%R.
Proof.
  split.
  - destruct (fsk_new (PInt 65536) (PInt 1) (PInt 0) (PStr "2FSK") (PBool false) (PInt 0) (PInt 0) (PBool false) (PBool false) (PInt 4)) as [s|] eqn:E; [|vm_compute in E; discriminate].
    exists s. split; [reflexivity|]. split.
    + unfold fsk_object. repeat eexists; [exact E|exact (eq_refl (fsk_history [] s))].
    + vm_compute in E. inversion E. reflexivity.
  - pose proof (arange_points 50000 (20 * 200) ltac:(lia) ltac:(lia)) as A. 
    destruct (Rle_dec _ _) as [Q|Q]; [|lra]. vm_compute in A. discriminate A.
Qed.
