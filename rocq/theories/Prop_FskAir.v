(** * C113: airtime of MR-FSK frames *)
From Coq Require Import Qreals Reals Lra.
From Coquelicot Require Import Complex.
From Verif Require Import Py MBits MPn9 Tables MFsk SBits SEntry SPn9 SFsk PList PBits PEntry PPn9 PConv PFskFec PFsk Prop_Fsk MTime PTime SFskWave MFskWave Prop_FskWave.

Local Open Scope Z_scope.
(** number of samples over sampling frequency: the bits of the frame at the symbol rate, one (2FSK) or two (4FSK) per symbol.
    A preamble repetition is 8 symbols, the delimiter 16; header and payload are doubled by the code, which also sends 3 tail bits
    and 5 or 13 padding bits. *)
Theorem C113_airtime s a octets x f : fsk_object s -> holds_octets a octets -> octets <> [] -> Forall is_octet octets -> zlen octets <= 2047 ->
  snd (k_bytesToSamples a s) = Ok (x, f) ->
  let per_symbol := if k_fsk4 s then 2 else 1 in
  let coded := if k_fec s then 2 * (16 + 8 * zlen octets + 3 + (if Z.even (zlen octets) then 13 else 5)) else 16 + 8 * zlen octets in
  (INR (length x) / f = (IZR (8 * k_preamble s + 16) + IZR coded / IZR per_symbol) / IZR (k_rate s))%R /\ 0 < k_rate s
  /\ zlen x = 20 * (8 * k_preamble s + 16) + 20 * coded / per_symbol /\ f = IZR (20 * k_rate s).
Proof.
  intros Hs Ha Hne Ho L Hx. cbv zeta. destruct (C16_length s a octets Hs Ha Hne Ho L) as (fr & B & Lf).
  assert (R0 : 0 < k_rate s) by (apply object_valid in Hs; destruct Hs as (H & _); lia).
  unfold k_bytesToSamples, sbind, slift in Hx. unfold k_bytesToIQ, sbind, slift in B.
  destruct (to_binary_array a) as [l|] eqn:T; [|discriminate].
  assert (B' : k_binary (fst (k_bitsToSamples (bits_arg l) s)) = Some fr) by (rewrite samples_state; exact B).
  destruct (C65_tones s (bits_arg l) x f fr Hs Hx B') as (Ef & Lx & _ & _).
  assert (EV : k_fsk4 s = true -> (length fr = 2 * symbols true fr)%nat).
  { intro F. rewrite samples_result in Hx. destruct (snd (k_bitsToIQ (bits_arg l) s)) as [xs|] eqn:E; [|discriminate].
    destruct (C18_tones s (bits_arg l) xs fr Hs E B) as (_ & _ & W & _). exact (W F). }
  set (c := if k_fec s then _ else _) in *. clearbody c.
  assert (Lz : zlen x = 20 * (8 * k_preamble s + 16) + 20 * c / (if k_fsk4 s then 2 else 1) /\ (if k_fsk4 s then 2 else 1) * zlen x = 20 * ((if k_fsk4 s then 2 else 1) * (8 * k_preamble s + 16) + c)).
  { unfold zlen in *. rewrite Lx. destruct (k_fsk4 s).
    - specialize (EV eq_refl). set (n := symbols true fr) in *. split; [|lia]. assert (Hc : c = 2 * (Z.of_nat n - 8 * k_preamble s - 16)) by lia.
      rewrite Hc. replace (20 * (2 * (Z.of_nat n - 8 * k_preamble s - 16))) with (20 * (Z.of_nat n - 8 * k_preamble s - 16) * 2) by lia. rewrite Z.div_mul by lia. lia.
    - unfold symbols. rewrite Z.div_1_r. split; lia. }
  destruct Lz as [L1 L2]. split; [|split; [exact R0|split; [exact L1|rewrite Ef, mult_IZR; reflexivity]]].
  rewrite Ef, INR_IZR_INZ. fold (zlen x). assert (Rr : (0 < IZR (k_rate s))%R) by (apply IZR_lt; exact R0).
  apply (f_equal IZR) in L2. rewrite !mult_IZR, !plus_IZR, mult_IZR, !plus_IZR in L2. rewrite !plus_IZR. set (u := IZR (8 * k_preamble s)) in *. clearbody u.
  destruct (k_fsk4 s); (apply Rmult_eq_reg_r with (IZR (k_rate s)); [|lra]); field_simplify; lra.
Qed.
Print Assumptions C113_airtime.
(** 50 kbit/s 2FSK with interleaved code: 8 preamble repetitions and 3 octets take 176 symbols *)
Example C113_case : exists s x f, fsk_a = Ok s /\ fsk_object s /\ snd (k_bytesToSamples (AList 1 (map inject_Z [7; 0; 255])) s) = Ok (x, f) /\ k_rate s = 50000
  /\ (8 * k_preamble s + 16) + 2 * (16 + 24 + 3 + 5) = 176.
Proof.
  destruct fsk_a_object as (s & E & O). exists s. vm_compute in E. inversion E; subst.
  unfold k_bytesToSamples, sbind, slift. destruct (to_binary_array _) as [l|] eqn:T; [|vm_compute in T; discriminate]. rewrite samples_result.
  destruct (snd (k_bitsToIQ (bits_arg l) _)) as [xs|] eqn:F; [|vm_compute in T; inversion T; subst; vm_compute in F; discriminate].
  do 2 eexists. split; [reflexivity|]. split; [exact O|]. split; [reflexivity|]. split; reflexivity.
Qed.
