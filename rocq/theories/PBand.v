(** * Proofs: the receiver of [SBand] *)
From Coq Require Import Reals Lra.
From Coquelicot Require Import Complex.
From Verif Require Import Py PList SBits MBits PBits MPn9 SPn9 PPn9 MRate SRate PConv PRate PRate34 MFields PFields SCrc MModul MOfdm Tables SOfdm SMrOfdm PModul POfdm MMrOfdm PStd PMrOfdm PMrRx MTime STime PTime SMrRx PRecv SVit PSoft SBand.

(** the sf copies of a point *)
Lemma copy_point opt mcs col v bits n k n0 i : supported opt mcs -> length bits = (k * coded_bits opt mcs)%nat -> (n < k)%nat ->
  (n0 mod length (pilot_sets opt) = Z.to_nat ((col + Z.of_nat n) mod zlen (std_sets opt)))%nat -> (i < points_of opt mcs)%nat ->
  let g := firstn (group_size (mcs_modulation mcs)) (skipn (i * group_size (mcs_modulation mcs)) (block opt mcs bits n)) in
  length g = group_size (mcs_modulation mcs) /\
  forall j, (j < mcs_spreading mcs)%nat -> In (copy_freq opt mcs n0 j i) (data_freqs opt n0)
  /\ tone_at (fft_size opt) (sym opt mcs col v bits n) (copy_freq opt mcs n0 j i)
     = TData (turn (spread_phase (Z.of_nat (mcs_spreading mcs)) (Z.of_nat j) (Z.of_nat i)) (point (mcs_modulation mcs) g)).
Proof.
  intros H Hl Hn Hcol Hi. cbv zeta. set (m := mcs_modulation mcs) in *. set (sf := mcs_spreading mcs) in *. change (points_of opt mcs) with (points opt mcs) in Hi. set (p := points opt mcs) in *.
  pose proof (group_size_pos m) as Hg. pose proof (block_length opt mcs bits n k Hl Hn) as Lb. rewrite (coded_points opt mcs H) in Lb. fold m p in Lb.
  assert (Mb : Nat.modulo (length (block opt mcs bits n)) (group_size m) = 0%nat) by (rewrite Lb; apply mod_mult; lia).
  set (blk := block opt mcs bits n) in *. set (fs := data_freqs opt n0).
  set (a := map (point m) (chunks (group_size m) blk)). assert (La : length a = p) by (unfold a; rewrite map_length, chunks_length, Lb by assumption; apply Nat.div_mul; lia).
  assert (ED : fs = filter (is_data (fft_size opt) (guard_left opt) (guard_right opt) (pset_of opt col n)) (freqs (fft_size opt))).
  { unfold fs, data_freqs, pilots_of, pset_of. change (pilot_sets opt) with (std_sets opt) in *. now rewrite Hcol. }
  assert (R : map (fun f => tone_data (tone_at (fft_size opt) (sym opt mcs col v bits n) f)) fs = spread sf a).
  { rewrite ED. exact (sym_read opt mcs col v bits n k H Hl Hn). }
  assert (Lfs : length fs = (sf * p)%nat).
  { apply (f_equal (@length gauss)) in R. rewrite map_length in R. rewrite R. unfold spread. rewrite (flat_map_block_length _ (length a)); [now rewrite La|]. intro. now rewrite map_length, seq_length. }
  set (gi := firstn (group_size m) (skipn (i * group_size m) blk)).
  split; [unfold gi; rewrite firstn_length, skipn_length, Lb; nia|].
  assert (Ai : nth i a (0, 0) = point m gi).
  { unfold a. rewrite chunks_as_map, map_map by assumption. rewrite nth_map_seq by (rewrite Lb, Nat.div_mul by lia; lia). reflexivity. }
  intros j Hj. unfold copy_freq. change (points_of opt mcs) with p. fold fs. assert (Hji : (j * p + i < length fs)%nat) by (rewrite Lfs; nia). pose proof (nth_In fs 0 Hji) as If. split; [exact If|].
  destruct (data_freqs_tones opt mcs col v bits n0 n _ Hcol If) as [g Eg]. rewrite Eg. f_equal.
  assert (X : nth (j * p + i) (map (fun f => tone_data (tone_at (fft_size opt) (sym opt mcs col v bits n) f)) fs) (0, 0) = g).
  { rewrite (nth_map _ _ _ 0) by assumption. now rewrite Eg. }
  rewrite R in X. rewrite <- X, <- La. rewrite spread_nth by lia. now rewrite Ai.
Qed.
Lemma picked_symbol_ok opt mcs col v bits n k n0 (pick : Z -> nat -> nat -> nat) (tone : nat -> Z -> C) : supported opt mcs -> length bits = (k * coded_bits opt mcs)%nat -> (n < k)%nat ->
  (n0 mod length (pilot_sets opt) = Z.to_nat ((col + Z.of_nat n) mod zlen (std_sets opt)))%nat ->
  (forall i, (i < points_of opt mcs)%nat -> (pick mcs n0 i < mcs_spreading mcs)%nat /\
     let f := copy_freq opt mcs n0 (pick mcs n0 i) i in
     (Cmod (Cminus (tone n0 f) (amplitude (norm_factor (mcs_modulation mcs)) (tone_at (fft_size opt) (sym opt mcs col v bits n) f))) < norm_factor (mcs_modulation mcs))%R) ->
  picked_symbol pick tone opt mcs n0 = block opt mcs bits n.
Proof.
  intros H Hl Hn Hcol Ht. set (m := mcs_modulation mcs) in *. pose proof (group_size_pos m) as Hg.
  pose proof (block_length opt mcs bits n k Hl Hn) as Lb. rewrite (coded_points opt mcs H) in Lb. fold m in Lb.
  assert (Mb : Nat.modulo (length (block opt mcs bits n)) (group_size m) = 0%nat) by (rewrite Lb; apply mod_mult; lia).
  rewrite (chunks_flat (group_size m) (block opt mcs bits n)) by assumption. rewrite Lb, Nat.div_mul by lia. unfold picked_symbol. change (points_of opt mcs) with (points opt mcs) in *.
  rewrite !flat_map_concat_map. f_equal. apply map_ext_in. intros i Hi. apply in_seq in Hi.
  destruct (copy_point opt mcs col v bits n k n0 i H Hl Hn Hcol ltac:(change (points_of opt mcs) with (points opt mcs); lia)) as [Lg CP].
  destruct (Ht i ltac:(lia)) as [Hj E]. cbv zeta in E. destruct (CP _ Hj) as [_ T]. fold m in Lg, T |- *. rewrite T in E.
  apply decide_ok; [exact Lg|]. unfold picked. set (P := spread_phase _ _ _) in *. rewrite <- (turn_back_turn (norm_factor m) P), turn_back_minus.
  rewrite <- (sqrt_pow2 (Cmod _)) by apply Cmod_ge_0. rewrite turn_back_mod, sqrt_pow2 by apply Cmod_ge_0. exact E.
Qed.
Lemma seq_as_map a k : seq a k = map (fun n => a + n)%nat (seq 0 k).
Proof.
  revert a. induction k as [|k IH]; intro a; [reflexivity|]. cbn [seq map]. rewrite Nat.add_0_r. f_equal. rewrite (IH (S a)), (IH 1%nat), map_map. apply map_ext. intro. lia.
Qed.
(** the receiver, from the coded bits of the symbols *)
Theorem bits_core opt mcs il scr zs (bits : Z -> nat -> list bool) : supported opt mcs -> il_ok il -> scr_ok scr -> Forall is_octet zs -> 1 <= zlen zs <= 2047 ->
  (forall n, (n < nphr opt mcs il)%nat -> bits (lowest_mcs opt) n = block opt (lowest_mcs opt) (hdr_sent opt mcs il scr (zlen zs)) n) ->
  (forall n, (n < npay opt mcs (length (octet_bits zs)))%nat -> bits mcs (nphr opt mcs il + n)%nat = block opt mcs (pay_sent opt mcs il scr (octet_bits zs)) n) ->
  bits_receiver bits opt il = {| f_mcs := mcs; f_scrambler := scr; f_octets := zs |}.
Proof.
  intros H Hi Hs Hz Hl T1 T2. pose proof (supported_low opt mcs H) as Hlow. pose proof (supported_opt _ _ H) as Ho.
  pose proof (header_symbols_eq opt mcs il H Hi) as HS. pose proof (nphr_ge opt mcs il H Hi) as G.
  assert (L8 : length (octet_bits zs) = Z.to_nat (8 * zlen zs)) by (rewrite octet_bits_length; unfold zlen; lia).
  assert (NP : payload_symbols_of opt mcs (zlen zs) = npay opt mcs (length (octet_bits zs))) by (unfold payload_symbols_of, npay; now rewrite L8).
  set (low := lowest_mcs opt) in *. set (m := Z.to_nat (phr_symbols il opt)) in *.
  pose proof (hdr_sent_length opt mcs il scr (zlen zs) H Hi) as Ls. fold low in Ls.
  assert (B1 : flat_map (bits low) (seq 0 m) = firstn (m * coded_bits opt low) (hdr_sent opt mcs il scr (zlen zs))).
  { rewrite <- (blocks_concat opt low) by (rewrite Ls; nia). rewrite !flat_map_concat_map. f_equal. apply map_ext_in. intros n Hn. apply in_seq in Hn. apply T1. lia. }
  assert (Lh : length (hdr opt mcs il scr (zlen zs)) = header_bits opt mcs il) by (apply phr_layout_length, header_30; assumption).
  pose proof (header_symbols opt mcs il H Hi) as Hsym. fold low in Hsym.
  pose proof (phr_blocks opt mcs il H Hi) as B60. cbv zeta in B60. fold low m in B60.
  set (M := (m * coded_bits opt low)%nat) in *. set (nb := il_block opt low il) in *.
  assert (Hh : firstn 30 (bits_header bits opt il) = firstn 30 (hdr opt mcs il scr (zlen zs))).
  { unfold bits_header. cbv zeta. fold low m. rewrite B1, deinterleave_undo by assumption. unfold hdr_sent. fold low.
    rewrite (il_undo_firstn nb (std_ij opt low il)).
    - cbn [decode]. unfold SOqRx.decode_12.
      assert (FF : forall l : list bool, firstn 30 (SOqRx.uncode false false false false false false (firstn (M / nb * nb) l)) = firstn 30 (SOqRx.uncode false false false false false false l)).
      { intro l. rewrite <- !uncode_firstn, firstn_firstn. do 2 f_equal. lia. }
      rewrite FF. fold (SOqRx.decode_12 (code_12 0 (hdr opt mcs il scr (zlen zs)))). now rewrite POqRx.decode_code.
    - now apply std_perm.
    - now apply il_block_pos.
    - rewrite code_12_length, Lh, Hsym. unfold M. apply Nat.mul_le_mono_r. assumption. }
  unfold hdr in Hh. pose proof (mcs_range _ _ H) as Rm.
  destruct (header_read mcs (zlen zs) scr _ _ Rm Hl Hs Hh) as (E1 & E2 & E3).
  unfold bits_receiver. cbv zeta. rewrite E1, E2, E3. f_equal.
  unfold bits_payload. rewrite HS, NP. pose proof (pay_sent_length opt mcs il scr (octet_bits zs) H) as Lp.
  assert (B2 : flat_map (bits mcs) (seq (nphr opt mcs il) (npay opt mcs (length (octet_bits zs)))) = pay_sent opt mcs il scr (octet_bits zs)).
  { rewrite <- (firstn_all2 (pay_sent opt mcs il scr (octet_bits zs)) (n := (npay opt mcs (length (octet_bits zs)) * coded_bits opt mcs)%nat)) by lia.
    rewrite <- (blocks_concat opt mcs (pay_sent opt mcs il scr (octet_bits zs)) (npay opt mcs (length (octet_bits zs)))) by (rewrite Lp; lia). clear -T2.
    revert T2. generalize (nphr opt mcs il) as a. generalize (npay opt mcs (length (octet_bits zs))) as k. intros k a T2. rewrite !flat_map_concat_map. f_equal.
    replace (seq a k) with (map (fun n => a + n)%nat (seq 0 k)); [|symmetry; apply seq_as_map]. rewrite map_map. apply map_ext_in. intros n Hn. apply in_seq in Hn. apply T2. lia. }
  rewrite B2, deinterleave_undo by assumption. unfold pay_sent. rewrite (il_undo_apply (il_block opt mcs il)) by (try apply std_perm; try apply il_block_pos; assumption).
  assert (Hw : exists w, (npay opt mcs (length (octet_bits zs)) * coded_bits opt mcs = w * il_block opt mcs il)%nat).
  { unfold npay, il_block. destruct (il =? 0).
    - exists (groups opt mcs (length (octet_bits zs)) * mcs_spreading mcs)%nat. lia.
    - exists (groups opt mcs (length (octet_bits zs))). lia. }
  destruct Hw as [w Hw]. pose proof (il_block_pos opt mcs il H Hi) as Hb.
  assert (CL : length (coded mcs (plain opt mcs scr (octet_bits zs))) = (w * il_block opt mcs il)%nat) by (rewrite coded_length; assumption).
  rewrite CL, Nat.div_mul by lia. rewrite (firstn_all2 (coded mcs (plain opt mcs scr (octet_bits zs)))) by (rewrite CL; apply Nat.le_refl).
  rewrite decode_coded by (intro; now apply plain_3). rewrite <- L8, plain_prefix, unscramble_eq, scrambler_involutive. now apply octets_of_bits.
Qed.
(** copies read correctly *)
Theorem picking_core opt mcs il scr zs pick (rt : nat -> Z -> C) : supported opt mcs -> il_ok il -> scr_ok scr -> Forall is_octet zs -> 1 <= zlen zs <= 2047 ->
  (forall n i, (n < frame_symbols_of opt mcs il (zlen zs))%nat -> let m := mcs_at opt mcs il n in (i < points_of opt m)%nat -> (pick m n i < mcs_spreading m)%nat /\
     let f := copy_freq opt m n (pick m n i) i in In f (data_freqs opt n) ->
     (Cmod (Cminus (rt n f) (amplitude (symbol_factor opt mcs il n)
        (tone_at (fft_size opt) (nth n (frame_phr opt mcs il scr (octet_bits zs) ++ frame_payload opt mcs il scr (octet_bits zs)) []) f))) < symbol_factor opt mcs il n)%R) ->
  picking_receiver opt il pick rt = {| f_mcs := mcs; f_scrambler := scr; f_octets := zs |}.
Proof.
  intros H Hi Hs Hz Hl Ht. pose proof (supported_low opt mcs H) as Hlow. pose proof (supported_opt _ _ H) as Ho.
  pose proof (header_symbols_eq opt mcs il H Hi) as HS.
  assert (D : zlen (octet_bits zs) / 8 = zlen zs).
  { unfold zlen. rewrite octet_bits_length, Nat2Z.inj_mul. change (Z.of_nat 8) with 8. rewrite Z.mul_comm, Z.div_mul; lia. }
  assert (NP : payload_symbols_of opt mcs (zlen zs) = npay opt mcs (length (octet_bits zs))).
  { unfold payload_symbols_of, npay. rewrite octet_bits_length. do 2 f_equal. unfold zlen. lia. }
  unfold frame_symbols_of, mcs_at, symbol_factor, symbol_modulation in Ht. rewrite HS, NP in Ht.
  unfold picking_receiver. apply bits_core; auto.
  - intros n Hn. specialize (Ht n). cbv zeta in Ht. destruct (Nat.ltb_spec n (nphr opt mcs il)); [|lia].
    apply (picked_symbol_ok opt (lowest_mcs opt) 0 511 _ n (nphr opt mcs il) n); auto; [now apply hdr_sent_length|exact (pilots_turn opt 0 n Ho)|].
    intros i Hin. destruct (Ht i ltac:(lia) Hin) as [A B]. split; [assumption|]. cbv zeta.
    destruct (copy_point opt (lowest_mcs opt) 0 511 _ n (nphr opt mcs il) n i Hlow (hdr_sent_length opt mcs il scr (zlen zs) H Hi) Hn (pilots_turn opt 0 n Ho) Hin) as [_ CP].
    destruct (CP _ A) as [I _]. specialize (B I). unfold frame_phr, frame_payload in B. rewrite app_nth_map in B by lia.
    destruct (Nat.ltb_spec n (nphr opt mcs il)); [|lia]. rewrite D in B. exact B.
  - intros n Hn. specialize (Ht (nphr opt mcs il + n)%nat). cbv zeta in Ht. destruct (Nat.ltb_spec (nphr opt mcs il + n) (nphr opt mcs il)); [lia|].
    assert (PT := pilots_turn opt (nphr opt mcs il) n Ho).
    apply (picked_symbol_ok opt mcs (Z.of_nat (nphr opt mcs il) mod zlen (std_sets opt)) (pn_iter (nphr opt mcs il * npil opt) 511) _ n (npay opt mcs (length (octet_bits zs)))); auto; [now apply pay_sent_length|].
    intros i Hin. destruct (Ht i ltac:(lia) Hin) as [A B]. split; [assumption|]. cbv zeta.
    destruct (copy_point opt mcs (Z.of_nat (nphr opt mcs il) mod zlen (std_sets opt)) (pn_iter (nphr opt mcs il * npil opt) 511) _ n (npay opt mcs (length (octet_bits zs))) (nphr opt mcs il + n)%nat i H (pay_sent_length opt mcs il scr (octet_bits zs) H) Hn PT Hin) as [_ CP].
    destruct (CP _ A) as [I _]. specialize (B I). unfold frame_phr, frame_payload in B. rewrite app_nth_map in B by lia.
    destruct (Nat.ltb_spec (nphr opt mcs il + n) (nphr opt mcs il)); [lia|]. replace (nphr opt mcs il + n - nphr opt mcs il)%nat with n in B by lia. exact B.
Qed.
