(** * C102, C103: MR-OFDM reception with error correction *)
From Coq Require Import Reals Lra.
From Coquelicot Require Import Complex.
From Verif Require Import Py PList SBits SEntry MBits PBits PEntry MPn9 SPn9 PPn9 MRate SRate PConv PRate MModul MOfdm Tables SOfdm SMrOfdm PModul POfdm MMrOfdm PStd PMrOfdm PMrRx MTime STime PTime SGap PGap SPower PPower SMrRx PRecv PChannel Prop_MrOfdm Prop_Time Prop_MrRx SVit PVit PSoft PBessel.

(** ** the decoder *)
Lemma allowed_compatible known x : allowed known x <-> compatible known x.
Proof.
  unfold compatible. split.
  - intro H. induction H as [|k b l l' K H IH]; constructor; auto. destruct k; intros c E; [injection E as <-; auto|discriminate].
  - intro H. induction H as [|k b l l' K H IH]; constructor; auto. destruct k; auto.
Qed.
Lemma corr_agreement w r : corr w r = agreement w r.
Proof. revert r. induction w as [|b w IH]; intros [|x r]; cbn [corr agreement]; [reflexivity..|]. rewrite IH. reflexivity. Qed.
(** among the inputs compatible with what is known, the decoder returns one whose code word agrees best *)
Theorem C102_decoder q known received : (q = true -> Nat.modulo (length known) 3 = 0%nat) ->
  length received = (if q then length known / 3 * 4 else 2 * length known)%nat ->
  compatible known (viterbi known (pairs q received))
  /\ forall x, compatible known x -> (agreement (code_word q x) received <= agreement (code_word q (viterbi known (pairs q received))) received)%R.
Proof.
  intros M L.
  assert (CL : forall x, length x = length known -> length received = length (code_of q x)).
  { intros x Hx. rewrite L. unfold code_of. destruct q.
    - unfold code_34. rewrite Hx. clear. generalize (length known / 3)%nat. intro n. generalize (seq_length n 0). generalize (seq 0 n) as s. intros s <-. induction s as [|i s IH]; [reflexivity|]. cbn [flat_map]. rewrite app_length, <- IH. cbn [length]. lia.
    - unfold code_12. rewrite Hx. clear. generalize (length known). intro n. generalize (seq_length n 0). generalize (seq 0 n) as s. intros s <-. induction s as [|i s IH]; [reflexivity|]. cbn [flat_map]. rewrite app_length, <- IH. cbn [length]. lia. }
  assert (AL : forall x, allowed known x -> length x = length known) by (intros x Hx; symmetry; exact (F2_length _ _ _ Hx)).
  assert (LP : length known = length (pairs q received)).
  { pose proof (repeat_length false (length known)) as R0. symmetry. apply (corr_pairs q (repeat false (length known)) received (length known) R0 M). now apply CL. }
  destruct (viterbi_best known (pairs q received) LP) as [A B]. split; [now apply allowed_compatible|]. intros x Hx. apply allowed_compatible in Hx.
  assert (X : forall y, allowed known y -> agreement (code_word q y) received = corr (code_12 0 y) (flat (pairs q received))).
  { intros y Hy. rewrite <- corr_agreement. apply (corr_pairs q y received (length y) eq_refl); [rewrite (AL y Hy); exact M|exact (CL y (AL y Hy))]. }
  rewrite !X by assumption. now apply B.
Qed.
Print Assumptions C102_decoder.

(** ** soft decisions *)
Lemma margin_quarter opt mcs : supported opt mcs -> (margin mcs / 4 = INR (if mcs_three_quarters mcs then 5 else 10) * (norm_factor (mcs_modulation mcs) ^ 2 * INR (mcs_spreading mcs)))%R.
Proof. intros _. unfold margin, free_distance_of. destruct (mcs_three_quarters mcs); [change (INR 5) with (1 + 1 + 1 + 1 + 1)%R|change (INR 10) with (1 + 1 + 1 + 1 + 1 + 1 + 1 + 1 + 1 + 1)%R]; field. Qed.
Lemma low_half opt : opt_ok opt -> mcs_three_quarters (lowest_mcs opt) = false.
Proof. intro H. unfold opt_ok in H. assert (H' : opt = 1 \/ opt = 2 \/ opt = 3 \/ opt = 4) by lia. destruct H' as [->|[->|[->| ->]]]; reflexivity. Qed.
Lemma soft_core opt mcs il scr zs (tone tone' : nat -> Z -> C) : supported opt mcs -> il_ok il -> scr_ok scr -> Forall is_octet zs -> 1 <= zlen zs <= 2047 ->
  (forall n f, (n < frame_symbols_of opt mcs il (zlen zs))%nat -> In f (data_freqs opt n) ->
     tone' n f = amplitude (symbol_factor opt mcs il n)
        (tone_at (fft_size opt) (nth n (frame_phr opt mcs il scr (octet_bits zs) ++ frame_payload opt mcs il scr (octet_bits zs)) []) f)) ->
  (tone_error opt tone tone' 0 (Z.to_nat (phr_symbols il opt)) < margin (lowest_mcs opt) / 4)%R ->
  (tone_error opt tone tone' (header_symbols_of opt mcs il) (payload_symbols_of opt mcs (zlen zs)) < margin mcs / 4)%R ->
  soft_receiver opt il tone = {| f_mcs := mcs; f_scrambler := scr; f_octets := zs |}.
Proof.
  intros H Hi Hs Hz Hl Ht E1 E2. pose proof (supported_low opt mcs H) as Hlow. pose proof (supported_opt _ _ H) as Ho.
  pose proof (header_symbols_eq opt mcs il H Hi) as HS. pose proof (nphr_ge opt mcs il H Hi) as G.
  assert (D : zlen (octet_bits zs) / 8 = zlen zs).
  { unfold zlen. rewrite octet_bits_length, Nat2Z.inj_mul. change (Z.of_nat 8) with 8. rewrite Z.mul_comm, Z.div_mul; lia. }
  assert (L8 : length (octet_bits zs) = Z.to_nat (8 * zlen zs)) by (rewrite octet_bits_length; unfold zlen; lia).
  assert (NP : payload_symbols_of opt mcs (zlen zs) = npay opt mcs (length (octet_bits zs))) by (unfold payload_symbols_of, npay; now rewrite L8).
  rewrite (margin_quarter opt _ Hlow), (low_half opt Ho) in E1. rewrite (margin_quarter opt _ H) in E2. rewrite HS, NP in E2.
  unfold soft_receiver. apply vit_core; auto; cbv zeta.
  - apply (run_decodes opt (lowest_mcs opt) 0 511 _ (nphr opt mcs il) _ _ tone tone'); auto.
    + now apply hdr_sent_length.
    + intro n. exact (pilots_turn opt 0 n Ho).
    + intros n f Hn Hf. cbn [Nat.add] in *. unfold frame_symbols_of in Ht. rewrite HS in Ht. specialize (Ht n f ltac:(lia) Hf).
      unfold symbol_factor, symbol_modulation in Ht. rewrite HS in Ht. destruct (Nat.ltb_spec n (nphr opt mcs il)); [|lia].
      unfold frame_phr, frame_payload in Ht. rewrite <- NP in Ht. rewrite app_nth_map in Ht by lia.
      destruct (Nat.ltb_spec n (nphr opt mcs il)); [|lia]. rewrite D in Ht. exact Ht.
  - pose proof (pay_sent_length opt mcs il scr (octet_bits zs) H) as Lp.
    rewrite <- (firstn_all2 (n := (npay opt mcs (length (octet_bits zs)) * coded_bits opt mcs)%nat) (pay_sent opt mcs il scr (octet_bits zs))) by lia.
    apply (run_decodes opt mcs (Z.of_nat (nphr opt mcs il) mod zlen (std_sets opt)) (pn_iter (nphr opt mcs il * npil opt) 511) _ _ _ _ tone tone' _ H Lp (Nat.le_refl _)).
    + intro n. now apply pilots_turn.
    + intros n f Hn Hf. unfold frame_symbols_of in Ht. rewrite HS, NP in Ht. specialize (Ht (nphr opt mcs il + n)%nat f ltac:(lia) Hf).
      unfold symbol_factor, symbol_modulation in Ht. rewrite HS in Ht. destruct (Nat.ltb_spec (nphr opt mcs il + n) (nphr opt mcs il)); [lia|].
      unfold frame_phr, frame_payload in Ht. rewrite app_nth_map in Ht by lia.
      destruct (Nat.ltb_spec (nphr opt mcs il + n) (nphr opt mcs il)); [lia|]. replace (nphr opt mcs il + n - nphr opt mcs il)%nat with n in Ht by lia. exact Ht.
    + destruct (mcs_three_quarters mcs); exact E2.
Qed.
(** [tone]: the subcarriers received, whatever the channel *)
Theorem C102_subcarriers opt mcs il scr s a zs sig fr (tone : nat -> Z -> C) : modulator opt mcs il scr s -> holds_octets a zs -> Forall is_octet zs -> 1 <= zlen zs <= 2047 ->
  snd (m_bytesToIQ a s) = Ok (sig, fr) ->
  (tone_error opt tone (rx_tone opt sig) 0 (Z.to_nat (phr_symbols il opt)) < margin (lowest_mcs opt) / 4)%R ->
  (tone_error opt tone (rx_tone opt sig) (header_symbols_of opt mcs il) (payload_symbols_of opt mcs (zlen zs)) < margin mcs / 4)%R ->
  soft_receiver opt il tone = {| f_mcs := mcs; f_scrambler := scr; f_octets := zs |}.
Proof.
  intros Hm Ha Hz Hl E E1 E2. destruct (frame_parts _ _ _ _ _ _ _ _ _ Hm Ha Hz Hl E) as (H1 & H2 & H3 & lb & body & P & _ & A).
  assert (Ho : 1 <= opt <= 4) by (unfold supported in H1; lia). destruct (quarter_4 opt Ho) as (Hq & Hq0 & N2).
  apply (soft_core opt mcs il scr zs tone (rx_tone opt sig)); auto. intros n f Hn Hf. apply data_freq_used in Hf as [Hf _]. unfold rx_tone. rewrite (parts_body _ _ _ _ _ _ P Hn). apply A; [assumption|lia].
Qed.
Print Assumptions C102_subcarriers.
(** any noise of energy less than a quarter of the margin of C73: the frame is found, not only the closest one *)
Theorem C102_noise opt mcs il scr s a zs sig fr received : modulator opt mcs il scr s -> holds_octets a zs -> Forall is_octet zs -> 1 <= zlen zs <= 2047 ->
  snd (m_bytesToIQ a s) = Ok (sig, fr) -> length received = length sig -> (gap received sig < margin mcs / 4)%R ->
  soft_receiver opt il (rx_tone opt received) = {| f_mcs := mcs; f_scrambler := scr; f_octets := zs |}.
Proof.
  intros Hm Ha Hz Hl E Lr Hg. destruct (frame_parts _ _ _ _ _ _ _ _ _ Hm Ha Hz Hl E) as (H1 & H2 & H3 & lb & body & P & _).
  assert (Ho : 1 <= opt <= 4) by (unfold supported in H1; lia). pose proof (p_length _ _ _ _ _ P) as Ls. unfold frame_symbols_of in Ls.
  pose proof (header_symbols_eq opt mcs il H1 H2) as HS. pose proof (nphr_ge opt mcs il H1 H2) as G. rewrite <- HS in G.
  pose proof (margin_low opt mcs H1). pose proof (error_gap opt received sig 0 (Z.to_nat (phr_symbols il opt)) Ho Lr ltac:(nia)).
  pose proof (error_gap opt received sig (header_symbols_of opt mcs il) (payload_symbols_of opt mcs (zlen zs)) Ho Lr ltac:(nia)).
  eapply C102_subcarriers; eauto; lra.
Qed.
Print Assumptions C102_noise.

(** ** hard decisions *)
Theorem C103_bits opt mcs il scr s a zs sig fr (tone : nat -> Z -> C) : modulator opt mcs il scr s -> holds_octets a zs -> Forall is_octet zs -> 1 <= zlen zs <= 2047 ->
  snd (m_bytesToIQ a s) = Ok (sig, fr) ->
  (bit_errors opt (lowest_mcs opt) tone (rx_tone opt sig) 0 (Z.to_nat (phr_symbols il opt)) <= 4)%nat ->
  (bit_errors opt mcs tone (rx_tone opt sig) (header_symbols_of opt mcs il) (payload_symbols_of opt mcs (zlen zs)) <= if mcs_three_quarters mcs then 2 else 4)%nat ->
  hard_receiver opt il tone = {| f_mcs := mcs; f_scrambler := scr; f_octets := zs |}.
Proof.
  intros Hm Ha Hz Hl E E1 E2. destruct (frame_parts _ _ _ _ _ _ _ _ _ Hm Ha Hz Hl E) as (H & Hi & Hs & lb & body & P & _ & A).
  assert (Ho' : 1 <= opt <= 4) by (unfold supported in H; lia). destruct (quarter_4 opt Ho') as (Hq & Hq0 & N2).
  assert (Ht : forall n f, (n < frame_symbols_of opt mcs il (zlen zs))%nat -> In f (data_freqs opt n) ->
     rx_tone opt sig n f = amplitude (symbol_factor opt mcs il n)
        (tone_at (fft_size opt) (nth n (frame_phr opt mcs il scr (octet_bits zs) ++ frame_payload opt mcs il scr (octet_bits zs)) []) f)).
  { intros n f Hn Hf. apply data_freq_used in Hf as [Hf _]. unfold rx_tone. rewrite (parts_body _ _ _ _ _ _ P Hn). apply A; [assumption|lia]. }
  set (tone' := rx_tone opt sig) in *. clearbody tone'. clear A P E Ha Hm.
  pose proof (supported_low opt mcs H) as Hlow. pose proof (supported_opt _ _ H) as Ho.
  pose proof (header_symbols_eq opt mcs il H Hi) as HS. pose proof (nphr_ge opt mcs il H Hi) as G.
  assert (D : zlen (octet_bits zs) / 8 = zlen zs).
  { unfold zlen. rewrite octet_bits_length, Nat2Z.inj_mul. change (Z.of_nat 8) with 8. rewrite Z.mul_comm, Z.div_mul; lia. }
  assert (L8 : length (octet_bits zs) = Z.to_nat (8 * zlen zs)) by (rewrite octet_bits_length; unfold zlen; lia).
  assert (NP : payload_symbols_of opt mcs (zlen zs) = npay opt mcs (length (octet_bits zs))) by (unfold payload_symbols_of, npay; now rewrite L8).
  assert (IN : forall m n f, In f (plain_freqs opt m n) -> In f (data_freqs opt n)).
  { intros m n f Hf. unfold plain_freqs in Hf. set (l := data_freqs opt n) in *. set (u := (_ / 2 * _)%nat) in Hf. set (v := (_ / _)%nat) in Hf.
    rewrite <- (firstn_skipn u l). apply in_or_app. right. rewrite <- (firstn_skipn v (skipn u l)). apply in_or_app. now left. }
  assert (ZC : forall (x : C) k, (0 < k)%R -> (Cmod (Cminus x x) < k)%R).
  { intros x k Hk. replace (Cminus x x) with (RtoC 0) by ring. now rewrite Cmod_0. }
  assert (B1 : flat_map (rx_symbol tone' opt (lowest_mcs opt)) (seq 0 (Z.to_nat (phr_symbols il opt))) = firstn (Z.to_nat (phr_symbols il opt) * coded_bits opt (lowest_mcs opt)) (hdr_sent opt mcs il scr (zlen zs))).
  { apply (rx_run opt (lowest_mcs opt) 0 511 _ (nphr opt mcs il)); auto.
    - now apply hdr_sent_length.
    - intro n. exact (pilots_turn opt 0 n Ho).
    - intros n f Hn Hf. cbn [Nat.add] in *. apply IN in Hf. unfold frame_symbols_of in Ht. rewrite HS in Ht. specialize (Ht n f ltac:(lia) Hf).
      unfold symbol_factor, symbol_modulation in Ht. rewrite HS in Ht. destruct (Nat.ltb_spec n (nphr opt mcs il)); [|lia].
      unfold frame_phr, frame_payload in Ht. rewrite <- NP in Ht. rewrite app_nth_map in Ht by lia.
      destruct (Nat.ltb_spec n (nphr opt mcs il)); [|lia]. rewrite D in Ht. rewrite Ht. apply ZC, norm_pos. }
  pose proof (pay_sent_length opt mcs il scr (octet_bits zs) H) as Lp.
  assert (B2 : flat_map (rx_symbol tone' opt mcs) (seq (nphr opt mcs il) (npay opt mcs (length (octet_bits zs)))) = pay_sent opt mcs il scr (octet_bits zs)).
  { rewrite (rx_run opt mcs (Z.of_nat (nphr opt mcs il) mod zlen (std_sets opt)) (pn_iter (nphr opt mcs il * npil opt) 511) _ _ _ _ tone' H Lp (Nat.le_refl _)).
    - apply firstn_all2. lia.
    - intro n. now apply pilots_turn.
    - intros n f Hn Hf. apply IN in Hf. unfold frame_symbols_of in Ht. rewrite HS, NP in Ht. specialize (Ht (nphr opt mcs il + n)%nat f ltac:(lia) Hf).
      unfold symbol_factor, symbol_modulation in Ht. rewrite HS in Ht. destruct (Nat.ltb_spec (nphr opt mcs il + n) (nphr opt mcs il)); [lia|].
      unfold frame_phr, frame_payload in Ht. rewrite app_nth_map in Ht by lia.
      destruct (Nat.ltb_spec (nphr opt mcs il + n) (nphr opt mcs il)); [lia|]. replace (nphr opt mcs il + n - nphr opt mcs il)%nat with n in Ht by lia. rewrite Ht. apply ZC, norm_pos. }
  unfold bit_errors in E1, E2. rewrite HS, NP, B2 in E2. rewrite B1 in E1.
  assert (LS : forall t n, length (rx_symbol t opt mcs n) = length (rx_symbol tone' opt mcs n) /\ length (rx_symbol t opt (lowest_mcs opt) n) = length (rx_symbol tone' opt (lowest_mcs opt) n)).
  { intros t n. unfold rx_symbol. assert (X : forall m' (l : list Z), length (flat_map (fun f => decide m' (t n f)) l) = length (flat_map (fun f => decide m' (tone' n f)) l)).
    { intros m' l. induction l as [|f l IH]; [reflexivity|]. cbn [flat_map]. rewrite !app_length, IH. f_equal. destruct m'; reflexivity. }
    split; apply X. }
  assert (LL : forall t m' l, (forall n, length (rx_symbol t opt m' n) = length (rx_symbol tone' opt m' n)) -> length (flat_map (rx_symbol t opt m') l) = length (flat_map (rx_symbol tone' opt m') l)).
  { intros t m' l X. induction l as [|n l IH]; [reflexivity|]. cbn [flat_map]. now rewrite !app_length, IH, X. }
  assert (SY : forall x y, distance x y = distance y x).
  { unfold distance. induction x as [|b x IH]; intros [|c y]; try reflexivity. cbn [xor_bits weight]. rewrite IH. now rewrite xorb_comm. }
  assert (HM : forall m' l, flat_map (hard_symbol tone opt m') l = map sign_of (flat_map (rx_symbol tone opt m') l)).
  { intros m' l. induction l as [|n l IH]; [reflexivity|]. cbn [flat_map]. rewrite map_app, IH. reflexivity. }
  unfold hard_receiver. apply vit_core; auto; cbv zeta; rewrite HM; apply hard_decodes.
  - rewrite <- B1. symmetry. apply LL. intro n. apply LS.
  - rewrite SY. lia.
  - rewrite <- B2. symmetry. apply LL. intro n. apply LS.
  - rewrite SY. destruct (mcs_three_quarters mcs); lia.
Qed.
Print Assumptions C103_bits.
(** anything may be received on a few subcarriers, and the others may be noisy *)
Lemma plain_point opt mcs col v bits n k n0 f : supported opt mcs -> length bits = (k * coded_bits opt mcs)%nat -> (n < k)%nat ->
  (n0 mod length (pilot_sets opt) = Z.to_nat ((col + Z.of_nat n) mod zlen (std_sets opt)))%nat -> In f (plain_freqs opt mcs n0) ->
  exists g, length g = group_size (mcs_modulation mcs) /\ tone_at (fft_size opt) (sym opt mcs col v bits n) f = TData (point (mcs_modulation mcs) g).
Proof.
  intros H Hl Hn Hcol Hf. set (m := mcs_modulation mcs) in *. pose proof (group_size_pos m) as Hg.
  pose proof (block_length opt mcs bits n k Hl Hn) as Lb. rewrite (coded_points opt mcs H) in Lb. fold m in Lb.
  assert (Mb : Nat.modulo (length (block opt mcs bits n)) (group_size m) = 0%nat) by (rewrite Lb; apply mod_mult; lia).
  assert (HT : exists g, tone_at (fft_size opt) (sym opt mcs col v bits n) f = TData g).
  { apply (data_freqs_tones opt mcs col v bits n0 n f Hcol). unfold plain_freqs in Hf.
    set (l := data_freqs opt n0) in *. set (a := (_ / 2 * _)%nat) in Hf. set (b := (_ / _)%nat) in Hf.
    rewrite <- (firstn_skipn a l). apply in_or_app. right. rewrite <- (firstn_skipn b (skipn a l)). apply in_or_app. now left. }
  pose proof (sym_read opt mcs col v bits n k H Hl Hn) as R. unfold read_data in R. unfold plain_freqs in Hf. fold (points opt mcs) in Hf.
  assert (ED : data_freqs opt n0 = filter (is_data (fft_size opt) (guard_left opt) (guard_right opt) (pset_of opt col n)) (freqs (fft_size opt))).
  { unfold data_freqs, pilots_of, pset_of. change (pilot_sets opt) with (std_sets opt) in *. now rewrite Hcol. }
  rewrite ED in Hf. apply (in_map (fun f => tone_data (tone_at (fft_size opt) (sym opt mcs col v bits n) f))) in Hf. rewrite firstn_map', <- skipn_map, R in Hf.
  unfold symbol_data in Hf. fold m in Hf. set (a := map (point m) _) in Hf. assert (La : length a = points opt mcs).
  { unfold a. rewrite map_length, chunks_length, Lb by assumption. apply Nat.div_mul. lia. }
  rewrite <- La, spread_plain in Hf by (clear -H; revert H; each; vm_compute; auto).
  apply in_map_iff in Hf as (g & E & Ig). exists g. pose proof (chunks_length_all (group_size m) (block opt mcs bits n) Hg Mb) as F. rewrite Forall_forall in F.
  split; [now apply F|]. destruct HT as [p Ep]. rewrite Ep in E |- *. cbn [tone_data] in E. now rewrite E.
Qed.
Lemma in_plain opt m n f : In f (plain_freqs opt m n) -> In f (data_freqs opt n).
Proof.
  intro Hf. unfold plain_freqs in Hf. set (l := data_freqs opt n) in *. set (u := (_ / 2 * _)%nat) in Hf. set (v := (_ / _)%nat) in Hf.
  rewrite <- (firstn_skipn u l). apply in_or_app. right. rewrite <- (firstn_skipn v (skipn u l)). apply in_or_app. now left.
Qed.
Lemma sent_point opt mcs il scr s a zs sig fr n f : modulator opt mcs il scr s -> holds_octets a zs -> Forall is_octet zs -> 1 <= zlen zs <= 2047 ->
  snd (m_bytesToIQ a s) = Ok (sig, fr) -> (n < frame_symbols_of opt mcs il (zlen zs))%nat ->
  In f (plain_freqs opt (if Nat.ltb n (header_symbols_of opt mcs il) then lowest_mcs opt else mcs) n) ->
  exists g, length g = group_size (symbol_modulation opt mcs il n) /\ rx_tone opt sig n f = amplitude (symbol_factor opt mcs il n) (TData (point (symbol_modulation opt mcs il n) g)).
Proof.
  intros Hm Ha Hz Hl E Hn Hf. destruct (frame_parts _ _ _ _ _ _ _ _ _ Hm Ha Hz Hl E) as (H & Hi & Hs & lb & body & P & _ & A).
  assert (Ho' : 1 <= opt <= 4) by (unfold supported in H; lia). destruct (quarter_4 opt Ho') as (Hq & Hq0 & N2).
  pose proof (data_freq_used _ _ _ (in_plain _ _ _ _ Hf)) as [Hd _]. unfold rx_tone. rewrite (parts_body _ _ _ _ _ _ P Hn), A by (assumption || lia). clear A P E Ha Hm.
  pose proof (supported_low opt mcs H) as Hlow. pose proof (supported_opt _ _ H) as Ho.
  pose proof (header_symbols_eq opt mcs il H Hi) as HS.
  assert (NP : payload_symbols_of opt mcs (zlen zs) = npay opt mcs (length (octet_bits zs))).
  { unfold payload_symbols_of, npay. rewrite octet_bits_length. do 2 f_equal. unfold zlen. lia. }
  unfold symbol_factor, symbol_modulation, frame_symbols_of in *. rewrite HS in *. rewrite NP in Hn. unfold frame_phr, frame_payload. rewrite app_nth_map by lia.
  assert (K : forall m t, (exists g, length g = group_size m /\ t = TData (point m g)) -> exists g, length g = group_size m /\ amplitude (norm_factor m) t = amplitude (norm_factor m) (TData (point m g))).
  { intros m t (g & Lg & ->). eauto. }
  destruct (Nat.ltb_spec n (nphr opt mcs il)) as [L|L].
  - apply K. apply (plain_point opt (lowest_mcs opt) 0 511 _ n (nphr opt mcs il) n); auto; [now apply hdr_sent_length|]. exact (pilots_turn opt 0 n Ho).
  - apply K. eapply plain_point; [assumption|now apply pay_sent_length|lia| |exact Hf].
    replace n with (nphr opt mcs il + (n - nphr opt mcs il))%nat at 1 by lia. now apply pilots_turn.
Qed.
Definition is_bad (bad : list (nat * Z)) (p : nat * Z) : bool := existsb (fun q => Nat.eqb (fst q) (fst p) && Z.eqb (snd q) (snd p)) bad.
Lemma is_bad_In bad p : is_bad bad p = true <-> In p bad.
Proof.
  unfold is_bad. rewrite existsb_exists. split.
  - intros (q & Hq & E). apply andb_prop in E as [E1 E2]. apply Nat.eqb_eq in E1. apply Z.eqb_eq in E2. destruct p, q. cbn [fst snd] in *. now subst.
  - intro H. exists p. split; [assumption|]. now rewrite Nat.eqb_refl, Z.eqb_refl.
Qed.
Lemma distance_app' a b c d : length a = length b -> distance (a ++ c) (b ++ d) = (distance a b + distance c d)%nat.
Proof. unfold distance. revert b. induction a as [|x a IH]; intros [|y b] L; cbn [length] in L; try lia; [reflexivity|]. cbn [app xor_bits weight]. rewrite IH by lia. lia. Qed.
Lemma distance_most a : forall b, length a = length b -> (distance a b <= length a)%nat.
Proof. unfold distance. induction a as [|x a IH]; intros [|y b] L; cbn [length] in L; try lia; [cbn; lia|]. cbn [xor_bits weight length]. specialize (IH b ltac:(lia)). destruct (xorb x y); cbn; lia. Qed.
Lemma distance_self a : distance a a = 0%nat.
Proof. unfold distance. induction a as [|x a IH]; [reflexivity|]. cbn [xor_bits weight]. rewrite xorb_nilpotent. exact IH. Qed.
Lemma distance_bad (F G : nat * Z -> list bool) c bad l : (forall p, length (F p) = c /\ length (G p) = c) -> (forall p, In p l -> ~ In p bad -> F p = G p) ->
  (distance (flat_map F l) (flat_map G l) <= c * length (filter (is_bad bad) l))%nat.
Proof.
  intros L. induction l as [|p l IH]; intro E; [cbn; lia|]. cbn [flat_map filter]. destruct (L p) as [L1 L2]. rewrite distance_app' by congruence. specialize (IH ltac:(intros; apply E; [now right|assumption])).
  destruct (is_bad bad p) eqn:B.
  - cbn [length]. pose proof (distance_most (F p) (G p) ltac:(congruence)). lia.
  - rewrite E; [rewrite distance_self; lia|now left|]. intro Q. apply is_bad_In in Q. congruence.
Qed.
Definition tone_pairs (opt mcs : Z) (l : list nat) : list (nat * Z) := flat_map (fun n => map (pair n) (plain_freqs opt mcs n)) l.
Lemma rx_pairs t opt mcs l : flat_map (rx_symbol t opt mcs) l = flat_map (fun p => decide (mcs_modulation mcs) (t (fst p) (snd p))) (tone_pairs opt mcs l).
Proof.
  induction l as [|n l IH]; [reflexivity|]. cbn [flat_map tone_pairs]. rewrite flat_map_app. fold (tone_pairs opt mcs l). rewrite <- IH. f_equal. unfold rx_symbol.
  induction (plain_freqs opt mcs n) as [|f fs IHf]; [reflexivity|]. cbn [map flat_map fst snd]. now rewrite IHf.
Qed.
Lemma NoDup_firstn' {A} n (l : list A) : NoDup l -> NoDup (firstn n l) /\ NoDup (skipn n l).
Proof.
  revert n. induction l as [|x l IH]; intros n H; [rewrite firstn_nil, skipn_nil; split; constructor|]. destruct n as [|n]; [split; [constructor|assumption]|].
  inversion H as [|? ? N Hl]; subst. cbn [firstn skipn]. destruct (IH n Hl) as [I1 I2]. split; [|assumption]. constructor; [|assumption]. intro Q. apply N. rewrite <- (firstn_skipn n l). apply in_or_app. now left.
Qed.
Lemma tone_pairs_NoDup opt mcs l : NoDup l -> NoDup (tone_pairs opt mcs l).
Proof.
  induction l as [|n l IH]; intro H; [constructor|]. inversion H; subst. cbn [tone_pairs flat_map]. fold (tone_pairs opt mcs l). apply NoDup_both.
  - apply FinFun.Injective_map_NoDup; [intros x y Q; now injection Q|]. unfold plain_freqs. apply NoDup_firstn', NoDup_firstn'. unfold data_freqs. apply NoDup_filter, freqs_NoDup.
  - auto.
  - intros p P1 P2. apply in_map_iff in P1 as (f & <- & _). unfold tone_pairs in P2. apply in_flat_map in P2 as (n' & Hn & P2). apply in_map_iff in P2 as (f' & Q & _). injection Q as -> _. contradiction.
Qed.
Lemma decide_length m z : length (decide m z) = group_size m. Proof. destruct m; reflexivity. Qed.
(** a list of subcarriers, (symbol, frequency), on which anything may be received; the error of the others is less than the
    decision distance.  [count a k] of these subcarriers are in symbols a, ..., a+k-1. *)
Theorem C103_garbage opt mcs il scr s a zs sig fr (tone : nat -> Z -> C) (bad : list (nat * Z)) :
  let count a k := length (filter (fun p => Nat.leb a (fst p) && Nat.ltb (fst p) (a + k)) bad) in
  modulator opt mcs il scr s -> holds_octets a zs -> Forall is_octet zs -> 1 <= zlen zs <= 2047 -> snd (m_bytesToIQ a s) = Ok (sig, fr) ->
  (forall n f, (n < frame_symbols_of opt mcs il (zlen zs))%nat -> In f (data_freqs opt n) -> ~ In (n, f) bad -> (Cmod (tone n f - rx_tone opt sig n f)%C < symbol_factor opt mcs il n)%R) ->
  (group_size (mcs_modulation (lowest_mcs opt)) * count 0 (Z.to_nat (phr_symbols il opt)) <= 4)%nat ->
  (group_size (mcs_modulation mcs) * count (header_symbols_of opt mcs il) (payload_symbols_of opt mcs (zlen zs)) <= if mcs_three_quarters mcs then 2 else 4)%nat ->
  hard_receiver opt il tone = {| f_mcs := mcs; f_scrambler := scr; f_octets := zs |}.
Proof.
  intros count Hm Ha Hz Hl E Ht C1 C2. destruct (frame_parts _ _ _ _ _ _ _ _ _ Hm Ha Hz Hl E) as (H & Hi & _).
  pose proof (header_symbols_eq opt mcs il H Hi) as HS. pose proof (nphr_ge opt mcs il H Hi) as G. rewrite <- HS in G.
  assert (B : forall m a0 k, (forall n, (a0 <= n < a0 + k)%nat -> (n < frame_symbols_of opt mcs il (zlen zs))%nat /\ (if Nat.ltb n (header_symbols_of opt mcs il) then lowest_mcs opt else mcs) = m) ->
    (bit_errors opt m tone (rx_tone opt sig) a0 k <= group_size (mcs_modulation m) * count a0 k)%nat).
  { intros m a0 k Hk. unfold bit_errors. rewrite !rx_pairs. eapply Nat.le_trans; [apply (distance_bad _ _ (group_size (mcs_modulation m)) bad)|].
    - intro p. now rewrite !decide_length.
    - intros [n f] Hp Hb. unfold tone_pairs in Hp. apply in_flat_map in Hp as (n' & Hn & Hp). apply in_map_iff in Hp as (f' & Q & Hf). injection Q as -> ->. cbn [fst snd]. apply in_seq in Hn.
      destruct (Hk n Hn) as [Kn Km]. pose proof (sent_point opt mcs il scr s a zs sig fr n f Hm Ha Hz Hl E Kn) as SP. rewrite Km in SP. destruct (SP Hf) as (g & Lg & Eg).
      specialize (Ht n f Kn (in_plain _ _ _ _ Hf) Hb). unfold symbol_factor, symbol_modulation in *. rewrite Km in *. rewrite Eg in Ht |- *.
      rewrite (decide_ok _ g) by assumption. symmetry. apply decide_ok; [assumption|].
      match goal with |- (Cmod (Cminus ?x ?x) < _)%R => replace (Cminus x x) with (RtoC 0) by ring end. rewrite Cmod_0. apply norm_pos.
    - apply Nat.mul_le_mono_l. apply NoDup_incl_length; [apply NoDup_filter, tone_pairs_NoDup, seq_NoDup|].
      intros [n f] Hp. apply filter_In in Hp as [Hp Hb]. apply filter_In. split; [now apply is_bad_In|].
      unfold tone_pairs in Hp. apply in_flat_map in Hp as (n' & Hn & Hp). apply in_map_iff in Hp as (f' & Q & _). injection Q as -> ->. cbn [fst]. apply in_seq in Hn.
      apply andb_true_intro. split; [apply Nat.leb_le|apply Nat.ltb_lt]; lia. }
  eapply C103_bits; eauto.
  - eapply Nat.le_trans; [apply B|exact C1]. intros n Hn. unfold frame_symbols_of. destruct (Nat.ltb_spec n (header_symbols_of opt mcs il)); split; try lia; reflexivity.
  - eapply Nat.le_trans; [apply B|exact C2]. intros n Hn. unfold frame_symbols_of. destruct (Nat.ltb_spec n (header_symbols_of opt mcs il)); split; try lia; reflexivity.
Qed.
Print Assumptions C103_garbage.
(** multipath: the equalised subcarriers, without noise *)
Theorem C102_multipath opt mcs il scr s a zs sig fr h : modulator opt mcs il scr s -> holds_octets a zs -> Forall is_octet zs -> 1 <= zlen zs <= 2047 ->
  snd (m_bytesToIQ a s) = Ok (sig, fr) -> (length h <= S (quarter opt))%nat ->
  (forall f, - (fft_size opt / 2) <= f < fft_size opt / 2 -> guard_or_dc (fft_size opt) (guard_left opt) (guard_right opt) f = false ->
     response (fft_size opt) h f <> RtoC 0) ->
  soft_receiver opt il (equalised opt (through h sig)) = {| f_mcs := mcs; f_scrambler := scr; f_octets := zs |}.
Proof.
  intros Hm Ha Hz Hl E Hh Hr. destruct (frame_parts _ _ _ _ _ _ _ _ _ Hm Ha Hz Hl E) as (H1 & H2 & H3 & lb & body & P & B & A).
  assert (Ho : 1 <= opt <= 4) by (unfold supported in H1; lia). destruct (quarter_4 opt Ho) as (Hq & Hq0 & N2).
  assert (Z0 : forall a0 k, tone_error opt (equalised opt (through h sig)) (equalised opt (through h sig)) a0 k = 0%R).
  { intros a0 k. unfold tone_error. induction (seq a0 k) as [|n l IH]; [reflexivity|]. cbn [flat_map]. rewrite fold_plus_app, IH, Rplus_0_r.
    induction (data_freqs opt n) as [|f fs IHf]; [reflexivity|]. cbn [map fold_right]. rewrite IHf. match goal with |- context [Cminus ?x ?x] => replace (Cminus x x) with (RtoC 0) by ring end. rewrite Cmod_0. lra. }
  pose proof (margin_pos mcs). pose proof (margin_pos (lowest_mcs opt)).
  apply (soft_core opt mcs il scr zs _ (equalised opt (through h sig))); auto; [|rewrite Z0; lra..].
  intros n f Hn Hf. apply data_freq_used in Hf as [Hf Hg].
  unfold equalised. rewrite (C86_measured opt mcs il scr s a zs sig fr h f) by (auto; lia). rewrite (through_body _ _ _ _ _ _ _ f P Ho Hh Hn), A by (auto; lia).
  field. apply Hr; [lia|assumption].
Qed.
Print Assumptions C102_multipath.

(** an error on one sample, larger than the whole energy of a subcarrier (1) *)
Definition disturbed (sig : list C) : list C := match sig with z :: r => (z + RtoC 2)%C :: r | [] => [] end.
Example C102_case : exists s, modulator 3 3 1 2 s /\ is_ok (snd (send (Octets (ABytes [x55; x0f])) s)) = true
  /\ forall sig, sig <> [] -> length (disturbed sig) = length sig /\ (gap (disturbed sig) sig = 4)%R /\ (4 < margin 3 / 4)%R.
Proof.
  eexists. split; [exists (PInt 3), (PInt 3), (PInt 1), (PInt 2); eexists; exists []; repeat split; reflexivity|]. split; [vm_compute; reflexivity|].
  intros [|z r] N; [contradiction|]. split; [reflexivity|]. split.
  - cbn [disturbed gap]. rewrite gap_same. replace (z + RtoC 2 - z)%C with (RtoC 2) by ring. rewrite Cmod_R, Rabs_right by lra. lra.
  - assert (A : ((2 * (1 / sqrt 2)) ^ 2 = 2)%R) by (rewrite Rpow_mult_distr; unfold Rdiv; rewrite Rmult_1_l, pow_inv, pow2_sqrt by lra; lra).
    unfold margin, free_distance_of, mcs_modulation. cbn -[sqrt Rmult Rdiv pow IZR INR Rlt]. rewrite A. cbn [INR]. lra.
Qed.
(** four subcarriers of the header and four of the payload set to 0: the hypotheses of C103_garbage are met *)
Example C103_case : exists s, modulator 2 1 0 1 s /\ is_ok (snd (send (Octets (ABytes [x55; x0f])) s)) = true
  /\ let bad := [(0%nat, 1); (0%nat, 2); (1%nat, -3); (2%nat, 7)] ++ [(6%nat, 1); (6%nat, 2); (7%nat, -3); (7%nat, 7)] in
     let tone sig n f := if is_bad bad (n, f) then RtoC 0 else rx_tone 2 sig n f in
     (forall sig n f, ~ In (n, f) bad -> (Cmod (tone sig n f - rx_tone 2 sig n f)%C < symbol_factor 2 1 0 n)%R)
     /\ let count a k := length (filter (fun p => Nat.leb a (fst p) && Nat.ltb (fst p) (a + k)) bad) in
        (group_size (mcs_modulation (lowest_mcs 2)) * count 0 (Z.to_nat (phr_symbols 0 2)) = 4)%nat
        /\ (group_size (mcs_modulation 1) * count (header_symbols_of 2 1 0) (payload_symbols_of 2 1 2) = 4)%nat.
Proof.
  eexists. split; [exists (PInt 1), (PInt 2), (PInt 0), (PInt 1); eexists; exists []; repeat split; reflexivity|]. split; [vm_compute; reflexivity|].
  cbv zeta. split; [|split; vm_compute; reflexivity]. intros sig n f Hb. destruct (is_bad _ (n, f)) eqn:B; [apply is_bad_In in B; contradiction|].
  match goal with |- (Cmod (Cminus ?x ?x) < _)%R => replace (Cminus x x) with (RtoC 0) by ring end. rewrite Cmod_0. unfold symbol_factor. apply norm_pos.
Qed.
