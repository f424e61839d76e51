(** * Properties C56 (receiver) and C80: layout of MR-O-QPSK frames *)
From Coq Require Import Reals.
From Verif Require Import Py MBits MModul MOfdm Tables MRate MOqpsk MWave SBits SEntry SRate SOqpsk SOqRx SWave PList PBits PEntry PConv PRate POqpsk POqRun POqRx Prop_Oqpsk Prop_Wave.
Open Scope Z_scope.

(** ** C56: an explicit receiver *)
(** in every mode, MDSSS included, and for every payload length, the receiver finds preamble and SFD and reads the modes and
    the octet count *)
Theorem C56_header_receiver p b rm sm sps s a zs chips f : oq_used p b rm sm sps s -> oq_supported b rm sm -> 0 < sps ->
  holds_octets a zs -> Forall is_octet zs -> 1 <= zlen zs <= 2047 -> snd (q_bytesToChips p a s) = Ok (chips, f) ->
  rx_shr b chips = repeat false (preamble_bits b) ++ sfd_bits
  /\ rx_mode (rx_header b chips) = (sm =? 1, rm, zlen zs).
Proof.
  intros Hu Hs Hp Ha Ho Hl E. change (snd (oq_send p (Octets a) s) = Ok (chips, f)) in E.
  rewrite (octets_sent p b rm sm sps s a zs) in E by assumption. destruct (_ && _); [discriminate|]. injection E as <- <-.
  split; [apply shr_received|]. rewrite header_received. rewrite mode_received by (try apply Hs; lia).
  destruct Hs as [_ [->|[-> _]]]; reflexivity.
Qed.
Print Assumptions C56_header_receiver.
Lemma psdu_received b rm zs : 0 <= rm <= 3 -> 1 <= zlen zs <= 7 -> four_bits b rm = false ->
  rx_payload b rm (zlen zs) (repeat false (payload_start b) ++ with_pilots b (psdu_chips b rm 0 (zlen zs) (octet_bits zs))) = octet_bits zs.
Proof.
  intros Hr Hl H4. unfold rx_payload. cbv zeta. rewrite skipn_app, repeat_length, Nat.sub_diag, skipn_O, skipn_all2 by (rewrite repeat_length; lia).
  cbn [app]. unfold remove_pilots. rewrite drop_pilots_ok by lia. unfold psdu_chips. change (0 =? 0) with true. cbv iota.
  rewrite psdu_codes_eq, psdu_diff_eq by assumption.
  assert (B1 : psdu_blocks (zlen zs) = 1) by (unfold psdu_blocks; Z.div_mod_to_equations; lia).
  assert (Lc : length (psdu_code (zlen zs) (octet_bits zs)) = 126%nat).
  { rewrite psdu_code_length; [rewrite B1; reflexivity|lia|]. rewrite octet_bits_length. unfold zlen. lia. }
  set (d := dsss_bits b rm (zlen zs) (octet_bits zs)).
  assert (Ld : length d = 126%nat) by (unfold d, dsss_bits; cbv zeta; destruct (bde_psdu b rm); rewrite ?BDE_length, ilv_length; exact Lc).
  match goal with |- context [decode_12 (deinterleave true ?e)] => assert (E : e = ilv true (psdu_code (zlen zs) (octet_bits zs))) end.
  { assert (Ed : match sp_psdu b rm with
       | Some sp => despread sp (length (match sp_psdu b rm with Some sp => spread sp d | None => d end) / spread_chips sp) (match sp_psdu b rm with Some sp => spread sp d | None => d end)
       | None => match sp_psdu b rm with Some sp => spread sp d | None => d end end = d).
    { destruct (sp_psdu b rm) as [sp|] eqn:Esp; [|reflexivity]. destruct (sp_psdu_ok b rm Hr) as (_ & _ & H3). destruct (H3 sp Esp) as [Hi Hk].
      unfold four_bits in H4. rewrite Esp in H4. apply Nat.eqb_neq in H4. destruct Hk as [Hk|Hk]; [|congruence].
      destruct (codes_ok sp Hi) as (_ & _ & Hc & _).
      rewrite spread_length by (auto; rewrite Hk; apply Nat.mod_1_r). rewrite Nat.div_mul by lia.
      apply despread_spread; [assumption|]. rewrite Hk. apply Nat.mod_1_r. }
    rewrite Ed. unfold d, dsss_bits. cbv zeta. destruct (bde_psdu b rm); [apply diff_decode_BDE|reflexivity]. }
  rewrite E, deinterleave_ilv by exact Lc. unfold psdu_code. rewrite decode_code. rewrite firstn_app.
  assert (L8 : length (octet_bits zs) = Z.to_nat (8 * zlen zs)) by (rewrite octet_bits_length; unfold zlen; lia).
  rewrite L8, Nat.sub_diag, firstn_O, app_nil_r. apply firstn_all2. lia.
Qed.
Lemma rx_payload_skip b rm n c c' : skipn (payload_start b) c = skipn (payload_start b) c' -> rx_payload b rm n c = rx_payload b rm n c'.
Proof. intro E. unfold rx_payload. now rewrite E. Qed.
(** DSSS, payloads of at most 7 octets: the receiver returns modes, octet count and payload *)
Theorem C56_receiver p b rm sps s a zs chips f : oq_used p b rm 0 sps s -> oq_supported b rm 0 -> 0 < sps ->
  holds_octets a zs -> Forall is_octet zs -> 1 <= zlen zs <= 7 -> snd (q_bytesToChips p a s) = Ok (chips, f) ->
  oq_receiver b chips = {| f_mdsss := false; f_rate_mode := rm; f_octets := zlen zs; f_bits := octet_bits zs |}.
Proof.
  intros Hu Hs Hp Ha Ho Hl E. change (snd (oq_send p (Octets a) s) = Ok (chips, f)) in E.
  rewrite (octets_sent p b rm 0 sps s a zs) in E by (auto; lia).
  assert (B1 : psdu_blocks (zlen zs) = 1) by (unfold psdu_blocks; Z.div_mod_to_equations; lia).
  destruct (needs_pairs b rm 0) eqn:Hn; rewrite B1 in E; cbn [andb Z.odd] in E; [discriminate|]. injection E as <- <-.
  unfold oq_receiver. rewrite header_received, mode_received by (try apply Hs; lia). change (negb (0 =? 0)) with false.
  rewrite <- (needs_pairs_eq b rm 0 Hs) in Hn. f_equal.
  rewrite <- (psdu_received b rm zs (proj1 Hs) Hl Hn) at 2. apply rx_payload_skip. rewrite payload_here.
  rewrite skipn_app, repeat_length, Nat.sub_diag, skipn_O, skipn_all2 by (rewrite repeat_length; lia). reflexivity.
Qed.
Print Assumptions C56_receiver.
Example C56_receiver_case : exists s chips f, oq_used Wrapping Band_868MHz 2 0 10 s /\ oq_supported Band_868MHz 2 0
  /\ snd (q_bytesToChips Wrapping (ABytes [x55; x0f]) s) = Ok (chips, f)
  /\ oq_receiver Band_868MHz chips = {| f_mdsss := false; f_rate_mode := 2; f_octets := 2; f_bits := octet_bits [85; 15] |}.
Proof.
  eexists. eexists. eexists. split; [eexists; exists []; split; reflexivity|]. split; [split; [lia|now left]|]. split; [vm_compute; reflexivity|].
  vm_compute. reflexivity.
Qed.

(** ** C80 *)
Lemma with_pilots_length b c : length (with_pilots b c) = with_pilot_chips b (length c).
Proof.
  destruct (C52_insertion b c) as (out & E & L & _). rewrite pilots_ok in E. injection E as <-. rewrite L. unfold with_pilot_chips, ceil_blocks.
  do 3 f_equal. destruct b; cbn [pilot_spacing]; lia.
Qed.
Lemma psdu_chips_length b rm zs : oq_supported b rm 0 -> 1 <= zlen zs ->
  needs_pairs b rm 0 && Z.odd (psdu_blocks (zlen zs)) = false ->
  length (psdu_chips b rm 0 (zlen zs) (octet_bits zs)) = chips_for (psdu_codes b rm) (126 * Z.to_nat (psdu_blocks (zlen zs))).
Proof.
  intros Hs Hl Hn. unfold psdu_chips. change (0 =? 0) with true. cbv iota. destruct Hs as [Hr Hs].
  pose proof (psdu_blocks_spec (zlen zs) ltac:(lia)) as [_ Hp]. set (nb := Z.to_nat (psdu_blocks (zlen zs))) in *.
  assert (Lc : length (psdu_code (zlen zs) (octet_bits zs)) = (126 * nb)%nat).
  { rewrite psdu_code_length; [unfold nb; lia|lia|]. rewrite octet_bits_length. unfold zlen. lia. }
  assert (Ld : length (dsss_bits b rm (zlen zs) (octet_bits zs)) = (126 * nb)%nat)
    by (unfold dsss_bits; cbv zeta; destruct (bde_psdu b rm); rewrite ?BDE_length, ilv_length; exact Lc).
  rewrite psdu_codes_eq by assumption. unfold chips_for. rewrite <- (needs_pairs_eq b rm 0 (conj Hr Hs)) in Hn. unfold pairs_only in Hn.
  change (0 =? 0) with true in Hn. cbv iota in Hn. unfold four_bits in Hn.
  destruct (sp_psdu b rm) as [sp|] eqn:Esp; [|exact Ld]. destruct (sp_psdu_ok b rm Hr) as (_ & _ & H3). destruct (H3 sp Esp) as [Hi Hk].
  rewrite spread_length; [now rewrite Ld|assumption|]. rewrite Ld. destruct Hk as [Hk|Hk]; rewrite Hk in *; [apply Nat.mod_1_r|].
  cbn [Nat.eqb andb] in Hn. assert (Ev : exists q, psdu_blocks (zlen zs) = 2 * q).
  { exists (psdu_blocks (zlen zs) / 2). pose proof (Z.div_mod (psdu_blocks (zlen zs)) 2 ltac:(lia)) as D. rewrite Zmod_odd, Hn in D. lia. }
  destruct Ev as [q Eq]. replace (126 * nb)%nat with (63 * Z.to_nat q * 4)%nat by lia. apply Nat.mod_mul. lia.
Qed.
(** DSSS: the number of chips, then of samples, is the documented function of band, rate mode and octet count *)
Theorem C80_dsss_partial p b rm sps s a zs chips f : oq_used p b rm 0 sps s -> oq_supported b rm 0 -> 0 < sps ->
  holds_octets a zs -> Forall is_octet zs -> 1 <= zlen zs <= 2047 -> snd (q_bytesToChips p a s) = Ok (chips, f) ->
  length chips = dsss_frame_chips b rm (zlen zs).
Proof.
  intros Hu Hs Hp Ha Ho Hl E. change (snd (oq_send p (Octets a) s) = Ok (chips, f)) in E.
  rewrite (octets_sent p b rm 0 sps s a zs) in E by (auto; lia). destruct (_ && _) eqn:Hn; [discriminate|]. injection E as <- <-.
  rewrite !app_length, shr_chips_len, phr_chips_len, with_pilots_length, psdu_chips_length by (auto; lia).
  unfold dsss_frame_chips, payload_start. apply Nat.add_assoc.
Qed.
Print Assumptions C80_dsss_partial.
Theorem C80_dsss_samples_partial g p b rm sps s a zs sig f : oq_used p b rm 0 sps s -> oq_supported b rm 0 -> 0 < sps ->
  holds_octets a zs -> Forall is_octet zs -> 1 <= zlen zs <= 2047 -> snd (q_bytesToIQ g p a s) = Ok (sig, f) ->
  length sig = (dsss_frame_chips b rm (zlen zs) / 2 * Z.to_nat sps + (Z.to_nat sps - 1))%nat.
Proof.
  intros Hu Hs Hp Ha Ho Hl E. pose proof (C57_frames g p b rm 0 sps s (Octets a) Hu) as F.
  change (snd (q_bytesToIQ g p a s)) with (snd (oq_signal g p (Octets a) s)) in E.
  destruct (snd (oq_send p (Octets a) s)) as [[chips z]|e] eqn:Ec; [|congruence].
  destruct F as (rate & sig' & _ & _ & _ & E' & L & _). rewrite E in E'. injection E' as <- _. rewrite L.
  now rewrite (C80_dsss_partial p b rm sps s a zs chips z) by assumption.
Qed.
Print Assumptions C80_dsss_samples_partial.
(** MDSSS: the number of chips does not depend on the octet count: one pilot and 16 to 128 chips, whatever is sent *)
Theorem C80_mdsss_chips p b rm sps s a zs chips f : oq_used p b rm 1 sps s -> oq_supported b rm 1 -> 0 < sps ->
  holds_octets a zs -> Forall is_octet zs -> 1 <= zlen zs <= 2047 -> snd (q_bytesToChips p a s) = Ok (chips, f) ->
  length chips = (payload_start b + pilot_length b + mdsss_chips b rm)%nat.
Proof.
  intros Hu Hs Hp Ha Ho Hl E. change (snd (oq_send p (Octets a) s) = Ok (chips, f)) in E.
  rewrite (octets_sent p b rm 1 sps s a zs) in E by (auto; lia). destruct (_ && _) eqn:Hn; [discriminate|]. injection E as <- <-.
  rewrite !app_length, shr_chips_len, phr_chips_len, with_pilots_length. unfold payload_start, psdu_chips. change (1 =? 0) with false. cbv iota.
  enough (H : with_pilot_chips b (length (cover (md_psdu b rm))) = (pilot_length b + mdsss_chips b rm)%nat) by (rewrite H; lia).
  destruct Hs as [Hr [Hs|[_ Hm]]]; [discriminate|]. each_rm Hr; destruct b; try discriminate Hm; vm_compute; reflexivity.
Qed.
Print Assumptions C80_mdsss_chips.
(** so a frame of 17 octets or more has fewer payload chips than payload bits, and frames of different sizes have the same
    number of chips: the count of chips is not the documented function of the size *)
Theorem C80_mdsss_refuted p b rm sps s a a' zs zs' chips f chips' f' : oq_used p b rm 1 sps s -> oq_supported b rm 1 -> 0 < sps ->
  holds_octets a zs -> holds_octets a' zs' -> Forall is_octet zs -> Forall is_octet zs' -> 17 <= zlen zs <= 2047 -> 1 <= zlen zs' <= 2047 ->
  snd (q_bytesToChips p a s) = Ok (chips, f) -> snd (q_bytesToChips p a' s) = Ok (chips', f') ->
  length chips = length chips' /\ (length chips < payload_start b + pilot_length b + length (octet_bits zs))%nat.
Proof.
  intros Hu Hs Hp Ha Ha' Ho Ho' Hl Hl' E E'. rewrite (C80_mdsss_chips p b rm sps s a zs chips f), (C80_mdsss_chips p b rm sps s a' zs' chips' f') by (auto; lia).
  split; [reflexivity|]. rewrite octet_bits_length. unfold zlen in Hl.
  assert (mdsss_chips b rm <= 128)%nat by (unfold mdsss_chips; destruct b; destruct rm as [|[[?|?|]|[?|?|]|]|?]; lia). lia.
Qed.
Print Assumptions C80_mdsss_refuted.
Example C80_case : exists s chips f, oq_used Wrapping Band_915MHz 1 0 10 s /\ snd (q_bytesToChips Wrapping (ABytes (repeat x55 8)) s) = Ok (chips, f)
  /\ zlen chips = 6640.
Proof. eexists. eexists. eexists. split; [eexists; exists []; split; reflexivity|]. split; [vm_compute; reflexivity|]. vm_compute. reflexivity. Qed.
Example C80_mdsss_case : exists s chips f, oq_used Wrapping Band_915MHz 3 1 10 s /\ oq_supported Band_915MHz 3 1
  /\ snd (q_bytesToChips Wrapping (ABytes (repeat x55 100)) s) = Ok (chips, f).
Proof. eexists. eexists. eexists. split; [eexists; exists []; split; reflexivity|]. split; [split; [lia|right; split; reflexivity]|]. vm_compute; reflexivity. Qed.

(** ** C81 (MR-O-QPSK): messages that are not whole octets *)
Lemma any_header p b rm sm sps s a bits chips f : oq_used p b rm sm sps s -> oq_supported b rm sm ->
  check_binary_array a = Ok bits -> zlen bits / 8 <= 2047 -> snd (q_bitsToChips p a s) = Ok (chips, f) ->
  rx_mode (rx_header b chips) = (sm =? 1, rm, zlen bits / 8).
Proof.
  intros Hu Hs Hb Hl E. rewrite (proj2 (bits_master p a s)), Hb, (used_params _ _ _ _ _ _ Hu) in E. cbn [rbind] in E.
  assert (H0 : 0 <= zlen bits / 8) by (apply Z.div_pos; unfold zlen; lia).
  unfold chips_pure in E. cbn [bare q_band q_RM q_SM q_sps] in E. cbv zeta in E. rewrite shr_ok in E. cbn [rbind fst snd] in E.
  rewrite q_PHR_hdr in E; [|cbn [q_RM]; apply Hs|lia]. cbn [rbind q_SM q_RM] in E. rewrite phr_ok in E. cbn [rbind] in E.
  destruct (psdu_pure b rm sm bits) as [c|e]; [|discriminate]. cbn [rbind] in E. rewrite pilots_ok in E. cbn [rbind] in E.
  destruct (q_chip_rate _) as [r|e]; [|discriminate]. cbn [rbind] in E. destruct (sps <=? 0); [discriminate|]. injection E as <- _.
  rewrite header_received, mode_received by (try apply Hs; lia). destruct Hs as [_ [->|[-> _]]]; reflexivity.
Qed.
Lemma interleaver_total x : (126 <= length x)%nat -> exists y, q_interleaver x true = Ok y.
Proof.
  intro Hx. unfold q_interleaver. rewrite (mapM_ext _ (fun k => Ok (nth (q_pos true (length x) k) x false))).
  - eexists. apply mapM_map. reflexivity.
  - intros k Hk. apply in_seq in Hk.
    assert (B : - zlen x <= q_il_index true (Z.of_nat k) < zlen x).
    { unfold q_il_index, zlen. cbv zeta. change (126 / 7) with 18. Z.div_mod_to_equations. lia. }
    unfold np_index, q_pos, zlen in *. set (i := q_il_index true (Z.of_nat k)) in *.
    destruct (i <? 0) eqn:E; [apply Z.ltb_lt in E|apply Z.ltb_ge in E].
    + rewrite (proj2 (Z.leb_gt 0 i)) by lia. cbn [andb]. rewrite (proj2 (Z.leb_le _ _)) by lia. reflexivity.
    + rewrite (proj2 (Z.leb_le _ _)) by lia. rewrite (proj2 (Z.ltb_lt _ _)) by lia. reflexivity.
Qed.
Lemma fec_length_any x : (126 <= length (q_FEC x true))%nat.
Proof.
  rewrite q_FEC_psdu. unfold psdu_code. rewrite code_12_length, app_length, repeat_length.
  pose proof (psdu_blocks_spec (zlen x / 8) ltac:(apply Z.div_pos; unfold zlen; lia)) as [_ Hp].
  unfold zlen in *. Z.div_mod_to_equations. lia.
Qed.
(** in the DSSS modes that send bit by bit, every non-empty message of at most 2047 whole octets is accepted, and its header
    announces the whole octets only *)
Theorem C81_oqpsk_refuted p b rm sps s a bits : oq_used p b rm 0 sps s -> oq_supported b rm 0 -> needs_pairs b rm 0 = false -> 0 < sps ->
  check_binary_array a = Ok bits -> zlen bits / 8 <= 2047 -> zlen bits mod 8 <> 0 ->
  exists chips f, snd (q_bitsToChips p a s) = Ok (chips, f)
    /\ rx_mode (rx_header b chips) = (false, rm, zlen bits / 8) /\ 8 * (zlen bits / 8) < zlen bits.
Proof.
  intros Hu Hs Hn Hp Hb Hl Hm.
  assert (Ok_ : exists chips f, snd (q_bitsToChips p a s) = Ok (chips, f)).
  { rewrite (proj2 (bits_master p a s)), Hb, (used_params _ _ _ _ _ _ Hu). cbn [rbind].
    assert (H0 : 0 <= zlen bits / 8) by (apply Z.div_pos; unfold zlen; lia).
    unfold chips_pure. cbn [bare q_band q_RM q_SM q_sps]. cbv zeta. rewrite shr_ok. cbn [rbind fst snd].
    rewrite q_PHR_hdr; [|cbn [q_RM]; apply Hs|lia]. cbn [rbind q_SM q_RM]. rewrite phr_ok. cbn [rbind].
    assert (Ep : exists c, psdu_pure b rm 0 bits = Ok c).
    { unfold psdu_pure. rewrite orb_true_r. destruct (interleaver_total _ (fec_length_any bits)) as [y Ey]. rewrite Ey. cbn [rbind].
      change (0 =? 0) with true. cbv iota. destruct (sp_psdu_ok b rm (proj1 Hs)) as (E1 & E2 & E3). rewrite E1, E2. cbn [rbind]. cbv zeta.
      rewrite <- (needs_pairs_eq b rm 0 Hs) in Hn. unfold pairs_only, four_bits in Hn. change (0 =? 0) with true in Hn. cbv iota in Hn.
      destruct (sp_psdu b rm) as [sp|] eqn:Esp; [|eexists; reflexivity]. destruct (E3 sp eq_refl) as [Hi Hk].
      destruct Hk as [Hk|Hk]; rewrite Hk in Hn; [|discriminate]. rewrite spread_ok by assumption. rewrite Hk, Nat.mod_1_r. eexists. reflexivity. }
    destruct Ep as [c ->]. cbn [rbind]. rewrite pilots_ok. cbn [rbind]. pose proof (rate_ok b rm 0 sps Hs) as Er. unfold bare in Er. rewrite Er. cbn [rbind].
    rewrite (proj2 (Z.leb_gt sps 0)) by lia. do 2 eexists. reflexivity. }
  destruct Ok_ as (chips & f & E). exists chips, f. split; [exact E|]. split; [exact (any_header p b rm 0 sps s a bits chips f Hu Hs Hb Hl E)|].
  Z.div_mod_to_equations. lia.
Qed.
Print Assumptions C81_oqpsk_refuted.
(** whole octets: the count is exact, in every mode *)
Theorem C81_oqpsk_octets_partial p b rm sm sps s a bits chips f : oq_used p b rm sm sps s -> oq_supported b rm sm ->
  check_binary_array a = Ok bits -> zlen bits / 8 <= 2047 -> zlen bits mod 8 = 0 -> snd (q_bitsToChips p a s) = Ok (chips, f) ->
  8 * snd (rx_mode (rx_header b chips)) = zlen bits.
Proof.
  intros Hu Hs Hb Hl Hm E. rewrite (any_header p b rm sm sps s a bits chips f Hu Hs Hb Hl E). cbn [snd]. Z.div_mod_to_equations. lia.
Qed.
Print Assumptions C81_oqpsk_octets_partial.
Example C81_oqpsk_case : exists s chips f, oq_used Wrapping Band_868MHz 2 0 10 s /\ oq_supported Band_868MHz 2 0 /\ needs_pairs Band_868MHz 2 0 = false
  /\ snd (q_bitsToChips Wrapping (bits_arg (repeat true 13)) s) = Ok (chips, f) /\ rx_mode (rx_header Band_868MHz chips) = (false, 2, 1).
Proof.
  eexists. eexists. eexists. split; [eexists; exists []; split; reflexivity|]. split; [split; [lia|now left]|]. split; [reflexivity|].
  split; [vm_compute; reflexivity|]. vm_compute. reflexivity.
Qed.
