(** * C108: MR-O-QPSK DSSS frames of any size *)
From Verif Require Import Py MBits MModul MOfdm Tables MRate MOqpsk SBits SEntry SRate SOqpsk SOqRx SOqDs SOqLong PList PBits PEntry PConv PRate POqpsk POqRun POqRx Prop_Oqpsk Prop_OqRx Prop_OqDs Prop_OqLoss.
Open Scope Z_scope.

Lemma pos_head nb j : (j < 126)%nat -> q_pos true (126 * nb) (125 - 7 * (j mod 18) - j / 18) = j.
Proof.
  intro H. pose proof (Nat.div_mod j 18 ltac:(lia)) as D. pose proof (Nat.mod_upper_bound j 18 ltac:(lia)) as U.
  set (q := (j mod 18)%nat) in *. set (a := (j / 18)%nat) in *. assert (a <= 6)%nat by lia.
  assert (E : q_il_index true (Z.of_nat (125 - 7 * q - a)) = Z.of_nat j).
  { unfold q_il_index. cbv zeta. change (126 / 7) with 18. replace (126 - 1 - Z.of_nat (125 - 7 * q - a)) with (Z.of_nat a + Z.of_nat q * 7) by lia.
    rewrite Z.mod_add, Z.div_add by lia. rewrite Z.mod_small, Z.div_small by lia. lia. }
  unfold q_pos. rewrite E. destruct (Z.ltb_spec (Z.of_nat j) 0); lia.
Qed.
Lemma pos_tail nb j : (j < 126 * nb)%nat -> q_pos true (126 * nb) (125 + 7 * (126 * nb - j)) = j.
Proof.
  intro H. assert (E : q_il_index true (Z.of_nat (125 + 7 * (126 * nb - j))) = - Z.of_nat (126 * nb - j)).
  { unfold q_il_index. cbv zeta. change (126 / 7) with 18. replace (126 - 1 - Z.of_nat (125 + 7 * (126 * nb - j))) with (0 + - Z.of_nat (126 * nb - j) * 7) by lia.
    rewrite Z.mod_add, Z.div_add by lia. change (0 mod 7) with 0. change (0 / 7) with 0. lia. }
  unfold q_pos. rewrite E. destruct (Z.ltb_spec (- Z.of_nat (126 * nb - j)) 0); lia.
Qed.
Lemma coded_bit_ok nb k j : (0 < nb)%nat -> length k = (126 * nb)%nat -> (j < 126 \/ 108 * nb + 18 <= j < 126 * nb)%nat -> coded_bit nb (ilv true k) j = nth j k false.
Proof.
  intros Hn Lk Hj. unfold coded_bit, ilv. rewrite Lk. destruct (Nat.ltb_spec j 126) as [H|H].
  - rewrite nth_map_seq by lia. now rewrite pos_head.
  - rewrite nth_map_seq by lia. now rewrite pos_tail by lia.
Qed.
Lemma code_12_firstn x m : (m <= length x)%nat -> firstn (2 * m) (code_12 0 x) = code_12 0 (firstn m x).
Proof.
  intro H. apply (nth_ext _ _ false false).
  - rewrite firstn_length, !code_12_length, firstn_length. lia.
  - intros i Hi. rewrite firstn_length, code_12_length in Hi. rewrite nth_firstn by lia.
    assert (T : forall n taps, (n < m)%nat -> xor_taps 0 x n taps = xor_taps 0 (firstn m x) n taps).
    { intros n taps Hm. unfold xor_taps. induction taps as [|t taps IH]; [reflexivity|]. cbn [fold_right]. rewrite IH. f_equal. unfold tap. destruct (Nat.leb_spec t n); [|reflexivity]. symmetry. apply nth_firstn. lia. }
    pose proof (Nat.div_mod i 2 ltac:(lia)) as D. pose proof (Nat.mod_upper_bound i 2 ltac:(lia)) as U. set (n := (i / 2)%nat) in *. set (u := (i mod 2)%nat) in *. clearbody n u.
    destruct (code_12_nth 0 x n ltac:(lia)) as [A1 A2]. destruct (code_12_nth 0 (firstn m x) n ltac:(rewrite firstn_length; lia)) as [B1 B2].
    assert (V : i = (2 * n)%nat \/ i = (2 * n + 1)%nat) by lia. destruct V as [-> | ->].
    + rewrite A1, B1. apply T. lia.
    + rewrite A2, B2. apply T. lia.
Qed.
Lemma front_ok nb x : (0 < nb)%nat -> length x = (63 * nb)%nat -> front nb (ilv true (code_12 0 x)) = firstn 63 x.
Proof.
  intros Hn Lx. unfold front. rewrite <- (decode_code (firstn 63 x)), <- code_12_firstn by lia. f_equal.
  apply (nth_ext _ _ false false).
  - rewrite map_length, seq_length, firstn_length, code_12_length. lia.
  - intros i Hi. rewrite map_length, seq_length in Hi. rewrite nth_map_seq by assumption. rewrite nth_firstn by lia. apply coded_bit_ok; [assumption|rewrite code_12_length; lia|lia].
Qed.
Lemma back_ok nb x : (0 < nb)%nat -> length x = (63 * nb)%nat -> skipn (63 * nb - 6) x = repeat false 6 ->
  forall k, (k <= 9 * nb - 9)%nat -> back nb (ilv true (code_12 0 x)) k = skipn (63 * nb - 6 - k) x.
Proof.
  intros Hn Lx Hz. induction k as [|k IH]; intro Hk; [rewrite Nat.sub_0_r; symmetry; exact Hz|].
  cbn [back]. rewrite IH by lia. set (j := (63 * nb - 6 - S k)%nat). replace (63 * nb - 6 - k)%nat with (S j) by lia.
  replace (63 * nb - 1 - k)%nat with (j + 6)%nat by lia. rewrite coded_bit_ok by (try rewrite code_12_length; lia).
  destruct (code_12_nth 0 x (j + 6) ltac:(lia)) as [-> _].
  assert (Ej : skipn j x = nth j x false :: skipn (S j) x).
  { assert (Hj : (j < length x)%nat) by lia. clearbody j. clear -Hj. revert j Hj. induction x as [|v x IH]; intros j Hj; [cbn in Hj; lia|]. destruct j as [|j]; [reflexivity|]. change (skipn j x = nth j x false :: skipn (S j) x). apply IH. cbn in Hj. lia. }
  rewrite Ej. f_equal. assert (Hs : forall i, nth i (skipn (S j) x) false = nth (S j + i) x false) by (intro i; apply nth_skipn).
  rewrite !Hs. unfold xor_taps, taps_133. cbn [fold_right]. assert (T : forall t, (t <= 6)%nat -> tap 0 x (j + 6) t = nth (j + 6 - t) x false) by (intros t Ht; unfold tap; destruct (Nat.leb_spec t (j + 6)); [reflexivity|lia]).
  rewrite !T by lia. replace (j + 6 - 0)%nat with (S j + 5)%nat by lia. replace (j + 6 - 2)%nat with (S j + 3)%nat by lia. replace (j + 6 - 3)%nat with (S j + 2)%nat by lia.
  replace (j + 6 - 5)%nat with (S j + 0)%nat by lia. replace (j + 6 - 6)%nat with j by lia.
  destruct (nth (S j + 5) x false), (nth (S j + 3) x false), (nth (S j + 2) x false), (nth (S j + 0) x false), (nth j x false); reflexivity.
Qed.
Lemma near_coded_eq p b sm rm len x r : let c := shr_chips b ++ phr_chips p b sm rm len ++ with_pilots b (match psdu_codes b rm with Some sp => spread sp x | None => x end) in
  0 <= rm <= 3 -> (forall sp, psdu_codes b rm = Some sp -> Nat.modulo (length x) (spread_bits sp) = 0%nat) -> length r = length c ->
  payload_legible b rm r c -> near_coded b rm r = if psdu_diff b rm then diff_decode false x else x.
Proof.
  intros c Hr Hx Lr P. unfold payload_legible, near_coded in *. cbv zeta in *.
  assert (Ls : length (skipn (payload_start b) r) = length (skipn (payload_start b) c)) by (rewrite !skipn_length; lia).
  assert (Lp : length (remove_pilots b (skipn (payload_start b) r)) = length (remove_pilots b (skipn (payload_start b) c))).
  { unfold remove_pilots. rewrite Ls. now apply remove_pilots_length. }
  assert (Hc : remove_pilots b (skipn (payload_start b) c) = match psdu_codes b rm with Some sp => spread sp x | None => x end).
  { unfold c. rewrite payload_here. unfold remove_pilots. now rewrite drop_pilots_ok by lia. }
  rewrite Hc in *. set (r' := remove_pilots b (skipn (payload_start b) r)) in *. destruct (psdu_codes b rm) as [sp|] eqn:Esp; [|now rewrite P].
  rewrite (psdu_codes_eq b rm Hr) in Esp. destruct (sp_psdu_ok b rm Hr) as (_ & _ & H3). destruct (H3 sp Esp) as [Hi _]. destruct (codes_ok sp Hi) as (_ & _ & Hc0 & _). specialize (Hx sp eq_refl).
  rewrite Lp in *. rewrite (spread_length sp x Hi Hx), Nat.div_mul in * by lia.
  rewrite (near_spread sp x); [reflexivity|assumption|assumption|reflexivity|now rewrite Lp, spread_length|assumption].
Qed.

(** ** C108 *)
(** what the receiver returns for each payload bit: the bit itself, or nothing if the frame does not contain it *)
Definition sent_part (nb : nat) (bits : list bool) : list (option bool) :=
  map (fun j => if is_sent nb j then Some (nth j bits false) else None) (seq 0 (length bits)).
(** every DSSS mode and size: modes, octet count, and every payload bit that is in the frame, with the chip errors of C91 *)
Theorem C108_receiver p b rm sps s a zs chips f received : oq_used p b rm 0 sps s -> oq_supported b rm 0 -> 0 < sps ->
  holds_octets a zs -> Forall is_octet zs -> 1 <= zlen zs <= 2047 -> snd (q_bytesToChips p a s) = Ok (chips, f) ->
  length received = length chips -> header_legible b received chips -> payload_legible b rm received chips ->
  long_receiver b received = (false, rm, zlen zs, sent_part (Z.to_nat (psdu_blocks (zlen zs))) (octet_bits zs)).
Proof.
  intros Hu Hs Hp Ha Ho Hl E Lr W P. destruct (C91_header p b rm 0 sps s a zs chips f received Hu Hs Hp Ha Ho Hl E Lr W) as [_ M].
  unfold long_receiver. rewrite M. change (0 =? 1) with false. f_equal. clear M W.
  change (snd (oq_send p (Octets a) s) = Ok (chips, f)) in E. rewrite (octets_sent p b rm 0 sps s a zs) in E by (auto; lia).
  destruct (needs_pairs b rm 0 && Z.odd (psdu_blocks (zlen zs))) eqn:Hn; [discriminate|]. injection E as <- <-.
  rewrite <- (needs_pairs_eq b rm 0 Hs) in Hn. change (pairs_only b rm 0) with (four_bits b rm) in Hn.
  destruct (psdu_blocks_spec (zlen zs) ltac:(lia)) as [B Bp]. set (nb := Z.to_nat (psdu_blocks (zlen zs))) in *. assert (Hnb : Z.of_nat nb = psdu_blocks (zlen zs)) by (unfold nb; lia).
  assert (L8 : length (octet_bits zs) = Z.to_nat (8 * zlen zs)) by (rewrite octet_bits_length; unfold zlen; lia).
  set (x := octet_bits zs ++ repeat false (Z.to_nat (63 * psdu_blocks (zlen zs) - 8 * zlen zs))).
  assert (Lx : length x = (63 * nb)%nat) by (unfold x; rewrite app_length, repeat_length, L8; lia).
  assert (Lk : length (code_12 0 x) = (126 * nb)%nat) by (rewrite code_12_length; lia).
  assert (Ld : length (dsss_bits b rm (zlen zs) (octet_bits zs)) = (126 * nb)%nat).
  { unfold dsss_bits. cbv zeta. destruct (bde_psdu b rm); rewrite ?BDE_length, ilv_length; exact Lk. }
  assert (EC : near_coded b rm received = ilv true (code_12 0 x)).
  { unfold psdu_chips in *. change (0 =? 0) with true in *. cbv iota in *. rewrite <- (psdu_codes_eq b rm (proj1 Hs)) in *.
    rewrite (near_coded_eq p b false rm (zlen zs) (dsss_bits b rm (zlen zs) (octet_bits zs)) received (proj1 Hs)); [| |exact Lr|exact P].
    - rewrite psdu_diff_eq by apply Hs. unfold dsss_bits. cbv zeta. destruct (bde_psdu b rm); [apply diff_decode_BDE|reflexivity].
    - intros sp Esp. rewrite (psdu_codes_eq b rm (proj1 Hs)) in Esp. rewrite Ld. unfold four_bits in Hn. rewrite Esp in Hn. destruct (sp_psdu_ok b rm (proj1 Hs)) as (_ & _ & H3).
      destruct (H3 sp Esp) as [_ Hk]. destruct Hk as [Hk|Hk]; rewrite Hk in *; [apply Nat.mod_1_r|]. cbn [Nat.eqb andb] in Hn.
      rewrite <- Hnb, <- Z.negb_even in Hn. apply negb_false_iff, Z.even_spec in Hn as [q Hq]. replace (126 * nb)%nat with (63 * Z.to_nat q * 4)%nat by lia. apply Nat.mod_mul. lia. }
  unfold long_payload, sent_part. fold nb. rewrite EC, L8. apply map_ext_in. intros j Hj. apply in_seq in Hj. unfold is_sent.
  assert (Hx : nth j x false = nth j (octet_bits zs) false) by (unfold x; apply app_nth1; lia).
  destruct (Nat.ltb_spec j 63) as [H|H]; cbn [orb].
  - rewrite front_ok by (try assumption; lia). rewrite nth_firstn by assumption. now rewrite Hx.
  - destruct (Nat.leb_spec (54 * nb + 3) j) as [G|G]; [|reflexivity].
    rewrite back_ok; [|lia|assumption| |lia].
    + rewrite nth_skipn. replace (63 * nb - 6 - (9 * nb - 9) + (j - (54 * nb + 3)))%nat with j by lia. now rewrite Hx.
    + unfold x. rewrite skipn_app, L8, skipn_all2 by lia. cbn [app]. set (z := Z.to_nat (63 * psdu_blocks (zlen zs) - 8 * zlen zs)).
      assert (Ez : z = (63 * nb - 6 - Z.to_nat (8 * zlen zs) + 6)%nat) by (unfold z; lia). rewrite Ez, repeat_app, skipn_app, repeat_length, Nat.sub_diag, skipn_O, skipn_all2 by (rewrite repeat_length; lia). reflexivity.
Qed.
Print Assumptions C108_receiver.
(** nothing else is in the frame: the bits the receiver does not return may be changed without changing any chip *)
Theorem C108_nothing_else p b rm sps s a zs chips f a' zs' : oq_used p b rm 0 sps s -> oq_supported b rm 0 -> 0 < sps ->
  holds_octets a zs -> holds_octets a' zs' -> Forall is_octet zs -> Forall is_octet zs' -> 1 <= zlen zs <= 2047 ->
  snd (q_bytesToChips p a s) = Ok (chips, f) -> zlen zs' = zlen zs ->
  sent_part (Z.to_nat (psdu_blocks (zlen zs))) (octet_bits zs') = sent_part (Z.to_nat (psdu_blocks (zlen zs))) (octet_bits zs) ->
  snd (q_bytesToChips p a' s) = Ok (chips, f).
Proof.
  intros Hu Hs Hp Ha Ha' Ho Ho' Hl E El Q. set (nb := Z.to_nat (psdu_blocks (zlen zs))) in *.
  pose proof (octets_sent p b rm 0 sps s a zs Hu Hs Hp Ha Ho Hl) as F. pose proof (octets_sent p b rm 0 sps s a' zs' Hu Hs Hp Ha' Ho' ltac:(lia)) as F'.
  cbn [oq_send] in F, F'. rewrite E in F. rewrite F'. rewrite El. destruct (_ && _) in F |- *; [discriminate|]. rewrite F.
  rewrite (psdu_chips_agree b rm 0 zs zs' Hs (eq_sym El) ltac:(lia)); [reflexivity|]. intros j Hj. fold nb in Hj.
  assert (LL : length (octet_bits zs') = length (octet_bits zs)) by (rewrite !octet_bits_length; unfold zlen in *; lia).
  destruct (Nat.lt_ge_cases j (length (octet_bits zs))) as [H|H]; [|rewrite !nth_overflow by lia; reflexivity].
  unfold sent_part in Q. rewrite LL in Q. apply (f_equal (fun l => nth j l None)) in Q. rewrite !nth_map_seq in Q by assumption.
  assert (S : is_sent nb j = true) by (unfold is_sent; destruct Hj; [rewrite (proj2 (Nat.ltb_lt _ _)) by assumption; reflexivity|rewrite (proj2 (Nat.leb_le _ _)) by assumption; apply orb_true_r]).
  rewrite S in Q. injection Q as Q. now symmetry.
Qed.
Print Assumptions C108_nothing_else.
(** non-vacuity: a mode that sends four bits at a time, 93 octets (12 blocks; bits 63 to 650 are lost), two wrong chips in each group of the payload *)
Example C108_case : exists s chips f, oq_used Wrapping Band_915MHz 1 0 10 s /\ oq_supported Band_915MHz 1 0
  /\ snd (q_bytesToChips Wrapping (ABytes (repeat x55 88 ++ [x0f; x35; x21; x77; x03])) s) = Ok (chips, f) /\ psdu_codes Band_915MHz 1 = Some ["(16,4)"%string]
  /\ long_receiver Band_915MHz (damage 8 3 (firstn (payload_start Band_915MHz) chips) ++ damage 16 2 (skipn (payload_start Band_915MHz) chips))
     = (false, 1, 93, sent_part 12 (octet_bits (repeat 85 88 ++ [15; 53; 33; 119; 3]))).
Proof.
  eexists. eexists. eexists. split; [eexists; exists []; split; reflexivity|]. split; [split; [lia|now left]|]. split; [vm_compute; reflexivity|].
  split; [reflexivity|]. vm_compute. reflexivity.
Qed.
