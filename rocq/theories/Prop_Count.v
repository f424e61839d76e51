(** * Property C81: messages that are not whole octets (MR-FSK and MR-OFDM; MR-O-QPSK in Prop_OqRx) *)
From Verif Require Import Tables MFsk SFsk PFsk Prop_Fsk.
From Verif Require Import Py MBits MPn9 MModul MOfdm MMrOfdm SBits SEntry SPn9 SMrOfdm PList PBits PPn9 PEntry PModul POfdm PStd PMrOfdm Prop_MrOfdm.

(** ** MR-FSK: every frame of a message that is not a whole number of octets announces fewer bits than it carries *)
Theorem C81_fsk_refuted s a bits frame : fsk_object s -> sends s a bits frame -> zlen bits mod 8 <> 0 ->
  let rx := fsk_receiver (k_fsk4 s) (k_preamble s) (k_fec s) (k_il s) (k_scheme s) frame in
  rx_payload rx = bits /\ 8 * rx_octets rx < zlen bits.
Proof.
  intros Ho Hs Hm rx. unfold rx. rewrite (C17_bits s a bits frame Ho Hs). cbn [rx_payload rx_octets]. split; [reflexivity|].
  Z.div_mod_to_equations. lia.
Qed.
Print Assumptions C81_fsk_refuted.
(** whole octets: the count is exact *)
Theorem C81_fsk_octets_partial s a bits frame : fsk_object s -> sends s a bits frame -> zlen bits mod 8 = 0 ->
  8 * rx_octets (fsk_receiver (k_fsk4 s) (k_preamble s) (k_fec s) (k_il s) (k_scheme s) frame) = zlen bits.
Proof.
  intros Ho Hs Hm. rewrite (C17_bits s a bits frame Ho Hs). cbn [rx_octets]. Z.div_mod_to_equations. lia.
Qed.
Print Assumptions C81_fsk_octets_partial.
(** messages of 13 bits, with and without FEC, are sent *)
(** a message of 13 bits, with FEC and without interleaving, is sent *)
Example C81_fsk_case : exists s bits frame,
  fsk_new (PInt 50000) (PFloat (1 # 2)) (PInt 1) (PStr "2FSK") (PBool true) (PInt 1) (PInt 1) (PBool true) (PBool false) (PInt 8) = Ok s
  /\ sends s (AList 1 (map inject_Z [1;0;1;1; 1;1;1;1; 0;0;0;1; 1])) bits frame /\ zlen bits mod 8 <> 0
  /\ rx_octets (fsk_receiver (k_fsk4 s) (k_preamble s) (k_fec s) (k_il s) (k_scheme s) frame) = 1.
Proof.
  eexists. eexists. eexists. split; [vm_compute; reflexivity|]. split; [|split].
  - unfold sends. split; [vm_compute; reflexivity|]. do 2 eexists. split; vm_compute; reflexivity.
  - vm_compute. discriminate.
  - vm_compute. reflexivity.
Qed.

(** ** MR-OFDM *)
(** every message of 8 bits or more is sent, with the header of the whole octets it contains *)
Theorem C81_ofdm_refuted opt mcs il scr s a a' bits : used opt mcs il scr s -> check_binary_array a = Ok bits -> 1 <= zlen bits / 8 <= 2047 ->
  zlen bits mod 8 <> 0 -> check_binary_array a' = Ok (firstn (8 * (length bits / 8)) bits) ->
  exists t phr pay t' pay', m_bits_symbols a s = (t, Ok (phr, pay)) /\ m_bits_symbols a' s = (t', Ok (phr, pay')).
Proof.
  intros Hu Hb Hn Hm Hb'. destruct (used_inv _ _ _ _ _ Hu) as (H1 & H2 & H3 & H4).
  assert (L : zlen (firstn (8 * (length bits / 8)) bits) / 8 = zlen bits / 8).
  { unfold zlen in *. rewrite firstn_length. rewrite Nat.min_l by (apply Nat.mul_div_le; lia).
    rewrite Nat2Z.inj_mul, Z.mul_comm, Z.div_mul by lia. now rewrite Nat2Z.inj_div. }
  rewrite (frame_run opt mcs il scr a bits s H1 H2 H3 H4 Hb Hn).
  rewrite (frame_run opt mcs il scr a' _ s H1 H2 H3 H4 Hb') by lia.
  do 5 eexists. split; [reflexivity|]. unfold frame_phr. rewrite L. reflexivity.
Qed.
Print Assumptions C81_ofdm_refuted.
Lemma plain_nth opt mcs scr bits i : pad_bits opt mcs (length bits) <> 0%nat -> (i < length (padded opt mcs bits))%nat ->
  nth i (plain opt mcs scr bits) false
  = if Nat.ltb i (length bits) then xorb (nth i bits false) (pn9_bit (scrambling_seed scr) i)
    else if Nat.ltb i (length bits + 6) then false else pn9_bit (scrambling_seed scr) i.
Proof.
  intros Hp Hi. unfold plain. cbv zeta. rewrite (proj2 (Nat.eqb_neq _ _) Hp).
  assert (Lw : length (scrambler (padded opt mcs bits) (scrambling_seed scr)) = length (padded opt mcs bits)) by apply scrambler_length.
  assert (Lp : (length bits + 6 <= length (padded opt mcs bits))%nat) by (unfold padded; rewrite app_length, repeat_length; lia).
  set (w := scrambler _ _) in *.
  assert (Lf : length (firstn (length bits) w) = length bits) by (rewrite firstn_length; lia).
  destruct (Nat.ltb_spec i (length bits)) as [H|H].
  - rewrite app_nth1 by lia. rewrite nth_firstn by assumption. unfold w. rewrite scrambler_nth by assumption.
    unfold padded at 1. now rewrite app_nth1 by assumption.
  - rewrite app_nth2 by lia. rewrite Lf. destruct (Nat.ltb_spec i (length bits + 6)) as [H'|H'].
    + rewrite app_nth1 by (rewrite repeat_length; lia). apply nth_repeat_false.
    + rewrite app_nth2 by (rewrite repeat_length; lia). rewrite repeat_length, nth_skipn.
      replace (length bits + 6 + (i - length bits - 6))%nat with i by lia. unfold w. rewrite scrambler_nth by assumption.
      unfold padded at 1. rewrite app_nth2 by lia. rewrite nth_repeat_false. apply xorb_false_l.
Qed.
(** worse, two different messages can give the same signal: a message of whole octets and the same with one more bit *)
Theorem C81_ofdm_collision_refuted opt mcs il scr s a a' bits : used opt mcs il scr s ->
  let n := length bits in let x := pn9_bit (scrambling_seed scr) n in
  check_binary_array a = Ok bits -> check_binary_array a' = Ok (bits ++ [x]) -> 1 <= zlen bits / 8 <= 2047 -> zlen bits mod 8 = 0 ->
  pn9_bit (scrambling_seed scr) (n + 6) = false ->
  (zlen bits + 6) mod data_bits opt mcs <> 0 -> (zlen bits + 7) mod data_bits opt mcs <> 0 ->
  exists frame, snd (m_bits_symbols a s) = Ok frame /\ snd (m_bits_symbols a' s) = Ok frame.
Proof.
  intros Hu n x Hb Hb' Hn H8 Hx Hg Hg'. destruct (used_inv _ _ _ _ _ Hu) as (H1 & H2 & H3 & H4).
  assert (L1 : zlen (bits ++ [x]) = zlen bits + 1) by (unfold zlen; rewrite app_length; cbn [length]; lia).
  assert (L2 : zlen (bits ++ [x]) / 8 = zlen bits / 8) by (rewrite L1; Z.div_mod_to_equations; lia).
  rewrite (frame_run opt mcs il scr a bits s H1 H2 H3 H4 Hb Hn).
  rewrite (frame_run opt mcs il scr a' _ s H1 H2 H3 H4 Hb') by lia. cbn [snd].
  eexists. split; [reflexivity|]. f_equal.
  destruct (groups_spec opt mcs (length bits) H1) as (G1 & G2 & G3). destruct (groups_spec opt mcs (length (bits ++ [x])) H1) as (K1 & K2 & K3).
  cbv zeta in G1, G2, G3, K1, K2, K3. pose proof (data_bits_pos opt mcs H1) as Hd. set (d := data_bits opt mcs) in *.
  assert (L3 : length (bits ++ [x]) = (length bits + 1)%nat) by (rewrite app_length; reflexivity).
  unfold zlen in Hg, Hg'. fold n in Hg, Hg', G1, G3, L3.
  assert (Eg : groups opt mcs (length (bits ++ [x])) = groups opt mcs n).
  { apply Nat2Z.inj. set (g := Z.of_nat (groups opt mcs n)) in *. set (g' := Z.of_nat (groups opt mcs (length (bits ++ [x])))) in *.
    rewrite L3 in K1.
    assert (g * d <> Z.of_nat n + 6) by (intro E; apply Hg; rewrite <- E; apply Z.mod_mul; lia).
    assert (g' < g + 1) by (apply Z.mul_lt_mono_pos_r with d; lia). assert (g < g' + 1) by (apply Z.mul_lt_mono_pos_r with d; lia). lia. }
  assert (P1 : pad_bits opt mcs (length bits) <> 0%nat).
  { intro E. apply Hg. fold n in E. rewrite E in G3. replace (Z.of_nat n + 6) with (Z.of_nat (groups opt mcs n) * d) by lia. apply Z.mod_mul. lia. }
  assert (P2 : pad_bits opt mcs (length (bits ++ [x])) <> 0%nat).
  { intro E. apply Hg'. rewrite E, Eg in K3. rewrite L3 in K3. replace (Z.of_nat n + 7) with (Z.of_nat (groups opt mcs n) * d) by lia. apply Z.mod_mul. lia. }
  assert (Ep : plain opt mcs scr (bits ++ [x]) = plain opt mcs scr bits).
  { pose proof (padded_length opt mcs bits H1) as Q1. pose proof (padded_length opt mcs (bits ++ [x]) H1) as Q2. rewrite Eg in Q2. fold n d in Q1, Q2.
    assert (Q : length (padded opt mcs (bits ++ [x])) = length (padded opt mcs bits)) by lia.
    apply list_eq_nth with false; [now rewrite !plain_length|]. intros i Hi. rewrite plain_length in Hi.
    rewrite !plain_nth by (assumption || congruence). rewrite L3. fold n.
    destruct (Nat.ltb_spec i n) as [A|A].
    - rewrite (proj2 (Nat.ltb_lt i (n + 1))) by lia. now rewrite app_nth1 by assumption.
    - destruct (Nat.ltb_spec i (n + 1)) as [B|B].
      + assert (i = n) as -> by lia. rewrite app_nth2 by (fold n; lia). fold n. rewrite Nat.sub_diag. cbn [nth]. fold x. rewrite xorb_nilpotent.
        now rewrite (proj2 (Nat.ltb_lt n (n + 6))) by lia.
      + destruct (Nat.ltb_spec i (n + 1 + 6)) as [C|C].
        * destruct (Nat.ltb_spec i (n + 6)) as [D|D]; [reflexivity|]. assert (i = n + 6)%nat as -> by lia. symmetry. exact Hx.
        * now rewrite (proj2 (Nat.ltb_ge i (n + 6))) by lia. }
  unfold frame_phr, frame_payload, pay_sent, npay. rewrite L2, Ep, Eg. reflexivity.
Qed.
Print Assumptions C81_ofdm_collision_refuted.

(** 32 bits, and the same 32 bits followed by a zero: accepted, same signal *)
Example C81_ofdm_case : exists s frame, used 1 2 0 0 s
  /\ snd (m_bits_symbols (bits_arg (repeat true 32)) s) = Ok frame /\ snd (m_bits_symbols (bits_arg (repeat true 32 ++ [false])) s) = Ok frame.
Proof.
  destruct (build (PInt 2) (PInt 1) (PInt 0) (PInt 0)) as [s|] eqn:E; [|vm_compute in E; discriminate].
  assert (Hu : used 1 2 0 0 s) by (exists (PInt 2), (PInt 1), (PInt 0), (PInt 0), s, []; repeat split; exact E).
  exists s. destruct (C81_ofdm_collision_refuted 1 2 0 0 s (bits_arg (repeat true 32)) (bits_arg (repeat true 32 ++ [false])) (repeat true 32) Hu) as [frame H].
  1-2: apply check_binary_bits_arg; discriminate.
  1: vm_compute; split; discriminate. 1-2: reflexivity. 1-2: vm_compute; discriminate.
  exists frame. split; [exact Hu|exact H].
Qed.
