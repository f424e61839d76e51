(** * C90: MR-O-QPSK frames received from their samples by a matched filter *)
From Coq Require Import Reals Lra.
From Coquelicot Require Import Complex.
From Verif Require Import Py PList SBits SEntry MBits PBits PEntry MRate SRate PConv PRate MFields MModul MOfdm STime SGap PGap Tables MOqpsk SOqpsk PFskGap POqpsk POqRun Prop_Oqpsk POqGap MWave SWave PWave Prop_Wave SOqGap Prop_OqGap POqNoise Prop_OqNoise SOqRx POqRx Prop_OqRx SOqMf.

Local Notation c0 := (RtoC 0).
Section lemmas.
Local Open Scope R_scope.
Lemma cauchy_schwarz f g n : (sum_to (fun k => f k * g k) n) ^ 2 <= sum_to (fun k => f k ^ 2) n * sum_to (fun k => g k ^ 2) n.
Proof.
  induction n as [|n IH]; cbn [sum_to]; [lra|].
  set (S := sum_to (fun k => f k * g k) n) in *. set (A := sum_to (fun k => f k ^ 2) n) in *. set (B := sum_to (fun k => g k ^ 2) n) in *.
  assert (HA : 0 <= A) by (apply sum_to_nonneg; intros; apply pow2_ge_0). assert (HB : 0 <= B) by (apply sum_to_nonneg; intros; apply pow2_ge_0).
  set (u := f n). set (v := g n).
  assert (X : 2 * S * (u * v) <= A * v ^ 2 + B * u ^ 2).
  { assert (Y : (2 * S * (u * v)) ^ 2 <= (A * v ^ 2 + B * u ^ 2) ^ 2).
    { assert (Z1 : (2 * S * (u * v)) ^ 2 = 4 * (S ^ 2) * (u * v) ^ 2) by ring. rewrite Z1.
      assert (0 <= (A * v ^ 2 - B * u ^ 2) ^ 2) by apply pow2_ge_0. pose proof (pow2_ge_0 (u * v)).
      assert (4 * S ^ 2 * (u * v) ^ 2 <= 4 * (A * B) * (u * v) ^ 2) by nra. nra. }
    assert (P : 0 <= A * v ^ 2 + B * u ^ 2) by (pose proof (pow2_ge_0 u); pose proof (pow2_ge_0 v); nra).
    apply Rsqr_incr_0_var; [|assumption]. rewrite !Rsqr_pow2. assumption. }
  nra.
Qed.
Lemma gap_sum : forall a b, length a = length b -> gap a b = sum_to (fun k => (fst (nth k a c0) - fst (nth k b c0)) ^ 2) (length a) + sum_to (fun k => (snd (nth k a c0) - snd (nth k b c0)) ^ 2) (length a).
Proof.
  induction a as [|x a IH]; intros [|y b] L; try discriminate; [cbn; lra|]. cbn [length] in *. rewrite !sum_to_split. cbn [gap nth]. rewrite IH by lia.
  rewrite Cmod_pow2. cbn [fst snd Cminus Cplus Copp]. destruct x, y; cbn [fst snd]. ring.
Qed.
Lemma decide_axis (x : bool) (r s p : nat -> R) n E : E = sum_to (fun k => p k ^ 2) n -> (forall k, (k < n)%nat -> s k = polar x * p k) ->
  sum_to (fun k => (r k - s k) ^ 2) n < E -> positive (sum_to (fun k => r k * p k) n) = x.
Proof.
  intros HE Hs Hn. set (N := sum_to (fun k => (r k - s k) * p k) n).
  assert (D : sum_to (fun k => r k * p k) n = polar x * E + N).
  { unfold N. rewrite HE, <- sum_to_scal, <- sum_to_plus. apply sum_to_ext. intros k Hk. rewrite Hs by assumption. ring. }
  assert (C1 : N ^ 2 <= sum_to (fun k => (r k - s k) ^ 2) n * E) by (rewrite HE; apply (cauchy_schwarz (fun k => r k - s k) p)).
  assert (G0 : 0 <= sum_to (fun k => (r k - s k) ^ 2) n) by (apply sum_to_nonneg; intros; apply pow2_ge_0).
  assert (B : N ^ 2 < E ^ 2) by nra. assert (B' : Rabs N < E). { rewrite <- (Rabs_pos_eq E) by lra. apply Rsqr_lt_abs_0. rewrite !Rsqr_pow2. assumption. }
  apply Rabs_def2 in B'. rewrite D. unfold positive, polar. destruct x, (Rlt_dec 0 _); try reflexivity; exfalso; lra.
Qed.
Lemma nth_pair_block sps r j k : (k < sps)%nat -> nth k (pair_block sps r j) c0 = nth (j * sps + k) r c0.
Proof. intro H. unfold pair_block. rewrite nth_firstn by assumption. now rewrite nth_skipn. Qed.
Lemma pair_block_length sps r j n : length r = (n * sps + (sps - 1))%nat -> (j < n)%nat -> length (pair_block sps r j) = sps.
Proof. intros L H. unfold pair_block. rewrite firstn_length, skipn_length, L. nia. Qed.
Lemma pair_decided b Tc sps n c sig r j : 0 < Tc -> (0 < sps)%nat -> length c = (2 * n)%nat -> length sig = (n * sps + (sps - 1))%nat -> length r = length sig ->
  (forall j k, (j < n)%nat -> (k < sps)%nat -> nth (j * sps + k) sig c0 = Cmult (chip_pair c j) (RtoC (pulse b Tc sps k))) -> (j < n)%nat ->
  gap (pair_block sps r j) (pair_block sps sig j) < pulse_energy b (Z.of_nat sps) ->
  positive (fst (correlate b sps r j)) = nth (2 * j) c false /\ positive (snd (correlate b sps r j)) = nth (2 * j + 1) c false.
Proof.
  intros HT Hs Lc Ls Lr N Hj G. rewrite gap_sum in G by (rewrite !(pair_block_length sps _ j n); congruence). rewrite (pair_block_length sps r j n) in G by congruence.
  unfold pulse_energy in G. rewrite Nat2Z.id in G.
  match type of G with ?a + ?b < _ => assert (A0 : 0 <= a) by (apply sum_to_nonneg; intros; apply pow2_ge_0); assert (B0 : 0 <= b) by (apply sum_to_nonneg; intros; apply pow2_ge_0) end.
  assert (V : forall k, (k < sps)%nat -> nth k (pair_block sps sig j) c0 = Cmult (chip_pair c j) (RtoC (pulse b 1 sps k))).
  { intros k Hk. rewrite nth_pair_block, N by assumption. now rewrite pulse_scale. }
  split; unfold correlate; cbn [fst snd].
  - eapply (decide_axis _ _ (fun k => fst (nth k (pair_block sps sig j) c0))); [reflexivity| |].
    + intros k Hk. cbn beta. rewrite V by assumption. unfold chip_pair. cbn. ring.
    + rewrite (sum_to_ext _ (fun k => (fst (nth k (pair_block sps r j) c0) - fst (nth k (pair_block sps sig j) c0)) ^ 2)); [lra|]. intros k Hk. now rewrite (nth_pair_block sps r).
  - eapply (decide_axis _ _ (fun k => snd (nth k (pair_block sps sig j) c0))); [reflexivity| |].
    + intros k Hk. cbn beta. rewrite V by assumption. unfold chip_pair. cbn. ring.
    + rewrite (sum_to_ext _ (fun k => (snd (nth k (pair_block sps r j) c0) - snd (nth k (pair_block sps sig j) c0)) ^ 2)); [lra|]. intros k Hk. now rewrite (nth_pair_block sps r).
Qed.
End lemmas.

Lemma flat_map_const_length {A B} (F : A -> list B) m l : (forall x, length (F x) = m) -> length (flat_map F l) = (m * length l)%nat.
Proof. intro H. induction l as [|x l IH]; [cbn; lia|]. cbn [flat_map length]. rewrite app_length, H, IH. lia. Qed.
Lemma pairs_seq (c : list bool) n : length c = (2 * n)%nat -> c = flat_map (fun j => [nth (2 * j) c false; nth (2 * j + 1) c false]) (seq 0 n).
Proof.
  revert c. induction n as [|n IH]; intros c L; destruct c as [|x [|y c]]; cbn [length] in L; try lia; [reflexivity|].
  cbn [seq flat_map]. change (2 * 0)%nat with 0%nat. change (0 + 1)%nat with 1%nat. cbn [nth app]. f_equal. f_equal. rewrite (IH c) at 1 by lia.
  rewrite <- seq_shift, !flat_map_concat_map, map_map. f_equal. apply map_ext. intro j.
  replace (2 * S j)%nat with (S (S (2 * j))) by lia. replace (S (S (2 * j)) + 1)%nat with (S (S (2 * j + 1))) by lia. reflexivity.
Qed.
Lemma distance_pairs (u v : nat -> bool * bool) (bad : nat -> bool) l : (forall j, In j l -> bad j = false -> u j = v j) ->
  (distance (flat_map (fun j => [fst (u j); snd (u j)]) l) (flat_map (fun j => [fst (v j); snd (v j)]) l) <= 2 * length (filter bad l))%nat.
Proof.
  induction l as [|j l IH]; intro H; [apply Nat.le_refl|]. cbn [flat_map app filter]. rewrite distance_pair.
  specialize (IH (fun k Hk => H k (or_intror Hk))). destruct (bad j) eqn:B.
  - cbn [length]. destruct (xorb _ _), (xorb _ _); lia.
  - rewrite (H j (or_introl eq_refl) B), !xorb_nilpotent. lia.
Qed.
(** ** C90 *)
(** any transmission of any object, any received samples: at most two wrong chips for each chip pair in which the energy of
    the noise reaches that of the pulse *)
Theorem C90_chips g p b rm sm sps s r sig f received : oq_used p b rm sm sps s -> pulse_regular b sps -> snd (oq_signal g p r s) = Ok (sig, f) ->
  length received = length sig ->
  exists chips z, snd (oq_send p r s) = Ok (chips, z) /\ length (matched b (Z.to_nat sps) received) = length chips
  /\ (distance (matched b (Z.to_nat sps) received) chips
      <= 2 * length (filter (fun j => if Rlt_dec (gap (pair_block (Z.to_nat sps) received j) (pair_block (Z.to_nat sps) sig j)) (pulse_energy b sps) then false else true)
                            (seq 0 (length chips / 2))))%nat.
Proof.
  intros Hu Hg E Lr. pose proof (C57_frames g p b rm sm sps s r Hu) as H. destruct (snd (oq_send p r s)) as [[c z]|e]; [|congruence].
  destruct H as (rate & sg & _ & P1 & P2 & Es & _ & T). specialize (T Hg). rewrite E in Es. injection Es as <- _. exists c, z. split; [reflexivity|].
  destruct T as (n & Lc & Ls & N & _). set (w := Z.to_nat sps) in *. assert (Hw : (0 < w)%nat) by (unfold w; lia).
  assert (Ln : (length received / w)%nat = n). { rewrite Lr, Ls. symmetry. apply (Nat.div_unique _ _ _ (w - 1)); [lia|]. rewrite Nat.mul_comm. reflexivity. }
  assert (Hn : (length c / 2)%nat = n) by (rewrite Lc, Nat.mul_comm; apply Nat.div_mul; lia).
  unfold matched. rewrite Ln, Hn. split.
  - rewrite (flat_map_const_length _ 2), seq_length by reflexivity. lia.
  - rewrite (pairs_seq c n Lc) at 1.
    apply (distance_pairs (fun j => (positive (fst (correlate b w received j)), positive (snd (correlate b w received j)))) (fun j => (nth (2 * j) c false, nth (2 * j + 1) c false))).
    intros j Hj B. apply in_seq in Hj. destruct (Rlt_dec _ _) as [G|]; [|discriminate]. replace sps with (Z.of_nat w) in G by (unfold w; lia).
    destruct (pair_decided b (Tc_of rate) w n c sig received j) as [A1 A2]; try assumption; [now apply Tc_pos|lia|]. now rewrite A1, A2.
Qed.
Print Assumptions C90_chips.
Lemma few_pairs (f : nat -> bool) l : (forall j, In j l -> f j = false) -> length (filter f l) = 0%nat.
Proof. induction l as [|j l IH]; intro H; [reflexivity|]. cbn [filter]. rewrite (H j (or_introl eq_refl)). apply IH. intros; apply H; now right. Qed.
Lemma distance_zero : forall a b, length a = length b -> (distance a b <= 0)%nat -> a = b.
Proof.
  induction a as [|x a IH]; intros [|y b] L H; try discriminate; [reflexivity|]. unfold distance in H. cbn [xor_bits weight] in H. fold (distance a b) in H.
  destruct x, y; cbn [xorb] in H; try lia; f_equal; apply IH; cbn [length] in L; try lia.
Qed.
Lemma matched_exact g p b rm sm sps s r sig f received : oq_used p b rm sm sps s -> pulse_regular b sps -> snd (oq_signal g p r s) = Ok (sig, f) ->
  length received = length sig ->
  (forall j, (j * Z.to_nat sps + Z.to_nat sps <= length sig)%nat -> (gap (pair_block (Z.to_nat sps) received j) (pair_block (Z.to_nat sps) sig j) < pulse_energy b sps)%R) ->
  exists z, snd (oq_send p r s) = Ok (matched b (Z.to_nat sps) received, z).
Proof.
  intros Hu Hg E Lr Hn. destruct (C90_chips g p b rm sm sps s r sig f received Hu Hg E Lr) as (c & z & Ec & Lm & D). exists z. rewrite Ec. do 2 f_equal. symmetry. apply distance_zero; [assumption|].
  rewrite few_pairs in D; [assumption|]. intros j Hj. apply in_seq in Hj. destruct (Rlt_dec _ _) as [_|K]; [reflexivity|]. exfalso. apply K, Hn.
  pose proof (C57_frames g p b rm sm sps s r Hu) as H. rewrite Ec in H. destruct H as (rate & sg & _ & P1 & P2 & Es & Ls & _). rewrite E in Es. injection Es as <- _. rewrite Ls.
  assert (j < length c / 2)%nat by lia. nia.
Qed.
(** in every mode and for every size: preamble, SFD and header are read from the samples, whatever noise of energy below
    that of the pulse is added to each chip pair *)
Theorem C90_header g p b rm sm sps s a zs sig f received : oq_used p b rm sm sps s -> oq_supported b rm sm -> 0 < sps -> pulse_regular b sps ->
  holds_octets a zs -> Forall is_octet zs -> 1 <= zlen zs <= 2047 -> snd (q_bytesToIQ g p a s) = Ok (sig, f) -> length received = length sig ->
  (forall j, (j * Z.to_nat sps + Z.to_nat sps <= length sig)%nat -> (gap (pair_block (Z.to_nat sps) received j) (pair_block (Z.to_nat sps) sig j) < pulse_energy b sps)%R) ->
  rx_shr b (matched b (Z.to_nat sps) received) = repeat false (preamble_bits b) ++ sfd_bits
  /\ rx_mode (rx_header b (matched b (Z.to_nat sps) received)) = (sm =? 1, rm, zlen zs).
Proof.
  intros Hu Hs Hp Hg Ha Ho Hl E Lr Hn. destruct (matched_exact g p b rm sm sps s (Octets a) sig f received Hu Hg E Lr Hn) as (z & Ec). cbn [oq_send] in Ec.
  now apply (C56_header_receiver p b rm sm sps s a zs _ z).
Qed.
Print Assumptions C90_header.
(** DSSS, at most 7 octets: the payload too *)
Theorem C90_receiver g p b rm sps s a zs sig f received : oq_used p b rm 0 sps s -> oq_supported b rm 0 -> 0 < sps -> pulse_regular b sps ->
  holds_octets a zs -> Forall is_octet zs -> 1 <= zlen zs <= 7 -> snd (q_bytesToIQ g p a s) = Ok (sig, f) -> length received = length sig ->
  (forall j, (j * Z.to_nat sps + Z.to_nat sps <= length sig)%nat -> (gap (pair_block (Z.to_nat sps) received j) (pair_block (Z.to_nat sps) sig j) < pulse_energy b sps)%R) ->
  oq_receiver b (matched b (Z.to_nat sps) received) = {| f_mdsss := false; f_rate_mode := rm; f_octets := zlen zs; f_bits := octet_bits zs |}.
Proof.
  intros Hu Hs Hp Hg Ha Ho Hl E Lr Hn. destruct (matched_exact g p b rm 0 sps s (Octets a) sig f received Hu Hg E Lr Hn) as (z & Ec). cbn [oq_send] in Ec.
  now apply (C56_receiver p b rm sps s a zs _ z).
Qed.
Print Assumptions C90_receiver.

(** ** unknown gain *)
Lemma correlate_scale b sps g r j : correlate b sps (map (Cmult g) r) j = Cmult g (correlate b sps r j).
Proof.
  assert (E : forall k, nth k (map (Cmult g) r) c0 = Cmult g (nth k r c0)). { intro k. replace c0 with (Cmult g c0) at 1 by ring. apply map_nth. }
  unfold correlate. rewrite (sum_to_ext (fun k => fst (nth (j * sps + k) (map (Cmult g) r) c0) * pulse b 1 sps k)%R (fun k => fst g * (fst (nth (j * sps + k) r c0) * pulse b 1 sps k) + - snd g * (snd (nth (j * sps + k) r c0) * pulse b 1 sps k))%R).
  2:{ intros k _. rewrite E. cbn. ring. }
  rewrite (sum_to_ext (fun k => snd (nth (j * sps + k) (map (Cmult g) r) c0) * pulse b 1 sps k)%R (fun k => fst g * (snd (nth (j * sps + k) r c0) * pulse b 1 sps k) + snd g * (fst (nth (j * sps + k) r c0) * pulse b 1 sps k))%R).
  2:{ intros k _. rewrite E. cbn. ring. }
  rewrite !sum_to_plus, !sum_to_scal. unfold Cmult. cbn [fst snd]. f_equal. ring.
Qed.
Lemma first_sent b rest : chip_pair (shr_chips b ++ rest) 0 = chip_pair (first_chips b) 0.
Proof.
  assert (H : (2 <= length (shr_chips b))%nat /\ nth 0 (shr_chips b) false = nth 0 (first_chips b) false /\ nth 1 (shr_chips b) false = nth 1 (first_chips b) false) by (destruct b; vm_compute; repeat split; lia).
  destruct H as (L & A & B). unfold chip_pair. change (2 * 0)%nat with 0%nat. change (0 + 1)%nat with 1%nat. rewrite !app_nth1 by lia. now rewrite A, B.
Qed.
Lemma gap_same : forall x, gap x x = 0%R.
Proof. induction x as [|a x IH]; [reflexivity|]. cbn [gap]. rewrite IH. replace (a - a)%C with c0 by ring. rewrite Cmod_0. ring. Qed.
Lemma chip_pair_nonzero c j : chip_pair c j <> c0.
Proof. unfold chip_pair, RtoC. intro H. injection H as H _. revert H. unfold polar. destruct (nth _ _ _); lra. Qed.
(** any nonzero gain and phase: measured on the first chip pair, exactly; the chips, the header and (DSSS, at most 7 octets)
    the payload follow *)
Theorem C90_gain gl p b rm sm sps s a zs sig f g : oq_used p b rm sm sps s -> oq_supported b rm sm -> pulse_regular b sps ->
  (match b with Band_915MHz | Band_2450MHz => 3 | _ => 2 end <= sps) -> g <> c0 ->
  holds_octets a zs -> Forall is_octet zs -> 1 <= zlen zs <= 2047 -> snd (q_bytesToIQ gl p a s) = Ok (sig, f) ->
  let chips := coherent b (Z.to_nat sps) (map (Cmult g) sig) in
  measured_gain b (Z.to_nat sps) (map (Cmult g) sig) = g
  /\ rx_shr b chips = repeat false (preamble_bits b) ++ sfd_bits /\ rx_mode (rx_header b chips) = (sm =? 1, rm, zlen zs)
  /\ (sm = 0 -> zlen zs <= 7 -> oq_receiver b chips = {| f_mdsss := false; f_rate_mode := rm; f_octets := zlen zs; f_bits := octet_bits zs |}).
Proof.
  intros Hu Hs Hg Hm Hz Ha Ho Hl E chips. assert (Hp : 0 < sps) by (destruct b; lia). pose proof (pulse_energy_pos b sps Hm) as HE.
  pose proof (C57_frames gl p b rm sm sps s (Octets a) Hu) as H. cbn [oq_send oq_signal] in H. rewrite E in H.
  destruct (snd (q_bytesToChips p a s)) as [[c z]|e] eqn:Ec; [|congruence]. destruct H as (rate & sg & _ & P1 & P2 & Es & _ & T). specialize (T Hg). injection Es as <- _.
  assert (Hc : exists rest, c = shr_chips b ++ rest).
  { pose proof Ec as E'. change (snd (oq_send p (Octets a) s) = Ok (c, z)) in E'. rewrite (octets_sent p b rm sm sps s a zs) in E' by assumption. destruct (_ && _); [discriminate|]. injection E' as <- _. eexists. reflexivity. }
  destruct Hc as [rest Hc].
  assert (M : measured_gain b (Z.to_nat sps) (map (Cmult g) sig) = g).
  { unfold measured_gain. rewrite correlate_scale, Z2Nat.id by lia. destruct T as (n & Lc & Ls & N & _).
    assert (Hn : (0 < n)%nat). { assert (0 < length (shr_chips b))%nat by (destruct b; vm_compute; lia). rewrite Hc, app_length in Lc. lia. }
    assert (C0 : correlate b (Z.to_nat sps) sig 0 = Cmult (chip_pair c 0) (RtoC (pulse_energy b sps))).
    { unfold correlate, pulse_energy. rewrite (sum_to_ext _ (fun k => fst (chip_pair c 0) * pulse b 1 (Z.to_nat sps) k ^ 2)%R).
      2:{ intros k Hk. rewrite N by assumption. rewrite pulse_scale by (try lia; now apply Tc_pos). cbn. ring. }
      rewrite (sum_to_ext (fun k => snd (nth (0 * Z.to_nat sps + k) sig c0) * pulse b 1 (Z.to_nat sps) k)%R (fun k => snd (chip_pair c 0) * pulse b 1 (Z.to_nat sps) k ^ 2)%R).
      2:{ intros k Hk. rewrite N by assumption. rewrite pulse_scale by (try lia; now apply Tc_pos). cbn. ring. }
      rewrite !sum_to_scal. unfold Cmult, RtoC. cbn [fst snd]. f_equal; ring. }
    rewrite C0, Hc, first_sent. assert (HE' : RtoC (pulse_energy b sps) <> c0) by (intro K; injection K; lra). field. split; [assumption|apply chip_pair_nonzero]. }
  assert (K : chips = c).
  { unfold chips, coherent. rewrite M, map_map. rewrite (map_ext _ (fun x => x)) by (intro x; field; assumption). rewrite map_id.
    destruct (matched_exact gl p b rm sm sps s (Octets a) sig f sig Hu Hg E eq_refl) as (z' & Ez); [intros; rewrite gap_same; assumption|]. cbn [oq_send] in Ez. congruence. }
  split; [assumption|]. rewrite K. destruct (C56_header_receiver p b rm sm sps s a zs c z Hu Hs Hp Ha Ho Hl Ec) as [R1 R2]. split; [assumption|]. split; [assumption|].
  intros -> H7. apply (C56_receiver p b rm sps s a zs c z); try assumption. lia.
Qed.
Print Assumptions C90_gain.
Example C90_case g : exists s sig f, oq_used Wrapping Band_915MHz 0 0 8 s /\ oq_supported Band_915MHz 0 0 /\ pulse_regular Band_915MHz 8 /\ snd (q_bytesToIQ g Wrapping (ABytes [x55; x0f]) s) = Ok (sig, f).
Proof. destruct (example_3 g) as (sig & f & E). exists (example_object 0), sig, f. split; [apply example_used|]. split; [split; [lia|now left]|]. split; [exact I|assumption]. Qed.
