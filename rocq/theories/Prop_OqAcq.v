(** * C95: MR-O-QPSK frames are received from their samples without knowing timing, gain, phase or beginning *)
From Coq Require Import Reals Lra.
From Coquelicot Require Import Complex.
From Verif Require Import Py PList SBits SEntry MBits PBits PEntry MRate SRate PConv PRate MFields MModul MOfdm STime SGap PGap Tables MOqpsk SOqpsk POqpsk POqRun Prop_Oqpsk MWave SWave PWave Prop_Wave SOqGap POqNoise Prop_OqNoise SOqRx POqRx Prop_OqRx SOqMf Prop_OqMf SOqDs Prop_OqDs SOqSync Prop_OqSync SOqAcq POqAcq.
From Verif Require PFskGap.
Open Scope Z_scope.
Local Notation c0 := (RtoC 0).

(** ** correlation of two sequences of chips, in integers *)
Definition amp (x : bool) : Z := if x then 1 else -1.
Fixpoint corr (u v : list bool) : Z * Z :=
  match u, v with
  | x :: y :: u', x' :: y' :: v' => let (re, im) := corr u' v' in (amp x * amp x' + amp y * amp y' + re, amp x * amp y' - amp y * amp x' + im)
  | _, _ => (0, 0)
  end.
Lemma csum_front f n : csum f (S n) = Cplus (f 0%nat) (csum (fun k => f (S k)) n).
Proof. induction n as [|n IH]; [cbn; ring|]. cbn [csum] in *. rewrite IH. ring. Qed.
Lemma csum_ext f g n : (forall k, (k < n)%nat -> f k = g k) -> csum f n = csum g n.
Proof. induction n as [|n IH]; intro H; [reflexivity|]. cbn [csum]. rewrite IH by (intros; apply H; lia). now rewrite H by lia. Qed.
Lemma csum_factor a f n : csum (fun k => Cmult a (f k)) n = Cmult a (csum f n).
Proof. induction n as [|n IH]; [cbn [csum]; ring|]. cbn [csum]. rewrite IH. ring. Qed.
Lemma polar_amp x : polar x = IZR (amp x).
Proof. destruct x; reflexivity. Qed.
Lemma corr_sum n : forall u v, length u = (2 * n)%nat -> length v = (2 * n)%nat ->
  csum (fun j => Cmult (Cconj (chip_pair u j)) (chip_pair v j)) n = (IZR (fst (corr u v)), IZR (snd (corr u v))).
Proof.
  induction n as [|n IH]; intros u v Lu Lv.
  - destruct u; [|cbn [length] in Lu; lia]. reflexivity.
  - destruct u as [|x [|y u]]; cbn [length] in Lu; try lia. destruct v as [|x' [|y' v]]; cbn [length] in Lv; try lia.
    rewrite csum_front. rewrite (csum_ext _ (fun j => Cmult (Cconj (chip_pair u j)) (chip_pair v j))).
    2:{ intros k _. unfold chip_pair. replace (2 * S k)%nat with (S (S (2 * k))) by lia. reflexivity. }
    rewrite IH by lia. cbn [corr]. destruct (corr u v) as [re im]. cbn [fst snd]. rewrite !plus_IZR, minus_IZR, !mult_IZR, <- !polar_amp.
    unfold chip_pair. change (2 * 0)%nat with 0%nat. change (0 + 1)%nat with 1%nat. cbn [nth]. unfold Cconj, Cmult, Cplus. cbn [fst snd]. f_equal; ring.
Qed.
(** the pair phases of the unit: full correlation with itself, less with every other *)
Definition chk_corr (b : Frequency_band) : bool :=
  Nat.eqb (Nat.modulo (period b) 2) 0 &&
  forallb (fun i => forallb (fun k => let (re, im) := corr (turned b (2 * i)) (turned b (2 * k)) in
    if Nat.eqb i k then (re =? Z.of_nat (period b)) && (im =? 0) else re * re + im * im <? Z.of_nat (period b) * Z.of_nat (period b))
    (seq 0 (Nat.div (period b) 2))) (seq 0 (Nat.div (period b) 2)).
Lemma corr_facts : forallb chk_corr all_bands = true.
Proof. vm_compute. reflexivity. Qed.
Lemma period_even b : exists h, period b = (2 * h)%nat /\ (0 < h)%nat /\ (period b / 2 = h)%nat.
Proof.
  pose proof corr_facts as F. rewrite forallb_forall in F. specialize (F b (bands_in b)). apply andb_prop in F as [F _]. apply Nat.eqb_eq in F.
  pose proof (Nat.div_mod (period b) 2 ltac:(lia)). pose proof (period_pos b). exists (Nat.div (period b) 2). lia.
Qed.
Lemma corr_phases b i k : (i < period b / 2)%nat -> (k < period b / 2)%nat ->
  if Nat.eqb i k then corr (turned b (2 * i)) (turned b (2 * k)) = (Z.of_nat (period b), 0)
  else let (re, im) := corr (turned b (2 * i)) (turned b (2 * k)) in re * re + im * im < Z.of_nat (period b) * Z.of_nat (period b).
Proof.
  intros Hi Hk. pose proof corr_facts as F. rewrite forallb_forall in F. specialize (F b (bands_in b)). apply andb_prop in F as [_ F].
  rewrite forallb_forall in F. specialize (F i ltac:(apply in_seq; lia)). rewrite forallb_forall in F. specialize (F k ltac:(apply in_seq; lia)). cbn beta in F.
  destruct (corr _ _) as [re im]. destruct (Nat.eqb i k).
  - apply andb_prop in F as [F1 F2]. apply Z.eqb_eq in F1, F2. now subst.
  - now apply Z.ltb_lt in F.
Qed.

Lemma heard_map g n sig : heard g n sig = map (Cmult g) (skipn n sig).
Proof. apply skipn_map. Qed.
Lemma next_boundary sps n : (0 < sps)%nat -> (n + (sps - n mod sps) mod sps = pairs_before sps n * sps)%nat.
Proof.
  intro H. unfold pairs_before. pose proof (Nat.div_mod n sps ltac:(lia)) as D. pose proof (Nat.mod_upper_bound n sps ltac:(lia)) as U. set (q := (n / sps)%nat) in *. set (m := (n mod sps)%nat) in *.
  destruct (Nat.eq_dec m 0) as [Z0|NZ].
  - rewrite Z0, Nat.sub_0_r, Nat.mod_same by lia. replace ((n + sps - 1) / sps)%nat with q; [nia|]. apply (Nat.div_unique _ _ _ (sps - 1)); lia.
  - rewrite (Nat.mod_small (sps - m)) by lia. replace ((n + sps - 1) / sps)%nat with (S q); [nia|]. apply (Nat.div_unique _ _ _ (m - 1)); lia.
Qed.
Lemma lt_by_squares x y : (0 <= y -> x ^ 2 < y ^ 2 -> x < y)%R.
Proof. intros. nra. Qed.

Section acquisition.
Context (b : Frequency_band) (Tc : R) (sps m : nat) (c : list bool) (sig : list C).
Context (HT : (0 < Tc)%R) (Hm : (match b with Band_915MHz | Band_2450MHz => 3 | _ => 2 end <= sps)%nat) (Hg : pulse_regular b (Z.of_nat sps)).
Context (N : forall j k, (j < m)%nat -> (k < sps)%nat -> nth (j * sps + k) sig c0 = Cmult (chip_pair c j) (RtoC (pulse b Tc sps k))).
Context (Hc : firstn (header_start b) c = shr_chips b) (Lc : length c = (2 * m)%nat).
Lemma energy_pos : (0 < pulse_energy b (Z.of_nat sps))%R.
Proof. apply pulse_energy_pos. destruct b; lia. Qed.
Lemma timing_found g n : g <> c0 -> (pairs_before sps n + 1 < m)%nat -> timing b sps (heard g n sig) = ((sps - n mod sps) mod sps)%nat.
Proof.
  intros Hz Hn. assert (Hp : (0 < sps)%nat) by (destruct b; lia). pose proof (next_boundary sps n Hp) as NB. rewrite heard_map. set (t := ((sps - n mod sps) mod sps)%nat) in *.
  assert (Ht : (t < sps)%nat) by (apply Nat.mod_upper_bound; lia).
  assert (Gp : (0 < Cmod g)%R) by now apply Cmod_gt_0.
  assert (S : forall h, strength b sps (map (Cmult g) (skipn n sig)) h = (Cmod g * Cmod (correlate b sps (skipn (n + h) sig) 0))%R).
  { intro h. unfold strength. rewrite skipn_map, correlate_scale, Cmod_mult, skip_twice. reflexivity. }
  unfold timing. apply best_is; [assumption|]. intros h Hh Nh. rewrite !S. apply Rmult_lt_compat_l; [assumption|]. apply lt_by_squares; [apply Cmod_ge_0|].
  rewrite NB, (strength_boundary b Tc sps m c sig) by (assumption || lia).
  set (d := ((n + h) mod sps)%nat). set (J := ((n + h) / sps)%nat). pose proof (Nat.div_mod (n + h) sps ltac:(lia)) as D. fold J d in D. pose proof (Nat.mod_upper_bound (n + h) sps ltac:(lia)) as U. fold d in U.
  set (K := pairs_before sps n) in *.
  destruct (Nat.eq_dec d 0) as [Z0|NZ].
  - exfalso. apply Nh. assert (J = K); nia.
  - replace (n + h)%nat with (J * sps + d)%nat by lia. assert (J <= K)%nat by nia. apply (strength_inside b Tc sps m c sig); try assumption; lia.
Qed.
(** chips of the period from pair J on *)
Lemma pairs_turned J j : (2 * J + period b <= preamble_bits b * spread_chips (shr_codes b))%nat -> (j < period b / 2)%nat ->
  chip_pair c (J + j) = chip_pair (turned b (2 * (J mod (period b / 2)))) j.
Proof.
  intros HJ Hj. destruct (period_even b) as (h & P & H0 & Hh). rewrite Hh in *.
  assert (E : ((2 * J) mod period b = 2 * (J mod h))%nat) by (rewrite P; apply Nat.mul_mod_distr_l; lia).
  pose proof (preamble_slice b c (2 * J) Hc HJ) as S. rewrite E in S. rewrite <- S. unfold chip_pair, slice.
  rewrite !nth_firstn by lia. rewrite !nth_skipn. do 3 f_equal; lia.
Qed.
Lemma gain_found g J : g <> c0 -> (2 * J + period b <= preamble_bits b * spread_chips (shr_codes b))%nat -> (J + period b / 2 <= m)%nat ->
  acquired_gain b sps (map (Cmult g) (skipn (J * sps) sig)) = g.
Proof.
  intros Hz HJ HJm. destruct (period_even b) as (h & P & H0 & Hh). pose proof energy_pos as HE. set (E := pulse_energy b (Z.of_nat sps)) in *. set (k := (J mod (period b / 2))%nat).
  assert (Hk : (k < period b / 2)%nat) by (apply Nat.mod_upper_bound; lia).
  assert (M : forall i, (i < period b / 2)%nat -> match_phase b sps (map (Cmult g) (skipn (J * sps) sig)) i
     = Cmult (Cmult g (RtoC E)) (IZR (fst (corr (turned b (2 * i)) (turned b (2 * k)))), IZR (snd (corr (turned b (2 * i)) (turned b (2 * k)))))).
  { intros i Hi. unfold match_phase. rewrite <- (corr_sum (period b / 2)) by (rewrite turned_length; lia). rewrite <- csum_factor. apply csum_ext. intros j Hj.
    rewrite correlate_scale, (at_boundary b Tc sps m c sig) by (assumption || lia). rewrite (pairs_turned J j HJ Hj). fold k E. ring. }
  assert (Gp : (0 < Cmod (Cmult g (RtoC E)))%R). { rewrite Cmod_mult, Cmod_R, Rabs_pos_eq by lra. apply Rmult_lt_0_compat; [now apply Cmod_gt_0|assumption]. }
  assert (K : pair_phase b sps (map (Cmult g) (skipn (J * sps) sig)) = k).
  { unfold pair_phase. apply best_is; [assumption|]. intros i Hi Ni. rewrite !M by assumption. rewrite !(Cmod_mult (Cmult g (RtoC E))). apply Rmult_lt_compat_l; [assumption|]. apply lt_by_squares; [apply Cmod_ge_0|].
    pose proof (corr_phases b k k Hk Hk) as C1. rewrite Nat.eqb_refl in C1. rewrite C1. pose proof (corr_phases b i k Hi Hk) as C2. apply Nat.eqb_neq in Ni. rewrite Ni in C2.
    destruct (corr (turned b (2 * i)) _) as [re im]. rewrite !Cmod_pow2. cbn [fst snd]. apply IZR_lt in C2. rewrite plus_IZR, !mult_IZR in C2. lra. }
  unfold acquired_gain. rewrite K, M by assumption. pose proof (corr_phases b k k Hk Hk) as C1. rewrite Nat.eqb_refl in C1. rewrite C1. cbn [fst snd]. fold E. rewrite <- INR_IZR_INZ, RtoC_mult.
  change (INR (period b), IZR 0) with (RtoC (INR (period b))). assert (A : RtoC E <> c0) by (intro X; injection X; lra). assert (B : RtoC (INR (period b)) <> c0) by (intro X; injection X; pose proof (lt_0_INR (period b) (period_pos b)); lra).
  field. now split.
Qed.
Lemma chips_found J : (J <= m)%nat -> length sig = (m * sps + (sps - 1))%nat -> matched b sps (skipn (J * sps) sig) = skipn (2 * J) c.
Proof.
  intros HJ Ls. pose proof energy_pos as HE. assert (Hp : (0 < sps)%nat) by (destruct b; lia).
  unfold matched. replace (length (skipn (J * sps) sig) / sps)%nat with (m - J)%nat. 2:{ rewrite skipn_length, Ls. apply (Nat.div_unique _ _ _ (sps - 1)); [lia|]. nia. }
  rewrite (pairs_seq (skipn (2 * J) c) (m - J)) by (rewrite skipn_length; lia). rewrite !flat_map_concat_map. f_equal. apply map_ext_in. intros j Hj. apply in_seq in Hj.
  rewrite (at_boundary b Tc sps m c sig) by (assumption || lia). rewrite !nth_skipn.
  assert (P : forall x e, (e = polar x * pulse_energy b (Z.of_nat sps))%R -> positive e = x). { intros x e ->. unfold positive, polar. destruct x, (Rlt_dec _ _); try reflexivity; exfalso; lra. }
  cbv zeta. f_equal; [|f_equal]; apply P; unfold chip_pair; cbn [fst snd Cmult RtoC].
  - replace (2 * J + 2 * j)%nat with (2 * (J + j))%nat by lia. ring.
  - replace (2 * J + (2 * j + 1))%nat with (2 * (J + j) + 1)%nat by lia. ring.
Qed.
End acquisition.

(** ** C95 *)
(** what is sent, from the returned signal *)
Lemma sent_signal gl p b rm sm sps s a zs sig f : oq_used p b rm sm sps s -> oq_supported b rm sm -> pulse_regular b sps -> 0 < sps ->
  holds_octets a zs -> Forall is_octet zs -> 1 <= zlen zs <= 2047 -> snd (q_bytesToIQ gl p a s) = Ok (sig, f) ->
  exists c z rate m, snd (q_bytesToChips p a s) = Ok (c, z) /\ (0 < Tc_of rate)%R /\ length c = (2 * m)%nat /\ length sig = (m * Z.to_nat sps + (Z.to_nat sps - 1))%nat
  /\ (forall j k, (j < m)%nat -> (k < Z.to_nat sps)%nat -> nth (j * Z.to_nat sps + k) sig c0 = Cmult (chip_pair c j) (RtoC (pulse b (Tc_of rate) (Z.to_nat sps) k)))
  /\ firstn (header_start b) c = shr_chips b /\ (header_start b <= length c)%nat.
Proof.
  intros Hu Hs Hg Hp Ha Ho Hl E. pose proof (C57_frames gl p b rm sm sps s (Octets a) Hu) as H. cbn [oq_send oq_signal] in H. rewrite E in H.
  destruct (snd (q_bytesToChips p a s)) as [[c z]|e] eqn:Ec; [|congruence]. destruct H as (rate & sg & _ & P1 & P2 & Es & _ & T). specialize (T Hg). injection Es as <- _.
  destruct T as (m & Lc & Ls & N & _). exists c, z, rate, m. split; [reflexivity|]. split; [now apply Tc_pos|]. split; [assumption|]. split; [assumption|]. split; [assumption|].
  pose proof (starts_with_shr p b rm sm sps s a zs c z Hu Hs Hp Ha Ho Hl Ec) as S. split; [apply S|]. 
  rewrite <- (shr_chips_len b), <- S, firstn_length. lia.
Qed.

(** ** the conditions of a reception: timing found exactly *)
Theorem C95_timing gl p b rm sm sps s a zs sig f g n : oq_used p b rm sm sps s -> oq_supported b rm sm -> pulse_regular b sps ->
  (match b with Band_915MHz | Band_2450MHz => 3 | _ => 2 end <= sps) -> g <> c0 ->
  holds_octets a zs -> Forall is_octet zs -> 1 <= zlen zs <= 2047 -> snd (q_bytesToIQ gl p a s) = Ok (sig, f) ->
  let w := Z.to_nat sps in
  (2 * pairs_before w n + period b <= preamble_bits b * spread_chips (shr_codes b))%nat ->
  timing b w (heard g n sig) = ((w - n mod w) mod w)%nat.
Proof.
  intros Hu Hs Hg Hm Hz Ha Ho Hl E w Hn. assert (Hp : 0 < sps) by (destruct b; lia).
  destruct (sent_signal gl p b rm sm sps s a zs sig f Hu Hs Hg Hp Ha Ho Hl E) as (c & z & rate & m & _ & HT & Lc & Ls & N & Hc & Hh). pose proof (period_pos b) as Pp.
  apply (timing_found b (Tc_of rate) w m c); try assumption.
  - unfold w. destruct b; lia.
  - unfold w. rewrite Z2Nat.id by lia. assumption.
  - unfold header_start in Hh. assert (0 < spread_chips (shr_codes b))%nat by (destruct b; vm_compute; lia). lia.
Qed.
Print Assumptions C95_timing.
(** gain and phase found exactly, and with them the chips from the next chip pair on *)
Theorem C95_chips gl p b rm sm sps s a zs sig f g n : oq_used p b rm sm sps s -> oq_supported b rm sm -> pulse_regular b sps ->
  (match b with Band_915MHz | Band_2450MHz => 3 | _ => 2 end <= sps) -> g <> c0 ->
  holds_octets a zs -> Forall is_octet zs -> 1 <= zlen zs <= 2047 -> snd (q_bytesToIQ gl p a s) = Ok (sig, f) ->
  let w := Z.to_nat sps in let r := heard g n sig in
  (2 * pairs_before w n + period b <= preamble_bits b * spread_chips (shr_codes b))%nat ->
  acquired_gain b w (skipn (timing b w r) r) = g
  /\ exists chips z, snd (q_bytesToChips p a s) = Ok (chips, z) /\ acquired b w r = skipn (2 * pairs_before w n) chips.
Proof.
  intros Hu Hs Hg Hm Hz Ha Ho Hl E w r Hn. assert (Hp : 0 < sps) by (destruct b; lia). assert (Hw : (0 < w)%nat) by (unfold w; lia).
  pose proof (C95_timing gl p b rm sm sps s a zs sig f g n Hu Hs Hg Hm Hz Ha Ho Hl E Hn) as T. fold w r in T.
  destruct (sent_signal gl p b rm sm sps s a zs sig f Hu Hs Hg Hp Ha Ho Hl E) as (c & z & rate & m & Ec & HT & Lc & Ls & N & Hc & Hh). fold w in Ls, N.
  assert (R : skipn (timing b w r) r = map (Cmult g) (skipn (pairs_before w n * w) sig)). { rewrite T. unfold r. rewrite heard_map, skipn_map, skip_twice, next_boundary by assumption. reflexivity. }
  assert (Hm' : (match b with Band_915MHz | Band_2450MHz => 3 | _ => 2 end <= w)%nat) by (unfold w; destruct b; lia).
  assert (Hg' : pulse_regular b (Z.of_nat w)) by (unfold w; rewrite Z2Nat.id by lia; assumption).
  destruct (period_even b) as (h & P & H0 & Ph). unfold header_start in Hh.
  assert (G : acquired_gain b w (map (Cmult g) (skipn (pairs_before w n * w) sig)) = g) by (apply (gain_found b (Tc_of rate) w m c); try assumption; lia).
  split; [rewrite R; exact G|]. exists c, z. split; [assumption|]. unfold acquired. rewrite R. cbv zeta. rewrite G, map_map. rewrite (map_ext _ (fun x => x)) by (intro x; field; assumption). rewrite map_id.
  apply (chips_found b (Tc_of rate) w m c); try assumption. lia.
Qed.
Print Assumptions C95_chips.
Lemma clean_sync b o c : can_sync b o c c.
Proof.
  split; [rewrite PConv.distance_refl; lia|]. intros k _. rewrite few_pairs; [lia|]. intros j _. unfold illegible. rewrite PConv.distance_refl. apply Nat.ltb_ge. lia.
Qed.
Lemma clean_within w t n c : within w t n c c.
Proof. intros j _. rewrite PConv.distance_refl. lia. Qed.
(** every mode and size: the fields of the header, from any sample of the preamble that leaves a period of it *)
Theorem C95_header gl p b rm sm sps s a zs sig f g n : oq_used p b rm sm sps s -> oq_supported b rm sm -> pulse_regular b sps ->
  (match b with Band_915MHz | Band_2450MHz => 3 | _ => 2 end <= sps) -> g <> c0 ->
  holds_octets a zs -> Forall is_octet zs -> 1 <= zlen zs <= 2047 -> snd (q_bytesToIQ gl p a s) = Ok (sig, f) ->
  (2 * pairs_before (Z.to_nat sps) n + period b <= preamble_bits b * spread_chips (shr_codes b))%nat ->
  blind_mode b (Z.to_nat sps) (heard g n sig) = Some (sm =? 1, rm, zlen zs).
Proof.
  intros Hu Hs Hg Hm Hz Ha Ho Hl E Hn. assert (Hp : 0 < sps) by (destruct b; lia).
  destruct (C95_chips gl p b rm sm sps s a zs sig f g n Hu Hs Hg Hm Hz Ha Ho Hl E Hn) as (_ & c & z & Ec & A). unfold blind_mode. rewrite A.
  apply (C93_header p b rm sm sps s a zs c z); try assumption; [reflexivity|apply clean_sync|apply clean_within].
Qed.
Print Assumptions C95_header.
(** DSSS, at most 7 octets: the payload too *)
Theorem C95_receiver gl p b rm sps s a zs sig f g n : oq_used p b rm 0 sps s -> oq_supported b rm 0 -> pulse_regular b sps ->
  (match b with Band_915MHz | Band_2450MHz => 3 | _ => 2 end <= sps) -> g <> c0 ->
  holds_octets a zs -> Forall is_octet zs -> 1 <= zlen zs <= 7 -> snd (q_bytesToIQ gl p a s) = Ok (sig, f) ->
  (2 * pairs_before (Z.to_nat sps) n + period b <= preamble_bits b * spread_chips (shr_codes b))%nat ->
  blind_receiver b (Z.to_nat sps) (heard g n sig) = Some {| f_mdsss := false; f_rate_mode := rm; f_octets := zlen zs; f_bits := octet_bits zs |}.
Proof.
  intros Hu Hs Hg Hm Hz Ha Ho Hl E Hn. assert (Hp : 0 < sps) by (destruct b; lia).
  destruct (C95_chips gl p b rm 0 sps s a zs sig f g n Hu Hs Hg Hm Hz Ha Ho ltac:(lia) E Hn) as (_ & c & z & Ec & A). unfold blind_receiver. rewrite A.
  apply (C93_receiver p b rm sps s a zs c z); try assumption; [reflexivity|apply clean_sync|apply clean_within|].
  unfold payload_legible. destruct (psdu_codes b rm); [apply clean_within|reflexivity].
Qed.
Print Assumptions C95_receiver.
Example C95_case gl : exists s sig f, oq_used Wrapping Band_915MHz 0 0 8 s /\ oq_supported Band_915MHz 0 0 /\ pulse_regular Band_915MHz 8
  /\ snd (q_bytesToIQ gl Wrapping (ABytes [x55; x0f]) s) = Ok (sig, f)
  /\ (2 * pairs_before 8 1000 + period Band_915MHz <= preamble_bits Band_915MHz * spread_chips (shr_codes Band_915MHz))%nat
  /\ blind_receiver Band_915MHz 8 (heard (0, 3)%R 1000 sig) = Some {| f_mdsss := false; f_rate_mode := 0; f_octets := 2; f_bits := octet_bits [0x55; 0x0f] |}.
Proof.
  destruct (example_3 gl) as (sig & f & E). exists (example_object 0), sig, f. pose proof (example_used 0) as U. assert (S : oq_supported Band_915MHz 0 0) by (split; [lia|now left]).
  split; [assumption|]. split; [assumption|]. split; [exact I|]. split; [assumption|].
  assert (L : (2 * pairs_before 8 1000 + period Band_915MHz <= preamble_bits Band_915MHz * spread_chips (shr_codes Band_915MHz))%nat) by (vm_compute; lia). split; [assumption|].
  apply (C95_receiver gl Wrapping Band_915MHz 0 8 (example_object 0) (ABytes [x55; x0f]) [0x55; 0x0f] sig f); try assumption; try lia; try exact I.
  - intro K. injection K. lra.
  - exact (HO_bytes [x55; x0f]).
  - repeat constructor; unfold is_octet; lia.
  - cbn. lia.
Qed.
