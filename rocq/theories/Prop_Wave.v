(** * C57, C58, C62, C63, C64: the MR-O-QPSK waveform *)
From Coq Require Import Reals Lra.
From Coquelicot Require Import Complex.
From Verif Require Import Py MBits MFields MModul MOfdm Tables MRate MOqpsk SBits SEntry SRate SOqpsk PList PBits PEntry PConv PRate POqpsk POqRun Prop_Oqpsk MTime PTime MWave SWave PWave SOqRx SOqRate.

Local Notation c0 := (RtoC 0).
(** chip period used by the transmitter *)
Definition Tc_of (rate : Z) : R := (1 / IZR rate)%R.

(** ** C57 *)
Lemma rate_pos_s s rate : q_chip_rate s = Ok rate -> 0 < rate.
Proof.
  unfold q_chip_rate, zdict, bget, dict_get. unfold DATA_RATE. cbn [assoc].
  destruct (q_SM s =? 0); [|destruct (q_SM s =? 1); [|discriminate]]; cbn [rbind]; destruct (q_band s); cbn [assoc band_eqb rbind];
  repeat match goal with |- context [if ?c then _ else _] => destruct c; cbn [rbind] end; intro H; try discriminate H; injection H as <-; lia.
Qed.
Theorem C57_modulator g s chips sps rate : q_chip_rate s = Ok rate -> 0 < sps -> chips <> [] -> (exists n, length chips = (2 * n)%nat) ->
  exists sig, snd (o_qpsk_modulator g chips sps s) = Ok (sig, (IZR rate * IZR sps)%R) /\ length sig = (length chips / 2 * Z.to_nat sps + (Z.to_nat sps - 1))%nat
  /\ (pulse_regular (q_band s) sps -> pulse_train (q_band s) (Tc_of rate) (Z.to_nat sps) chips sig).
Proof.
  intros Hr Hs Hc [n Hn]. assert (0 < n)%nat by (destruct chips; [congruence|cbn in Hn; lia]).
  pose proof (rate_pos_s _ _ Hr) as Hr0. destruct (modulator_ok g s chips sps n rate) as (out & E & L & N & O); auto.
  exists out. rewrite E. split; [reflexivity|]. split; [rewrite Hn, (Nat.mul_comm 2 n), Nat.div_mul by lia; lia|]. intro Reg.
  exists n. split; [assumption|]. split; [lia|]. split; [|intros k Hk; apply O; lia].
  intros j k Hj Hk. rewrite N by assumption. rewrite pulse_of_regular; auto. unfold Rdiv. rewrite Rmult_1_l. apply Rinv_neq_0_compat, not_0_IZR. lia.
Qed.
Print Assumptions C57_modulator.
Definition even_length (l : list bool) : Prop := exists n, length l = (2 * n)%nat.
Lemma even_app a b : even_length a -> even_length b -> even_length (a ++ b).
Proof. intros [n H] [m H']. exists (n + m)%nat. rewrite app_length. lia. Qed.
Lemma spread_even sp m out : In sp all_spreads -> DSSS_spread m sp = Ok out -> even_length out.
Proof.
  intros Hi E. pose proof (codes_ok sp Hi) as (Hn & Hb & Hc & Hok). rewrite spread_ok in E by assumption.
  destruct (Nat.eqb_spec (Nat.modulo (length m) (spread_bits sp)) 0) as [M|M]; [|discriminate]. injection E as <-.
  assert (L : length (spread sp m) = (length m / spread_bits sp * spread_chips sp)%nat) by now apply spread_length. unfold spread in L.
  assert (Ev : exists h, spread_chips sp = (2 * h)%nat).
  { exists (spread_chips sp / 2)%nat. clear -Hi. cbn [all_spreads In] in Hi. repeat (destruct Hi as [<-|Hi]; [reflexivity|]). destruct Hi. }
  destruct Ev as [h Eh]. exists (length m / spread_bits sp * h)%nat. rewrite L, Eh. lia.
Qed.
Lemma pilots_even b c : even_length c -> even_length (with_pilots b c).
Proof.
  intros [n H]. destruct (C52_insertion b c) as (out & E & L & _). rewrite pilots_ok in E. injection E as <-.
  exists (n + ceil_blocks (length c) (pilot_spacing b) * (pilot_length b / 2))%nat. rewrite L, H.
  assert (P : pilot_length b = (2 * (pilot_length b / 2))%nat) by (destruct b; reflexivity). rewrite P at 1. lia.
Qed.
Lemma BDE_even m r M : even_length m -> even_length (BDE m r M).
Proof. intros [n H]. exists n. now rewrite BDE_length. Qed.
Lemma FEC_even d (b : bool) : even_length (q_FEC d b).
Proof.
  destruct b.
  - rewrite q_FEC_psdu. unfold psdu_code. eexists. rewrite code_12_length. reflexivity.
  - rewrite q_FEC_phr. unfold phr_code. eexists. rewrite code_12_length. reflexivity.
Qed.
Lemma ilv_even x (b : bool) y : q_interleaver x b = Ok y -> even_length x -> even_length y.
Proof. intros E [n H]. apply mapM_ok_length in E. rewrite seq_length in E. exists n. congruence. Qed.
Lemma MDSSS_even t sf c : MDSSS t sf = Ok c -> even_length c.
Proof.
  unfold MDSSS. intro E. apply rbind_ok in E as (bs & _ & E). unfold spreading_multiplexing in E. apply rbind_ok in E as (mi & _ & E). apply rbind_ok in E as (cs & E1 & E).
  destruct (Nat.eqb_spec (length cs) (length mi)) as [L|L]; [|discriminate]. injection E as <-. apply mapM_ok_length in E1. rewrite seq_length in E1.
  exists (Z.to_nat (2 * (sf / 4))). rewrite map2_length, <- L, E1, Nat.min_id. lia.
Qed.
Lemma psdu_even b rm sm bits c : psdu_pure b rm sm bits = Ok c -> even_length c.
Proof.
  unfold psdu_pure. intro E. apply rbind_ok in E as (t & Et & E). destruct (Z.eqb_spec sm 0) as [S0|S0].
  - rewrite orb_true_r in Et. apply ilv_even in Et; [|apply FEC_even]. apply rbind_ok in E as (u & _ & E). apply rbind_ok in E as (sp & Es & E).
    assert (Ex : even_length (if u then BDE t false 0 else t)) by (destruct u; [now apply BDE_even|assumption]).
    destruct sp as [sp|]; [|injection E as <-; assumption]. apply (spread_even sp) in E; [assumption|].
    apply rbind_ok in Es as (d & Ed & Es). apply in_use_all. exists b. right. right. exists rm.
    unfold bget, zdict, dict_get in Ed, Es. destruct (assoc Z.eqb rm d) as [v|] eqn:Ea; [|discriminate]. injection Es as ->. clear -Ed Ea.
    destruct b; cbn in Ed; injection Ed as <-; cbn [assoc] in Ea;
      repeat (match type of Ea with context [Z.eqb rm ?k] => destruct (Z.eqb_spec rm k) as [->|?]; [injection Ea; try discriminate; intros; subst; reflexivity|] end); discriminate.
  - apply rbind_ok in E as (sf & _ & E). now apply MDSSS_even in E.
Qed.
Lemma chips_even p pr bits c f : chips_pure p pr bits = Ok (c, f) -> even_length c /\ c <> [].
Proof.
  unfold chips_pure. cbv zeta. intro E. apply rbind_ok in E as (bc & E1 & E). apply rbind_ok in E as (phr & _ & E). apply rbind_ok in E as (c2 & E2 & E).
  apply rbind_ok in E as (c3 & E3 & E). apply rbind_ok in E as (c3' & E4 & E). apply rbind_ok in E as (rate & _ & E).
  destruct (q_sps (bare pr) <=? 0); [discriminate|]. injection E as <- _. rewrite shr_ok in E1. injection E1 as <-. cbn [fst snd] in *.
  rewrite pilots_ok in E4. injection E4 as <-. apply psdu_even in E3. unfold phr_pure in E2. apply rbind_ok in E2 as (i & Ei & E2).
  apply ilv_even in Ei; [|apply FEC_even]. apply rbind_ok in E2 as (sp & Es & E2). destruct (sp_phr_in (q_band (bare pr))) as (Hp & Hi & _).
  rewrite Hp in Es. injection Es as <-. apply spread_even in E2; [|assumption]. 
  assert (S : even_length (shr_chips (q_band (bare pr))) /\ shr_chips (q_band (bare pr)) <> []).
  { split; [exists (length (shr_chips (q_band (bare pr))) / 2)%nat|]; destruct (q_band (bare pr)); (vm_compute; first [reflexivity|discriminate]). }
  split; [apply even_app; [apply S|apply even_app; [assumption|now apply pilots_even]]|]. intro N. apply app_eq_nil in N. tauto.
Qed.
(** bytesToIQ / bitsToIQ: samples and sampling frequency *)
Definition oq_signal (g : R -> R -> R) (p : platform) (r : request) : SM oqpsk (list C * R) :=
  match r with Octets a => q_bytesToIQ g p a | Bits a => q_bitsToIQ g p a end.
Lemma modulator_state g chips sps s : fst (o_qpsk_modulator g chips sps s) = s.
Proof. unfold o_qpsk_modulator, sbind, sget, slift. destruct (q_chip_rate s); reflexivity. Qed.
Lemma signal_eq g p r s : oq_signal g p r s =
  let '(s', x) := oq_send p r s in match x with Ok (chips, _) => o_qpsk_modulator g chips (q_sps s') s' | Err e => (s', Err e) end.
Proof.
  destruct r as [a|a]; cbn [oq_signal oq_send].
  - unfold q_bytesToIQ, q_bytesToChips, q_bitsToIQ, sbind, slift. destruct (to_binary_array a) as [bits|e]; [|reflexivity].
    destruct (q_bitsToChips p (bits_arg bits) s) as [s' [[c f]|e]]; reflexivity.
  - unfold q_bitsToIQ, sbind. destruct (q_bitsToChips p a s) as [s' [[c f]|e]]; reflexivity.
Qed.
Lemma signal_state g p r s : fst (oq_signal g p r s) = fst (oq_send p r s).
Proof.
  rewrite signal_eq. destruct (oq_send p r s) as [s' [[c f]|e]]; [|reflexivity]. apply modulator_state.
Qed.
Lemma chip_rate_params s : q_chip_rate s = q_chip_rate (bare (params s)).
Proof. reflexivity. Qed.
(** the same with the values the code gives, singular instants included *)
Definition train_of (w : nat -> R) (sps : nat) (chips : list bool) (sig : list C) : Prop :=
  exists n, length chips = (2 * n)%nat
  /\ length sig = (n * sps + (sps - 1))%nat
  /\ (forall j k, (j < n)%nat -> (k < sps)%nat -> nth (j * sps + k) sig c0 = Cmult (chip_pair chips j) (RtoC (w k)))
  /\ (forall k, (k < sps - 1)%nat -> nth (n * sps + k) sig c0 = c0).
Lemma Tc_pos rate : 0 < rate -> (0 < Tc_of rate)%R.
Proof. intro H. unfold Tc_of. apply Rdiv_lt_0_compat; [lra|]. now apply IZR_lt. Qed.
Lemma train_regular g b rate sps chips sig : 0 < rate -> pulse_regular b sps -> train_of (pulse_of g b (Tc_of rate) (Z.to_nat sps)) (Z.to_nat sps) chips sig ->
  pulse_train b (Tc_of rate) (Z.to_nat sps) chips sig.
Proof.
  intros Hr Hg (n & L & S & N & O). exists n. repeat (split; [assumption|]). split; [|assumption]. intros j k Hj Hk. rewrite N by assumption.
  apply Tc_pos in Hr. rewrite pulse_of_regular; auto. lra.
Qed.
Lemma frames_gen g p b rm sm sps s r : oq_used p b rm sm sps s ->
  match snd (oq_send p r s) with
  | Err e => snd (oq_signal g p r s) = Err e
  | Ok (chips, f) => exists rate sig, f = rate * sps /\ 0 < rate /\ 0 < sps
      /\ snd (oq_signal g p r s) = Ok (sig, IZR f) /\ train_of (pulse_of g b (Tc_of rate) (Z.to_nat sps)) (Z.to_nat sps) chips sig
  end.
Proof.
  intro Hu. pose proof (used_params _ _ _ _ _ _ Hu) as Hp. destruct (send_master p r s) as [M1 M2]. rewrite signal_eq.
  destruct (oq_send p r s) as [s' x]. cbn [fst snd] in *. destruct x as [[chips f]|e]; [|reflexivity].
  symmetry in M2. apply rbind_ok in M2 as (bits & _ & M2). pose proof (chips_even _ _ _ _ _ M2) as [[n He] Hne].
  rewrite Hp in M1, M2. unfold chips_pure in M2. cbv zeta in M2.
  apply rbind_ok in M2 as (x1 & _ & M2). apply rbind_ok in M2 as (x2 & _ & M2). apply rbind_ok in M2 as (x3 & _ & M2).
  apply rbind_ok in M2 as (x4 & _ & M2). apply rbind_ok in M2 as (x5 & _ & M2). apply rbind_ok in M2 as (rate & Hr & M2).
  cbn [bare q_sps] in M2. destruct (Z.leb_spec sps 0) as [G|G]; [discriminate|]. injection M2 as _ <-.
  assert (Hq : q_sps s' = sps /\ q_band s' = b) by (destruct s'; injection M1 as -> _ -> _; split; reflexivity). destruct Hq as [-> <-].
  assert (Hr' : q_chip_rate s' = Ok rate) by (rewrite chip_rate_params, M1; exact Hr). pose proof (rate_pos_s _ _ Hr') as Hr0.
  destruct (modulator_ok g s' chips sps n rate) as (sig & E & L & N & O); auto; [destruct chips; [congruence|cbn in He; lia]|]. exists rate, sig. split; [reflexivity|].
  split; [assumption|]. split; [assumption|]. rewrite E. split; [now rewrite mult_IZR|]. exists n. split; [assumption|]. split; [lia|]. split; [exact N|]. intros k Hk. apply O. lia.
Qed.
(** every call on every object: the signal exists exactly when the chips do, has one pulse per pair of chips and is their
    train of pulses when the pulse has a value at all its instants; the sampling frequency is the one announced with the
    chips *)
Theorem C57_frames g p b rm sm sps s r : oq_used p b rm sm sps s ->
  match snd (oq_send p r s) with
  | Err e => snd (oq_signal g p r s) = Err e
  | Ok (chips, f) => exists rate sig, f = rate * sps /\ 0 < rate /\ 0 < sps
      /\ snd (oq_signal g p r s) = Ok (sig, IZR f)
      /\ length sig = (length chips / 2 * Z.to_nat sps + (Z.to_nat sps - 1))%nat
      /\ (pulse_regular b sps -> pulse_train b (Tc_of rate) (Z.to_nat sps) chips sig)
  end.
Proof.
  intro Hu. pose proof (frames_gen g p b rm sm sps s r Hu) as H. destruct (snd (oq_send p r s)) as [[c f]|e]; [|assumption].
  destruct H as (rate & sig & H1 & H2 & H3 & H4 & H5). exists rate, sig. repeat (split; [assumption|]). split.
  - destruct H5 as (n & L & S & _). rewrite L, (Nat.mul_comm 2 n), Nat.div_mul by lia. assumption.
  - intro Hg. now apply (train_regular g).
Qed.
Print Assumptions C57_frames.
Example C57_case : exists s chips f, oq_used Wrapping Band_868MHz 2 0 10 s /\ snd (oq_send Wrapping (Octets (ABytes [x55; x0f])) s) = Ok (chips, f).
Proof. eexists. eexists. eexists. split; [eexists; exists []; split; reflexivity|]. vm_compute. reflexivity. Qed.

(** ** C63 *)
Lemma sps_ge Tc : (0 < Tc)%R -> forall sps k : nat, (k < sps)%nat -> (0 < INR sps)%R.
Proof. intros _ sps k H. apply lt_0_INR. lia. Qed.
Lemma time_ratio Tc sps k : (0 < Tc)%R -> (0 < sps)%nat -> (pulse_time Tc sps k / Tc = -2 + 4 * INR k / INR sps)%R.
Proof. intros H Hs. unfold pulse_time. field. split; [apply not_0_INR; lia|lra]. Qed.
Lemma half_sine_last Tc sps : (0 < Tc)%R -> (3 <= sps)%nat -> half_sine_shape Tc (pulse_time Tc sps (sps - 1)) <> 0%R.
Proof.
  intros HT Hs. assert (H3 : (3 <= INR sps)%R) by (apply (le_INR 3) in Hs; cbn in Hs; lra).
  set (n := INR sps) in *. assert (E : pulse_time Tc sps (sps - 1) = (2 * Tc - 4 * Tc / n)%R).
  { unfold pulse_time. fold n. rewrite minus_INR by lia. fold n. cbn [INR]. field. lra. }
  rewrite E. assert (Hq : (0 < / n <= / 3)%R) by (split; [apply Rinv_0_lt_compat; lra|apply Rinv_le_contravar; lra]).
  unfold half_sine_shape. destruct (Rle_dec 0 _) as [_|N]; [|exfalso; apply N; unfold Rdiv; nra].
  destruct (Rle_dec _ (2 * Tc)) as [_|N]; [|exfalso; apply N; unfold Rdiv; nra].
  replace (PI * (2 * Tc - 4 * Tc / n) / (2 * Tc))%R with (PI * (1 - 2 * / n))%R by (field; lra).
  apply Rgt_not_eq. apply sin_gt_0; pose proof PI_RGT_0; nra.
Qed.
Lemma IZR_odd_even (a b : Z) : Z.odd a = true -> Z.odd b = false -> IZR a <> IZR b.
Proof. intros H H' E. apply eq_IZR in E. congruence. Qed.
Lemma raised_cosine_odd Tc sps : (0 < Tc)%R -> (2 <= sps)%nat -> Nat.odd sps = true -> raised_cosine_shape Tc (pulse_time Tc sps 1) <> 0%R.
Proof.
  intros HT Hs Ho. unfold raised_cosine_shape. cbv zeta. rewrite time_ratio by (auto; lia).
  assert (H3 : (3 <= sps)%nat) by (destruct sps as [|[|[|?]]]; [lia|lia|discriminate Ho|lia]).
  set (x := (-2 + 4 * INR 1 / INR sps)%R). set (n := Z.of_nat sps). assert (En : INR sps = IZR n) by apply INR_IZR_INZ.
  assert (Hn : (IZR n <> 0)%R) by (apply not_0_IZR; lia). assert (On : Z.odd n = true).
  { unfold n. destruct (Nat.odd_spec sps) as [T _]. destruct (T Ho) as [q Eq]. rewrite Eq. rewrite Nat2Z.inj_add, Nat2Z.inj_mul, Z.odd_add, Z.odd_mul. reflexivity. }
  assert (Ex : (x * IZR n = 4 - 2 * IZR n)%R) by (unfold x; rewrite En; cbn [INR]; field; assumption).
  pose proof PI_RGT_0 as HP.
  assert (Nx : x <> 0%R).
  { intro E. rewrite E in Ex. assert (X : IZR (2 * n) = IZR 4) by (rewrite mult_IZR; lra). apply eq_IZR in X. assert (n = 2) by lia. subst n. rewrite H in On. discriminate. }
  destruct (Req_EM_T x 0) as [E|_]; [contradiction|].
  assert (Ns : sin (PI * x) <> 0%R).
  { intro E. apply sin_eq_0_0 in E as [k Ek]. assert (x = IZR k) by (apply (Rmult_eq_reg_l PI); lra). rewrite H in Ex.
    assert (X : (IZR (k * n) = IZR (4 - 2 * n))%R) by (rewrite minus_IZR, !mult_IZR; exact Ex). apply eq_IZR in X.
    assert (D : (n | 4)) by (exists (k + 2); lia). apply Z.divide_pos_le in D as D4; [|lia]. destruct D as [q Eq].
    assert (n = 3) by (assert (n <> 4) by (intro; rewrite H0 in On; discriminate); lia). lia. }
  assert (Nc : cos (PI * (8 / 10) * x) <> 0%R).
  { intro E. apply cos_eq_0_0 in E as [k Ek].
    assert (F : (8 / 10 * x = IZR k + 1 / 2)%R) by (apply (Rmult_eq_reg_l PI); [|lra]; lra).
    assert (F2 : (8 * (x * IZR n) = (10 * IZR k + 5) * IZR n)%R) by (replace (8 * (x * IZR n))%R with (10 * (8 / 10 * x) * IZR n)%R by field; rewrite F; field).
    rewrite Ex in F2. assert (X : (IZR (32 - 16 * n) = IZR ((10 * k + 5) * n))%R) by (rewrite minus_IZR, !mult_IZR, plus_IZR, !mult_IZR; lra).
    apply eq_IZR in X. assert (Y : (32 = (10 * k + 21) * n)) by lia. apply (f_equal Z.odd) in Y. rewrite Z.odd_mul, Z.odd_add, Z.odd_mul, On in Y. discriminate Y. }
  assert (Nd : (1 - (2 * (8 / 10) * x) ^ 2)%R <> 0%R).
  { intro E. assert (F : ((1 - 16 / 10 * x) * (1 + 16 / 10 * x) = 0)%R) by (rewrite <- E; field).
    apply Rmult_integral in F as [F|F].
    - assert (F2 : (16 * (x * IZR n) = 10 * IZR n)%R) by (replace (16 * (x * IZR n))%R with (10 * (16 / 10 * x) * IZR n)%R by field; replace (16 / 10 * x)%R with 1%R by lra; ring).
      rewrite Ex in F2. assert (X : IZR (64 - 32 * n) = IZR (10 * n)) by (rewrite minus_IZR, !mult_IZR; lra). apply eq_IZR in X. lia.
    - assert (F2 : (16 * (x * IZR n) = - (10 * IZR n))%R) by (replace (16 * (x * IZR n))%R with (10 * (16 / 10 * x) * IZR n)%R by field; replace (16 / 10 * x)%R with (-1)%R by lra; ring).
      rewrite Ex in F2. assert (X : IZR (64 - 32 * n) = IZR (- (10 * n))) by (rewrite opp_IZR, minus_IZR, !mult_IZR; lra). apply eq_IZR in X. lia. }
  unfold Rdiv. repeat apply Rmult_integral_contrapositive_currified; try assumption; try (apply Rinv_neq_0_compat; try assumption).
  apply Rmult_integral_contrapositive_currified; lra.
Qed.
Lemma raised_cosine_even Tc sps : (0 < Tc)%R -> (0 < sps)%nat -> Nat.odd sps = false -> raised_cosine_shape Tc (pulse_time Tc sps (sps / 2)) = 1%R.
Proof.
  intros HT Hs Ho. unfold raised_cosine_shape. cbv zeta. rewrite time_ratio by (auto; lia).
  assert (E : sps = (2 * (sps / 2))%nat).
  { rewrite <- Nat.negb_even in Ho. apply negb_false_iff, Nat.even_spec in Ho as [q ->]. rewrite (Nat.mul_comm 2 q), Nat.div_mul by lia. lia. }
  destruct (Req_EM_T _ 0) as [_|N]; [reflexivity|]. exfalso. apply N. apply (f_equal INR) in E. rewrite mult_INR in E. cbn [INR] in E.
  assert (INR (sps / 2) <> 0%R) by (intro Z0; apply (not_0_INR sps); [lia|rewrite E, Z0; ring]).
  rewrite E. field. assumption.
Qed.
(** smallest number of samples per symbol whose pulse is not zero *)
Definition min_sps (b : Frequency_band) : nat := match b with Band_915MHz | Band_2450MHz => 3 | _ => 2 end.
Lemma pulse_nonzero b Tc sps : (0 < Tc)%R -> (min_sps b <= sps)%nat -> exists k, (k < sps)%nat /\ pulse b Tc sps k <> 0%R.
Proof.
  intros HT Hs. unfold pulse.
  assert (RC : (2 <= sps)%nat -> exists k, (k < sps)%nat /\ raised_cosine_shape Tc (pulse_time Tc sps k) <> 0%R).
  { intro H2. destruct (Nat.odd sps) eqn:Ho; [exists 1%nat; split; [lia|now apply raised_cosine_odd]|].
    exists (sps / 2)%nat. split; [apply Nat.div_lt; lia|]. rewrite raised_cosine_even by (auto; lia). lra. }
  destruct b; cbn [min_sps shape] in *; try (apply RC; assumption); (exists (sps - 1)%nat; split; [lia|now apply half_sine_last]).
Qed.
Lemma pulse_of_nonzero g b Tc sps : (0 < Tc)%R -> (min_sps b <= sps)%nat -> exists k, (k < sps)%nat /\ pulse_of g b Tc sps k <> 0%R.
Proof.
  intros HT Hs. destruct (uses_half_sine b) eqn:U.
  - destruct (pulse_nonzero b Tc sps HT Hs) as (k & Hk & Hz). exists k. split; [assumption|]. rewrite pulse_of_shape; [assumption|lra|now left].
  - assert (Hs2 : (2 <= sps)%nat) by (destruct b; cbn in Hs, U; try discriminate; lia).
    assert (K : exists k, (k < sps)%nat /\ raised_cosine_shape Tc (pulse_time Tc sps k) <> 0%R /\ ~ (32 * k = 11 * sps \/ 32 * k = 21 * sps)%nat).
    { destruct (Nat.odd sps) eqn:O.
      - exists 1%nat. split; [lia|]. split; [now apply raised_cosine_odd|]. lia.
      - exists (sps / 2)%nat. split; [apply Nat.div_lt; lia|]. split; [rewrite raised_cosine_even by (auto; lia); lra|]. pose proof (Nat.div_mod sps 2). pose proof (Nat.mod_upper_bound sps 2). lia. }
    destruct K as (k & Hk & Hz & Hn). exists k. split; [assumption|]. rewrite pulse_of_shape.
    + unfold pulse. destruct b; cbn in U |- *; try discriminate; assumption.
    + lra.
    + right. rewrite singular_time by (lia || lra). assumption.
Qed.
Lemma pulse_zero b Tc sps k : (0 < Tc)%R -> (k < sps)%nat -> (sps < min_sps b)%nat -> pulse b Tc sps k = 0%R.
Proof.
  intros HT Hk Hs. unfold pulse. pose proof PI_RGT_0 as HP.
  assert (HS : (sps < 3)%nat -> half_sine_shape Tc (pulse_time Tc sps k) = 0%R).
  { intro H. assert (T : (pulse_time Tc sps k <= 0)%R) by (unfold pulse_time; destruct sps as [|[|[|?]]], k as [|[|?]]; try lia; cbn [INR]; lra).
    unfold half_sine_shape. destruct (Rle_dec 0 _) as [G|G]; [|reflexivity]. destruct (Rle_dec _ (2 * Tc)); [|reflexivity].
    replace (pulse_time Tc sps k) with 0%R by lra. replace (PI * 0 / (2 * Tc))%R with 0%R by (field; lra). apply sin_0. }
  assert (RC : (sps < 2)%nat -> raised_cosine_shape Tc (pulse_time Tc sps k) = 0%R).
  { intro H. assert (sps = 1%nat) by lia. assert (k = 0%nat) by lia. subst. unfold raised_cosine_shape. cbv zeta. rewrite time_ratio by (auto; lia).
    cbn [INR]. replace (-2 + 4 * 0 / 1)%R with (-2)%R by field. destruct (Req_EM_T (-2) 0); [lra|]. replace (PI * -2)%R with (- (2 * PI))%R by ring. rewrite sin_neg, sin_2PI.
    unfold Rdiv. ring. }
  destruct b; cbn [min_sps shape] in *; auto.
Qed.
Lemma polar_inj x y : polar x = polar y -> x = y.
Proof. destruct x, y; unfold polar; intro; try reflexivity; lra. Qed.
Lemma list_pairs_eq n : forall l l' : list bool, length l = (2 * n)%nat -> length l' = (2 * n)%nat ->
  (forall j, (j < n)%nat -> nth (2 * j) l false = nth (2 * j) l' false /\ nth (2 * j + 1) l false = nth (2 * j + 1) l' false) -> l = l'.
Proof.
  intros l l' L L' H. apply (nth_ext _ _ false false); [congruence|]. intros i Hi. destruct (Nat.Even_or_Odd i) as [[q ->]|[q ->]]; apply H; lia.
Qed.
Lemma train_inj w sps chips chips' sig : (exists k, (k < sps)%nat /\ w k <> 0%R) ->
  train_of w sps chips sig -> train_of w sps chips' sig -> chips = chips'.
Proof.
  intros (k & Hk & Hnz) (n & L & S & N & _) (n' & L' & S' & N' & _). assert (n = n').
  { assert (n * sps = n' * sps)%nat by lia. apply Nat.mul_cancel_r in H; lia. }
  subst n'. apply (list_pairs_eq n); auto. intros j Hj.
  pose proof (N j k Hj Hk) as E. rewrite (N' j k Hj Hk) in E. unfold chip_pair in E.
  assert (E1 := f_equal fst E). assert (E2 := f_equal snd E). cbn [fst snd Cmult RtoC] in E1, E2.
  split; apply polar_inj; apply (Rmult_eq_reg_r (w k)); auto; lra.
Qed.
(** with enough samples per symbol the samples determine the chips *)
Theorem C63_samples_determine_partial g p b rm sm sps s s' r r' sig f f' : oq_used p b rm sm sps s -> oq_used p b rm sm sps s' ->
  (match b with Band_915MHz | Band_2450MHz => 3 | _ => 2 end <= sps) ->
  snd (oq_signal g p r s) = Ok (sig, f) -> snd (oq_signal g p r' s') = Ok (sig, f') ->
  exists chips z, snd (oq_send p r s) = Ok (chips, z) /\ snd (oq_send p r' s') = Ok (chips, z).
Proof.
  intros Hu Hu' Hs E E'. pose proof (frames_gen g p b rm sm sps s r Hu) as H. pose proof (frames_gen g p b rm sm sps s' r' Hu') as H'.
  pose proof (proj2 (send_master p r s)) as M. pose proof (proj2 (send_master p r' s')) as M'.
  rewrite (used_params _ _ _ _ _ _ Hu) in M. rewrite (used_params _ _ _ _ _ _ Hu') in M'.
  destruct (snd (oq_send p r s)) as [[c z]|e]; [|congruence]. destruct (snd (oq_send p r' s')) as [[c' z']|e]; [|congruence].
  destruct H as (rate & sg & Ez & P1 & P2 & Es & T). destruct H' as (rate' & sg' & Ez' & P1' & P2' & Es' & T').
  rewrite E in Es. rewrite E' in Es'. injection Es as <- _. injection Es' as <- _.
  assert (R : z = z').
  { symmetry in M, M'. apply rbind_ok in M as (bits & _ & M). apply rbind_ok in M' as (bits' & _ & M').
    unfold chips_pure in M, M'. cbv zeta in M, M'. 
    repeat (apply rbind_ok in M as (? & ? & M)). repeat (apply rbind_ok in M' as (? & ? & M')).
    destruct (q_sps _ <=? 0); [discriminate|]. injection M as _ <-. injection M' as _ <-. congruence. }
  subst z'. assert (rate = rate') by (subst; apply Z.mul_cancel_r in R; lia). subst rate'.
  assert (c = c').
  { apply (train_inj (pulse_of g b (Tc_of rate) (Z.to_nat sps)) (Z.to_nat sps) c c' sig); auto. apply pulse_of_nonzero; [now apply Tc_pos|]. unfold min_sps. destruct b; lia. }
  subst c'. exists c, z. split; congruence.
Qed.
Print Assumptions C63_samples_determine_partial.
Example C63_case : exists s s' r r' chips z, oq_used Wrapping Band_868MHz 2 0 10 s /\ oq_used Wrapping Band_868MHz 2 0 10 s' /\ s <> s'
  /\ snd (oq_send Wrapping r s) = Ok (chips, z) /\ snd (oq_send Wrapping r' s') = Ok (chips, z).
Proof.
  eexists. exists (oq_after Wrapping [Octets (ABytes [x01])] {| q_sps := 10; q_SM := 0; q_band := Band_868MHz; q_RM := 2; q_mem := [] |}).
  exists (Octets (ABytes [x55; x0f])), (Octets (AList 1 [85 # 1; 15 # 1])). eexists. eexists.
  split; [eexists; exists []; split; reflexivity|]. split; [eexists; exists [Octets (ABytes [x01])]; split; reflexivity|].
  split; [|split; vm_compute; reflexivity].
  vm_compute. discriminate.
Qed.
(** with fewer the signal is silence, whatever is sent: nothing can be recovered *)
Theorem C63_silence_refuted g p b rm sm sps s r sig f : oq_used p b rm sm sps s ->
  sps < (match b with Band_915MHz | Band_2450MHz => 3 | _ => 2 end) -> snd (oq_signal g p r s) = Ok (sig, f) -> Forall (fun z => z = RtoC 0) sig.
Proof.
  intros Hu Hs E. pose proof (C57_frames g p b rm sm sps s r Hu) as H. destruct (snd (oq_send p r s)) as [[c z]|e]; [|congruence].
  destruct H as (rate & sg & _ & P1 & P2 & Es & _ & T). destruct T as (n & Lc & Lsig & N & O); [clear -Hs P2; destruct b; cbn; try exact I; intro D; apply Z.divide_pos_le in D; lia|]. rewrite E in Es. injection Es as <- _.
  apply Forall_forall. intros x Hx. apply (In_nth _ _ c0) in Hx as (i & Hi & <-). rewrite Lsig in Hi.
  set (w := Z.to_nat sps) in *. destruct (Nat.lt_ge_cases i (n * w)) as [G|G].
  - assert (Hw : w <> 0%nat) by lia. rewrite (Nat.div_mod i w Hw), (Nat.mul_comm w). pose proof (Nat.mod_upper_bound i w Hw).
    assert (i / w < n)%nat by (apply Nat.div_lt_upper_bound; lia). rewrite N by assumption.
    rewrite pulse_zero; [apply injective_projections; cbn; ring| |assumption|unfold min_sps, w; destruct b; lia].
    unfold Tc_of. apply Rdiv_lt_0_compat; [lra|]. now apply IZR_lt.
  - replace i with (n * w + (i - n * w))%nat by lia. apply O. lia.
Qed.
Print Assumptions C63_silence_refuted.
Example C63_silence_case g : exists s sig f, oq_used Wrapping Band_915MHz 3 0 2 s /\ snd (oq_signal g Wrapping (Octets (ABytes [x55])) s) = Ok (sig, f).
Proof.
  assert (Hu : oq_used Wrapping Band_915MHz 3 0 2 {| q_sps := 2; q_SM := 0; q_band := Band_915MHz; q_RM := 3; q_mem := [] |}) by (eexists; exists []; split; reflexivity).
  pose proof (C57_frames g Wrapping _ _ _ _ _ (Octets (ABytes [x55])) Hu) as H.
  destruct (snd (oq_send _ _ _)) as [[c z]|e] eqn:E in H; [|exfalso; revert E; vm_compute; discriminate].
  destruct H as (rate & sig & _ & _ & _ & Es & _). eexists. exists sig. eexists. split; [exact Hu|exact Es].
Qed.

(** ** C58 *)
Lemma least_nonzero (p : nat -> R) : forall k, p k <> 0%R -> exists m, p m <> 0%R /\ (m <= k)%nat /\ forall i, (i < m)%nat -> p i = 0%R.
Proof.
  induction k as [k IH] using lt_wf_ind. intro Hk. destruct (Nat.eq_dec k 0) as [->|K0]; [exists 0%nat; repeat split; auto; lia|].
  assert (D : (exists i, (i < k)%nat /\ p i <> 0%R) \/ (forall i, (i < k)%nat -> p i = 0%R)).
  { clear. induction k as [|k [(i & Hi & Hp)|H]]; [right; lia|left; exists i; split; [lia|assumption]|].
    destruct (Req_EM_T (p k) 0) as [E|E]; [|left; exists k; split; [lia|assumption]]. right. intros i Hi. destruct (Nat.eq_dec i k) as [->|]; [assumption|apply H; lia]. }
  destruct D as [(i & Hi & Hp)|H].
  - destruct (IH i Hi Hp) as (m & H1 & H2 & H3). exists m. repeat split; auto. lia.
  - exists k. repeat split; auto.
Qed.
Lemma axis_delayed (p : nat -> R) sps d c k0 : (0 < d)%nat -> (k0 < sps)%nat -> (forall i, (i < k0)%nat -> p i = 0%R) ->
  forall n, axis_train p sps d c n k0 = 0%R.
Proof.
  intros Hd Hk Hp. induction n as [|n IH]; [reflexivity|]. cbn [axis_train]. rewrite IH.
  destruct (Nat.leb_spec (n * sps + d) k0) as [G|G]; cbn [andb]; [|lra]. destruct (Nat.ltb_spec k0 (n * sps + d + sps)); [|lra].
  rewrite Hp by lia. lra.
Qed.
Lemma axis_aligned (p : nat -> R) sps c i : (0 < sps)%nat -> forall n,
  axis_train p sps 0 c n i = if Nat.ltb i (n * sps) then (polar (c (i / sps)%nat) * p (Nat.modulo i sps))%R else 0%R.
Proof.
  intros Hs. induction n as [|n IH]; [reflexivity|]. cbn [axis_train]. rewrite IH, Nat.add_0_r.
  destruct (Nat.ltb_spec i (n * sps)) as [G|G].
  - rewrite (proj2 (Nat.leb_gt _ _)) by assumption. rewrite (proj2 (Nat.ltb_lt i (S n * sps))) by (cbn; lia). cbn [andb]. lra.
  - rewrite (proj2 (Nat.leb_le _ _)) by assumption. cbn [andb]. destruct (Nat.ltb_spec i (n * sps + sps)) as [G2|G2].
    + rewrite (proj2 (Nat.ltb_lt i (S n * sps))) by (cbn; lia).
      assert (E : (i / sps)%nat = n) by (symmetry; apply (Nat.div_unique _ _ _ (i - n * sps)); lia).
      assert (E2 : Nat.modulo i sps = (i - n * sps)%nat) by (symmetry; apply (Nat.mod_unique _ _ n); lia). rewrite E, E2. lra.
    + rewrite (proj2 (Nat.ltb_ge i (S n * sps))) by (cbn; lia). lra.
Qed.
Lemma train_aligned b Tc sps chips sig : (0 < sps)%nat -> pulse_train b Tc sps chips sig -> offset_train b Tc sps 0 chips sig.
Proof.
  intros Hs (n & L & S & N & O) i. assert (Hn : (length chips / 2)%nat = n) by (rewrite L, Nat.mul_comm; apply Nat.div_mul; lia). rewrite Hn, !axis_aligned by assumption.
  destruct (Nat.ltb_spec i (n * sps)) as [G|G].
  - assert (Hw : sps <> 0%nat) by lia. pose proof (Nat.mod_upper_bound i sps Hw). assert (i / sps < n)%nat by (apply Nat.div_lt_upper_bound; lia).
    rewrite (Nat.div_mod i sps Hw) at 1. rewrite (Nat.mul_comm sps), N by assumption. unfold chip_pair. apply injective_projections; cbn [fst snd Cmult RtoC]; ring.
  - destruct (Nat.lt_ge_cases i (n * sps + (sps - 1))) as [G2|G2]; [|rewrite nth_overflow by lia; reflexivity].
    replace i with (n * sps + (i - n * sps))%nat at 1 by lia. rewrite O by lia. reflexivity.
Qed.
(** what is sent: both chips of a pair start together *)
Theorem C58_aligned g p b rm sm sps s r sig f : oq_used p b rm sm sps s -> pulse_regular b sps -> snd (oq_signal g p r s) = Ok (sig, f) ->
  exists chips z rate, snd (oq_send p r s) = Ok (chips, z) /\ z = rate * sps /\ offset_train b (Tc_of rate) (Z.to_nat sps) 0 chips sig.
Proof.
  intros Hu Hg E. pose proof (C57_frames g p b rm sm sps s r Hu) as H. destruct (snd (oq_send p r s)) as [[c z]|e]; [|congruence].
  destruct H as (rate & sg & Ez & P1 & P2 & Es & _ & T). specialize (T Hg). rewrite E in Es. injection Es as <- _. exists c, z, rate.
  split; [reflexivity|]. split; [assumption|]. apply train_aligned; [lia|assumption].
Qed.
Print Assumptions C58_aligned.
(** so no signal, of any object for any message, is an offset QPSK signal, whatever the delay *)
Theorem C58_refuted g p b rm sm sps s r sig f d : oq_used p b rm sm sps s -> pulse_regular b sps ->
  (match b with Band_915MHz | Band_2450MHz => 3 | _ => 2 end <= sps) -> (0 < d)%nat -> snd (oq_signal g p r s) = Ok (sig, f) ->
  exists chips z rate, snd (oq_send p r s) = Ok (chips, z) /\ z = rate * sps /\ ~ offset_train b (Tc_of rate) (Z.to_nat sps) d chips sig.
Proof.
  intros Hu Hg Hs Hd E. pose proof (C57_frames g p b rm sm sps s r Hu) as H. pose proof (proj2 (send_master p r s)) as M.
  destruct (snd (oq_send p r s)) as [[c z]|e]; [|congruence].
  destruct H as (rate & sg & Ez & P1 & P2 & Es & _ & T). specialize (T Hg). rewrite E in Es. injection Es as <- _. exists c, z, rate.
  split; [reflexivity|]. split; [assumption|]. intro Off. destruct T as (n & L & S & N & O).
  assert (HT : (0 < Tc_of rate)%R) by (unfold Tc_of; apply Rdiv_lt_0_compat; [lra|]; now apply IZR_lt).
  destruct (pulse_nonzero b (Tc_of rate) (Z.to_nat sps) HT) as (k & Hk & Hnz); [unfold min_sps; destruct b; lia|].
  destruct (least_nonzero (pulse b (Tc_of rate) (Z.to_nat sps)) k Hnz) as (m & M1 & M2 & M3).
  symmetry in M. apply rbind_ok in M as (bits & _ & M). apply chips_even in M as [_ Hne].
  assert (Hn : (0 < n)%nat) by (destruct c; [congruence|cbn in L; lia]).
  specialize (Off m). specialize (N 0%nat m Hn ltac:(lia)). cbn [Nat.mul Nat.add] in N. rewrite N in Off.
  apply (f_equal snd) in Off. cbn [snd] in Off. rewrite axis_delayed in Off by (auto; lia). unfold chip_pair in Off. cbn [fst snd Cmult RtoC] in Off.
  unfold polar in Off. revert Off. destruct (nth (2 * 0) c false), (nth (2 * 0 + 1) c false); intro; apply M1; lra.
Qed.
Print Assumptions C58_refuted.
Example C58_case g : exists s sig f, oq_used Wrapping Band_868MHz 2 0 10 s /\ pulse_regular Band_868MHz 10 /\ snd (oq_signal g Wrapping (Octets (ABytes [x55])) s) = Ok (sig, f).
Proof.
  assert (Hu : oq_used Wrapping Band_868MHz 2 0 10 {| q_sps := 10; q_SM := 0; q_band := Band_868MHz; q_RM := 2; q_mem := [] |}) by (eexists; exists []; split; reflexivity).
  pose proof (C57_frames g Wrapping _ _ _ _ _ (Octets (ABytes [x55])) Hu) as H.
  destruct (snd (oq_send _ _ _)) as [[c z]|e] eqn:E in H; [|exfalso; revert E; vm_compute; discriminate].
  destruct H as (rate & sig & _ & _ & _ & Es & _). eexists. exists sig. eexists. split; [exact Hu|]. split; [|exact Es]. cbn. intros [q Q]. lia.
Qed.

(** ** C62 *)
(** in the half-sine bands the samples of the first chip pair are not those of the half sine taken every 1/f second,
    wherever the sampling starts *)
Theorem C62_refuted g p b rm sm sps s r sig f : oq_used p b rm sm sps s -> b = Band_915MHz \/ b = Band_2450MHz -> 3 <= sps ->
  snd (oq_signal g p r s) = Ok (sig, f) ->
  exists chips z rate, snd (oq_send p r s) = Ok (chips, z) /\ f = (IZR rate * IZR sps)%R
  /\ forall t0 : R, ~ (forall k, (k < Z.to_nat sps)%nat ->
       nth k sig (RtoC 0) = Cmult (chip_pair chips 0) (RtoC (half_sine_shape (1 / IZR rate) (t0 + INR k / f)))).
Proof.
  intros Hu Hb Hs E. assert (Hg : pulse_regular b sps) by (destruct Hb as [-> | ->]; exact I). pose proof (C57_frames g p b rm sm sps s r Hu) as H. pose proof (proj2 (send_master p r s)) as M.
  destruct (snd (oq_send p r s)) as [[c z]|e]; [|congruence].
  destruct H as (rate & sg & Ez & P1 & P2 & Es & _ & T). specialize (T Hg). rewrite E in Es. injection Es as <- Ef. exists c, z, rate. subst z.
  split; [reflexivity|]. split; [rewrite Ef; apply mult_IZR|]. intros t0 Off. destruct T as (n & L & S & N & _).
  set (Tc := Tc_of rate) in *. assert (HT : (0 < Tc)%R) by (unfold Tc, Tc_of; apply Rdiv_lt_0_compat; [lra|]; now apply IZR_lt).
  symmetry in M. apply rbind_ok in M as (bits & _ & M). apply chips_even in M as [_ Hne].
  assert (Hn : (0 < n)%nat) by (destruct c; [congruence|cbn in L; lia]). set (w := Z.to_nat sps) in *.
  assert (Hw : IZR sps = INR w) by (unfold w; rewrite INR_IZR_INZ; f_equal; lia).
  assert (W3 : (3 <= INR w)%R) by (rewrite <- Hw; apply IZR_le; lia).
  assert (Hf : forall k, (INR k / f = INR k * (Tc / INR w))%R).
  { intro k. rewrite Ef, mult_IZR, Hw. unfold Tc, Tc_of. field. split; first [lra | apply not_0_IZR; lia]. }
  assert (P : forall k, (k < w)%nat -> half_sine_shape Tc (pulse_time Tc w k) = half_sine_shape Tc (t0 + INR k * (Tc / INR w))%R).
  { intros k Hk. specialize (N 0%nat k Hn Hk). cbn [Nat.mul Nat.add] in N. specialize (Off k Hk). rewrite N in Off. rewrite Hf in Off. fold (Tc_of rate) in Off. fold Tc in Off.
    assert (Sh : pulse b Tc w k = half_sine_shape Tc (pulse_time Tc w k)) by (unfold pulse; destruct Hb as [-> | ->]; reflexivity).
    rewrite Sh in Off. apply (f_equal fst) in Off. unfold chip_pair in Off. cbn [fst snd Cmult RtoC] in Off. 
    revert Off. unfold polar. destruct (nth (2 * 0) c false), (nth (2 * 0 + 1) c false); intro; lra. }
  (* last sample before the pulse and the next one *)
  set (k := (w / 2)%nat). assert (Hk : (2 * k <= w < 2 * k + 2)%nat) by (unfold k; pose proof (Nat.div_mod w 2); pose proof (Nat.mod_upper_bound w 2); lia).
  assert (Hw3 : (3 <= w)%nat) by (unfold w; lia).
  assert (K1 : (2 * INR k <= INR w)%R) by (replace (2 * INR k)%R with (INR (2 * k)) by (rewrite mult_INR; reflexivity); apply le_INR; lia).
  assert (K2 : (INR w <= 2 * INR k + 1)%R).
  { replace (2 * INR k + 1)%R with (INR (2 * k + 1)) by (rewrite plus_INR, mult_INR; reflexivity). apply le_INR; lia. }
  pose proof (P k ltac:(lia)) as A0. pose proof (P (k + 1)%nat ltac:(lia)) as A1. rewrite plus_INR in A1. cbn [INR] in A1.
  pose proof PI_RGT_0 as HP.
  set (q := (Tc / INR w)%R) in *. assert (Q0 : (0 < q)%R) by (unfold q; apply Rdiv_lt_0_compat; lra). assert (Qw : (q * INR w = Tc)%R) by (unfold q; field; lra).
  assert (T1 : pulse_time Tc w k = (q * (4 * INR k - 2 * INR w))%R) by (unfold pulse_time, q; field; lra).
  assert (T2 : pulse_time Tc w (k + 1) = (q * (4 * INR k + 4 - 2 * INR w))%R) by (unfold pulse_time, q; rewrite plus_INR; cbn [INR]; field; lra).
  assert (Z0 : half_sine_shape Tc (pulse_time Tc w k) = 0%R).
  { unfold half_sine_shape. destruct (Rle_dec 0 _) as [G|G]; [|reflexivity]. destruct (Rle_dec _ _); [|reflexivity].
    replace (pulse_time Tc w k) with 0%R by nra. replace (PI * 0 / (2 * Tc))%R with 0%R by (field; lra). apply sin_0. }
  rewrite Z0 in A0. symmetry in A0. set (u := (t0 + INR k * q)%R) in *. replace (t0 + (INR k + 1) * q)%R with (u + q)%R in A1 by (unfold u; ring).
  assert (B : half_sine_shape Tc (pulse_time Tc w (k + 1)) = sin (PI * ((4 * INR k + 4 - 2 * INR w) / (2 * INR w)))).
  { unfold half_sine_shape. rewrite T2. destruct (Rle_dec 0 _) as [G|G]; [|exfalso; apply G; nra]. destruct (Rle_dec _ _) as [G'|G']; [|exfalso; apply G'; rewrite <- Qw; nra].
    f_equal. rewrite <- Qw. field. split; lra. }
  set (y := ((4 * INR k + 4 - 2 * INR w) / (2 * INR w))%R) in *.
  assert (Y : (y * (2 * INR w) = 4 * INR k + 4 - 2 * INR w)%R) by (unfold y; field; lra).
  set (e := (/ (2 * INR w))%R). assert (Ee : (e * (2 * INR w) = 1)%R) by (unfold e; field; lra). assert (E0 : (0 < e)%R) by (unfold e; apply Rinv_0_lt_compat; lra).
  assert (Y1 : (2 * e <= y)%R) by (apply (Rmult_le_reg_r (2 * INR w)); [lra|]; rewrite Y; replace (2 * e * (2 * INR w))%R with (2 * (e * (2 * INR w)))%R by ring; rewrite Ee; lra).
  assert (Y2 : (y < 1)%R) by (apply (Rmult_lt_reg_r (2 * INR w)); [lra|]; rewrite Y; lra).
  assert (Y3 : (y <= 1 / 2 \/ y <= 4 * e)%R) by (right; apply (Rmult_le_reg_r (2 * INR w)); [lra|]; rewrite Y; replace (4 * e * (2 * INR w))%R with (4 * (e * (2 * INR w)))%R by ring; rewrite Ee; lra).
  assert (E6 : (e <= / 6)%R) by (unfold e; apply Rinv_le_contravar; lra).
  assert (Pos : (0 < sin (PI * y))%R) by (apply sin_gt_0; nra).
  rewrite B in A1.
  (* u <= 0: the pulse is off at u and on at u+q *)
  unfold half_sine_shape in A0, A1.
  destruct (Rle_dec 0 (u + q)) as [G1|G1]; [|lra]. destruct (Rle_dec (u + q) (2 * Tc)) as [G2|G2]; [|lra].
  assert (U : (u <= 0)%R).
  { destruct (Rle_dec 0 u) as [G3|G3]; [|lra]. destruct (Rle_dec u (2 * Tc)) as [G4|G4]; [|lra].
    destruct (Rle_lt_dec u 0) as [|Up]; [assumption|]. exfalso. assert (u < 2 * Tc)%R by lra.
    assert (0 < sin (PI * u / (2 * Tc)))%R; [|lra]. apply sin_gt_0.
    - apply Rdiv_lt_0_compat; nra.
    - apply (Rmult_lt_reg_r (2 * Tc)); [lra|]. replace (PI * u / (2 * Tc) * (2 * Tc))%R with (PI * u)%R by (field; lra). nra. }
  assert (V : (PI * (u + q) / (2 * Tc) <= PI * e)%R).
  { apply (Rmult_le_reg_r (2 * Tc)); [lra|]. replace (PI * (u + q) / (2 * Tc) * (2 * Tc))%R with (PI * (u + q))%R by (field; lra).
    replace (PI * e * (2 * Tc))%R with (PI * q)%R by (rewrite <- Qw; unfold e; field; lra). nra. }
  assert (V0 : (0 <= PI * (u + q) / (2 * Tc))%R) by (apply Rmult_le_pos; [nra|]; left; apply Rinv_0_lt_compat; lra).
  assert (X1 : (sin (PI * (u + q) / (2 * Tc)) <= sin (PI * e))%R) by (apply sin_incr_1; nra).
  (* sin (pi e) < sin (pi y) : y is between 2e and 1 - 2e *)
  assert (X2 : (sin (PI * e) < sin (PI * y))%R).
  { destruct (Rle_lt_dec y (1 / 2)) as [L1|L1].
    - apply sin_increasing_1; nra.
    - replace (sin (PI * y)) with (sin (PI * (1 - y))) by (replace (PI * (1 - y))%R with (PI - PI * y)%R by ring; apply sin_PI_x).
      apply sin_increasing_1; try nra. }
  lra.
Qed.
Print Assumptions C62_refuted.
(** the samples of a pulse are taken every 4/f second, the period of the returned frequency being 1/f *)
Theorem C62_step g p b rm sm sps s r sig f : oq_used p b rm sm sps s -> pulse_regular b sps -> snd (oq_signal g p r s) = Ok (sig, f) ->
  exists chips z rate, snd (oq_send p r s) = Ok (chips, z) /\ f = (IZR rate * IZR sps)%R /\ (0 < f)%R
  /\ forall j k, (2 * j < length chips)%nat -> (k < Z.to_nat sps)%nat ->
     nth (j * Z.to_nat sps + k) sig (RtoC 0) = Cmult (chip_pair chips j) (RtoC (shape b (1 / IZR rate) (-2 / IZR rate + INR k * (4 / f)))).
Proof.
  intros Hu Hg E. pose proof (C57_frames g p b rm sm sps s r Hu) as H. destruct (snd (oq_send p r s)) as [[c z]|e]; [|congruence].
  destruct H as (rate & sg & Ez & P1 & P2 & Es & _ & T). specialize (T Hg). rewrite E in Es. injection Es as <- Ef. exists c, z, rate. subst z.
  split; [reflexivity|]. rewrite mult_IZR in Ef. split; [assumption|]. assert (R0 : (0 < IZR rate)%R) by now apply IZR_lt. assert (S0 : (0 < IZR sps)%R) by now apply IZR_lt.
  split; [rewrite Ef; nra|]. destruct T as (n & L & S & N & _). intros j k Hj Hk. rewrite N by lia. unfold pulse, Tc_of. do 3 f_equal. unfold pulse_time. rewrite Ef.
  assert (Hw : IZR sps = INR (Z.to_nat sps)) by (rewrite INR_IZR_INZ; f_equal; lia). rewrite <- Hw. field. split; lra.
Qed.
Print Assumptions C62_step.
Example C62_case g : exists s sig f, oq_used Wrapping Band_915MHz 3 0 10 s /\ snd (oq_signal g Wrapping (Octets (ABytes [x55])) s) = Ok (sig, f).
Proof.
  assert (Hu : oq_used Wrapping Band_915MHz 3 0 10 {| q_sps := 10; q_SM := 0; q_band := Band_915MHz; q_RM := 3; q_mem := [] |}) by (eexists; exists []; split; reflexivity).
  pose proof (C57_frames g Wrapping _ _ _ _ _ (Octets (ABytes [x55])) Hu) as H.
  destruct (snd (oq_send _ _ _)) as [[c z]|e] eqn:E in H; [|exfalso; revert E; vm_compute; discriminate].
  destruct H as (rate & sig & _ & _ & _ & Es & _). eexists. exists sig. eexists. split; [exact Hu|exact Es].
Qed.

(** ** C64 *)
Lemma dsss_bits_length b rm len bits : 0 <= len -> length bits = Z.to_nat (8 * len) -> length (dsss_bits b rm len bits) = Z.to_nat (126 * psdu_blocks len).
Proof.
  intros H L. unfold dsss_bits. cbv zeta. destruct (bde_psdu b rm); rewrite ?BDE_length, ilv_length; now apply psdu_code_length.
Qed.
Lemma with_pilots_size b c : length (with_pilots b c) = (length c + ceil_blocks (length c) (pilot_spacing b) * pilot_length b)%nat.
Proof. destruct (C52_insertion b c) as (out & E & L & _). rewrite pilots_ok in E. injection E as <-. exact L. Qed.
Lemma sent_signal g p b rm sps s a zs sig f : oq_used p b rm 0 sps s -> oq_supported b rm 0 -> 0 < sps ->
  holds_octets a zs -> Forall is_octet zs -> 1 <= zlen zs <= 2047 -> snd (q_bytesToIQ g p a s) = Ok (sig, f) ->
  f = (IZR (rate_of b rm 0) * IZR sps)%R /\ 0 < rate_of b rm 0 /\ needs_pairs b rm 0 && Z.odd (psdu_blocks (zlen zs)) = false
  /\ exists n, (2 * n = length (shr_chips b) + 60 * spread_chips (sp_phr b) + length (with_pilots b (psdu_chips b rm 0 (zlen zs) (octet_bits zs))))%nat
     /\ length sig = (n * Z.to_nat sps + (Z.to_nat sps - 1))%nat.
Proof.
  intros Hu Hs Hp Ha Ho Hl E. change (q_bytesToIQ g p a s) with (oq_signal g p (Octets a) s) in E.
  pose proof (frames_gen g p b rm 0 sps s (Octets a) Hu) as H. rewrite (octets_sent p b rm 0 sps s a zs) in H by assumption.
  destruct (_ && _); [congruence|]. destruct H as (rate & sg & Er & R0 & _ & Es & n & L & Ls & _). rewrite E in Es. injection Es as <- ->.
  apply Z.mul_cancel_r in Er; [|lia]. split; [apply mult_IZR|]. split; [lia|]. split; [reflexivity|]. exists n. split; [|assumption].
  rewrite !app_length, phr_chips_length in L. lia.
Qed.
Lemma nominal_ok b rm sm : oq_supported b rm sm -> rate_of b rm sm = nominal_rate b rm sm.
Proof. intros [H [->|[-> E]]]; each_rm H; destruct b; try discriminate E; reflexivity. Qed.
(** rate modes with spreading of the payload: at the returned sampling frequency the signal lasts as many times longer than
    the payload bits at the nominal rate as there are chips for a coded bit (2 to 32) *)
Theorem C64_refuted g p b rm sps s a zs sig f : oq_used p b rm 0 sps s -> oq_supported b rm 0 -> 0 < sps -> rm <> 3 \/ b = Band_2450MHz ->
  holds_octets a zs -> Forall is_octet zs -> 1 <= zlen zs <= 2047 -> snd (q_bytesToIQ g p a s) = Ok (sig, f) ->
  (2 <= expansion b rm)%nat /\ (INR (length sig) / f >= INR (expansion b rm) * (8 * IZR (zlen zs) / IZR (nominal_rate b rm 0)))%R.
Proof.
  intros Hu Hs Hp Hsp Ha Ho Hl E. destruct (sent_signal _ _ _ _ _ _ _ _ _ _ Hu Hs Hp Ha Ho Hl E) as (Ef & R0 & Hpair & n & Hn & Ls).
  rewrite <- (nominal_ok b rm 0) by assumption. assert (R0' := IZR_lt _ _ R0).
  assert (Sp : exists sp, sp_psdu b rm = Some sp /\ psdu_codes b rm = Some sp /\ In sp all_spreads /\ ((spread_bits sp = 1 /\ 2 <= spread_chips sp) \/ (spread_bits sp = 4 /\ spread_chips sp = 4 * (spread_chips sp / 4) /\ 2 <= spread_chips sp / 4 /\ needs_pairs b rm 0 = true))%nat).
  { destruct Hs as [Hr _]. each_rm Hr; destruct b; try (exfalso; destruct Hsp; congruence); (eexists; split; [reflexivity|]; split; [reflexivity|]; split; [cbn; tauto|]; vm_compute; first [left; lia | right; split; [reflexivity|split; [reflexivity|split; [lia|reflexivity]]]]). }
  destruct Sp as (sp & Esp & Esp' & Hi & Hc). set (nb := psdu_blocks (zlen zs)) in *. pose proof (psdu_blocks_spec (zlen zs) ltac:(lia)) as [B _]. fold nb in B.
  assert (Dl : length (dsss_bits b rm (zlen zs) (octet_bits zs)) = Z.to_nat (126 * nb)) by (apply dsss_bits_length; [lia|]; rewrite octet_bits_length; unfold zlen; lia).
  unfold expansion. rewrite Esp'. set (e := (spread_chips sp / spread_bits sp)%nat).
  assert (Pl : (2 <= e /\ e * Z.to_nat (126 * nb) <= length (psdu_chips b rm 0 (zlen zs) (octet_bits zs)))%nat).
  { unfold psdu_chips. change (0 =? 0) with true. cbv iota. rewrite Esp. unfold e. destruct Hc as [[H1 H2]|(H1 & H2 & H4 & H3)].
    - rewrite spread_length; [|assumption|now rewrite H1, Nat.mod_1_r]. rewrite H1, !Nat.div_1_r, Dl. nia.
    - rewrite H3 in Hpair. cbn [andb] in Hpair. assert (Ev : exists q, nb = 2 * q) by (exists (nb / 2); rewrite <- Z.negb_even in Hpair; apply negb_false_iff, Z.even_spec in Hpair as [q ->]; rewrite (Z.mul_comm 2 q), Z.div_mul by lia; lia).
      destruct Ev as [q Eq]. assert (D4 : length (dsss_bits b rm (zlen zs) (octet_bits zs)) = (4 * Z.to_nat (63 * q))%nat) by (rewrite Dl, Eq; lia).
      rewrite spread_length; [|assumption|rewrite H1, D4, Nat.mul_comm; apply Nat.mod_mul; lia]. rewrite H1, D4. rewrite (Nat.mul_comm 4 (Z.to_nat _)), Nat.div_mul by lia. rewrite Eq. set (e' := (spread_chips sp / 4)%nat) in *. rewrite H2. nia. }
  destruct Pl as [E2 Pl]. split; [exact E2|].
  assert (N2 : (e * Z.to_nat (126 * nb) <= 2 * n)%nat) by (rewrite with_pilots_size in Hn; lia).
  assert (N3 : Z.of_nat e * (8 * zlen zs) <= Z.of_nat n).
  { apply inj_le in N2. rewrite !Nat2Z.inj_mul, Z2Nat.id in N2 by lia. change (Z.of_nat 2) with 2 in N2. nia. }
  assert (Sz : Z.of_nat e * (8 * zlen zs) * sps <= Z.of_nat (length sig)) by (rewrite Ls, Nat2Z.inj_add, Nat2Z.inj_mul, Z2Nat.id by lia; nia).
  apply Rle_ge. rewrite Ef. assert (S0 : (0 < IZR sps)%R) by now apply IZR_lt.
  apply (Rmult_le_reg_r (IZR (rate_of b rm 0) * IZR sps)); [nra|].
  replace (INR (length sig) / (IZR (rate_of b rm 0) * IZR sps) * (IZR (rate_of b rm 0) * IZR sps))%R with (INR (length sig)) by (field; split; lra).
  replace (INR e * (8 * IZR (zlen zs) / IZR (rate_of b rm 0)) * (IZR (rate_of b rm 0) * IZR sps))%R with (IZR (Z.of_nat e * (8 * zlen zs) * sps)) by (rewrite !mult_IZR, <- INR_IZR_INZ; field; lra).
  rewrite INR_IZR_INZ. now apply IZR_le.
Qed.
Print Assumptions C64_refuted.
(** without spreading: nominal rate, pilots (1/16) and a fixed overhead added *)
Theorem C64_unspread_partial g p b sps s a zs sig f : oq_used p b 3 0 sps s -> 0 < sps -> b <> Band_2450MHz ->
  holds_octets a zs -> Forall is_octet zs -> 1 <= zlen zs <= 2047 -> snd (q_bytesToIQ g p a s) = Ok (sig, f) ->
  let rate := IZR (nominal_rate b 3 0) in
  (8 * IZR (zlen zs) / rate <= INR (length sig) / f <= 17 / 16 * (8 * IZR (zlen zs) / rate) + 3000 / rate)%R.
Proof.
  intros Hu Hp Hb Ha Ho Hl E. assert (Hs : oq_supported b 3 0) by (split; [lia|now left]).
  destruct (sent_signal _ _ _ _ _ _ _ _ _ _ Hu Hs Hp Ha Ho Hl E) as (Ef & R0 & _ & n & Hn & Ls).
  cbv zeta. rewrite <- (nominal_ok b 3 0) by assumption. assert (R0' := IZR_lt _ _ R0).
  set (nb := psdu_blocks (zlen zs)) in *. pose proof (psdu_blocks_spec (zlen zs) ltac:(lia)) as [B _]. fold nb in B.
  assert (B2 : 63 * nb <= 8 * zlen zs + 68) by (unfold nb, psdu_blocks; Z.div_mod_to_equations; lia).
  assert (Pl : length (psdu_chips b 3 0 (zlen zs) (octet_bits zs)) = Z.to_nat (126 * nb)).
  { unfold psdu_chips. change (0 =? 0) with true. cbv iota. replace (sp_psdu b 3) with (@None (list string)) by (destruct b; try reflexivity; congruence).
    apply dsss_bits_length; [lia|]; rewrite octet_bits_length; unfold zlen; lia. }
  rewrite with_pilots_size, Pl in Hn.
  assert (Pi : (16 * (ceil_blocks (Z.to_nat (126 * nb)) (pilot_spacing b) * pilot_length b) <= Z.to_nat (126 * nb) + 1024)%nat).
  { assert (Q : pilot_spacing b = (16 * pilot_length b)%nat /\ (0 < pilot_length b <= 64)%nat) by (destruct b; (split; [reflexivity|vm_compute; lia]) || congruence).
    destruct Q as [Q1 Q2]. unfold ceil_blocks. rewrite Q1. set (x := (Z.to_nat (126 * nb) + 16 * pilot_length b - 1)%nat).
    pose proof (Nat.div_mod x (16 * pilot_length b) ltac:(lia)). nia. }
  assert (Oh : Z.of_nat (length (shr_chips b) + 60 * spread_chips (sp_phr b)) <= 5568) by (destruct b; try congruence; vm_compute; discriminate).
  assert (Lo : 8 * zlen zs * sps <= Z.of_nat (length sig)) by (rewrite Ls; nia).
  assert (S0 : (0 < IZR sps)%R) by now apply IZR_lt.
  assert (Hi : 16 * Z.of_nat (length sig) <= (17 * (8 * zlen zs) + 48000) * sps) by (rewrite Ls; nia).
  rewrite Ef. set (d := (IZR (rate_of b 3 0) * IZR sps)%R).
  assert (D0 : (0 < d)%R) by (unfold d; nra).
  assert (Ex : (INR (length sig) / d * d = IZR (Z.of_nat (length sig)))%R) by (rewrite INR_IZR_INZ; field; lra).
  split; apply (Rmult_le_reg_r d); try assumption; rewrite Ex; unfold d.
  - replace (8 * IZR (zlen zs) / IZR (rate_of b 3 0) * (IZR (rate_of b 3 0) * IZR sps))%R with (IZR (8 * zlen zs * sps)) by (rewrite !mult_IZR; field; lra). now apply IZR_le.
  - apply (Rmult_le_reg_l 16); [lra|]. rewrite <- mult_IZR. eapply Rle_trans; [apply IZR_le; exact Hi|]. right. rewrite !mult_IZR, plus_IZR, !mult_IZR. field. lra.
Qed.
Print Assumptions C64_unspread_partial.
Example C64_case g : exists s sig f, oq_used Wrapping Band_868MHz 0 0 10 s /\ snd (q_bytesToIQ g Wrapping (ABytes [x55]) s) = Ok (sig, f).
Proof.
  assert (Hu : oq_used Wrapping Band_868MHz 0 0 10 {| q_sps := 10; q_SM := 0; q_band := Band_868MHz; q_RM := 0; q_mem := [] |}) by (eexists; exists []; split; reflexivity).
  pose proof (C57_frames g Wrapping _ _ _ _ _ (Octets (ABytes [x55])) Hu) as H.
  destruct (snd (oq_send _ _ _)) as [[c z]|e] eqn:E in H; [|exfalso; revert E; vm_compute; discriminate].
  destruct H as (rate & sig & _ & _ & _ & Es & _). eexists. exists sig. eexists. split; [exact Hu|exact Es].
Qed.
