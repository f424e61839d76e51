(** * C35 (power), C41, C42, C43 (samples), C44 (samples): time domain of MR-OFDM *)
From Coq Require Import Reals Lra.
From Coquelicot Require Import Complex.
From Verif Require Import Py PList SBits SEntry MBits PBits PEntry MPn9 SPn9 MModul MOfdm Tables SOfdm SMrOfdm PModul POfdm MMrOfdm PStd PMrOfdm PMrRx MTime STime PTime Prop_MrOfdm.

(** ** C41 *)
Lemma amplitude_value k t : amplitude k t = tone_value k t.
Proof. destruct t as [|[a b]|[x y]]; [reflexivity|reflexivity|]. cbn [amplitude tone_value fst snd]. apply injective_projections; cbn; ring. Qed.
Lemma carries_ifft N k sym h : N = 2 * Z.of_nat h -> length sym = Z.to_nat N ->
  carries N k sym (o_ifft (map (tone_value k) sym)).
Proof.
  intros HN Hl. assert (L : length (map (tone_value k) sym) = (2 * h)%nat) by (rewrite map_length; lia).
  split; [|split].
  - now rewrite o_ifft_length, map_length.
  - intros f Hf. assert (N2 : N / 2 = Z.of_nat h) by (subst; rewrite Z.mul_comm, Z.div_mul; lia). rewrite N2 in *.
    unfold tone_at. rewrite N2. set (r := Z.to_nat (f + Z.of_nat h)). replace f with (Z.of_nat r - Z.of_nat h) by lia.
    rewrite (analyse_o_ifft _ r h) by (auto; lia). change (RtoC 0) with (tone_value k TZero). now rewrite map_nth, amplitude_value.
  - rewrite o_ifft_energy. f_equal. apply map_ext. intro. symmetry. apply amplitude_value.
Qed.
Lemma symbols_samples N k syms q : N = 4 * Z.of_nat q -> (0 < q)%nat -> full_symbols N syms ->
  exists bodies, flat_map (fun s => symbol_samples (1 # 4) (map (tone_value k) s)) syms = flat_map (prefixed q) bodies
  /\ Forall2 (carries N k) syms bodies.
Proof.
  intros HN Hq. induction syms as [|s syms IH]; intro F.
  - exists []. split; [reflexivity|constructor].
  - inversion F; subst x l. destruct IH as (bodies & E & F2); [assumption|]. exists (o_ifft (map (tone_value k) s) :: bodies). split.
    + cbn [flat_map]. rewrite E. f_equal. unfold symbol_samples. apply quarter_prefix; [|assumption]. rewrite o_ifft_length, map_length. lia.
    + constructor; [|assumption]. apply (carries_ifft _ _ _ (2 * q)); [lia|assumption].
Qed.
Lemma pow2_quarter N : is_pow2 N = true -> 4 <= N -> N = 4 * Z.of_nat (Z.to_nat (N / 4)).
Proof.
  unfold is_pow2. intros H H4. apply andb_prop in H as [_ H]. apply Z.eqb_eq in H.
  assert (L : 2 <= Z.log2 N) by (apply Z.log2_le_pow2; lia). rewrite <- H. replace (Z.log2 N) with (Z.log2 N - 2 + 2) by lia.
  rewrite Z.pow_add_r by lia. change (2 ^ 2) with 4. rewrite Z.div_mul by lia. pose proof (Z.pow_nonneg 2 (Z.log2 N - 2)). lia.
Qed.
Lemma ofdm_new_N N name pl pr sf pi pv col seed c st : ofdm_new N name pl pr sf pi pv col seed = Ok (c, st) -> is_pow2 N = true /\ o_N c = N.
Proof.
  unfold ofdm_new. destruct (is_pow2 N); [|discriminate]. cbn [negb]. intro H. split; [reflexivity|].
  destruct pi as [sets|], pv as [vals|]; try discriminate; destruct (negb ((sf =? 1) || (sf =? 2) || (sf =? 4))); try discriminate.
  - match type of H with rbind ?x _ = _ => destruct x end; [|discriminate]. cbn [rbind] in H. destruct (get_modulator name); [|discriminate]. injection H as <- _. reflexivity.
  - cbn [rbind] in H. destruct (get_modulator name); [|discriminate]. injection H as <- _. reflexivity.
Qed.
(** any OFDM modulator with a prefix of a quarter *)
Theorem C41_modulator N name pl pr sf pi pv col seed c st0 k st bits pad sig :
  ofdm_new N name pl pr sf pi pv col seed = Ok (c, st0) -> 4 <= N ->
  snd (ofdm_bitsToIQ c k (1 # 4) st bits pad) = Ok sig ->
  exists syms bodies, snd (ofdm_symbols c st bits pad) = Ok syms
  /\ sig = flat_map (prefixed (Z.to_nat (N / 4))) bodies /\ Forall2 (carries N k) syms bodies.
Proof.
  intros Hn H4 E. apply ofdm_new_N in Hn as [Hp Hc]. unfold ofdm_bitsToIQ in E. destruct (ofdm_symbols c st bits pad) as [st' [syms|e]] eqn:ES; [|discriminate].
  cbn [snd rbind] in *. injection E as <-. apply ofdm_symbols_length in ES. rewrite Hc in ES. pose proof (pow2_quarter N Hp H4) as Hq.
  destruct (symbols_samples N k syms (Z.to_nat (N / 4)) Hq) as (bodies & E1 & E2); [lia|assumption|].
  exists syms, bodies. auto.
Qed.
Print Assumptions C41_modulator.
Example C41_modulator_case : exists c st0, ofdm_new 16 "QPSK" 1 0 2 None None 0 511 = Ok (c, st0)
  /\ is_ok (snd (ofdm_symbols c st0 (repeat true 28) false)) = true.
Proof. eexists. eexists. split; [reflexivity|vm_compute; reflexivity]. Qed.
(** subcarriersToIQ of one symbol *)
Theorem C41_subcarriers N col sig : is_pow2 N = true -> 4 <= N -> subcarriersToIQ N (1 # 4) col = Ok sig ->
  exists body, sig = prefixed (Z.to_nat (N / 4)) body /\ length body = Z.to_nat N
  /\ (forall f, - (N / 2) <= f < N / 2 -> analyse body f = nth (Z.to_nat (f + N / 2)) col (RtoC 0)) /\ energy body = energy col.
Proof.
  intros Hp H4 E. unfold subcarriersToIQ in E. destruct (Z.eqb_spec (zlen col) N) as [L|L]; [|discriminate]. injection E as <-.
  pose proof (pow2_quarter N Hp H4) as Hq. set (q := Z.to_nat (N / 4)) in *. assert (Lc : length col = (4 * q)%nat) by (unfold zlen in L; lia).
  exists (o_ifft col). split; [unfold symbol_samples; apply quarter_prefix; [rewrite o_ifft_length|]; lia|].
  split; [rewrite o_ifft_length; lia|]. split; [|apply o_ifft_energy].
  intros f Hf. assert (N2 : N / 2 = Z.of_nat (2 * q)) by (rewrite Hq; replace (4 * Z.of_nat q) with (Z.of_nat (2 * q) * 2) by lia; apply Z.div_mul; lia).
  rewrite N2 in *. set (r := Z.to_nat (f + Z.of_nat (2 * q))). replace f with (Z.of_nat r - Z.of_nat (2 * q)) by lia. apply analyse_o_ifft; lia.
Qed.
Print Assumptions C41_subcarriers.
(** and the other way: nothing but the right number of subcarriers is accepted *)
Theorem C41_refused N CP col : zlen col <> N -> subcarriersToIQ N CP col = Err ValueError.
Proof. intro H. unfold subcarriersToIQ. destruct (Z.eqb_spec (zlen col) N); [contradiction|reflexivity]. Qed.
Print Assumptions C41_refused.

(** ** C42 *)
Lemma analyse_scale c s f : analyse (map (fun z => Cmult z c) s) f = Cmult (analyse s f) c.
Proof.
  rewrite !analyse_eq, map_length. rewrite <- Cmult_assoc. f_equal. rewrite Cmult_comm, <- Csum_scal. apply Csum_ext. intros i Hi.
  rewrite (nth_map (fun z => Cmult z c) s i (RtoC 0) (RtoC 0)) by assumption. ring.
Qed.
Lemma energy_scale x s : energy (map (fun z => Cmult z (RtoC x)) s) = (x ^ 2 * energy s)%R.
Proof.
  induction s as [|z s IH]; cbn [map energy]; [ring|]. rewrite IH, Cmod_mult, Cmod_R, Rpow_mult_distr, pow2_abs. ring.
Qed.
Fixpoint squares (l : list Z) : Z := match l with [] => 0 | z :: r => z * z + squares r end.
Lemma energy_signs A l : energy (map (fun z => RtoC (IZR z * A)) l) = (A ^ 2 * IZR (squares l))%R.
Proof.
  induction l as [|z l IH]; cbn [map energy squares]; [rewrite Rmult_0_r; reflexivity|]. rewrite IH, Cmod_R, pow2_abs, plus_IZR, mult_IZR. ring.
Qed.
Lemma prefixed_map g n s : map g (prefixed n s) = prefixed n (map g s).
Proof. unfold prefixed, tail_of. rewrite map_app, skipn_map, map_length. reflexivity. Qed.
(** the fourth symbol: everything after the first half of the useful part is negated *)
Definition half_negated (n : nat) (l : list C) : list C := firstn n l ++ map Copp (skipn n l).
Definition stf_sign (opt f : Z) : Z :=
  if (f mod stf_step opt =? 0) && negb (f =? 0) && (Z.abs f <=? stf_edge opt) then (if stf_negative opt f then -1 else 1) else 0.
Definition stf_level (opt : Z) : R := sqrt (IZR (active_tones opt) / IZR (2 * (stf_edge opt / stf_step opt))).
Lemma stf_amplitude_sign opt f : stf_amplitude opt f = (IZR (stf_sign opt f) * stf_level opt)%R.
Proof. unfold stf_amplitude, stf_sign, stf_level. destruct (_ && _); [|ring]. destruct (stf_negative opt f); reflexivity. Qed.
Lemma stf_table opt entries : zget STF_ENTRIES opt = Ok entries ->
  stf_tones (fft_size opt) entries = map (fun z => RtoC (IZR z * stf_level opt)) (map (stf_sign opt) (freqs (fft_size opt))).
Proof.
  intro H. assert (Ho : opt = 1 \/ opt = 2 \/ opt = 3 \/ opt = 4).
  { unfold zget, dict_get, STF_ENTRIES in H. cbn [assoc] in H. destruct (Z.eqb_spec opt 1); [auto|]. destruct (Z.eqb_spec opt 2); [auto|].
    destruct (Z.eqb_spec opt 3); [auto|]. destruct (Z.eqb_spec opt 4); [auto|discriminate]. }
  assert (Z0 : forall x : R, (0 * x)%R = 0%R) by (intro; ring).
  destruct Ho as [->|[->|[->| ->]]]; injection H as <-; unfold stf_level; cbv -[sqrt IZR Rmult Rdiv RtoC]; rewrite Z0; reflexivity.
Qed.
Lemma fft_table opt : 1 <= opt <= 4 -> zget FFT_SIZE opt = Ok (fft_size opt) /\ is_pow2 (fft_size opt) = true /\ 16 <= fft_size opt
  /\ exists e l, zget STF_ENTRIES opt = Ok e /\ zget LTF_TABLE opt = Ok l /\ zlen l = fft_size opt.
Proof.
  intro H. assert (Ho : opt = 1 \/ opt = 2 \/ opt = 3 \/ opt = 4) by lia.
  destruct Ho as [->|[->|[->| ->]]]; (split; [reflexivity|]; split; [reflexivity|]; split; [vm_compute; discriminate|]; eexists; eexists; split; [reflexivity|]; split; reflexivity).
Qed.
Lemma freqs_nth N f : 0 <= N -> - (N / 2) <= f < N - N / 2 -> nth (Z.to_nat (f + N / 2)) (freqs N) 0 = f.
Proof. intros HN Hf. unfold freqs. rewrite nth_map_seq by lia. lia. Qed.
Lemma bpsk_new N : is_pow2 N = true -> exists c st, ofdm_new N "BPSK" 0 0 1 None None 0 0x1FF = Ok (c, st).
Proof. intro H. unfold ofdm_new. rewrite H. cbn. eexists. eexists. reflexivity. Qed.
Theorem C42_stf opt : 1 <= opt <= 4 -> exists stf body, m_STF opt = Ok stf /\ zlen body = fft_size opt
  /\ (let sym := prefixed (Z.to_nat (fft_size opt / 4)) body in
      stf = sym ++ sym ++ sym ++ half_negated (Z.to_nat (fft_size opt / 4 + fft_size opt / 2)) sym)
  /\ (forall f, - (fft_size opt / 2) <= f < fft_size opt / 2 -> analyse body f = RtoC (5 / 4 * stf_amplitude opt f))
  /\ energy body = (25 / 16 * IZR (active_tones opt))%R.
Proof.
  intro Ho. destruct (fft_table opt Ho) as (E1 & E2 & E3 & e & l & E4 & _ & _). set (N := fft_size opt) in *.
  destruct (bpsk_new N E2) as (c & st & E5). pose proof (stf_table opt e E4) as T. fold N in T.
  pose proof (pow2_quarter N E2 ltac:(lia)) as Hq. set (q := Z.to_nat (N / 4)) in *. unfold m_STF. rewrite E1. cbn [rbind]. rewrite E5. cbn [rbind]. rewrite E4. cbn [rbind].
  destruct (subcarriersToIQ N (1 # 4) (stf_tones N e)) as [sig|er] eqn:ES.
  2:{ unfold subcarriersToIQ in ES. destruct (Z.eqb_spec (zlen (stf_tones N e)) N) as [|Hne]; [discriminate|]. exfalso. apply Hne. rewrite T. unfold zlen. rewrite !map_length, freqs_length. lia. }
  cbn [rbind]. destruct (C41_subcarriers N _ sig E2 ltac:(lia) ES) as (body & B1 & B2 & B3 & B4). fold q in B1.
  assert (Lb : length body = (4 * q)%nat) by lia.
  assert (Ls : length sig = (5 * q)%nat) by (rewrite B1; unfold prefixed, tail_of; rewrite app_length, skipn_length; lia).
  assert (D5 : (length sig / 5)%nat = q) by (rewrite Ls, Nat.mul_comm; apply Nat.div_mul; lia).
  unfold flip_end. rewrite D5. replace (Nat.eqb (length sig) (q * 3 + q * 2)) with true by (symmetry; apply Nat.eqb_eq; lia). cbn [rbind].
  set (g := fun z => Cmult z (RtoC (5 / 4))). eexists. exists (map g body). split; [reflexivity|]. split; [unfold zlen; rewrite map_length; lia|].
  assert (HN4 : Z.to_nat (N / 4 + N / 2) = (q * 3)%nat).
  { assert (N / 2 = Z.of_nat (2 * q)) by (rewrite Hq; replace (4 * Z.of_nat q) with (Z.of_nat (2 * q) * 2) by lia; apply Z.div_mul; lia). lia. }
  split; [|split].
  - cbv zeta. rewrite HN4, <- prefixed_map, <- B1. unfold half_negated. rewrite !map_app. do 3 f_equal. rewrite firstn_map, skipn_map. f_equal.
    rewrite !map_map. apply map_ext. intro z. unfold g. ring.
  - intros f Hf. unfold g. rewrite analyse_scale, B3 by assumption. rewrite T. rewrite map_map.
    rewrite (nth_map _ _ _ 0) by (rewrite freqs_length; lia). rewrite freqs_nth by lia. rewrite stf_amplitude_sign, !RtoC_mult. ring.
  - unfold g. rewrite energy_scale, B4, T, energy_signs. unfold stf_level.
    assert (Hp : (0 <= IZR (active_tones opt) / IZR (2 * (stf_edge opt / stf_step opt)))%R).
    { assert (Ho' : opt = 1 \/ opt = 2 \/ opt = 3 \/ opt = 4) by lia. destruct Ho' as [->|[->|[->| ->]]]; vm_compute active_tones; vm_compute Z.mul; lra. }
    rewrite pow2_sqrt by assumption.
    assert (Ho' : opt = 1 \/ opt = 2 \/ opt = 3 \/ opt = 4) by lia. unfold N.
    destruct Ho' as [->|[->|[->| ->]]]; match goal with |- context [squares ?x] => let v := eval vm_compute in (squares x) in change (squares x) with v end;
      vm_compute active_tones; vm_compute Z.mul; lra.
Qed.
Print Assumptions C42_stf.
Theorem C42_ltf opt : 1 <= opt <= 4 -> exists ltf body, m_LTF opt = Ok ltf /\ zlen body = fft_size opt
  /\ ltf = tail_of (Z.to_nat (fft_size opt / 2)) body ++ body ++ body
  /\ (forall f, - (fft_size opt / 2) <= f < fft_size opt / 2 ->
      analyse body f = RtoC (IZR (ltf_sign opt f))
      /\ Z.abs (ltf_sign opt f) = if guard_or_dc (fft_size opt) (guard_left opt) (guard_right opt) f then 0 else 1)
  /\ energy body = IZR (active_tones opt).
Proof.
  intro Ho. destruct (fft_table opt Ho) as (E1 & E2 & E3 & e & l & _ & E4 & E6). set (N := fft_size opt) in *.
  destruct (bpsk_new N E2) as (c & st & E5).
  pose proof (pow2_quarter N E2 ltac:(lia)) as Hq. set (q := Z.to_nat (N / 4)) in *. unfold m_LTF. rewrite E1. cbn [rbind]. rewrite E5. cbn [rbind]. rewrite E4. cbn [rbind].
  assert (N2 : N / 2 = Z.of_nat (2 * q)) by (rewrite Hq; replace (4 * Z.of_nat q) with (Z.of_nat (2 * q) * 2) by lia; apply Z.div_mul; lia).
  set (col := map (fun z => RtoC (IZR z)) l). assert (Lc : length col = (2 * (2 * q))%nat) by (unfold col, zlen in *; rewrite map_length; lia).
  unfold subcarriersToIQ. replace (zlen col =? N) with true by (symmetry; apply Z.eqb_eq; unfold zlen; lia). cbn [rbind].
  change (symbol_samples 0 col) with (o_ifft col). eexists. exists (o_ifft col). split; [reflexivity|].
  split; [unfold zlen; rewrite o_ifft_length; lia|]. split; [|split].
  - rewrite N2, Nat2Z.id. unfold tail_of. rewrite o_ifft_length, Lc. do 2 f_equal. rewrite Nat.mul_comm, Nat.div_mul by lia. lia.
  - intros f Hf. rewrite N2 in Hf. set (r := Z.to_nat (f + N / 2)). replace (analyse (o_ifft col) f) with (nth r col (RtoC 0)).
    2:{ symmetry. replace f with (Z.of_nat r - Z.of_nat (2 * q)) by (unfold r; lia). apply analyse_o_ifft; unfold r; lia. }
    unfold col. rewrite (nth_map _ _ _ 0) by (unfold r, zlen in *; lia).
    assert (T : forallb (fun f => let v := nth (Z.to_nat (f + N / 2)) l 0 in
       (v =? ltf_sign opt f) && (Z.abs v =? if guard_or_dc N (guard_left opt) (guard_right opt) f then 0 else 1)) (freqs N) = true).
    { unfold N. clear -Ho E4. assert (Ho' : opt = 1 \/ opt = 2 \/ opt = 3 \/ opt = 4) by lia.
      destruct Ho' as [->|[->|[->| ->]]]; injection E4 as <-; vm_compute; reflexivity. }
    rewrite forallb_forall in T. specialize (T f). cbv zeta in T. fold r in T.
    assert (I : In f (freqs N)). { rewrite <- (freqs_nth N f) by lia. apply nth_In. rewrite freqs_length. lia. }
    specialize (T I). apply andb_prop in T as [T1 T2]. apply Z.eqb_eq in T1, T2. rewrite <- T1. split; [reflexivity|assumption].
  - rewrite o_ifft_energy. unfold col. rewrite (map_ext _ (fun z => RtoC (IZR z * 1))) by (intro; now rewrite Rmult_1_r).
    rewrite energy_signs. replace (1 ^ 2)%R with 1%R by ring. rewrite Rmult_1_l. f_equal.
    assert (Ho' : opt = 1 \/ opt = 2 \/ opt = 3 \/ opt = 4) by lia. destruct Ho' as [->|[->|[->| ->]]]; injection E4 as <-; reflexivity.
Qed.
Print Assumptions C42_ltf.

(** ** whole frames *)
Definition stf_of (opt : Z) : list C := match m_STF opt with Ok l => l | Err _ => [] end.
Definition ltf_of (opt : Z) : list C := match m_LTF opt with Ok l => l | Err _ => [] end.
Lemma k_mod_ok mcs : 0 <= mcs <= 6 -> k_mod mcs = Ok (norm_factor (mcs_modulation mcs)).
Proof.
  intro H. assert (E : mcs = 0 \/ mcs = 1 \/ mcs = 2 \/ mcs = 3 \/ mcs = 4 \/ mcs = 5 \/ mcs = 6) by lia.
  destruct E as [->|[->|[->|[->|[->|[->| ->]]]]]]; reflexivity.
Qed.
(** sampling frequency: 5/4 N samples in 120 us *)
Definition sampling_rate (opt : Z) : R := (IZR (fft_size opt) * (5 / 4) / (120 / 1000000))%R.
Definition frame_samples (opt mcs : Z) (phr pay : list (list tone)) : list C :=
  stf_of opt ++ ltf_of opt ++ m_samples (norm_factor (mcs_modulation (lowest_mcs opt))) phr ++ m_samples (norm_factor (mcs_modulation mcs)) pay.
Lemma iq_bits opt mcs il scr s a : supported opt mcs -> clear s = std_obj opt mcs il scr ->
  m_bitsToIQ a s = (fst (m_bits_symbols a s), do (phr, pay) <- snd (m_bits_symbols a s); Ok (frame_samples opt mcs phr pay, sampling_rate opt)).
Proof.
  intros H E. unfold m_bitsToIQ, m_bits_symbols, sbind, slift, sget, smod, sret. destruct (check_binary_array a) as [bits|e]; [|reflexivity].
  assert (Ho : 1 <= opt <= 4) by (unfold supported in H; lia). pose proof (mcs_range _ _ H) as Hm. pose proof (supported_low _ _ H) as Hl. pose proof (mcs_range _ _ Hl) as Hlm.
  assert (F : m_opt s = opt /\ m_low s = lowest_mcs opt /\ m_mcs s = mcs).
  { split; [|split]; [apply (f_equal m_opt) in E|apply (f_equal m_low) in E|apply (f_equal m_mcs) in E]; destruct s; exact E. }
  destruct F as (F1 & F2 & F3). rewrite F1, F2.
  assert (P : m_opt (fst (m_PHR (zlen bits) s)) = opt /\ m_mcs (fst (m_PHR (zlen bits) s)) = mcs).
  { pose proof (proj2 (phr_clear (zlen bits) s)) as C0. rewrite E in C0. split; [apply (f_equal m_opt) in C0|apply (f_equal m_mcs) in C0]; destruct (fst (m_PHR (zlen bits) s)); exact C0. }
  destruct (C42_stf opt Ho) as (stf & _ & ES & _). destruct (C42_ltf opt Ho) as (ltf & _ & EL & _).
  destruct (fft_table opt Ho) as (EF & _ & _ & _). unfold frame_samples, stf_of, ltf_of. rewrite ES, EL, EF, (k_mod_ok _ Hlm).
  destruct (m_PHR (zlen bits) s) as [s1 [[phr mp]|e]]; [|reflexivity]. cbn [fst] in P. destruct P as [P1 P2].
  cbn [upd_mod_phy m_mcs]. rewrite P2, (k_mod_ok _ Hm). destruct (m_payload bits mp (upd_mod_phy mp s1)) as [s2 [pay|e]]; [|reflexivity]. cbn [fst snd rbind].
  unfold sampling_rate. do 3 f_equal. lra.
Qed.
Lemma iq_bytes opt mcs il scr s a : supported opt mcs -> clear s = std_obj opt mcs il scr ->
  m_bytesToIQ a s = (fst (m_bytes_symbols a s), do (phr, pay) <- snd (m_bytes_symbols a s); Ok (frame_samples opt mcs phr pay, sampling_rate opt)).
Proof.
  intros H E. unfold m_bytesToIQ, m_bytes_symbols, sbind, slift. destruct (to_binary_array a) as [bits|e]; [|reflexivity]. exact (iq_bits opt mcs il scr s _ H E).
Qed.
(** objects used through bytesToIQ and bitsToIQ *)
Definition iq_send (r : request) : SM mr_ofdm (list C * R) := match r with Octets a => m_bytesToIQ a | Bits a => m_bitsToIQ a end.
Fixpoint iq_after (h : list request) (s : mr_ofdm) : mr_ofdm := match h with [] => s | r :: h' => iq_after h' (fst (iq_send r s)) end.
Definition modulator (opt mcs il scr : Z) (s : mr_ofdm) : Prop :=
  exists vm vo vi vs s0 h, mr_ofdm_new vm vo vi vs = Ok s0 /\ int_of vm = mcs /\ int_of vo = opt /\ int_of vi = il /\ int_of vs = scr
    /\ s = iq_after h s0.
Lemma iq_send_fst opt mcs il scr r s : supported opt mcs -> clear s = std_obj opt mcs il scr -> fst (iq_send r s) = fst (send r s).
Proof. intros H E. destruct r as [a|a]; cbn [iq_send send]; [rewrite (iq_bytes opt mcs il scr) by assumption|rewrite (iq_bits opt mcs il scr) by assumption]; reflexivity. Qed.
Lemma iq_after_eq opt mcs il scr h : supported opt mcs -> forall s, clear s = std_obj opt mcs il scr -> iq_after h s = after h s.
Proof.
  intro H. induction h as [|r h IH]; intros s E; [reflexivity|]. cbn [iq_after after]. rewrite (iq_send_fst opt mcs il scr r s H E). apply IH.
  rewrite (proj2 (send_clear r s)). exact E.
Qed.
Lemma std_clear opt mcs il scr : clear (std_obj opt mcs il scr) = std_obj opt mcs il scr.
Proof. reflexivity. Qed.
Lemma modulator_used opt mcs il scr s : modulator opt mcs il scr s <-> used opt mcs il scr s.
Proof.
  split; intros (vm & vo & vi & vs & s0 & h & Hn & <- & <- & <- & <- & ->); exists vm, vo, vi, vs, s0, h;
    (split; [assumption|]; split; [reflexivity|]; split; [reflexivity|]; split; [reflexivity|]; split; [reflexivity|]);
    apply new_inv in Hn as (_ & (H1 & _) & ->); [|symmetry]; apply (iq_after_eq (int_of vo) (int_of vm) (int_of vi) (int_of vs) h H1), std_clear.
Qed.
Lemma sym_length opt mcs col v bits n : length (sym opt mcs col v bits n) = Z.to_nat (fft_size opt).
Proof. unfold sym, layout. now rewrite map_length, freqs_length. Qed.
Lemma sent_frame opt mcs il scr s r phr pay : used opt mcs il scr s -> snd (send r s) = Ok (phr, pay) ->
  exists bits, 1 <= zlen bits / 8 <= 2047 /\ phr = frame_phr opt mcs il scr bits /\ pay = frame_payload opt mcs il scr bits.
Proof.
  intros Hu E. destruct (used_inv _ _ _ _ _ Hu) as (H1 & H2 & H3 & H4).
  assert (B : forall a, snd (m_bits_symbols a s) = Ok (phr, pay) ->
    exists bits, 1 <= zlen bits / 8 <= 2047 /\ phr = frame_phr opt mcs il scr bits /\ pay = frame_payload opt mcs il scr bits).
  { intros a Ea. destruct (check_binary_array a) as [bits|e] eqn:Hb.
    - destruct (Z_le_dec 1 (zlen bits / 8)) as [G1|G1]; [destruct (Z_le_dec (zlen bits / 8) 2047) as [G2|G2]|].
      + rewrite (frame_run opt mcs il scr a bits s) in Ea by auto. cbn [snd] in Ea. injection Ea as <- <-. exists bits. auto.
      + rewrite (frame_fails opt mcs il scr a bits s) in Ea by (auto; lia). discriminate.
      + rewrite (frame_fails opt mcs il scr a bits s) in Ea by (auto; lia). discriminate.
    - unfold m_bits_symbols, sbind, slift in Ea. rewrite Hb in Ea. discriminate. }
  destruct r as [a|a]; cbn [send] in E; [|now apply B in E]. unfold m_bytes_symbols, sbind, slift in E.
  destruct (to_binary_array a); [now apply B in E|discriminate].
Qed.
Lemma frame_full opt mcs il scr bits : full_symbols (fft_size opt) (frame_phr opt mcs il scr bits) /\ full_symbols (fft_size opt) (frame_payload opt mcs il scr bits).
Proof. split; apply Forall_forall; intros y Hy; apply in_map_iff in Hy as (i & <- & _); apply sym_length. Qed.
Lemma iq_send_snd opt mcs il scr s r : used opt mcs il scr s ->
  snd (iq_send r s) = do (phr, pay) <- snd (send r s); Ok (frame_samples opt mcs phr pay, sampling_rate opt).
Proof.
  intro Hu. destruct (used_inv _ _ _ _ _ Hu) as (H1 & _ & _ & H4).
  destruct r as [a|a]; cbn [iq_send send]; [rewrite (iq_bytes opt mcs il scr) by assumption|rewrite (iq_bits opt mcs il scr) by assumption]; reflexivity.
Qed.
Lemma opt_quarter opt : 1 <= opt <= 4 -> fft_size opt = 4 * Z.of_nat (Z.to_nat (fft_size opt / 4)) /\ (0 < Z.to_nat (fft_size opt / 4))%nat.
Proof. intro H. destruct (fft_table opt H) as (_ & E2 & E3 & _). pose proof (pow2_quarter _ E2 ltac:(lia)). split; lia. Qed.
(** the symbols of every frame *)
Theorem C41_frames opt mcs il scr s r sig f : modulator opt mcs il scr s -> snd (iq_send r s) = Ok (sig, f) ->
  exists stf ltf phr pay hbodies pbodies, m_STF opt = Ok stf /\ m_LTF opt = Ok ltf /\ snd (send r s) = Ok (phr, pay)
  /\ sig = stf ++ ltf ++ flat_map (prefixed (Z.to_nat (fft_size opt / 4))) (hbodies ++ pbodies)
  /\ Forall2 (carries (fft_size opt) (norm_factor (mcs_modulation (lowest_mcs opt)))) phr hbodies
  /\ Forall2 (carries (fft_size opt) (norm_factor (mcs_modulation mcs))) pay pbodies.
Proof.
  intros Hm E. apply modulator_used in Hm. rewrite (iq_send_snd _ _ _ _ _ _ Hm) in E.
  destruct (snd (send r s)) as [[phr pay]|e] eqn:ES; [|discriminate]. cbn [rbind] in E. injection E as <- _.
  destruct (sent_frame _ _ _ _ _ _ _ _ Hm ES) as (bits & _ & -> & ->). destruct (used_inv _ _ _ _ _ Hm) as (H1 & _).
  assert (Ho : 1 <= opt <= 4) by (unfold supported in H1; lia). destruct (opt_quarter opt Ho) as [Hq Hq0].
  destruct (C42_stf opt Ho) as (stf & _ & E1 & _). destruct (C42_ltf opt Ho) as (ltf & _ & E2 & _).
  destruct (frame_full opt mcs il scr bits) as [F1 F2].
  destruct (symbols_samples _ (norm_factor (mcs_modulation (lowest_mcs opt))) _ _ Hq Hq0 F1) as (b1 & S1 & C1).
  destruct (symbols_samples _ (norm_factor (mcs_modulation mcs)) _ _ Hq Hq0 F2) as (b2 & S2 & C2).
  exists stf, ltf, (frame_phr opt mcs il scr bits), (frame_payload opt mcs il scr bits), b1, b2. split; [assumption|]. split; [assumption|]. split; [reflexivity|].
  split; [|split; assumption]. unfold frame_samples, stf_of, ltf_of, m_samples. rewrite E1, E2, S1, S2, flat_map_app. reflexivity.
Qed.
Print Assumptions C41_frames.
Example C41_case : exists s, modulator 3 5 1 2 s /\ is_ok (snd (send (Octets (ABytes [x55; x0f])) s)) = true.
Proof. eexists. split; [exists (PInt 5), (PInt 3), (PInt 1), (PInt 2); eexists; exists []; repeat split; reflexivity|vm_compute; reflexivity]. Qed.
(** the training fields of every frame of one option *)
Theorem C42_frame opt : 1 <= opt <= 4 -> exists stf ltf, m_STF opt = Ok stf /\ m_LTF opt = Ok ltf
  /\ forall mcs il scr s r sig f, modulator opt mcs il scr s -> snd (iq_send r s) = Ok (sig, f) -> exists rest, sig = stf ++ ltf ++ rest.
Proof.
  intro Ho. destruct (C42_stf opt Ho) as (stf & _ & E1 & _). destruct (C42_ltf opt Ho) as (ltf & _ & E2 & _). exists stf, ltf. split; [assumption|]. split; [assumption|].
  intros mcs il scr s r sig f Hm E. destruct (C41_frames _ _ _ _ _ _ _ _ Hm E) as (stf' & ltf' & _ & _ & b1 & b2 & F1 & F2 & _ & -> & _).
  assert (stf' = stf) by congruence. assert (ltf' = ltf) by congruence. subst. eexists. reflexivity.
Qed.
Print Assumptions C42_frame.

(** ** C43 *)
Lemma prefixed_length n b : (n <= length b)%nat -> length (prefixed n b) = (n + length b)%nat.
Proof. intro H. unfold prefixed, tail_of. rewrite app_length, skipn_length. lia. Qed.
Lemma samples_length N k l q : N = 4 * Z.of_nat q -> (0 < q)%nat -> full_symbols N l -> length (m_samples k l) = (5 * q * length l)%nat.
Proof.
  intros HN Hq F. destruct (symbols_samples N k l q HN Hq F) as (b & E & C2). unfold m_samples. rewrite E. clear E F.
  induction C2 as [|s y l b [L _] C2 IH]; [cbn; lia|]. cbn [flat_map length]. rewrite app_length, IH, prefixed_length by lia. lia.
Qed.
Lemma training_length opt : 1 <= opt <= 4 -> exists q, fft_size opt = 4 * Z.of_nat q /\ (0 < q)%nat /\ length (stf_of opt) = (20 * q)%nat /\ length (ltf_of opt) = (10 * q)%nat.
Proof.
  intro Ho. destruct (opt_quarter opt Ho) as [Hq Hq0]. exists (Z.to_nat (fft_size opt / 4)). split; [assumption|]. split; [assumption|].
  set (q := Z.to_nat (fft_size opt / 4)) in *.
  assert (N2 : fft_size opt / 2 = Z.of_nat (2 * q)) by (rewrite Hq; replace (4 * Z.of_nat q) with (Z.of_nat (2 * q) * 2) by lia; apply Z.div_mul; lia).
  destruct (C42_stf opt Ho) as (stf & b & E1 & L1 & -> & _). destruct (C42_ltf opt Ho) as (ltf & b' & E2 & L2 & -> & _).
  unfold stf_of, ltf_of. rewrite E1, E2. fold q. unfold half_negated, zlen in *. split.
  - rewrite !app_length, map_length, firstn_length, skipn_length, !prefixed_length by lia. lia.
  - rewrite !app_length. unfold tail_of. rewrite skipn_length. lia.
Qed.
(** number of samples of a frame of L octets *)
Theorem C43_samples opt mcs il scr s a zs : modulator opt mcs il scr s -> holds_octets a zs -> Forall is_octet zs -> 1 <= zlen zs <= 2047 ->
  exists sig, snd (m_bytesToIQ a s) = Ok (sig, sampling_rate opt)
  /\ zlen sig = 5 * fft_size opt + 5 * fft_size opt / 2
     + 5 * fft_size opt / 4 * (phr_symbols il opt * (if mcs_three_quarters mcs then 3 else 2) / 2
                               + Z.of_nat (mcs_spreading mcs) * - ((- (8 * zlen zs + 6)) / data_bits opt mcs)).
Proof.
  intros Hm Ha Hz Hl. apply modulator_used in Hm. destruct (C43_symbols opt mcs il scr s a zs Hm Ha Hz Hl) as (s' & phr & pay & E & C1 & C2 & F).
  pose proof (iq_send_snd _ _ _ _ _ (Octets a) Hm) as I. cbn [iq_send send] in I. rewrite E in I. cbn [snd rbind] in I.
  exists (frame_samples opt mcs phr pay). split; [assumption|]. apply Forall_app in F as [F1 F2].
  destruct (used_inv _ _ _ _ _ Hm) as (H1 & _). assert (Ho : 1 <= opt <= 4) by (unfold supported in H1; lia).
  destruct (training_length opt Ho) as (q & Hq & Hq0 & T1 & T2). unfold frame_samples. unfold zlen at 1.
  rewrite !app_length, T1, T2, (samples_length _ _ _ q Hq Hq0 F1), (samples_length _ _ _ q Hq Hq0 F2). rewrite <- C1, <- C2.
  replace (5 * fft_size opt / 2) with (10 * Z.of_nat q) by (rewrite Hq; replace (5 * (4 * Z.of_nat q)) with (10 * Z.of_nat q * 2) by lia; rewrite Z.div_mul; lia).
  replace (5 * fft_size opt / 4) with (5 * Z.of_nat q) by (rewrite Hq; replace (5 * (4 * Z.of_nat q)) with (5 * Z.of_nat q * 4) by lia; rewrite Z.div_mul; lia).
  rewrite Hq. unfold zlen. lia.
Qed.
Print Assumptions C43_samples.
(** with C42: a frame of two octets of option 3, MCS 5 *)
Example C42_case : exists s sig f, modulator 3 5 1 2 s /\ snd (iq_send (Octets (ABytes [x55; x0f])) s) = Ok (sig, f).
Proof.
  destruct C41_case as (s & M & _). exists s.
  destruct (C43_samples 3 5 1 2 s (ABytes [x55; x0f]) [85; 15] M) as (sig & E & _); [exact (HO_bytes [x55; x0f])|repeat constructor; unfold is_octet; lia|cbn; lia|].
  exists sig, (sampling_rate 3). split; [exact M|exact E].
Qed.
Theorem C43_samples_refused opt mcs il scr s a bits : modulator opt mcs il scr s -> check_binary_array a = Ok bits -> ~ (1 <= zlen bits / 8 <= 2047) ->
  m_bitsToIQ a s = (s, Err ValueError).
Proof.
  intros Hm Hb Hn. apply modulator_used in Hm. destruct (used_inv _ _ _ _ _ Hm) as (H1 & _ & _ & H4).
  rewrite (iq_bits opt mcs il scr) by assumption. rewrite (C43_refused opt mcs il scr s a bits Hm Hb Hn). reflexivity.
Qed.
Print Assumptions C43_samples_refused.
(** duration of a symbol: 120 us for 5/4 N samples, and the tones are 31250/3 Hz apart *)
Theorem C43_sampling_rate opt : 1 <= opt <= 4 ->
  (IZR (5 * fft_size opt / 4) / sampling_rate opt = 120 / 1000000)%R /\ (sampling_rate opt / IZR (fft_size opt) = 31250 / 3)%R.
Proof.
  intro Ho. assert (E : opt = 1 \/ opt = 2 \/ opt = 3 \/ opt = 4) by lia. unfold sampling_rate.
  destruct E as [->|[->|[->| ->]]]; vm_compute fft_size; vm_compute Z.div; split; field.
Qed.
Print Assumptions C43_sampling_rate.

(** ** C44 *)
Lemma tones_value_inj k N pl pr pset pvals d1 d2 : (0 < k)%R ->
  map (tone_value k) (layout N pl pr pset pvals d1) = map (tone_value k) (layout N pl pr pset pvals d2) -> layout N pl pr pset pvals d1 = layout N pl pr pset pvals d2.
Proof.
  intros Hk. unfold layout. rewrite !map_map. intro E. apply map_ext_in. intros f Hf.
  assert (Ef : tone_value k (layout_tone N pl pr pset pvals d1 f) = tone_value k (layout_tone N pl pr pset pvals d2 f)).
  { clear -E Hf. induction (freqs N) as [|x l IH]; [destruct Hf|]. cbn [map] in E. injection E as E1 E2. destruct Hf as [->|Hf]; auto. }
  clear E. unfold layout_tone in *. destruct (memb f pset); [reflexivity|]. destruct (guard_or_dc N pl pr f); [reflexivity|].
  rewrite <- !amplitude_value in Ef. destruct (nth _ d1 _) as [x y], (nth _ d2 _) as [x' y']. cbn [amplitude] in Ef. injection Ef as E1 E2.
  apply Rmult_eq_reg_l in E1; [|lra]. apply Rmult_eq_reg_l in E2; [|lra]. apply eq_IZR in E1, E2. now subst.
Qed.
Lemma columns_inj q : (0 < q)%nat -> forall A B : list (list C), Forall (fun c => length c = (4 * q)%nat) A -> Forall (fun c => length c = (4 * q)%nat) B ->
  flat_map (symbol_samples (1 # 4)) A = flat_map (symbol_samples (1 # 4)) B -> A = B.
Proof.
  intros Hq. assert (L : forall c, length c = (4 * q)%nat -> symbol_samples (1 # 4) c = prefixed q (o_ifft c)).
  { intros c Hc. unfold symbol_samples. apply quarter_prefix; [now rewrite o_ifft_length|assumption]. }
  assert (LL : forall c, length c = (4 * q)%nat -> length (symbol_samples (1 # 4) c) = (5 * q)%nat).
  { intros c Hc. rewrite L by assumption. rewrite prefixed_length; rewrite o_ifft_length; lia. }
  induction A as [|a A IH]; intros [|b B] FA FB E.
  - reflexivity.
  - exfalso. inversion FB; subst. apply (f_equal (@length C)) in E. cbn [flat_map] in E. rewrite app_length, LL in E by assumption. cbn [length] in E. lia.
  - exfalso. inversion FA; subst. apply (f_equal (@length C)) in E. cbn [flat_map] in E. rewrite app_length, LL in E by assumption. cbn [length] in E. lia.
  - inversion FA; subst. inversion FB; subst. cbn [flat_map] in E. apply app_inj_len in E as [E1 E2]; [|now rewrite !LL]. f_equal; [|now apply IH].
    rewrite !L in E1 by assumption. unfold prefixed, tail_of in E1. apply app_inj_len in E1 as [_ E1]; [|rewrite !skipn_length, !o_ifft_length; lia].
    apply (nth_ext a b (RtoC 0) (RtoC 0)); [lia|]. intros r Hr. rewrite <- (analyse_o_ifft a r (2 * q)), <- (analyse_o_ifft b r (2 * q)) by lia. now rewrite E1.
Qed.
Lemma norm_pos m : (0 < norm_factor m)%R.
Proof.
  destruct m; cbn [norm_factor]; [lra| |]; apply Rdiv_lt_0_compat; try lra; apply sqrt_lt_R0; lra.
Qed.
Lemma sym_value_inj opt mcs col v b1 b2 n k : (0 < k)%R ->
  map (tone_value k) (sym opt mcs col v b1 n) = map (tone_value k) (sym opt mcs col v b2 n) -> sym opt mcs col v b1 n = sym opt mcs col v b2 n.
Proof. intros Hk E. unfold sym in *. now apply (tones_value_inj k). Qed.
Theorem C44_samples_determine opt il m1 sc1 s1 a1 z1 m2 sc2 s2 a2 z2 sig f1 f2 :
  modulator opt m1 il sc1 s1 -> modulator opt m2 il sc2 s2 ->
  holds_octets a1 z1 -> holds_octets a2 z2 -> Forall is_octet z1 -> Forall is_octet z2 -> 1 <= zlen z1 <= 2047 -> 1 <= zlen z2 <= 2047 ->
  snd (m_bytesToIQ a1 s1) = Ok (sig, f1) -> snd (m_bytesToIQ a2 s2) = Ok (sig, f2) ->
  m1 = m2 /\ sc1 = sc2 /\ z1 = z2.
Proof.
  intros M1 M2 Ha1 Ha2 Ho1 Ho2 Hl1 Hl2 E1 E2. apply modulator_used in M1, M2.
  pose proof (iq_send_snd _ _ _ _ _ (Octets a1) M1) as I1. pose proof (iq_send_snd _ _ _ _ _ (Octets a2) M2) as I2. cbn [iq_send send] in I1, I2.
  rewrite (octets_run opt m1 il sc1 s1 a1 z1) in I1 by assumption. rewrite (octets_run opt m2 il sc2 s2 a2 z2) in I2 by assumption.
  cbn [snd rbind] in I1, I2. rewrite I1 in E1. rewrite I2 in E2. injection E1 as E1 _. injection E2 as E2 _. rewrite <- E2 in E1. clear E2 I1 I2.
  destruct (used_inv _ _ _ _ _ M1) as (A1 & A2 & A3 & _). destruct (used_inv _ _ _ _ _ M2) as (B1 & B2 & B3 & _).
  assert (Ho : 1 <= opt <= 4) by (unfold supported in A1; lia). destruct (opt_quarter opt Ho) as [Hq Hq0]. set (q := Z.to_nat (fft_size opt / 4)) in *.
  unfold frame_samples in E1. apply app_inv_head in E1. apply app_inv_head in E1. set (K := norm_factor (mcs_modulation (lowest_mcs opt))) in E1.
  set (x1 := octet_bits z1) in *. set (x2 := octet_bits z2) in *.
  assert (D : forall zs, zlen (octet_bits zs) / 8 = zlen zs).
  { intro zs. unfold zlen. rewrite octet_bits_length, Nat2Z.inj_mul. change (Z.of_nat 8) with 8. rewrite Z.mul_comm, Z.div_mul; lia. }
  assert (M : forall zs, Nat.modulo (length (octet_bits zs)) 8 = 0%nat) by (intro; rewrite octet_bits_length, Nat.mul_comm; apply mod_mult; lia).
  assert (R : forall k phr k' pay, m_samples k phr ++ m_samples k' pay = flat_map (symbol_samples (1 # 4)) (map (map (tone_value k)) phr ++ map (map (tone_value k')) pay)).
  { intros. unfold m_samples. rewrite flat_map_app, !flat_map_concat_map, !map_map. reflexivity. }
  rewrite !R in E1. clear R.
  assert (FF : forall m sc x k k', Forall (fun c => length c = (4 * q)%nat) (map (map (tone_value k)) (frame_phr opt m il sc x) ++ map (map (tone_value k')) (frame_payload opt m il sc x))).
  { intros. destruct (frame_full opt m il sc x) as [F1 F2]. unfold full_symbols in *. rewrite Forall_forall in F1, F2. apply Forall_app.
    split; apply Forall_forall; intros c Hc; apply in_map_iff in Hc as (y & <- & Hy); rewrite map_length; [rewrite (F1 y Hy)|rewrite (F2 y Hy)]; lia. }
  apply (columns_inj q Hq0) in E1; [|apply FF|apply FF].
  pose proof (nphr_ge opt m1 il A1 A2) as G1. pose proof (nphr_ge opt m2 il B1 B2) as G2.
  destruct (header_inj opt il m1 sc1 (zlen x1 / 8) m2 sc2 (zlen x2 / 8)) as (-> & El & ->); auto; try (unfold x1, x2; rewrite D; assumption).
  { intros n Hn. apply (sym_value_inj _ _ _ _ _ _ _ K); [apply norm_pos|].
    apply (f_equal (fun l => nth n l [])) in E1. unfold frame_phr, frame_payload in E1. rewrite !map_map, !app_nth_map in E1 by lia.
    destruct (Nat.ltb_spec n (nphr opt m1 il)); [|lia]. destruct (Nat.ltb_spec n (nphr opt m2 il)); [|lia]. exact E1. }
  assert (Hlen : length x1 = length x2). { unfold x1, x2 in *. rewrite !D in El. rewrite !octet_bits_length. unfold zlen in El. lia. }
  apply app_inj_len in E1 as [E1 E2]; [|unfold frame_phr; now rewrite !map_length, !seq_length].
  assert (Ef : frame_phr opt m2 il sc2 x1 ++ frame_payload opt m2 il sc2 x1 = frame_phr opt m2 il sc2 x2 ++ frame_payload opt m2 il sc2 x2).
  { f_equal.
    - unfold frame_phr in *. rewrite El in *. reflexivity.
    - unfold frame_payload in *. rewrite Hlen in E2 |- *. apply map_ext_in. intros n Hn. apply (sym_value_inj _ _ _ _ _ _ _ (norm_factor (mcs_modulation m2))); [apply norm_pos|].
      rewrite !map_map in E2. apply in_seq in Hn. apply (f_equal (fun l => nth n l [])) in E2. now rewrite !nth_map_seq in E2 by lia. }
  apply frames_inj in Ef; try assumption; try (unfold x1, x2; rewrite D; assumption); try apply M.
  destruct Ef as (_ & _ & E). repeat split; try reflexivity. now apply octet_bits_inj.
Qed.
Print Assumptions C44_samples_determine.
Example C44_samples_case : exists s1 s2, modulator 2 0 0 1 s1 /\ modulator 2 5 0 1 s2
  /\ is_ok (snd (send (Octets (ABytes [x55; x0f])) s1)) = true /\ is_ok (snd (send (Octets (ABytes [x55])) s2)) = true.
Proof.
  eexists. eexists. split; [exists (PInt 0), (PInt 2), (PInt 0), (PInt 1); eexists; exists []; repeat split; reflexivity|].
  split; [exists (PInt 5), (PInt 2), (PInt 0), (PInt 1); eexists; exists []; repeat split; reflexivity|]. split; vm_compute; reflexivity.
Qed.

(** ** C35: mean power *)
Theorem C35_unit_power m : (energy (map (fun g => Cmult (RtoC (norm_factor m)) (IZR (fst (point m g)), IZR (snd (point m g)))) (all_groups (group_size m)))
  / INR (length (all_groups (group_size m))) = 1)%R.
Proof.
  assert (P : forall k x y, (Cmod (Cmult (RtoC k) (IZR x, IZR y)) ^ 2 = k ^ 2 * IZR (x * x + y * y))%R).
  { intros k x y. rewrite Cmod_mult, Cmod_R, Rpow_mult_distr, pow2_abs. f_equal. unfold Cmod. rewrite pow2_sqrt by (cbn [fst snd]; nra). cbn [fst snd].
    rewrite plus_IZR, !mult_IZR. ring. }
  assert (S : forall k l, energy (map (fun g : gauss => Cmult (RtoC k) (IZR (fst g), IZR (snd g))) l) = (k ^ 2 * IZR (fold_right (fun (g : gauss) (a : Z) => (fst g * fst g + snd g * snd g + a)%Z) 0%Z l))%R).
  { intros k l. induction l as [|g l IH]; [cbn; ring|]. cbn [map energy fold_right]. rewrite IH, P, !plus_IZR. ring. }
  rewrite <- (map_map (point m) (fun g : gauss => Cmult (RtoC (norm_factor m)) (IZR (fst g), IZR (snd g)))), S.
  match goal with |- context [fold_right ?a ?b ?c] => set (T := fold_right a b c) end.
  destruct m; cbn [norm_factor]; let v := eval vm_compute in T in change T with v; cbn [group_size all_groups flat_map app length].
  - cbn [INR]. lra.
  - replace ((1 / sqrt 2) ^ 2)%R with (/ 2)%R by (unfold Rdiv; rewrite Rpow_mult_distr, pow1, Rmult_1_l, pow_inv, pow2_sqrt by lra; reflexivity). cbn [INR]. lra.
  - replace ((1 / sqrt 10) ^ 2)%R with (/ 10)%R by (unfold Rdiv; rewrite Rpow_mult_distr, pow1, Rmult_1_l, pow_inv, pow2_sqrt by lra; reflexivity). cbn [INR]. lra.
Qed.
Print Assumptions C35_unit_power.
(** these factors are the ones the modulator uses *)
Theorem C35_factor_used mcs : 0 <= mcs <= 6 -> k_mod mcs = Ok (norm_factor (mcs_modulation mcs)).
Proof. apply k_mod_ok. Qed.
Print Assumptions C35_factor_used.

(** ** C46 for the samples *)
Theorem C46_samples vm vo vi vs s0 h r : mr_ofdm_new vm vo vi vs = Ok s0 -> snd (iq_send r (iq_after h s0)) = snd (iq_send r s0).
Proof.
  intro Hn. pose proof Hn as Hn'. apply new_inv in Hn as (_ & (H1 & _) & E0).
  set (opt := int_of vo) in *. set (mcs := int_of vm) in *. set (il := int_of vi) in *. set (scr := int_of vs) in *.
  assert (U : forall h, used opt mcs il scr (after h s0)) by (intro h'; exists vm, vo, vi, vs, s0, h'; repeat split; assumption).
  rewrite (iq_after_eq opt mcs il scr h H1 s0) by (subst; apply std_clear).
  rewrite (iq_send_snd opt mcs il scr (after h s0) r (U h)). rewrite (iq_send_snd opt mcs il scr s0 r (U [])).
  now rewrite (proj1 (C46_no_memory vm vo vi vs s0 h r Hn')).
Qed.
Print Assumptions C46_samples.
