(** * C97: MR-OFDM frames received with a carrier frequency offset *)
From Coq Require Import Reals Lra.
From Coquelicot Require Import Complex.
From Verif Require Import Py PList SBits SEntry MBits PBits PEntry MPn9 SPn9 MModul MOfdm Tables SOfdm SMrOfdm PModul POfdm MMrOfdm PStd PMrOfdm PMrRx MTime STime PTime SGap PGap SPower PPower SMrRx PRecv PChannel SCfo PCfo Prop_MrOfdm Prop_Time Prop_MrRx.

Lemma stf_numbers opt : 1 <= opt <= 4 -> (0 < stf_period opt <= 2 * quarter opt)%nat /\ (4 * quarter opt = Z.to_nat (stf_step opt) * stf_period opt)%nat
  /\ 0 < stf_step opt < fft_size opt / 2 /\ fft_size opt = stf_step opt * Z.of_nat (stf_period opt)
  /\ guard_or_dc (fft_size opt) (guard_left opt) (guard_right opt) (stf_step opt) = false.
Proof. intro Ho. assert (Ho' : opt = 1 \/ opt = 2 \/ opt = 3 \/ opt = 4) by lia. destruct Ho' as [->|[->|[->| ->]]]; vm_compute; repeat split; congruence || lia. Qed.
Lemma stf_first opt : 1 <= opt <= 4 -> exists body rest, length body = (4 * quarter opt)%nat /\ m_STF opt = Ok (prefixed (quarter opt) body ++ rest)
  /\ (forall i, (i + stf_period opt < 4 * quarter opt)%nat -> nth (i + stf_period opt) body (RtoC 0) = nth i body (RtoC 0))
  /\ analyse body (stf_step opt) <> RtoC 0 /\ energy body = (25 / 16 * IZR (active_tones opt))%R
  /\ (forall f, - (fft_size opt / 2) <= f < fft_size opt / 2 -> analyse body f = RtoC (5 / 4 * stf_amplitude opt f)).
Proof.
  intro Ho. destruct (C42_stf opt Ho) as (stf & body & E & L & S & A & En). destruct (stf_numbers opt Ho) as (Hp & Hk & Hs & HN & _).
  destruct (quarter_4 opt Ho) as (Hq & Hq0 & N2). cbv zeta in S. fold (quarter opt) in S. set (q := quarter opt) in *.
  assert (Lb : length body = (4 * q)%nat) by (unfold zlen in L; lia).
  exists body. eexists. split; [assumption|]. split; [rewrite E, S; reflexivity|]. split.
  - intros i Hi. apply (periodic body (stf_period opt) (Z.to_nat (stf_step opt))); [lia|lia|lia|]. intros f Hf Hm. rewrite Z2Nat.id in Hm by lia.
    assert (Z0 : forall g, - (fft_size opt / 2) <= g < fft_size opt / 2 -> g mod stf_step opt <> 0 -> analyse body g = RtoC 0).
    { intros g Hg Hgm. rewrite A by assumption. unfold stf_amplitude. replace (g mod stf_step opt =? 0) with false by (symmetry; now apply Z.eqb_neq).
      cbn [andb]. now rewrite Rmult_0_r. }
    destruct (Z.lt_ge_cases f (fft_size opt / 2)).
    + apply Z0; [lia|assumption].
    + rewrite <- (analyse_period body f (-1)) by lia. apply Z0; [lia|].
      replace (f + -1 * Z.of_nat (length body)) with (f + (- Z.of_nat (stf_period opt)) * stf_step opt) by nia. now rewrite Z.mod_add by lia.
  - split; [|split; [exact En|exact A]]. rewrite A by lia. intro Z. apply RtoC_inj in Z. revert Z. unfold stf_amplitude. assert (Ho' : opt = 1 \/ opt = 2 \/ opt = 3 \/ opt = 4) by lia.
    assert (S0 : forall x, (0 < x)%R -> (0 < sqrt x)%R) by apply sqrt_lt_R0.
    assert (B1 : ((stf_step opt mod stf_step opt =? 0) && negb (stf_step opt =? 0) && (Z.abs (stf_step opt) <=? stf_edge opt)) = true) by (destruct Ho' as [->|[->|[->| ->]]]; reflexivity).
    assert (B2 : stf_negative opt (stf_step opt) = false) by (destruct Ho' as [->|[->|[->| ->]]]; reflexivity). rewrite B1, B2.
    assert (0 < sqrt (IZR (active_tones opt) / IZR (2 * (stf_edge opt / stf_step opt))))%R.
    { apply S0, Rdiv_lt_0_compat; apply IZR_lt; destruct Ho' as [->|[->|[->| ->]]]; vm_compute; reflexivity. }
    lra.
Qed.

(** the first symbol of every frame *)
Lemma stf_signal opt mcs il scr s a zs sig fr : modulator opt mcs il scr s -> holds_octets a zs -> Forall is_octet zs -> 1 <= zlen zs <= 2047 ->
  snd (m_bytesToIQ a s) = Ok (sig, fr) -> 1 <= opt <= 4 /\ (30 * quarter opt <= length sig)%nat /\
  exists body, length body = (4 * quarter opt)%nat /\ analyse body (stf_step opt) <> RtoC 0 /\ energy body = (25 / 16 * IZR (active_tones opt))%R
  /\ (forall i, (i < 5 * quarter opt)%nat -> nth i sig (RtoC 0) = nth ((i + 3 * quarter opt) mod (4 * quarter opt)) body (RtoC 0))
  /\ (forall i, (i + stf_period opt < 5 * quarter opt)%nat -> nth (i + stf_period opt) sig (RtoC 0) = nth i sig (RtoC 0))
  /\ (forall f, - (fft_size opt / 2) <= f < fft_size opt / 2 -> analyse body f = RtoC (5 / 4 * stf_amplitude opt f)).
Proof.
  intros Hm Ha Hz Hl E. destruct (frame_parts _ _ _ _ _ _ _ _ _ Hm Ha Hz Hl E) as (H1 & H2 & H3 & lb & bd & P & _ & _).
  assert (Ho : 1 <= opt <= 4) by (unfold supported in H1; lia). pose proof (p_length _ _ _ _ _ P) as Ls. clear P. split; [assumption|]. split; [nia|].
  destruct (quarter_4 opt Ho) as (Hq & Hq0 & N2). destruct (stf_numbers opt Ho) as (Hp & Hk & Hs & HN & _).
  destruct (stf_first opt Ho) as (body & rest & Lb & ES & Per & A & En & Am).
  destruct (C42_frame opt Ho) as (stf & ltf & ES' & _ & F). rewrite ES in ES'. injection ES' as <-.
  destruct (F mcs il scr s (Octets a) sig fr Hm E) as [more Esig]. clear F.
  set (q := quarter opt) in *. set (p := stf_period opt) in *. exists body. split; [assumption|]. split; [assumption|]. split; [assumption|].
  assert (At : forall i, (i < 5 * q)%nat -> nth i sig (RtoC 0) = nth ((i + 3 * q) mod (4 * q)) body (RtoC 0)).
  { intros i Hi. rewrite Esig, <- app_assoc. rewrite app_nth1 by (rewrite prefixed_length; lia). apply prefixed_nth; assumption. }
  (* s is periodic in the first symbol *)
  assert (SP : forall i, (i + p < 5 * q)%nat -> nth (i + p) sig (RtoC 0) = nth i sig (RtoC 0)).
  { intros i Hi. rewrite !At by lia. destruct (Nat.lt_ge_cases i q) as [C1|C1].
    - (* i in the prefix *) rewrite (Nat.mod_small (i + 3 * q)) by lia. destruct (Nat.lt_ge_cases (i + p) q) as [C2|C2].
      + rewrite Nat.mod_small by lia. replace (i + p + 3 * q)%nat with (i + 3 * q + p)%nat by lia. apply Per. lia.
      + replace (i + p + 3 * q)%nat with (i + p - q + 1 * (4 * q))%nat by lia. rewrite Nat.mod_add, Nat.mod_small by lia.
        (* b (i + p - q) = b (i + 3q): one period before the end of the symbol, all multiples of p *)
        assert (G : forall m j, (j + m * p < 4 * q)%nat -> nth (j + m * p) body (RtoC 0) = nth j body (RtoC 0)).
        { induction m as [|m IH]; intros j Hj; [f_equal; lia|]. replace (j + S m * p)%nat with (j + m * p + p)%nat by lia. rewrite Per by lia. apply IH. lia. }
        replace (i + 3 * q)%nat with (i + p - q + (Z.to_nat (stf_step opt) - 1) * p)%nat by nia. symmetry. apply G. nia.
    - replace (i + p + 3 * q)%nat with (i - q + p + 1 * (4 * q))%nat by lia. replace (i + 3 * q)%nat with (i - q + 1 * (4 * q))%nat by lia.
      rewrite !Nat.mod_add, !Nat.mod_small by lia. apply Per. lia. }
  split; [exact At|split; [exact SP|exact Am]].
Qed.
(** what the correlation of the STF gives *)
Lemma correlation_value opt mcs il scr s a zs sig fr h w : modulator opt mcs il scr s -> holds_octets a zs -> Forall is_octet zs -> 1 <= zlen zs <= 2047 ->
  snd (m_bytesToIQ a s) = Ok (sig, fr) -> (length h <= S (quarter opt))%nat -> response (fft_size opt) h (stf_step opt) <> RtoC 0 ->
  exists E : R, (0 < E)%R /\ correlation opt (shifted w (through h sig)) = Cmult (RtoC E) (cis (w * INR (stf_period opt))).
Proof.
  intros Hm Ha Hz Hl E Hh Hr. destruct (stf_signal _ _ _ _ _ _ _ _ _ Hm Ha Hz Hl E) as (Ho & Ls & body & Lb & A & _ & At & SP & _).
  destruct (quarter_4 opt Ho) as (Hq & Hq0 & N2). destruct (stf_numbers opt Ho) as (Hp & Hk & Hs & HN & _).
  set (q := quarter opt) in *. set (p := stf_period opt) in *. set (y := through h sig) in *.
  assert (Ly : length y = length sig) by (unfold y, through; now rewrite map_length, seq_length).
  assert (YP : forall j, (j + p < 4 * q)%nat -> nth (q + j + p) y (RtoC 0) = nth (q + j) y (RtoC 0)).
  { intros j Hj. unfold y, through. rewrite !nth_map_seq by nia. change csum with Csum. apply Csum_ext. intros l Hl'.
    destruct (Nat.leb_spec l (q + j + p)); [|lia]. destruct (Nat.leb_spec l (q + j)); [|lia]. f_equal.
    replace (q + j + p - l)%nat with (q + j - l + p)%nat by lia. apply SP. lia. }
  destruct (Csum_energy (fun j => nth (q + j) y (RtoC 0)) (4 * q - p)) as (En & Pos & Sum & Zero).
  exists En. split.
  - destruct Pos as [Pos|Z]; [assumption|]. exfalso. symmetry in Z. specialize (Zero Z).
    assert (All : forall j, (j < 4 * q)%nat -> nth (q + j) y (RtoC 0) = RtoC 0).
    { intros j Hj. destruct (Nat.lt_ge_cases j (4 * q - p)); [now apply Zero|]. replace (q + j)%nat with (q + (j - p) + p)%nat by lia. rewrite YP by lia. apply Zero. lia. }
    pose proof (window_through h sig body q (4 * q) q (stf_step opt) ltac:(lia) Lb Hh ltac:(lia) ltac:(lia) ltac:(lia)) as W.
    rewrite Nat.sub_diag in W. specialize (W ltac:(intros i Hi; rewrite Nat.add_0_l, At by lia; f_equal; f_equal; lia)). fold y in W.
    replace (Z.of_nat (4 * q)) with (fft_size opt) in W by lia. rewrite analyse_eq, (Csum_ext _ (fun _ => RtoC 0)) in W.
    + rewrite Csum_zero, Cmult_0_r in W. symmetry in W. exact (Cmult_neq_0 _ _ Hr A W).
    + intros j Hj. rewrite firstn_length in Hj. rewrite nth_firstn, nth_skipn, All by lia. apply Cmult_0_l.
  - unfold correlation. fold q p. change csum with Csum. rewrite <- Sum, (Cmult_comm (Csum _ _)), <- Csum_scal. apply Csum_ext. intros j Hj.
    rewrite !shifted_nth, YP, Cconj_mult, cis_conj by lia.
    replace (w * INR (q + j + p))%R with (w * INR p + w * INR (q + j))%R by (rewrite (plus_INR (q + j) p); ring). rewrite cis_add.
    transitivity (cis (w * INR p) * (cis (w * INR (q + j)) * cis (- (w * INR (q + j)))) * (nth (q + j) y (RtoC 0) * Cconj (nth (q + j) y (RtoC 0))))%C; [ring|].
    rewrite <- cis_add, Rplus_opp_r, cis_0. ring.
Qed.

(** df: offset in Hz; fr: the sampling rate returned with the samples *)
Lemma within opt df : 1 <= opt <= 4 -> (Rabs df < IZR (stf_step opt) / 2 * (31250 / 3))%R ->
  (Rabs (2 * PI * df / sampling_rate opt * INR (stf_period opt)) < PI)%R.
Proof.
  intros Ho H. destruct (C43_sampling_rate opt Ho) as [_ F]. destruct (stf_numbers opt Ho) as (Hp & _ & Hs & HN & _).
  assert (P0 : (0 < INR (stf_period opt))%R) by (apply lt_0_INR; lia). assert (S0 : (0 < IZR (stf_step opt))%R) by (apply IZR_lt; lia).
  assert (EN : IZR (fft_size opt) = (IZR (stf_step opt) * INR (stf_period opt))%R) by (rewrite HN, mult_IZR, <- INR_IZR_INZ; reflexivity).
  assert (N0 : (0 < IZR (fft_size opt))%R) by (rewrite EN; now apply Rmult_lt_0_compat).
  assert (FR : sampling_rate opt = (31250 / 3 * (IZR (stf_step opt) * INR (stf_period opt)))%R) by (rewrite <- EN, <- F; field; lra).
  pose proof PI_RGT_0 as Hpi. rewrite FR. set (k := IZR (stf_step opt)) in *. set (p := INR (stf_period opt)) in *.
  replace (2 * PI * df / (31250 / 3 * (k * p)) * p)%R with (PI * (df / (k / 2 * (31250 / 3))))%R by (field; lra).
  rewrite Rabs_mult, (Rabs_pos_eq PI) by lra. rewrite <- (Rmult_1_r PI) at 2. apply Rmult_lt_compat_l; [assumption|].
  unfold Rdiv at 1. rewrite Rabs_mult, Rabs_inv, (Rabs_pos_eq (k / 2 * (31250 / 3))) by nra.
  apply (Rmult_lt_reg_r (k / 2 * (31250 / 3))); [nra|]. rewrite Rmult_assoc, Rinv_l, Rmult_1_r, Rmult_1_l by nra. exact H.
Qed.
Lemma rate_of opt mcs il scr s a zs sig fr : modulator opt mcs il scr s -> holds_octets a zs -> Forall is_octet zs -> 1 <= zlen zs <= 2047 ->
  snd (m_bytesToIQ a s) = Ok (sig, fr) -> fr = sampling_rate opt.
Proof. intros Hm Ha Hz Hl E. destruct (C43_samples opt mcs il scr s a zs Hm Ha Hz Hl) as (sig' & E' & _). congruence. Qed.

(** the estimate is exact *)
Theorem C97_estimate opt mcs il scr s a zs sig fr h df : modulator opt mcs il scr s -> holds_octets a zs -> Forall is_octet zs -> 1 <= zlen zs <= 2047 ->
  snd (m_bytesToIQ a s) = Ok (sig, fr) -> (length h <= S (quarter opt))%nat -> response (fft_size opt) h (stf_step opt) <> RtoC 0 ->
  (Rabs df < IZR (stf_step opt) / 2 * (31250 / 3))%R ->
  offset_of opt (shifted (2 * PI * df / fr) (through h sig)) = (2 * PI * df / fr)%R.
Proof.
  intros Hm Ha Hz Hl E Hh Hr Hd. assert (Ho : 1 <= opt <= 4) by (destruct (frame_parts _ _ _ _ _ _ _ _ _ Hm Ha Hz Hl E) as (H1 & _); unfold supported in H1; lia).
  destruct (correlation_value opt mcs il scr s a zs sig fr h (2 * PI * df / fr) Hm Ha Hz Hl E Hh Hr) as (En & Pos & Co).
  pose proof (within opt df Ho Hd) as W. rewrite <- (rate_of opt mcs il scr s a zs sig fr Hm Ha Hz Hl E) in W.
  destruct (stf_numbers opt Ho) as (Hp & _). assert (P0 : INR (stf_period opt) <> 0%R) by (apply not_0_INR; lia).
  unfold offset_of. rewrite Co, angle_cis by assumption. unfold Rdiv at 1. rewrite Rmult_assoc, Rinv_r, Rmult_1_r by assumption. reflexivity.
Qed.
Print Assumptions C97_estimate.

(** the frame is received *)
Theorem C97_offset opt mcs il scr s a zs sig fr h df : modulator opt mcs il scr s -> holds_octets a zs -> Forall is_octet zs -> 1 <= zlen zs <= 2047 ->
  snd (m_bytesToIQ a s) = Ok (sig, fr) -> (length h <= S (quarter opt))%nat ->
  (forall f, - (fft_size opt / 2) <= f < fft_size opt / 2 -> guard_or_dc (fft_size opt) (guard_left opt) (guard_right opt) f = false ->
     response (fft_size opt) h f <> RtoC 0) ->
  (Rabs df < IZR (stf_step opt) / 2 * (31250 / 3))%R ->
  mr_receiver opt il (equalised opt (corrected opt (shifted (2 * PI * df / fr) (through h sig)))) = {| f_mcs := mcs; f_scrambler := scr; f_octets := zs |}.
Proof.
  intros Hm Ha Hz Hl E Hh Hr Hd. assert (Ho : 1 <= opt <= 4) by (destruct (frame_parts _ _ _ _ _ _ _ _ _ Hm Ha Hz Hl E) as (H1 & _); unfold supported in H1; lia).
  destruct (stf_numbers opt Ho) as (_ & _ & Hs & _ & Hg). unfold corrected.
  rewrite (C97_estimate opt mcs il scr s a zs sig fr h df Hm Ha Hz Hl E Hh (Hr (stf_step opt) ltac:(lia) Hg) Hd), shifted_back. eapply C86_multipath; eauto.
Qed.
Print Assumptions C97_offset.

(** and no further: an offset of one more STF tone spacing gives the same estimate *)
Theorem C97_limit opt w r : 1 <= opt <= 4 ->
  offset_of opt (shifted (w + 2 * PI * (IZR (stf_step opt) * (31250 / 3)) / sampling_rate opt) r) = offset_of opt (shifted w r).
Proof.
  intro Ho. destruct (C43_sampling_rate opt Ho) as [_ F]. destruct (stf_numbers opt Ho) as (Hp & _ & Hs & HN & _).
  assert (P0 : (0 < INR (stf_period opt))%R) by (apply lt_0_INR; lia). assert (S0 : (0 < IZR (stf_step opt))%R) by (apply IZR_lt; lia).
  assert (EN : IZR (fft_size opt) = (IZR (stf_step opt) * INR (stf_period opt))%R) by (rewrite HN, mult_IZR, <- INR_IZR_INZ; reflexivity).
  assert (N0 : (0 < IZR (fft_size opt))%R) by (rewrite EN; now apply Rmult_lt_0_compat).
  assert (FR : sampling_rate opt = (31250 / 3 * (IZR (stf_step opt) * INR (stf_period opt)))%R) by (rewrite <- EN, <- F; field; lra).
  replace (w + 2 * PI * (IZR (stf_step opt) * (31250 / 3)) / sampling_rate opt)%R with (w + 2 * PI / INR (stf_period opt))%R by (rewrite FR; field; lra).
  unfold offset_of, correlation. do 2 f_equal. rewrite !csum_Csum. apply Csum_ext. intros j _. rewrite !shifted_nth, !Cconj_mult, !cis_conj.
  set (q := quarter opt). set (p := stf_period opt) in *. set (u := (2 * PI / INR p)%R).
  replace ((w + u) * INR (q + j + p))%R with (w * INR (q + j + p) + (u * INR (q + j) + 2 * PI * IZR 1))%R by (rewrite (plus_INR (q + j) p); unfold u; field; lra).
  replace (- ((w + u) * INR (q + j)))%R with (- (w * INR (q + j)) + - (u * INR (q + j)))%R by ring. rewrite !cis_add, cis_2PI_Z.
  match goal with |- (?A * (?B * RtoC 1) * ?x * (?D * ?G * ?y))%C = _ => transitivity ((B * G) * (A * x * (D * y)))%C; [ring|] end.
  rewrite <- cis_add, Rplus_opp_r, cis_0. ring.
Qed.
Print Assumptions C97_limit.

(** widest offsets, in Hz *)
Example C97_range : map stf_step [1; 2; 3; 4] = [8; 4; 4; 2] /\ (8 / 2 * (31250 / 3) = 125000 / 3)%R /\ (2 / 2 * (31250 / 3) = 31250 / 3)%R.
Proof. split; [reflexivity|]. lra. Qed.
(** an offset of 20 kHz and an echo of half the amplitude meet the hypotheses *)
Example C97_case : exists s, modulator 3 5 1 2 s /\ is_ok (snd (send (Octets (ABytes [x55; x0f])) s)) = true
  /\ (Rabs 20000 < IZR (stf_step 3) / 2 * (31250 / 3))%R
  /\ let h := RtoC 1 :: repeat (RtoC 0) 7 ++ [RtoC (/ 2)] in (length h <= S (quarter 3))%nat /\ forall f, response (fft_size 3) h f <> RtoC 0.
Proof.
  destruct C86_case as (s & H1 & H2 & H3). exists s. split; [assumption|]. split; [assumption|]. split; [|exact H3]. rewrite Rabs_pos_eq by lra. cbn [stf_step]. lra.
Qed.
