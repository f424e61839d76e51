(** * C76: power of MR-OFDM signals *)
From Coq Require Import Reals Lra.
From Coquelicot Require Import Complex.
From Verif Require Import Py PList SBits SEntry MBits PBits PEntry MPn9 SPn9 MModul MOfdm Tables SOfdm SMrOfdm PModul POfdm MMrOfdm PStd PMrOfdm PMrRx MTime STime PTime SGap PGap SPower PPower Prop_MrOfdm Prop_Time.

Lemma low_ring opt mcs : supported opt mcs -> mcs_modulation (lowest_mcs opt) <> QAM16.
Proof. each; discriminate. Qed.
Lemma run_energy opt mcs col v b n m : supported opt mcs -> length b = (m * coded_bits opt mcs)%nat -> (n < m)%nat ->
  (symbol_energy opt (weakest (mcs_modulation mcs)) <= energy (map (amplitude (norm_factor (mcs_modulation mcs))) (sym opt mcs col v b n))
   <= symbol_energy opt (strongest (mcs_modulation mcs)))%R.
Proof.
  intros H Hb Hn. set (k := norm_factor (mcs_modulation mcs)). rewrite energy_rsum, map_map. unfold symbol_energy.
  apply (sym_sum (fun t => Cmod (amplitude k t) ^ 2)%R _ _ opt mcs col v b n m H Hb Hn).
  - cbn [amplitude]. rewrite Cmod_0. ring.
  - intro j. rewrite amplitude_value, pilot_one. ring.
  - intros g Hg. rewrite amplitude_value, tone_power. now apply ring_bounds.
Qed.
Lemma run_amps opt mcs col v b n m : supported opt mcs -> length b = (m * coded_bits opt mcs)%nat -> (n < m)%nat ->
  (amps (map (tone_value (norm_factor (mcs_modulation mcs))) (sym opt mcs col v b n))
   <= IZR (data_tones opt) * sqrt (strongest (mcs_modulation mcs)) + IZR (pilot_tones opt))%R.
Proof.
  intros H Hb Hn. set (k := norm_factor (mcs_modulation mcs)). unfold amps. rewrite map_map.
  apply (sym_sum (fun t => Cmod (tone_value k t))%R 0 _ opt mcs col v b n m H Hb Hn).
  - cbn [tone_value]. apply Cmod_0.
  - intro j. apply pilot_one.
  - intros g Hg. split; [apply Cmod_ge_0|]. apply ring_bounds in Hg. fold k in Hg. rewrite <- tone_power in Hg.
    rewrite <- (sqrt_pow2 (Cmod (tone_value k (TData g)))) by apply Cmod_ge_0. apply sqrt_le_1_alt. apply Hg.
Qed.
Lemma frame_energy opt mcs il scr bits : supported opt mcs -> il_ok il ->
  Forall (fun y => energy (map (amplitude (norm_factor (mcs_modulation (lowest_mcs opt)))) y) = IZR (active_tones opt)) (frame_phr opt mcs il scr bits)
  /\ Forall (fun y => symbol_energy opt (weakest (mcs_modulation mcs)) <= energy (map (amplitude (norm_factor (mcs_modulation mcs))) y)
      <= symbol_energy opt (strongest (mcs_modulation mcs)))%R (frame_payload opt mcs il scr bits).
Proof.
  intros H Hi. pose proof (supported_low _ _ H) as Hl. split; apply Forall_forall; intros y Hy; apply in_map_iff in Hy as (n & <- & Hn); apply in_seq in Hn.
  - pose proof (run_energy opt (lowest_mcs opt) 0 511 _ n (nphr opt mcs il) Hl (hdr_sent_length opt mcs il scr (zlen bits / 8) H Hi) ltac:(lia)) as E.
    pose proof (low_ring opt mcs H) as R. unfold symbol_energy in E. unfold active_tones. rewrite plus_IZR.
    destruct (mcs_modulation (lowest_mcs opt)); cbn [weakest strongest] in E; [lra|lra|now elim R].
  - apply (run_energy opt mcs _ _ _ n (npay opt mcs (length bits)) H); [|lia]. now apply pay_sent_length.
Qed.
Theorem C76_energy opt mcs il scr s r sig f : modulator opt mcs il scr s -> snd (iq_send r s) = Ok (sig, f) ->
  exists stf ltf hbodies pbodies, m_STF opt = Ok stf /\ m_LTF opt = Ok ltf
  /\ sig = stf ++ ltf ++ flat_map (prefixed (Z.to_nat (fft_size opt / 4))) (hbodies ++ pbodies)
  /\ Forall (fun body => zlen body = fft_size opt) (hbodies ++ pbodies)
  /\ Forall (fun body => energy body = IZR (active_tones opt)) hbodies
  /\ Forall (fun body => symbol_energy opt (weakest (mcs_modulation mcs)) <= energy body <= symbol_energy opt (strongest (mcs_modulation mcs)))%R pbodies
  /\ (mcs <= 4 -> Forall (fun body => energy body = IZR (active_tones opt)) pbodies).
Proof.
  intros Hm E. destruct (C41_frames _ _ _ _ _ _ _ _ Hm E) as (stf & ltf & phr & pay & hb & pb & E1 & E2 & E3 & E4 & F1 & F2).
  apply modulator_used in Hm. destruct (sent_frame _ _ _ _ _ _ _ _ Hm E3) as (bits & _ & -> & ->). destruct (used_inv _ _ _ _ _ Hm) as (H1 & H2 & _).
  destruct (frame_energy opt mcs il scr bits H1 H2) as [G1 G2].
  assert (T : forall k (P : R -> Prop) ys bs, Forall2 (carries (fft_size opt) k) ys bs -> Forall (fun y => P (energy (map (amplitude k) y))) ys -> Forall (fun b => P (energy b)) bs).
  { intros k P ys bs F. induction F as [|y b ys bs (_ & _ & C3) F IH]; intro G; [constructor|]. inversion G; subst. constructor; [now rewrite C3|now apply IH]. }
  assert (TL : forall k ys bs, Forall2 (carries (fft_size opt) k) ys bs -> Forall (fun b => zlen b = fft_size opt) bs).
  { assert (0 <= fft_size opt) by (unfold fft_size; apply Z.pow_nonneg; lia).
    intros k ys bs F. induction F as [|y b ys bs (C1 & _ & _) F IH]; [constructor|]. constructor; [unfold zlen; rewrite C1; lia|exact IH]. }
  exists stf, ltf, hb, pb. split; [assumption|]. split; [assumption|]. split; [assumption|].
  split; [apply Forall_app; split; eapply TL; eassumption|].
  split; [eapply (T _ (fun e => e = _)); eassumption|]. assert (P : Forall (fun body => symbol_energy opt (weakest (mcs_modulation mcs)) <= energy body <= symbol_energy opt (strongest (mcs_modulation mcs)))%R pb).
  { eapply (T _ (fun e => symbol_energy opt (weakest (mcs_modulation mcs)) <= e <= symbol_energy opt (strongest (mcs_modulation mcs)))%R); eassumption. }
  split; [exact P|]. intro H4. eapply Forall_impl; [|exact P]. intros b Hb. cbn beta in Hb. unfold symbol_energy in Hb. unfold active_tones. rewrite plus_IZR.
  unfold mcs_modulation in Hb. replace (mcs <=? 4) with true in Hb by (symmetry; apply Z.leb_le; lia). destruct (mcs <=? 1); cbn [weakest strongest] in Hb; lra.
Qed.
Print Assumptions C76_energy.

(** ** largest sample *)
Lemma peak_mono opt mcs x : opt_ok opt -> (0 <= x <= IZR (active_tones opt))%R -> (x / sqrt (INR (Z.to_nat (fft_size opt))) <= peak opt mcs)%R.
Proof.
  intros Ho Hx. unfold peak. rewrite INR_IZR_INZ. replace (Z.of_nat (Z.to_nat (fft_size opt))) with (fft_size opt) by (destruct Ho as [->|[->|[->| ->]]]; reflexivity).
  assert (P : (0 < sqrt (IZR (fft_size opt)))%R) by (apply sqrt_lt_R0, IZR_lt; destruct Ho as [->|[->|[->| ->]]]; reflexivity).
  unfold Rdiv. apply Rmult_le_compat_r; [left; now apply Rinv_0_lt_compat|]. unfold active_tones in Hx. rewrite plus_IZR in Hx.
  assert (D : (0 <= IZR (data_tones opt))%R) by (apply IZR_le; destruct Ho as [->|[->|[->| ->]]]; discriminate).
  assert (S : (1 <= sqrt (strongest (mcs_modulation mcs)))%R).
  { rewrite <- sqrt_1 at 1. apply sqrt_le_1_alt. destruct (mcs_modulation mcs); cbn [strongest]; lra. }
  nra.
Qed.
Lemma amps_signs A l : (0 <= A)%R -> amps (map (fun z => RtoC (IZR z * A)) l) = (A * IZR (fold_right (fun z a => Z.abs z + a)%Z 0%Z l))%R.
Proof.
  intro HA. unfold amps. induction l as [|z l IH]; cbn [map rsum fold_right]; [rewrite Rmult_0_r; reflexivity|]. rewrite IH, Cmod_R, Rabs_mult, (Rabs_right A) by lra. rewrite plus_IZR, abs_IZR. ring.
Qed.
Lemma stf_peak opt mcs stf : opt_ok opt -> m_STF opt = Ok stf -> Forall (fun z => Cmod z <= peak opt mcs)%R stf.
Proof.
  intros Ho E. assert (Ho' : 1 <= opt <= 4) by (unfold opt_ok in Ho; lia). destruct (fft_table opt Ho') as (E1 & E2 & E3 & e & l & E4 & _ & _).
  destruct (bpsk_new (fft_size opt) E2) as (c & st & E5). unfold m_STF in E. rewrite E1 in E. cbn [rbind] in E. rewrite E5 in E. cbn [rbind] in E. rewrite E4 in E. cbn [rbind] in E.
  pose proof (stf_table opt e E4) as T. set (col := stf_tones (fft_size opt) e) in *. unfold subcarriersToIQ in E. destruct (zlen col =? fft_size opt) eqn:EL; [|discriminate]. cbn [rbind] in E.
  apply Z.eqb_eq in EL. set (sig := symbol_samples (1 # 4) col) in *. set (B := (amps col / sqrt (INR (length col)))%R).
  assert (F : Forall (fun z => Cmod z <= B)%R sig) by apply symbol_peak. clearbody sig.
  unfold flip_end in E. destruct (Nat.eqb _ _); [|discriminate]. cbn [rbind] in E. injection E as <-.
  assert (G : Forall (fun z => Cmod z <= B)%R (sig ++ sig ++ sig ++ firstn (length sig / 5 * 3) sig ++ map Copp (skipn (length sig / 5 * 3) sig))).
  { repeat (apply Forall_app; split); try exact F.
    - now apply Forall_firstn'.
    - apply Forall_forall. intros z Hz. apply in_map_iff in Hz as (y & <- & Hy). rewrite Cmod_opp. apply (Forall_skipn' _ (length sig / 5 * 3)) in F. rewrite Forall_forall in F. now apply F. }
  apply Forall_forall. intros z Hz. apply in_map_iff in Hz as (y & <- & Hy). rewrite Forall_forall in G. specialize (G y Hy). rewrite Cmod_mult, Cmod_R, (Rabs_right (5 / 4)) by lra.
  apply Rle_trans with (5 / 4 * amps col / sqrt (INR (Z.to_nat (fft_size opt))))%R.
  { assert (L : length col = Z.to_nat (fft_size opt)) by (unfold zlen in EL; lia). unfold B in G. rewrite L in G. unfold Rdiv in *. lra. }
  apply peak_mono; [assumption|]. rewrite T. assert (Hs : (0 <= stf_level opt)%R) by apply sqrt_pos. rewrite amps_signs by assumption.
  match goal with |- context [fold_right ?a ?b ?c] => set (Q := fold_right a b c) end.
  assert (BND : forall a u x : R, (0 <= u -> 0 <= a -> 0 <= x -> (5 / 4 * x) ^ 2 * u <= a ^ 2 -> 0 <= 5 / 4 * (sqrt u * x) <= a)%R).
  { intros a u x U A X H. pose proof (sqrt_pos u) as S0. split; [apply Rmult_le_pos; [lra|apply Rmult_le_pos; assumption]|].
    apply Rsqr_incr_0_var; [|assumption]. unfold Rsqr. replace (5 / 4 * (sqrt u * x) * (5 / 4 * (sqrt u * x)))%R with ((5 / 4 * x) ^ 2 * (sqrt u * sqrt u))%R by ring. rewrite sqrt_sqrt by assumption. lra. }
  unfold stf_level. destruct Ho as [->|[->|[->| ->]]]; let v := eval vm_compute in Q in change Q with v; vm_compute active_tones; vm_compute Z.mul; apply BND; lra.
Qed.
Lemma ltf_peak opt mcs ltf : opt_ok opt -> m_LTF opt = Ok ltf -> Forall (fun z => Cmod z <= peak opt mcs)%R ltf.
Proof.
  intros Ho E. assert (Ho' : 1 <= opt <= 4) by (unfold opt_ok in Ho; lia). destruct (fft_table opt Ho') as (E1 & E2 & E3 & e & l & _ & E4 & E6).
  destruct (bpsk_new (fft_size opt) E2) as (c & st & E5). unfold m_LTF in E. rewrite E1 in E. cbn [rbind] in E. rewrite E5 in E. cbn [rbind] in E. rewrite E4 in E. cbn [rbind] in E.
  set (col := map (fun z => RtoC (IZR z)) l) in *. unfold subcarriersToIQ in E. destruct (zlen col =? fft_size opt) eqn:EL; [|discriminate]. cbn [rbind] in E. injection E as <-.
  apply Z.eqb_eq in EL. set (sig := symbol_samples 0 col) in *.
  assert (F : Forall (fun z => Cmod z <= peak opt mcs)%R sig).
  { eapply Forall_impl; [|apply symbol_peak]. intros z Hz. cbn beta in Hz. eapply Rle_trans; [exact Hz|]. assert (L : length col = Z.to_nat (fft_size opt)) by (unfold zlen in EL; lia). rewrite L.
    apply peak_mono; [assumption|]. unfold col. rewrite (map_ext _ (fun z => RtoC (IZR z * 1))) by (intro; now rewrite Rmult_1_r). rewrite amps_signs by lra.
    rewrite Rmult_1_l. destruct Ho as [->|[->|[->| ->]]]; injection E4 as <-; match goal with |- (_ <= IZR ?Q <= _)%R => let v := eval vm_compute in Q in change Q with v end; vm_compute active_tones; lra. }
  clearbody sig. apply Forall_app. split; [now apply Forall_skipn'|]. apply Forall_app. split; exact F.
Qed.
Theorem C76_peak opt mcs il scr s r sig f : modulator opt mcs il scr s -> snd (iq_send r s) = Ok (sig, f) ->
  Forall (fun z => Cmod z <= peak opt mcs)%R sig.
Proof.
  intros Hm E. apply modulator_used in Hm. rewrite (iq_send_snd _ _ _ _ _ _ Hm) in E.
  destruct (snd (send r s)) as [[phr pay]|e] eqn:ES; [|discriminate]. cbn [rbind] in E. injection E as <- _.
  destruct (sent_frame _ _ _ _ _ _ _ _ Hm ES) as (bits & _ & -> & ->). destruct (used_inv _ _ _ _ _ Hm) as (H1 & H2 & _).
  pose proof (supported_low _ _ H1) as Hl. pose proof (supported_opt _ _ H1) as Ho. assert (Ho' : 1 <= opt <= 4) by (unfold opt_ok in Ho; lia).
  destruct (C42_stf opt Ho') as (stf & _ & E1 & _). destruct (C42_ltf opt Ho') as (ltf & _ & E2 & _).
  unfold frame_samples, stf_of, ltf_of. rewrite E1, E2. apply Forall_app. split; [now apply (stf_peak opt)|]. apply Forall_app. split; [now apply (ltf_peak opt)|].
  apply Forall_app. split; apply m_samples_peak; intros y Hy; apply in_map_iff in Hy as (n & <- & Hn); apply in_seq in Hn; rewrite sym_length.
  - apply peak_mono; [assumption|]. split.
    + unfold amps. rewrite map_map. set (Y := sym _ _ _ _ _ _). clearbody Y. induction Y as [|t Y IH]; cbn [map rsum]; [lra|]. pose proof (Cmod_ge_0 (tone_value (norm_factor (mcs_modulation (lowest_mcs opt))) t)). lra.
    + pose proof (run_amps opt (lowest_mcs opt) 0 511 _ n (nphr opt mcs il) Hl (hdr_sent_length opt mcs il scr (zlen bits / 8) H1 H2) ltac:(lia)) as A.
      pose proof (low_ring opt mcs H1) as R. unfold active_tones. rewrite plus_IZR. destruct (mcs_modulation (lowest_mcs opt)); cbn [strongest] in A; try rewrite sqrt_1 in A; [lra|lra|now elim R].
  - unfold peak. rewrite INR_IZR_INZ. replace (Z.of_nat (Z.to_nat (fft_size opt))) with (fft_size opt) by (destruct Ho as [->|[->|[->| ->]]]; reflexivity).
    unfold Rdiv. apply Rmult_le_compat_r.
    { left. apply Rinv_0_lt_compat, sqrt_lt_R0, IZR_lt. destruct Ho as [->|[->|[->| ->]]]; reflexivity. }
    apply (run_amps opt mcs _ _ _ n (npay opt mcs (length bits)) H1); [now apply pay_sent_length|lia].
Qed.
Print Assumptions C76_peak.
Example C76_case : exists s1 s2, modulator 2 0 0 1 s1 /\ modulator 2 5 0 1 s2
  /\ is_ok (snd (send (Octets (ABytes [x55; x0f])) s1)) = true /\ is_ok (snd (send (Octets (ABytes [x55])) s2)) = true.
Proof. exact C44_samples_case. Qed.
