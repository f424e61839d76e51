(** * C79: the raised-cosine pulse has a value at every sampled instant *)
From Coq Require Import Reals Lra.
From Coquelicot Require Import Rbar Hierarchy Rcomplements Lim_seq Continuity ElemFct Complex.
From Verif Require Import Py MBits MFields MModul MOfdm Tables MRate MOqpsk SBits SEntry SRate SOqpsk PList PBits PEntry PConv PRate POqpsk POqRun Prop_Oqpsk MTime PTime MWave SWave PWave Prop_Wave.

(** denominator of the formula of the pulse at sample k *)
Definition denominator (Tc : R) (sps k : nat) : R := (1 - (2 * (8 / 10) * (pulse_time Tc sps k / Tc)) ^ 2)%R.
(** bands shaped with the raised cosine *)
Definition cosine_band (b : Frequency_band) : Prop := b <> Band_915MHz /\ b <> Band_2450MHz.
(** what the pulse tends to at -5/8 Tc and 5/8 Tc *)
Definition limit_value : R := (2 / 5 * sin (5 / 8 * PI))%R.

(** exactly the multiples of 32 have an instant without value *)
Theorem C79_criterion Tc (sps : nat) : (0 < Tc)%R -> (0 < sps)%nat ->
  (exists k, (k < sps)%nat /\ denominator Tc sps k = 0%R) <-> (32 | Z.of_nat sps).
Proof.
  intros HT Hs. rewrite <- singular_sps by assumption. assert (HT' : Tc <> 0%R) by lra.
  split; intros (k & Hk & H); exists k; (split; [assumption|]); now apply (singular_time Tc).
Qed.
Print Assumptions C79_criterion.
Lemma not_half_sine b : cosine_band b -> uses_half_sine b = false.
Proof. intros [H1 H2]. destruct b; try reflexivity; congruence. Qed.
(** every other sample is right, whatever samples_per_symbol *)
Theorem C79_elsewhere_partial g p b rm sm sps s r sig f : oq_used p b rm sm sps s -> snd (oq_signal g p r s) = Ok (sig, f) ->
  exists chips z rate, snd (oq_send p r s) = Ok (chips, z) /\ f = (IZR rate * IZR sps)%R /\ (0 < f)%R
  /\ forall j k, (2 * j < length chips)%nat -> (k < Z.to_nat sps)%nat -> ~ cosine_band b \/ denominator (1 / IZR rate) (Z.to_nat sps) k <> 0%R ->
     nth (j * Z.to_nat sps + k) sig (RtoC 0) = Cmult (chip_pair chips j) (RtoC (pulse b (1 / IZR rate) (Z.to_nat sps) k)).
Proof.
  intros Hu E. pose proof (frames_gen g p b rm sm sps s r Hu) as H. destruct (snd (oq_send p r s)) as [[c z]|e]; [|congruence].
  destruct H as (rate & sg & Ez & P1 & P2 & Es & T). rewrite E in Es. injection Es as <- Ef. exists c, z, rate. subst z. rewrite mult_IZR in Ef.
  split; [reflexivity|]. split; [assumption|]. split; [rewrite Ef; apply Rmult_lt_0_compat; now apply IZR_lt|].
  destruct T as (n & L & S & N & _). intros j k Hj Hk Hd. rewrite N by lia. apply Tc_pos in P1. unfold Tc_of in *. rewrite pulse_of_shape; [reflexivity|lra|].
  destruct Hd as [Hb|Hd]; [left|now right]. unfold cosine_band in Hb. destruct b; try reflexivity; exfalso; apply Hb; split; discriminate.
Qed.
Print Assumptions C79_elsewhere_partial.
(** in the raised-cosine bands, when samples_per_symbol is a multiple of 32, two samples of the pulse of each chip pair
    (numbers 11/32 sps and 21/32 sps) are whatever the division by 0 gives *)
Theorem C79_division_by_zero_refuted g p b rm sm sps s r sig f : oq_used p b rm sm sps s -> cosine_band b -> (32 | sps) ->
  snd (oq_signal g p r s) = Ok (sig, f) ->
  exists chips z rate, snd (oq_send p r s) = Ok (chips, z) /\ f = (IZR rate * IZR sps)%R /\ (0 < f)%R /\ chips <> []
  /\ forall j k, (2 * j < length chips)%nat -> Z.of_nat k = 11 * sps / 32 \/ Z.of_nat k = 21 * sps / 32 ->
     denominator (1 / IZR rate) (Z.to_nat sps) k = 0%R
     /\ nth (j * Z.to_nat sps + k) sig (RtoC 0) = Cmult (chip_pair chips j) (RtoC (g (pulse_time (1 / IZR rate) (Z.to_nat sps) k) (1 / IZR rate)%R)).
Proof.
  intros Hu Hb [q Hq] E. pose proof (frames_gen g p b rm sm sps s r Hu) as H. pose proof (proj2 (send_master p r s)) as M.
  destruct (snd (oq_send p r s)) as [[c z]|e]; [|congruence].
  destruct H as (rate & sg & Ez & P1 & P2 & Es & T). rewrite E in Es. injection Es as <- Ef. exists c, z, rate. subst z. rewrite mult_IZR in Ef.
  split; [reflexivity|]. split; [assumption|]. split; [rewrite Ef; apply Rmult_lt_0_compat; now apply IZR_lt|].
  split; [symmetry in M; apply rbind_ok in M as (bits & _ & M); now apply chips_even in M as [_ M]|].
  destruct T as (n & L & S & N & _). intros j k Hj Hk. apply Tc_pos in P1. unfold Tc_of in *.
  assert (K : (32 * k = 11 * Z.to_nat sps \/ 32 * k = 21 * Z.to_nat sps)%nat /\ (k < Z.to_nat sps)%nat).
  { rewrite Hq in Hk. replace (11 * (q * 32))%Z with (11 * q * 32)%Z in Hk by ring. replace (21 * (q * 32))%Z with (21 * q * 32)%Z in Hk by ring. rewrite !Z.div_mul in Hk by lia. lia. }
  destruct K as [K K']. assert (Sg : singular (1 / IZR rate) (pulse_time (1 / IZR rate) (Z.to_nat sps) k)) by (apply singular_time; [lia|lra|assumption]).
  split; [exact Sg|]. rewrite N by lia. unfold pulse_of. cbv zeta. rewrite (not_half_sine b Hb). rewrite raised_cosine_glitch; [reflexivity|lra|assumption].
Qed.
Print Assumptions C79_division_by_zero_refuted.

(** although the pulse has a limit there *)
Local Open Scope R_scope.
Lemma lim_side (e : R) : e = 1 \/ e = -1 -> is_lim (fun x => sin (PI * x) / (PI * x) * (cos (PI * (8 / 10) * x) / (1 - (2 * (8 / 10) * x) ^ 2))) (e * (5 / 8)) limit_value.
Proof.
  intro He. pose proof PI_RGT_0 as HP. set (x0 := e * (5 / 8)).
  assert (He2 : e * e = 1) by (destruct He; subst; ring).
  (* cos (pi y/2) = sin (pi/2 (1 - e y)), y = 1.6 x *)
  set (u := fun x => PI / 2 * (1 - e * (8 / 5) * x)).
  assert (U : is_lim u x0 0).
  { replace (Finite 0) with (Finite (u x0)); [|f_equal; unfold u, x0; replace (e * (8 / 5) * (e * (5 / 8))) with (e * e) by field; rewrite He2; ring].
    apply is_lim_continuity. unfold u. apply derivable_continuous_pt. reg. }
  assert (Sc : is_lim (fun x => sin (u x) / u x) x0 1).
  { apply (is_lim_comp (fun y => sin y / y) u x0 1 0); [apply is_lim_sinc_0|exact U|].
    exists (mkposreal 1 Rlt_0_1). intros y _ Hy E. injection E as E. unfold u in E. apply Rmult_integral in E as [E|E]; [lra|]. apply Hy. unfold x0.
    replace y with (e * (5 / 8) * (e * (8 / 5) * y)) by (replace (e * (5 / 8) * (e * (8 / 5) * y)) with (e * e * y) by field; rewrite He2; ring).
    assert (Q : e * (8 / 5) * y = 1) by lra. rewrite Q. rewrite Rmult_1_r. reflexivity. }
  set (h := fun x => sin (PI * x) / (PI * x) * (PI / 2 * / (1 + e * (8 / 5) * x))).
  assert (X0 : x0 <> 0) by (unfold x0; destruct He; subst; lra).
  assert (Hx : 1 + e * (8 / 5) * x0 = 2) by (unfold x0; replace (e * (8 / 5) * (e * (5 / 8))) with (e * e) by field; rewrite He2; ring).
  assert (Hh : h x0 = limit_value).
  { unfold h, limit_value. rewrite Hx. unfold x0. destruct He; subst e.
    - replace (PI * (1 * (5 / 8))) with (5 / 8 * PI) by ring. field. lra.
    - replace (PI * (-1 * (5 / 8))) with (- (5 / 8 * PI)) by ring. rewrite sin_neg. field. lra. }
  assert (Hl : is_lim h x0 limit_value).
  { rewrite <- Hh. apply is_lim_continuity. apply derivable_continuous_pt. unfold h. reg; try (apply Rmult_integral_contrapositive_currified; lra); rewrite ?Hx; lra. }
  replace (Finite limit_value) with (Rbar_mult (Finite limit_value) 1) by (cbn; f_equal; ring).
  apply (is_lim_ext_loc (fun x => h x * (sin (u x) / u x))); [|apply is_lim_mult; [exact Hl|exact Sc|exact I]].
  exists (mkposreal (1 / 8) ltac:(lra)). intros y Hb Hy. unfold h.
  assert (Hb' : Rabs (y - x0) < 1 / 8) by exact Hb. apply Rabs_def2 in Hb'.
  assert (N1 : 1 + e * (8 / 5) * y <> 0) by (unfold x0 in *; destruct He; subst; lra).
  assert (N2 : 1 - e * (8 / 5) * y <> 0) by (unfold x0 in *; destruct He; subst; lra).
  assert (N3 : y <> 0) by (unfold x0 in *; destruct He; subst; lra).
  assert (Cs : cos (PI * (8 / 10) * y) = sin (u y)).
  { unfold u. destruct He; subst e.
    - rewrite <- cos_shift. f_equal. field.
    - rewrite <- cos_shift. rewrite <- cos_neg. f_equal. field. }
  rewrite Cs. replace (1 - (2 * (8 / 10) * y) ^ 2) with ((1 - e * (8 / 5) * y) * (1 + e * (8 / 5) * y)) by (replace ((1 - e * (8 / 5) * y) * (1 + e * (8 / 5) * y)) with (1 - (e * e) * (64 / 25) * y * y) by field; rewrite He2; field).
  unfold u at 2. field. repeat split; lra.
Qed.
Theorem C79_limit Tc : 0 < Tc -> is_lim (raised_cosine_shape Tc) (5 / 8 * Tc) limit_value /\ is_lim (raised_cosine_shape Tc) (- (5 / 8 * Tc)) limit_value /\ 0 < limit_value < 1.
Proof.
  intro HT. assert (G : forall e, e = 1 \/ e = -1 -> is_lim (raised_cosine_shape Tc) (e * (5 / 8) * Tc) limit_value).
  { intros e He. set (F := fun x => sin (PI * x) / (PI * x) * (cos (PI * (8 / 10) * x) / (1 - (2 * (8 / 10) * x) ^ 2))).
    apply (is_lim_ext_loc (fun t => F (t / Tc))).
    - exists (mkposreal (Tc / 8) ltac:(lra)). intros y Hb _. assert (Hb' : Rabs (y - e * (5 / 8) * Tc) < Tc / 8) by exact Hb. apply Rabs_def2 in Hb'.
      unfold raised_cosine_shape, F. cbv zeta. destruct (Req_EM_T (y / Tc) 0) as [E|_]; [|reflexivity]. exfalso.
      assert (y = 0) by (replace y with (y / Tc * Tc) by (field; lra); rewrite E; apply Rmult_0_l). destruct He; subst; lra.
    - apply (is_lim_comp F (fun t => t / Tc) _ limit_value (e * (5 / 8))); [now apply lim_side| |].
      + replace (Finite (e * (5 / 8))) with (Finite (e * (5 / 8) * Tc / Tc)) by (f_equal; field; lra). apply (is_lim_continuity (fun t => t / Tc)). apply derivable_continuous_pt. unfold Rdiv. apply derivable_pt_mult; [apply derivable_pt_id|apply (derivable_pt_const (/ Tc))].
      + exists (mkposreal 1 Rlt_0_1). intros y _ Hy E. apply Hy. injection E as E. rewrite <- E. symmetry. unfold Rdiv. rewrite Rmult_assoc, Rinv_l by lra. apply Rmult_1_r. }
  split; [replace (5 / 8 * Tc) with (1 * (5 / 8) * Tc) by ring; apply G; now left|]. split; [replace (- (5 / 8 * Tc)) with (-1 * (5 / 8) * Tc) by ring; apply G; now right|].
  unfold limit_value. pose proof PI_RGT_0. assert (0 < sin (5 / 8 * PI)) by (apply sin_gt_0; lra). pose proof (SIN_bound (5 / 8 * PI)). lra.
Qed.
Print Assumptions C79_limit.
Local Close Scope R_scope.
Example C79_case g : exists s sig f, oq_used Wrapping Band_868MHz 3 0 32 s /\ snd (oq_signal g Wrapping (Octets (ABytes [x55])) s) = Ok (sig, f) /\ cosine_band Band_868MHz /\ (32 | 32).
Proof.
  assert (Hu : oq_used Wrapping Band_868MHz 3 0 32 {| q_sps := 32; q_SM := 0; q_band := Band_868MHz; q_RM := 3; q_mem := [] |}) by (eexists; exists []; split; reflexivity).
  pose proof (C57_frames g Wrapping _ _ _ _ _ (Octets (ABytes [x55])) Hu) as H.
  destruct (snd (oq_send _ _ _)) as [[c z]|e] eqn:E in H; [|exfalso; revert E; vm_compute; discriminate].
  destruct H as (rate & sig & _ & _ & _ & Es & _). eexists. exists sig. eexists. split; [exact Hu|]. split; [exact Es|]. split; [split; discriminate|]. now exists 1.
Qed.
