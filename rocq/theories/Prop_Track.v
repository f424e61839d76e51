(** * C98: the pilots of MR-OFDM allow the gain and phase of every symbol to be followed *)
From Coq Require Import Reals Lra.
From Coquelicot Require Import Complex.
From Verif Require Import Py PList SBits SEntry MBits PBits PEntry MPn9 SPn9 MModul MOfdm Tables SOfdm SMrOfdm PModul POfdm MMrOfdm PStd PMrOfdm PMrRx MTime STime PTime SGap PGap SPower PPower SMrRx PRecv PChannel SCfo PCfo STrack Prop_MrOfdm Prop_Time Prop_Power Prop_MrRx Prop_Cfo.

Lemma pilots_facts opt n : 1 <= opt <= 4 -> length (pilots_of opt n) = pilot_count opt /\ (0 < pilot_count opt)%nat
  /\ Forall (fun f => - (fft_size opt / 2) <= f < fft_size opt / 2 /\ guard_or_dc (fft_size opt) (guard_left opt) (guard_right opt) f = false) (pilots_of opt n).
Proof.
  intro Ho. assert (Ho' : opt = 1 \/ opt = 2 \/ opt = 3 \/ opt = 4) by lia.
  assert (I : In (pilots_of opt n) (pilot_sets opt)).
  { unfold pilots_of. apply nth_In. apply Nat.mod_upper_bound. destruct Ho' as [->|[->|[->| ->]]]; discriminate. }
  assert (T : forallb (fun s => Nat.eqb (length s) (pilot_count opt) && forallb (fun f => (- (fft_size opt / 2) <=? f) && (f <? fft_size opt / 2) && negb (guard_or_dc (fft_size opt) (guard_left opt) (guard_right opt) f)) s) (pilot_sets opt) = true)
    by (destruct Ho' as [->|[->|[->| ->]]]; vm_compute; reflexivity).
  rewrite forallb_forall in T. specialize (T _ I). apply andb_prop in T as [T1 T2]. apply Nat.eqb_eq in T1. split; [assumption|].
  split; [destruct Ho' as [->|[->|[->| ->]]]; vm_compute; lia|]. apply Forall_forall. intros f Hf. rewrite forallb_forall in T2. specialize (T2 f Hf). apply andb_prop in T2 as [A C]. apply andb_prop in A as [A B].
  apply Z.leb_le in A. apply Z.ltb_lt in B. apply negb_true_iff in C. split; [lia|assumption].
Qed.
Lemma pilot_value_level opt n j : pilot_value opt n j = IZR (level (pn9_bit 0x1FF (n * pilot_count opt + j))).
Proof. unfold pilot_value, level. now destruct (pn9_bit _ _). Qed.
(** the pilots of a frame, as received without distortion *)
Lemma pilot_tone opt mcs il scr s a zs sig fr n j : modulator opt mcs il scr s -> holds_octets a zs -> Forall is_octet zs -> 1 <= zlen zs <= 2047 ->
  snd (m_bytesToIQ a s) = Ok (sig, fr) -> (n < frame_symbols_of opt mcs il (zlen zs))%nat -> (j < pilot_count opt)%nat ->
  rx_tone opt sig n (nth j (pilots_of opt n) 0) = RtoC (pilot_value opt n j).
Proof.
  intros Hm Ha Hz Hl E Hn Hj. destruct (frame_parts _ _ _ _ _ _ _ _ _ Hm Ha Hz Hl E) as (H1 & H2 & H3 & lb & body & P & _ & A).
  assert (Ho : 1 <= opt <= 4) by (unfold supported in H1; lia). destruct (pilots_facts opt n Ho) as (L & _ & F). rewrite Forall_forall in F.
  unfold rx_tone. rewrite (parts_body _ _ _ _ _ _ P Hn), A by (auto; apply F, nth_In; lia).
  apply modulator_used in Hm. destruct (C38_pilots opt mcs il scr s a zs Hm Ha Hz Hl) as (s' & phr & pay & R & T).
  rewrite (octets_run opt mcs il scr s a zs Hm Ha Hz Hl) in R. apply (f_equal snd) in R. cbn [snd] in R. injection R as <- <-.
  change (nth (n mod length (pilot_sets opt)) (pilot_sets opt) []) with (pilots_of opt n) in T. rewrite T; [|rewrite app_length; unfold frame_phr, frame_payload; rewrite !map_length, !seq_length|exact Hj].
  - rewrite pilot_value_level. unfold amplitude, pilot_count. unfold inject_Z, Q2R. cbn [Qnum Qden]. unfold RtoC. f_equal; field.
  - unfold frame_symbols_of in Hn. rewrite (header_symbols_eq opt mcs il H1 H2) in Hn.
    replace (npay opt mcs (length (octet_bits zs))) with (payload_symbols_of opt mcs (zlen zs)); [exact Hn|].
    unfold payload_symbols_of, npay. rewrite octet_bits_length. do 2 f_equal. unfold zlen. lia.
Qed.

(** the measured gain is within the error of the pilots *)
Lemma mean_error (z p : nat -> C) (G : C) (d : R) m : (forall j, (j < m)%nat -> (Cmod (z j - G * p j)%C <= d)%R /\ (p j * p j = RtoC 1)%C /\ Cmod (p j) = 1%R) ->
  (Cmod (csum (fun j => Cmult (z j) (p j)) m - RtoC (INR m) * G)%C <= INR m * d)%R.
Proof.
  induction m as [|m IH]; intro H; [cbn [csum INR]; replace (RtoC 0 - RtoC 0 * G)%C with (RtoC 0) by ring; rewrite Cmod_0; lra|].
  cbn [csum]. rewrite S_INR, RtoC_plus. destruct (H m ltac:(lia)) as (H1 & H2 & H3). specialize (IH ltac:(intros; apply H; lia)).
  match goal with |- (Cmod (?A + ?B - (?N + RtoC 1) * G)%C <= _)%R => replace (A + B - (N + RtoC 1) * G)%C with ((A - N * G) + (z m - G * p m) * p m)%C end.
  - eapply Rle_trans; [apply Cmod_triangle|]. rewrite Cmod_mult, H3. lra.
  - transitivity (csum (fun j => z j * p j)%C m - RtoC (INR m) * G + (z m * p m - G * (p m * p m)))%C; [ring|]. rewrite H2. ring.
Qed.

(** every symbol with its own gain, and errors *)
Theorem C98_tracking opt mcs il scr s a zs sig fr (tone : nat -> Z -> C) (G : nat -> C) (d : nat -> R) :
  modulator opt mcs il scr s -> holds_octets a zs -> Forall is_octet zs -> 1 <= zlen zs <= 2047 -> snd (m_bytesToIQ a s) = Ok (sig, fr) ->
  (forall n f, (n < frame_symbols_of opt mcs il (zlen zs))%nat -> looked_at opt n f -> (Cmod (tone n f - G n * rx_tone opt sig n f)%C <= d n)%R) ->
  (forall n, (n < frame_symbols_of opt mcs il (zlen zs))%nat ->
     (d n * (1 + sqrt (strongest (symbol_modulation opt mcs il n)) + symbol_factor opt mcs il n) < symbol_factor opt mcs il n * Cmod (G n))%R) ->
  mr_receiver opt il (tracked opt tone) = {| f_mcs := mcs; f_scrambler := scr; f_octets := zs |}.
Proof.
  intros Hm Ha Hz Hl E He Hd. destruct (frame_parts _ _ _ _ _ _ _ _ _ Hm Ha Hz Hl E) as (H1 & H2 & H3 & lb & body & P & _ & A).
  assert (Ho : 1 <= opt <= 4) by (unfold supported in H1; lia). destruct (quarter_4 opt Ho) as (Hq & Hq0 & N2).
  apply receiver_core; auto. intros n f Hn Hf. pose proof (He n f Hn (or_introl Hf)) as R2. specialize (Hd n Hn).
  pose proof (frame_bound opt mcs il scr zs n f H1 H2 H3 Hl Hn Hf) as X. apply data_freq_used in Hf as [Hf Hg].
  unfold rx_tone in R2. rewrite (parts_body _ _ _ _ _ _ P Hn), A in R2 by (auto; lia).
  destruct (pilots_facts opt n Ho) as (Lp & Cp & _).
  assert (V : (Cmod (symbol_gain opt tone n - G n)%C <= d n)%R).
  { unfold symbol_gain. set (m := pilot_count opt) in *. assert (M : (0 < INR m)%R) by (apply lt_0_INR; lia). assert (MC : RtoC (INR m) <> RtoC 0) by (intro Z; apply RtoC_inj in Z; lra).
    pose proof (mean_error (fun j => tone n (nth j (pilots_of opt n) 0)) (fun j => RtoC (pilot_value opt n j)) (G n) (d n) m) as ME. cbv beta in ME.
    set (S := csum _ m) in *. replace (S / RtoC (INR m) - G n)%C with ((S - RtoC (INR m) * G n) / RtoC (INR m))%C by (field; assumption).
    unfold Cdiv. rewrite Cmod_mult, Cmod_inv, Cmod_R, Rabs_pos_eq by (assumption || lra). apply (Rmult_le_reg_r (INR m)); [assumption|]. rewrite Rmult_assoc, Rinv_l, Rmult_1_r by lra.
    rewrite (Rmult_comm (d n)). apply ME. intros j Hj. split; [|split].
    - assert (I : In (nth j (pilots_of opt n) 0) (pilots_of opt n)) by (apply nth_In; lia). pose proof (He n _ Hn (or_intror I)) as Q. now rewrite (pilot_tone opt mcs il scr s a zs sig fr n j Hm Ha Hz Hl E Hn Hj) in Q.
    - unfold pilot_value. destruct (pn9_bit _ _); rewrite <- RtoC_mult; f_equal; ring.
    - unfold pilot_value. destruct (pn9_bit _ _); rewrite Cmod_R; [rewrite Rabs_pos_eq|rewrite Rabs_left]; lra. }
  unfold tracked. set (k := symbol_factor opt mcs il n) in *. set (x := amplitude k _) in *. set (w := tone n f) in *. set (v := symbol_gain opt tone n) in *. set (S := sqrt (strongest _)) in *.
  set (H0 := G n) in *. set (e := d n) in *. assert (K : (0 < k)%R) by (unfold k, symbol_factor; apply norm_pos). clearbody k x H0 w S v e.
  pose proof (Cmod_ge_0 (v - H0)%C) as D0. pose proof (Cmod_ge_0 x) as X0. pose proof (Cmod_ge_0 (w - H0 * x)%C) as W0.
  assert (V1 : (Cmod H0 - e <= Cmod v)%R).
  { pose proof (Cmod_triangle v (H0 - v)%C) as T. replace (v + (H0 - v))%C with H0 in T by ring. replace (H0 - v)%C with (- (v - H0))%C in T by ring. rewrite Cmod_opp in T. lra. }
  assert (ES : (0 <= e * (1 + S))%R) by (apply Rmult_le_pos; lra). assert (Vp : (0 < Cmod v)%R) by nra. assert (Vn : v <> RtoC 0) by now apply Cmod_gt_0.
  replace (Cminus (Cdiv w v) x) with (Cdiv ((w - H0 * x) - (v - H0) * x)%C v) by (field; assumption).
  unfold Cdiv. rewrite Cmod_mult, Cmod_inv by assumption. apply (Rmult_lt_reg_r (Cmod v)); [assumption|]. rewrite Rmult_assoc, Rinv_l, Rmult_1_r by lra.
  assert (T : (Cmod ((w - H0 * x) - (v - H0) * x)%C <= e + e * S)%R).
  { unfold Cminus at 1. eapply Rle_trans; [apply Cmod_triangle|]. rewrite Cmod_opp, Cmod_mult.
    assert (Cmod (v - H0)%C * Cmod x <= e * S)%R by (apply Rmult_le_compat; assumption). unfold Cminus in *. lra. }
  nra.
Qed.
Print Assumptions C98_tracking.

(** every symbol with its own gain [g n], the LTF with another: unknown constant phases, slow fading, level jumps *)
Lemma analyse_gain g b f : analyse (map (Cmult g) b) f = Cmult g (analyse b f).
Proof. rewrite (Cmult_comm g), <- analyse_scale. f_equal. apply map_ext. intro z. ring. Qed.
Theorem C98_symbols opt mcs il scr s a zs sig fr h r gl (g : nat -> C) : modulator opt mcs il scr s -> holds_octets a zs -> Forall is_octet zs -> 1 <= zlen zs <= 2047 ->
  snd (m_bytesToIQ a s) = Ok (sig, fr) -> (length h <= S (quarter opt))%nat ->
  (forall f, - (fft_size opt / 2) <= f < fft_size opt / 2 -> guard_or_dc (fft_size opt) (guard_left opt) (guard_right opt) f = false ->
     response (fft_size opt) h f <> RtoC 0) ->
  rx_ltf opt r = map (Cmult gl) (rx_ltf opt (through h sig)) -> gl <> RtoC 0 ->
  (forall n, (n < frame_symbols_of opt mcs il (zlen zs))%nat -> rx_body opt r n = map (Cmult (g n)) (rx_body opt (through h sig) n) /\ g n <> RtoC 0) ->
  mr_receiver opt il (tracked opt (equalised opt r)) = {| f_mcs := mcs; f_scrambler := scr; f_octets := zs |}.
Proof.
  intros Hm Ha Hz Hl E Hh Hr EL Hgl EB. destruct (frame_parts _ _ _ _ _ _ _ _ _ Hm Ha Hz Hl E) as (H1 & H2 & H3 & lb & body & P & B & A).
  assert (Ho : 1 <= opt <= 4) by (unfold supported in H1; lia). destruct (quarter_4 opt Ho) as (Hq & Hq0 & N2).
  apply (C98_tracking opt mcs il scr s a zs sig fr _ (fun n => Cdiv (g n) gl) (fun _ => 0%R) Hm Ha Hz Hl E).
  - intros n f Hn Hf. destruct (EB n Hn) as [En Gn].
    assert (U : (- (fft_size opt / 2) <= f < fft_size opt / 2) /\ guard_or_dc (fft_size opt) (guard_left opt) (guard_right opt) f = false).
    { destruct Hf as [Hf|Hf]; [apply data_freq_used in Hf; split; [lia|apply Hf]|]. destruct (pilots_facts opt n Ho) as (_ & _ & F). rewrite Forall_forall in F. now apply F. }
    destruct U as [U1 U2]. specialize (Hr f U1 U2).
    replace (equalised opt r n f) with (Cmult (Cdiv (g n) gl) (rx_tone opt sig n f)); [match goal with |- (Cmod ?z <= _)%R => replace z with (RtoC 0) by ring end; rewrite Cmod_0; lra|].
    unfold equalised, measured, rx_tone at 2. rewrite EL, En, !analyse_gain. fold (rx_tone opt (through h sig) n f).
    rewrite (through_ltf _ _ _ _ _ _ f P Ho Hh), B by assumption. rewrite (through_body _ _ _ _ _ _ _ f P Ho Hh Hn). unfold rx_tone. rewrite (parts_body _ _ _ _ _ _ P Hn).
    set (H0 := response _ _ _) in *. set (x := analyse _ _). set (sg := RtoC (IZR (ltf_sign opt f))).
    assert (G : Cmult sg sg = RtoC 1).
    { unfold sg. rewrite <- RtoC_mult, <- mult_IZR. destruct (ltf_sign_used opt f Ho U1 U2) as [-> | ->]; reflexivity. }
    replace (gl * (H0 * sg) * sg)%C with (gl * H0)%C; [field; auto|]. transitivity (gl * H0 * (sg * sg))%C; [rewrite G|]; ring.
  - intros n Hn. destruct (EB n Hn) as [_ Gn]. rewrite Rmult_0_l. apply Rmult_lt_0_compat; [apply norm_pos|]. unfold Cdiv. rewrite Cmod_mult, Cmod_inv by assumption.
    apply Rmult_lt_0_compat; [now apply Cmod_gt_0|]. now apply Rinv_0_lt_compat, Cmod_gt_0.
Qed.
Print Assumptions C98_symbols.

(** ** a carrier frequency offset that nobody corrects, frames of any length *)
Lemma chord x : (Cmod (cis x - RtoC 1)%C <= Rabs x)%R.
Proof.
  assert (S : forall y, (0 <= y -> Rabs (sin y) <= y)%R).
  { intros y [Hy|<-]; [|rewrite sin_0, Rabs_R0; lra]. destruct (Rle_lt_dec y 1) as [L|L].
    - pose proof PI2_1. pose proof (sin_lt_x y Hy). assert (0 <= sin y)%R by (apply sin_ge_0; lra). rewrite Rabs_pos_eq; lra.
    - pose proof (SIN_bound y). apply Rabs_le. lra. }
  assert (A : (Rabs (sin (x / 2)) <= Rabs (x / 2))%R).
  { unfold Rabs at 2. destruct (Rcase_abs (x / 2)) as [L|L]; [rewrite <- Rabs_Ropp, <- sin_neg; apply S; lra|apply S; lra]. }
  assert (E : (Cmod (cis x - RtoC 1)%C ^ 2 = (2 * Rabs (sin (x / 2))) ^ 2)%R).
  { rewrite Rpow_mult_distr, <- (Rsqr_pow2 (Rabs _)), <- Rsqr_abs. unfold Cmod. rewrite pow2_sqrt by (apply Rplus_le_le_0_compat; apply pow2_ge_0).
    unfold Cminus, cis, RtoC. cbn [fst snd Cplus Copp]. replace x with (2 * (x / 2))%R at 1 2 by field. rewrite cos_2a_sin, sin_2a.
    pose proof (sin2_cos2 (x / 2)) as T. unfold Rsqr in *. set (c := cos (x / 2)) in *. set (d := sin (x / 2)) in *. nra. }
  pose proof (Cmod_ge_0 (cis x - RtoC 1)%C). pose proof (Rabs_pos (sin (x / 2))). replace (Rabs x) with (2 * Rabs (x / 2))%R; [nra|].
  unfold Rdiv. rewrite Rabs_mult, (Rabs_pos_eq (/ 2)) by lra. field.
Qed.
Lemma gap_bound e : forall x y, length x = length y -> (0 <= e)%R -> (forall i, (i < length x)%nat -> (Cmod (nth i x (RtoC 0) - nth i y (RtoC 0))%C <= e * Cmod (nth i y (RtoC 0)))%R) ->
  (gap x y <= e ^ 2 * energy y)%R.
Proof.
  induction x as [|a x IH]; intros [|b y] L He H; try discriminate; [cbn; lra|]. cbn [gap energy].
  assert (A : (Cmod (a - b)%C <= e * Cmod b)%R) by (apply (H 0%nat); cbn; lia). assert (B : (gap x y <= e ^ 2 * energy y)%R).
  { apply IH; [cbn in L; lia|assumption|]. intros i Hi. apply (H (S i)). cbn. lia. }
  pose proof (Cmod_ge_0 (a - b)%C). assert (Cmod (a - b)%C ^ 2 <= (e * Cmod b) ^ 2)%R by (apply pow_incr; lra). rewrite Rpow_mult_distr in *. lra.
Qed.
(** energy of the useful part of every symbol of a frame *)
Lemma body_energy opt mcs il scr s a zs sig fr n : modulator opt mcs il scr s -> holds_octets a zs -> Forall is_octet zs -> 1 <= zlen zs <= 2047 ->
  snd (m_bytesToIQ a s) = Ok (sig, fr) -> (n < frame_symbols_of opt mcs il (zlen zs))%nat -> (energy (rx_body opt sig n) <= symbol_energy opt (strongest (mcs_modulation mcs)))%R.
Proof.
  intros Hm Ha Hz Hl E Hn. destruct (frame_parts _ _ _ _ _ _ _ _ _ Hm Ha Hz Hl E) as (H1 & H2 & H3 & lb & bd & P & _ & _). pose proof (p_length _ _ _ _ _ P) as Ls. clear P.
  assert (Ho : 1 <= opt <= 4) by (unfold supported in H1; lia). destruct (quarter_4 opt Ho) as (Hq & Hq0 & N2).
  destruct (C76_energy opt mcs il scr s (Octets a) sig fr Hm E) as (stf & ltf & hb & pb & ES & EL & Esig & L & E1 & E2 & _).
  destruct (training_length opt Ho) as (q' & Hq' & _ & T1 & T2). unfold stf_of in T1. unfold ltf_of in T2. rewrite ES in T1. rewrite EL in T2. assert (q' = quarter opt) by lia. subst q'. clear Hq'.
  fold (quarter opt) in Esig. set (q := quarter opt) in *. set (bs := hb ++ pb) in *. rewrite Forall_forall in L.
  assert (Lall : forall b, In b bs -> length b = (4 * q)%nat) by (intros b Hb; specialize (L b Hb); unfold zlen in L; lia).
  assert (LP : forall b, In b bs -> length (prefixed q b) = (5 * q)%nat) by (intros b Hb; rewrite prefixed_length; rewrite (Lall b Hb); lia).
  assert (Lf : length bs = frame_symbols_of opt mcs il (zlen zs)).
  { rewrite Esig, !app_length, T1, T2, (blocks_length (prefixed q) (5 * q)) in Ls by exact LP. nia. }
  assert (EB : rx_body opt sig n = nth n bs []).
  { assert (Lb : length (nth n bs []) = (4 * q)%nat) by (apply Lall, nth_In; lia).
    apply (nth_ext _ _ (RtoC 0) (RtoC 0)); unfold rx_body; fold q; rewrite firstn_length, skipn_length, Ls; [nia|]. intros i Hi. rewrite nth_firstn, nth_skipn by lia.
    rewrite Esig, (app_nth2 stf), T1 by lia. rewrite (app_nth2 ltf), T2 by lia. replace ((31 + 5 * n) * q + i - 20 * q - 10 * q)%nat with (n * (5 * q) + (q + i))%nat by lia.
    rewrite (blocks_nth (prefixed q) (5 * q) bs n (q + i) [] (RtoC 0)) by (try exact LP; lia). rewrite prefixed_nth by lia. f_equal.
    replace (q + i + 3 * q)%nat with (i + 1 * (4 * q))%nat by lia. rewrite Nat.mod_add, Nat.mod_small by lia. reflexivity. }
  rewrite EB. assert (I : In (nth n bs []) bs) by (apply nth_In; lia). apply in_app_or in I as [I|I].
  - rewrite Forall_forall in E1. rewrite (E1 _ I). unfold active_tones, symbol_energy. rewrite plus_IZR.
    assert (D : (0 <= IZR (data_tones opt))%R) by (apply IZR_le; assert (Ho' : opt = 1 \/ opt = 2 \/ opt = 3 \/ opt = 4) by lia; destruct Ho' as [->|[->|[->| ->]]]; discriminate).
    destruct (mcs_modulation mcs); cbn [strongest]; nra.
  - rewrite Forall_forall in E2. now apply E2.
Qed.
(** the payload decides: its decision distance is the smaller one *)
Lemma header_easier opt mcs il n e : supported opt mcs -> (0 <= e)%R ->
  (e * (1 + sqrt (strongest (mcs_modulation mcs)) + norm_factor (mcs_modulation mcs)) < norm_factor (mcs_modulation mcs))%R ->
  (e * (1 + sqrt (strongest (symbol_modulation opt mcs il n)) + symbol_factor opt mcs il n) < symbol_factor opt mcs il n)%R.
Proof.
  intros H He C. unfold symbol_factor, symbol_modulation. destruct (Nat.ltb _ _); [|exact C].
  assert (R : forall m, norm_factor m = sqrt (match m with BPSK => 1 | QPSK => / 2 | QAM16 => / 10 end)).
  { intros [ | | ]; cbn [norm_factor]; [symmetry; apply sqrt_1| |]; unfold Rdiv; rewrite Rmult_1_l, <- sqrt_inv by lra; reflexivity. }
  assert (M : (norm_factor (mcs_modulation mcs) <= norm_factor (mcs_modulation (lowest_mcs opt)))%R).
  { rewrite !R. apply sqrt_le_1_alt. revert H. each; cbn; lra. }
  assert (T : (sqrt (strongest (mcs_modulation (lowest_mcs opt))) <= sqrt (strongest (mcs_modulation mcs)))%R).
  { apply sqrt_le_1_alt. revert H. each; cbn; lra. }
  pose proof (norm_pos (mcs_modulation mcs)) as K. pose proof (sqrt_pos (strongest (mcs_modulation (lowest_mcs opt)))) as S0.
  set (k := norm_factor (mcs_modulation mcs)) in *. set (k' := norm_factor (mcs_modulation (lowest_mcs opt))) in *. set (t := sqrt (strongest (mcs_modulation mcs))) in *. set (t' := sqrt (strongest (mcs_modulation (lowest_mcs opt)))) in *. clearbody k k' t t'.
  assert (e < 1)%R by nra. assert (e * (1 + t') <= e * (1 + t))%R by (apply Rmult_le_compat_l; lra). assert (0 <= (k' - k) * (1 - e))%R by (apply Rmult_le_pos; lra). nra.
Qed.
(** effect of a shift on the subcarriers of one symbol: a common phase, and an error *)
Lemma drift opt mcs il scr s a zs sig fr g w n f : modulator opt mcs il scr s -> holds_octets a zs -> Forall is_octet zs -> 1 <= zlen zs <= 2047 ->
  snd (m_bytesToIQ a s) = Ok (sig, fr) -> (n < frame_symbols_of opt mcs il (zlen zs))%nat ->
  (Cmod (rx_tone opt (shifted w (map (Cmult g) sig)) n f - cis (w * INR ((31 + 5 * n) * quarter opt + 2 * quarter opt)) * g * rx_tone opt sig n f)%C
   <= Cmod g * (Rabs w * INR (2 * quarter opt)) * sqrt (symbol_energy opt (strongest (mcs_modulation mcs))))%R.
Proof.
  intros Hm Ha Hz Hl E Hn. destruct (frame_parts _ _ _ _ _ _ _ _ _ Hm Ha Hz Hl E) as (H1 & H2 & H3 & lb & bd & P & _ & _). pose proof (p_length _ _ _ _ _ P) as Ls. clear P.
  assert (Ho : 1 <= opt <= 4) by (unfold supported in H1; lia). destruct (quarter_4 opt Ho) as (Hq & Hq0 & N2).
  set (q := quarter opt) in *. set (En := sqrt (symbol_energy opt (strongest (mcs_modulation mcs)))) in *.
  unfold rx_tone at 2. rewrite <- analyse_gain. unfold rx_tone. set (G := Cmult _ g).
  assert (Lr : forall x, length x = length sig -> length (rx_body opt x n) = (4 * q)%nat) by (intros x Hx; unfold rx_body; fold q; rewrite firstn_length, skipn_length, Hx, Ls; nia).
  assert (L1 : length (rx_body opt (shifted w (map (Cmult g) sig)) n) = (4 * q)%nat) by (apply Lr; rewrite shifted_length, map_length; reflexivity).
  assert (L2 : length (rx_body opt sig n) = (4 * q)%nat) by now apply Lr.
  assert (Lm : length (map (Cmult G) (rx_body opt sig n)) = (4 * q)%nat) by now rewrite map_length.
  pose proof (analyse_error (rx_body opt (shifted w (map (Cmult g) sig)) n) (map (Cmult G) (rx_body opt sig n)) f ltac:(lia)) as B.
  assert (MG : Cmod G = Cmod g) by (unfold G; rewrite Cmod_mult, Cmod_cis; ring).
  assert (EG : forall l, energy (map (Cmult G) l) = (Cmod g ^ 2 * energy l)%R) by (induction l as [|z l IH]; cbn [map energy]; [ring|rewrite IH, Cmod_mult, MG; ring]).
  assert (GB : (gap (rx_body opt (shifted w (map (Cmult g) sig)) n) (map (Cmult G) (rx_body opt sig n)) <= (Rabs w * INR (2 * q)) ^ 2 * energy (map (Cmult G) (rx_body opt sig n)))%R).
  { apply gap_bound; [lia|apply Rmult_le_pos; [apply Rabs_pos|apply pos_INR]|]. intros i Hi. rewrite L1 in Hi.
    rewrite (nth_map (Cmult G) _ i (RtoC 0) (RtoC 0)) by lia. unfold rx_body. fold q. rewrite !nth_firstn, !nth_skipn by lia. rewrite shifted_nth.
    rewrite (nth_map (Cmult g) sig _ (RtoC 0) (RtoC 0)) by (rewrite Ls; nia). set (x := nth _ sig _). set (t := ((31 + 5 * n) * q)%nat) in *.
    replace (cis (w * INR (t + i)) * (g * x) - G * x)%C with ((cis (w * (INR i - INR (2 * q))) - RtoC 1) * (G * x))%C.
    - rewrite Cmod_mult. apply Rmult_le_compat_r; [apply Cmod_ge_0|]. eapply Rle_trans; [apply chord|]. rewrite Rabs_mult. apply Rmult_le_compat_l; [apply Rabs_pos|].
    apply Rabs_le. assert (0 <= INR i <= INR (4 * q))%R by (split; [apply pos_INR|apply le_INR; lia]). rewrite !mult_INR in *. cbn [INR] in *. pose proof (pos_INR q). lra.
    - unfold G. replace (w * INR (t + i))%R with (w * (INR i - INR (2 * q)) + w * INR (t + 2 * q))%R by (rewrite !plus_INR; ring). rewrite cis_add. ring. }
  rewrite EG in GB. pose proof (body_energy opt mcs il scr s a zs sig fr n Hm Ha Hz Hl E Hn) as BE.
  assert (E0 : (0 <= symbol_energy opt (strongest (mcs_modulation mcs)))%R).
  { eapply Rle_trans; [|exact BE]. generalize (rx_body opt sig n). induction l as [|z l IH]; cbn [energy]; [lra|]. pose proof (pow2_ge_0 (Cmod z)). lra. }
  assert (EE : (En ^ 2 = symbol_energy opt (strongest (mcs_modulation mcs)))%R) by (unfold En; now apply pow2_sqrt).
  assert (P0 : (0 <= Cmod g * (Rabs w * INR (2 * q)) * En)%R).
  { apply Rmult_le_pos; [apply Rmult_le_pos; [apply Cmod_ge_0|apply Rmult_le_pos; [apply Rabs_pos|apply pos_INR]]|apply sqrt_pos]. }
  match goal with |- (Cmod ?z <= _)%R => set (D := Cmod z) in * end. assert (D0 : (0 <= D)%R) by apply Cmod_ge_0.
  apply Rsqr_incr_0_var; [|assumption]. unfold Rsqr. set (rw := (Rabs w * INR (2 * q))%R) in *.
  assert (Q : (rw ^ 2 * (Cmod g ^ 2 * energy (rx_body opt sig n)) <= rw ^ 2 * (Cmod g ^ 2 * En ^ 2))%R).
  { apply Rmult_le_compat_l; [apply pow2_ge_0|]. apply Rmult_le_compat_l; [apply pow2_ge_0|]. lra. }
  replace (Cmod g * rw * En * (Cmod g * rw * En))%R with (rw ^ 2 * (Cmod g ^ 2 * En ^ 2))%R by ring. assert (B' : (D ^ 2 <= rw ^ 2 * (Cmod g ^ 2 * En ^ 2))%R) by (eapply Rle_trans; [exact B|]; eapply Rle_trans; [exact GB|]; exact Q). lra.
Qed.
Theorem C98_offset opt mcs il scr s a zs sig fr g df : modulator opt mcs il scr s -> holds_octets a zs -> Forall is_octet zs -> 1 <= zlen zs <= 2047 ->
  snd (m_bytesToIQ a s) = Ok (sig, fr) -> g <> RtoC 0 ->
  (PI * (Rabs df / (31250 / 3)) * sqrt (symbol_energy opt (strongest (mcs_modulation mcs)))
   * (1 + sqrt (strongest (mcs_modulation mcs)) + norm_factor (mcs_modulation mcs)) < norm_factor (mcs_modulation mcs))%R ->
  mr_receiver opt il (tracked opt (rx_tone opt (shifted (2 * PI * df / fr) (map (Cmult g) sig)))) = {| f_mcs := mcs; f_scrambler := scr; f_octets := zs |}.
Proof.
  intros Hm Ha Hz Hl E Hg Hd. destruct (frame_parts _ _ _ _ _ _ _ _ _ Hm Ha Hz Hl E) as (H1 & H2 & H3 & lb & bd & P & _ & _). pose proof (p_length _ _ _ _ _ P) as Ls. clear P.
  assert (Ho : 1 <= opt <= 4) by (unfold supported in H1; lia). destruct (quarter_4 opt Ho) as (Hq & Hq0 & N2). pose proof PI_RGT_0 as Hpi.
  set (w := (2 * PI * df / fr)%R) in *. set (q := quarter opt) in *. set (En := sqrt (symbol_energy opt (strongest (mcs_modulation mcs)))) in *.
  assert (W : (Rabs w * INR (2 * q) = PI * (Rabs df / (31250 / 3)))%R).
  { unfold w. rewrite (rate_of opt mcs il scr s a zs sig fr Hm Ha Hz Hl E). destruct (C43_sampling_rate opt Ho) as [_ F].
    assert (N0 : (0 < IZR (fft_size opt))%R) by (apply IZR_lt; lia). assert (EN : IZR (fft_size opt) = (2 * INR (2 * q))%R).
    { rewrite INR_IZR_INZ, <- mult_IZR. f_equal. lia. }
    assert (FR : sampling_rate opt = (31250 / 3 * IZR (fft_size opt))%R) by (rewrite <- F; field; lra). rewrite FR.
    unfold Rdiv. rewrite !Rabs_mult, (Rabs_pos_eq 2), (Rabs_pos_eq PI), Rabs_inv, Rabs_mult, (Rabs_pos_eq (IZR (fft_size opt))), (Rabs_pos_eq (31250 * / 3)) by lra. rewrite EN. field. rewrite EN in N0. lra. }
  apply (C98_tracking opt mcs il scr s a zs sig fr _ (fun n => Cmult (cis (w * INR ((31 + 5 * n) * q + 2 * q))) g) (fun _ => (Cmod g * (Rabs w * INR (2 * q)) * En)%R) Hm Ha Hz Hl E).
  - intros n f Hn _. cbv beta. exact (drift opt mcs il scr s a zs sig fr g w n f Hm Ha Hz Hl E Hn).
  - intros n Hn. cbv beta. rewrite Cmod_mult, Cmod_cis, Rmult_1_l. assert (G0 : (0 < Cmod g)%R) by now apply Cmod_gt_0.
    pose proof (header_easier opt mcs il n (PI * (Rabs df / (31250 / 3)) * En)%R H1) as K. rewrite W.
    assert (X : (0 <= PI * (Rabs df / (31250 / 3)) * En)%R).
    { apply Rmult_le_pos; [|apply sqrt_pos]. apply Rmult_le_pos; [lra|]. pose proof (Rabs_pos df). lra. }
    specialize (K X Hd). set (k := symbol_factor opt mcs il n) in *. set (u := (_ + _ + k)%R) in *. nra.
Qed.
Print Assumptions C98_offset.
(** option 4, MCS 2 (QPSK), 100 Hz: the hypotheses hold *)
Example C98_case : exists s, modulator 4 2 0 0 s /\ is_ok (snd (send (Octets (ABytes (repeat x55 60))) s)) = true
  /\ (PI * (Rabs 100 / (31250 / 3)) * sqrt (symbol_energy 4 (strongest (mcs_modulation 2)))
      * (1 + sqrt (strongest (mcs_modulation 2)) + norm_factor (mcs_modulation 2)) < norm_factor (mcs_modulation 2))%R.
Proof.
  eexists. split; [exists (PInt 2), (PInt 4), (PInt 0), (PInt 0); eexists; exists []; repeat split; reflexivity|]. split; [vm_compute; reflexivity|].
  change (mcs_modulation 2) with QPSK. cbn [strongest norm_factor]. rewrite sqrt_1, Rabs_pos_eq by lra. unfold symbol_energy. change (data_tones 4) with 12. change (pilot_tones 4) with 2.
  replace (12 * 1 + 2)%R with 14%R by ring. pose proof PI_4 as P4. pose proof PI_RGT_0 as P0.
  assert (S : (0 <= sqrt 14 <= 4)%R) by (split; [apply sqrt_pos|]; replace 4%R with (sqrt (4 * 4)) by (apply sqrt_square; lra); apply sqrt_le_1_alt; lra).
  assert (K : (7 / 10 <= 1 / sqrt 2 <= 1)%R).
  { assert (T : (1 <= sqrt 2 <= 10 / 7)%R).
    { split; [rewrite <- sqrt_1 at 1; apply sqrt_le_1_alt; lra|]. replace (10 / 7)%R with (sqrt (10 / 7 * (10 / 7))) by (apply sqrt_square; lra). apply sqrt_le_1_alt. lra. }
    assert (sqrt 2 * (1 / sqrt 2) = 1)%R by (field; lra). nra. }
  assert (A : (PI * (100 / (31250 / 3)) <= 4 / 100)%R) by lra. assert (A0 : (0 <= PI * (100 / (31250 / 3)))%R) by lra.
  set (x := (PI * _)%R) in *. set (k := (1 / sqrt 2)%R) in *. assert (B : (0 <= x * sqrt 14 <= 16 / 100)%R) by (split; [apply Rmult_le_pos; lra|nra]).
  assert (x * sqrt 14 * (1 + 1 + k) <= 16 / 100 * 3)%R by (apply Rmult_le_compat; lra). lra.
Qed.
