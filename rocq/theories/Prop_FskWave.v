(** * C65, C66: the complex samples of MR-FSK *)
From Coq Require Import Qreals Reals Lra Psatz.
From Coquelicot Require Import Complex.
From Verif Require Import Py MBits MPn9 Tables MFsk SBits SEntry SPn9 SFsk PList PBits PEntry PPn9 PConv PFskFec PFsk Prop_Fsk MTime PTime SFskWave MFskWave.
Local Open Scope R_scope.

(** ** the samples are those of the phases *)
Lemma samples_result a s : snd (k_bitsToSamples a s) = do x <- snd (k_bitsToIQ a s); Ok (fsk_samples x, IZR (sig_f x)).
Proof. unfold k_bitsToSamples, sbind, sret. destruct (k_bitsToIQ a s) as [t [x|e]]; reflexivity. Qed.
Lemma samples_state a s : fst (k_bitsToSamples a s) = fst (k_bitsToIQ a s).
Proof. unfold k_bitsToSamples, sbind, sret. destruct (k_bitsToIQ a s) as [t [x|e]]; reflexivity. Qed.
Lemma samples_bytes a s : snd (k_bytesToSamples a s) = (do x <- snd (k_bytesToIQ a s); Ok (fsk_samples x, IZR (sig_f x)))
  /\ fst (k_bytesToSamples a s) = fst (k_bytesToIQ a s).
Proof.
  unfold k_bytesToSamples, k_bytesToIQ, k_bitsToSamples, sbind, sret, slift. destruct (to_binary_array a) as [l|e]; [|split; reflexivity].
  destruct (k_bitsToIQ (bits_arg l) s) as [t [x|e]]; split; reflexivity.
Qed.
Lemma cis_same p q : cis (2 * PI * Q2R p) = cis (2 * PI * Q2R q) <-> same_sample p q.
Proof.
  split.
  - intro E. assert (H : cis (2 * PI * Q2R p - 2 * PI * Q2R q) = RtoC 1).
    { unfold Rminus. rewrite cis_add, E, <- cis_add. rewrite Rplus_opp_r. apply cis_0. }
    apply cis_one in H as [m H]. exists m. apply eqR_Qeq. rewrite Q2R_minus. 
    assert (I : Q2R (inject_Z m) = IZR m) by (unfold Q2R; cbn; field). rewrite I.
    apply Rmult_eq_reg_l with (2 * PI); [lra|]. pose proof PI_RGT_0. lra.
  - intros [k K]. apply Qeq_eqR in K. rewrite Q2R_minus in K. assert (I : Q2R (inject_Z k) = IZR k) by (unfold Q2R; cbn; field). rewrite I in K.
    replace (2 * PI * Q2R p)%R with (2 * PI * Q2R q + 2 * PI * IZR k)%R by (rewrite <- K; ring).
    rewrite cis_add, cis_2PI_Z. ring.
Qed.
Lemma signal_all s a xs : snd (k_bitsToIQ a s) = Ok xs -> exists bits fr, check_binary_array a = Ok bits /\ f_frame s bits = Ok fr
  /\ k_binary (fst (k_bitsToIQ a s)) = Some fr /\ xs = {| sig_phase := phases s fr; sig_f := k_rate s * 20 |} /\ whole_symbols s fr = true.
Proof.
  intro Hx. pose proof (bits_master a s) as M. rewrite bits_result in Hx. unfold f_call in Hx.
  destruct (k_bitsToIQ a s) as [t r]. destruct M as (_ & _ & M). cbn [fst].
  destruct (check_binary_array a) as [ba|] eqn:Ca; [|discriminate]. cbn [rbind] in Hx.
  destruct (f_frame s ba) as [fa|] eqn:Fa; [|discriminate]. cbn [rbind] in Hx. exists ba, fa. split; [reflexivity|]. split; [assumption|].
  split; [now apply (M ba)|].
  rewrite FSKModulator_spec in Hx. destruct (whole_symbols s fa); [|discriminate]. cbv zeta in Hx.
  destruct (arange_size (k_rate s) 20 _) as [n|]; [|discriminate]. destruct (n =? _)%Z; [|discriminate]. inversion Hx. split; reflexivity.
Qed.

(** C65: every sample lies on the unit circle, at the frequency of its symbol *)
Theorem C65_tones : forall s a x f frame, fsk_object s -> snd (k_bitsToSamples a s) = Ok (x, f) ->
  k_binary (fst (k_bitsToSamples a s)) = Some frame ->
  f = 20 * IZR (k_rate s) /\ length x = (20 * symbols (k_fsk4 s) frame)%nat
  /\ (forall z, In z x -> Cmod z = 1)
  /\ forall j i, (j < symbols (k_fsk4 s) frame)%nat -> (i < 20)%nat ->
       nth (20 * j + i) x (RtoC 0)
       = carrier (IZR (symbol_tone (k_fsk4 s) frame j) * (Q2R (k_h s) * IZR (k_rate s) / 2)) (INR (20 * j + i) / f).
Proof.
  intros s a x f fr Hs Hx Hb. rewrite samples_result in Hx. rewrite samples_state in Hb.
  destruct (snd (k_bitsToIQ a s)) as [xs|] eqn:E; [|discriminate]. cbn [rbind] in Hx. inversion Hx; subst x f; clear Hx.
  destruct (signal_all s a xs E) as (bits & fr' & _ & _ & B & -> & W). rewrite B in Hb. inversion Hb; subst fr'; clear Hb B.
  unfold fsk_samples. cbn [sig_phase sig_f]. rewrite map_length, phases_length. split; [rewrite mult_IZR; ring|]. split; [reflexivity|].
  split.
  - intros z Hz. apply in_map_iff in Hz as (p & <- & _). unfold Cmod, cis. cbn [fst snd].
    rewrite <- sqrt_1. f_equal. pose proof (sin2_cos2 (2 * PI * Q2R p)) as H. unfold Rsqr in H. lra.
  - intros j i Hj Hi. rewrite (nth_map _ _ _ 0%Q) by (rewrite phases_length; lia). rewrite phases_nth by assumption.
    apply object_valid in Hs. assert (R0 : IZR (k_rate s) <> 0) by (apply not_0_IZR; destruct Hs as (H & _); lia).
    unfold cis, carrier. rewrite !Q2R_mult, mult_IZR.
    assert (I : Q2R (inject_Z (symbol_tone (k_fsk4 s) fr j)) = IZR (symbol_tone (k_fsk4 s) fr j)) by (unfold Q2R; cbn; field). rewrite I.
    assert (I2 : Q2R (Z.of_nat (20 * j + i) # 40) = (INR (20 * j + i) / 40)%R) by (unfold Q2R; cbn [Qnum Qden]; rewrite <- INR_IZR_INZ; reflexivity).
    rewrite I2. set (n := INR (20 * j + i)).
    assert (Eq : (2 * PI * (IZR (symbol_tone (k_fsk4 s) fr j) * Q2R (k_h s) * (n / 40))
       = 2 * PI * (IZR (symbol_tone (k_fsk4 s) fr j) * (Q2R (k_h s) * IZR (k_rate s) / 2)) * (n / (IZR (k_rate s) * 20)))%R) by (field; auto).
    rewrite Eq. reflexivity.
Qed.
Print Assumptions C65_tones.

(** ** the discriminator *)
Lemma disc g u v : ((g * cis v) * conj (g * cis u))%C = (RtoC (fst g ^ 2 + snd g ^ 2) * cis (v - u))%C.
Proof. unfold cis, conj. rewrite cos_minus, sin_minus. apply injective_projections; cbn [fst snd Cmult RtoC]; ring. Qed.
Lemma norm_rot g u : (fst (g * cis u)%C ^ 2 + snd (g * cis u)%C ^ 2 = fst g ^ 2 + snd g ^ 2)%R.
Proof. unfold cis. cbn [fst snd Cmult]. pose proof (sin2_cos2 u) as H. unfold Rsqr in H.
  replace ((fst g * cos u - snd g * sin u) ^ 2 + (fst g * sin u + snd g * cos u) ^ 2)%R
    with ((fst g ^ 2 + snd g ^ 2) * (sin u * sin u + cos u * cos u))%R by ring. rewrite H. ring. Qed.
Lemma gain_pos (g : C) : g <> RtoC 0 -> (0 < fst g ^ 2 + snd g ^ 2)%R.
Proof.
  intro H. destruct (Req_dec (fst g) 0) as [E|E].
  - destruct (Req_dec (snd g) 0) as [F|F]; [exfalso; apply H; apply injective_projections; assumption|]. pose proof (pow2_ge_0 (fst g)). pose proof (Rlt_0_sqr (snd g) F) as Q. unfold Rsqr in Q. lra.
  - pose proof (pow2_ge_0 (snd g)). pose proof (Rlt_0_sqr (fst g) E) as Q. unfold Rsqr in Q. lra.
Qed.
Lemma positive_spec g u v : g <> RtoC 0 -> positive (g * cis u)%C (g * cis v)%C = if Rlt_dec 0 (sin (v - u)) then true else false.
Proof.
  intro H. unfold positive. rewrite disc. cbn [cis snd Cmult RtoC fst]. pose proof (gain_pos g H) as P.
  destruct (Rlt_dec 0 (sin (v - u))), (Rlt_dec 0 _); try reflexivity; exfalso; nra.
Qed.
Lemma outer_spec h g u v : g <> RtoC 0 -> outer h (g * cis u)%C (g * cis v)%C = if Rlt_dec (cos (v - u)) (cos (2 * PI * h / 20)) then true else false.
Proof.
  intro H. unfold outer. rewrite disc, norm_rot. cbn [cis snd Cmult RtoC fst]. pose proof (gain_pos g H) as P.
  destruct (Rlt_dec (cos (v - u)) _), (Rlt_dec _ _); try reflexivity; exfalso; nra.
Qed.
Lemma tone_bits h t : (1 / 4 <= h <= 5 / 2)%R -> (t = -3 \/ t = -1 \/ t = 1 \/ t = 3)%Z ->
  (if Rlt_dec 0 (sin (2 * PI * (IZR t * h / 40))) then true else false) = (0 <? t)%Z
  /\ (if Rlt_dec (cos (2 * PI * (IZR t * h / 40))) (cos (2 * PI * h / 20)) then true else false) = (2 <? Z.abs t)%Z.
Proof.
  intros Hh Ht. pose proof PI_RGT_0 as P.
  assert (A : (0 < PI * h)%R) by (apply Rmult_lt_0_compat; lra).
  assert (B : (PI * h <= PI * (5 / 2))%R) by (apply Rmult_le_compat_l; lra).
  assert (S1 : (0 < sin (PI * h / 20))%R) by (apply sin_gt_0; lra).
  assert (S3 : (0 < sin (3 * (PI * h) / 20))%R) by (apply sin_gt_0; lra).
  assert (C1 : (cos (2 * PI * h / 20) < cos (PI * h / 20))%R) by (apply cos_decreasing_1; lra).
  assert (C3 : (cos (3 * (PI * h) / 20) < cos (2 * PI * h / 20))%R) by (apply cos_decreasing_1; lra).
  destruct Ht as [->|[->|[->| ->]]].
  - replace (2 * PI * (-3 * h / 40))%R with (- (3 * (PI * h) / 20))%R by field. rewrite sin_neg, cos_neg.
    split; [destruct (Rlt_dec 0 _); [lra|reflexivity]|destruct (Rlt_dec _ _); [reflexivity|lra]].
  - replace (2 * PI * (-1 * h / 40))%R with (- (PI * h / 20))%R by field. rewrite sin_neg, cos_neg.
    split; [destruct (Rlt_dec 0 _); [lra|reflexivity]|destruct (Rlt_dec _ _); [lra|reflexivity]].
  - replace (2 * PI * (1 * h / 40))%R with (PI * h / 20)%R by field.
    split; [destruct (Rlt_dec 0 _); [reflexivity|lra]|destruct (Rlt_dec _ _); [lra|reflexivity]].
  - replace (2 * PI * (3 * h / 40))%R with (3 * (PI * h) / 20)%R by field.
    split; [destruct (Rlt_dec 0 _); [reflexivity|lra]|destruct (Rlt_dec _ _); [reflexivity|lra]].
Qed.
Lemma frame_by_symbols f fr : (f = true -> Nat.even (length fr) = true) ->
  flat_map (fun j => if f then [(0 <? symbol_tone f fr j)%Z; (2 <? Z.abs (symbol_tone f fr j))%Z] else [(0 <? symbol_tone f fr j)%Z]) (seq 0 (symbols f fr)) = fr.
Proof.
  destruct f; intro E.
  - specialize (E eq_refl). apply Nat.even_spec in E as [k K]. unfold symbols. rewrite K. rewrite (Nat.mul_comm 2 k), Nat.div_mul by lia.
    revert fr K. induction k as [|k IH]; intros fr K.
    + destruct fr; [reflexivity|discriminate].
    + destruct fr as [|a [|b r]]; [discriminate|cbn in K; lia|]. cbn [seq flat_map]. rewrite <- seq_shift, flat_map_concat_map, map_map, <- flat_map_concat_map.
      rewrite (flat_map_ext _ (fun j => [(0 <? symbol_tone true r j)%Z; (2 <? Z.abs (symbol_tone true r j))%Z])).
      * rewrite IH by (cbn in K; lia). destruct a, b; reflexivity.
      * intro j. unfold symbol_tone. replace (2 * S j)%nat with (S (S (2 * j))) by lia. reflexivity.
  - unfold symbols. clear E. induction fr as [|a r IH]; [reflexivity|]. cbn [length seq flat_map].
    rewrite <- seq_shift, flat_map_concat_map, map_map, <- flat_map_concat_map.
    rewrite (flat_map_ext _ (fun j => [(0 <? symbol_tone false r j)%Z])) by reflexivity. rewrite IH. destruct a; reflexivity.
Qed.

(** C66: a receiver that sees the samples through any complex gain (amplitude and phase unknown) recovers the frame
    with a frequency discriminator *)
Theorem C66_frame : forall s a x f frame g, fsk_object s -> snd (k_bitsToSamples a s) = Ok (x, f) ->
  k_binary (fst (k_bitsToSamples a s)) = Some frame -> g <> RtoC 0 ->
  demodulate (k_fsk4 s) (Q2R (k_h s)) (map (Cmult g) x) = frame.
Proof.
  intros s a x f fr g Hs Hx Hb Hg. rewrite samples_result in Hx. rewrite samples_state in Hb.
  destruct (snd (k_bitsToIQ a s)) as [xs|] eqn:E; [|discriminate]. cbn [rbind] in Hx. inversion Hx; subst x f; clear Hx.
  destruct (signal_all s a xs E) as (bits & fr' & _ & _ & B & -> & W). rewrite B in Hb. inversion Hb; subst fr'; clear Hb B.
  apply object_valid in Hs.
  assert (Hh : (1 / 4 <= Q2R (k_h s) <= 5 / 2)%R).
  { destruct Hs as (_ & [H1 H2] & _). apply Qle_Rle in H1, H2. unfold Q2R in H1, H2 |- *. cbn [Qnum Qden] in *. lra. }
  unfold demodulate, fsk_samples. cbn [sig_phase]. rewrite map_map, map_length, phases_length.
  replace ((20 * symbols (k_fsk4 s) fr + 18) / 20)%nat with (symbols (k_fsk4 s) fr) by (apply Nat.div_unique with 18%nat; lia).
  transitivity (flat_map (fun j => if k_fsk4 s then [(0 <? symbol_tone (k_fsk4 s) fr j)%Z; (2 <? Z.abs (symbol_tone (k_fsk4 s) fr j))%Z] else [(0 <? symbol_tone (k_fsk4 s) fr j)%Z]) (seq 0 (symbols (k_fsk4 s) fr))).
  2:{ apply frame_by_symbols. intro F. unfold whole_symbols in W. rewrite F in W. exact W. }
  rewrite !flat_map_concat_map. f_equal. apply map_ext_in. intros j Hj. apply in_seq in Hj.
  assert (P0 : nth (20 * j) (map (fun p => (g * cis (2 * PI * Q2R p))%C) (phases s fr)) (RtoC 0)
             = (g * cis (2 * PI * (IZR (symbol_tone (k_fsk4 s) fr j) * Q2R (k_h s) * (INR (20 * j) / 40))))%C).
  { rewrite (nth_map _ _ _ 0%Q) by (rewrite phases_length; lia). pose proof (phases_nth s fr j 0 ltac:(lia) ltac:(lia)) as P. rewrite Nat.add_0_r in P. rewrite P, !Q2R_mult.
    f_equal. f_equal. f_equal. f_equal; [f_equal; unfold Q2R; cbn; field|]. unfold Q2R. cbn [Qnum Qden]. rewrite <- INR_IZR_INZ. reflexivity. }
  assert (P1 : nth (20 * j + 1) (map (fun p => (g * cis (2 * PI * Q2R p))%C) (phases s fr)) (RtoC 0)
             = (g * cis (2 * PI * (IZR (symbol_tone (k_fsk4 s) fr j) * Q2R (k_h s) * (INR (20 * j) / 40)) + 2 * PI * (IZR (symbol_tone (k_fsk4 s) fr j) * Q2R (k_h s) / 40)))%C).
  { rewrite (nth_map _ _ _ 0%Q) by (rewrite phases_length; lia). rewrite (phases_nth s fr j 1) by lia. rewrite !Q2R_mult.
    f_equal. f_equal. assert (I : Q2R (inject_Z (symbol_tone (k_fsk4 s) fr j)) = IZR (symbol_tone (k_fsk4 s) fr j)) by (unfold Q2R; cbn; field). rewrite I.
    assert (I2 : Q2R (Z.of_nat (20 * j + 1) # 40) = ((INR (20 * j) + 1) / 40)%R) by (unfold Q2R; cbn [Qnum Qden]; rewrite <- INR_IZR_INZ, plus_INR; reflexivity).
    rewrite I2. field. }
  rewrite P0, P1. rewrite positive_spec, outer_spec by assumption.
  set (u := (2 * PI * (IZR (symbol_tone (k_fsk4 s) fr j) * Q2R (k_h s) * (INR (20 * j) / 40)))%R).
  replace (u + 2 * PI * (IZR (symbol_tone (k_fsk4 s) fr j) * Q2R (k_h s) / 40) - u)%R with (2 * PI * (IZR (symbol_tone (k_fsk4 s) fr j) * Q2R (k_h s) / 40))%R by ring.
  destruct (tone_bits (Q2R (k_h s)) (symbol_tone (k_fsk4 s) fr j) Hh (symbol_tone_cases _ _ _)) as [-> ->]. reflexivity.
Qed.
Print Assumptions C66_frame.
(** and the payload *)
Theorem C66_payload : forall s a octets x f g, fsk_object s -> holds_octets a octets -> octets <> [] ->
  Forall is_octet octets -> (zlen octets <= 2047)%Z -> g <> RtoC 0 ->
  snd (k_bytesToSamples a s) = Ok (x, f) ->
  fsk_receiver (k_fsk4 s) (k_preamble s) (k_fec s) (k_il s) (k_scheme s)
    (demodulate (k_fsk4 s) (Q2R (k_h s)) (map (Cmult g) x))
  = {| rx_fcs := k_fcs s; rx_white := k_white s; rx_octets := zlen octets; rx_payload := octet_bits octets |}.
Proof.
  intros s a zs x f g Hs Ha Hne Ho L Hg Hx. destruct (C17_round_trip s a zs Hs Ha Hne Ho L) as (fr & B & R).
  unfold k_bytesToSamples, sbind, slift in Hx. unfold k_bytesToIQ, sbind, slift in B.
  destruct (to_binary_array a) as [l|] eqn:T; [|discriminate].
  rewrite (C66_frame s (bits_arg l) x f fr g Hs Hx) by (rewrite ?samples_state; assumption). exact R.
Qed.
Print Assumptions C66_payload.
(** 4-FSK, eight payload bits *)
Example C65_case : exists s x f frame, fsk_b = Ok s /\ fsk_object s /\ snd (k_bitsToSamples (AList 1 (map inject_Z [1;0;1;1; 1;1;1;1]%Z)) s) = Ok (x, f)
  /\ k_binary (fst (k_bitsToSamples (AList 1 (map inject_Z [1;0;1;1; 1;1;1;1]%Z)) s)) = Some frame /\ k_fsk4 s = true /\ (60 <= symbols true frame)%nat.
Proof.
  destruct fsk_b_object as (s & E & O). rewrite E. exists s.
  set (a := AList 1 (map inject_Z [1;0;1;1; 1;1;1;1]%Z)).
  assert (K : is_ok (snd (k_bitsToIQ a s)) = true /\ k_fsk4 s = true /\ match k_binary (fst (k_bitsToIQ a s)) with Some fr => (60 <=? symbols true fr)%nat = true | None => False end).
  { vm_compute in E. inversion E; subst. vm_compute. repeat split; reflexivity. }
  destruct K as (K1 & K2 & K3). rewrite (samples_result a s), (samples_state a s).
  destruct (snd (k_bitsToIQ a s)) as [xs|]; [|discriminate]. destruct (k_binary (fst (k_bitsToIQ a s))) as [fr|]; [|destruct K3].
  exists (fsk_samples xs), (IZR (sig_f xs)), fr. split; [reflexivity|]. split; [exact O|]. split; [reflexivity|]. split; [reflexivity|]. split; [exact K2|]. now apply Nat.leb_le.
Qed.
Example C66_case : exists s x f, fsk_a = Ok s /\ snd (k_bytesToSamples (AList 1 (map inject_Z [7; 0; 255]%Z)) s) = Ok (x, f).
Proof.
  destruct fsk_a as [s|] eqn:E; [|vm_compute in E; discriminate]. exists s.
  rewrite (proj1 (samples_bytes _ _)). assert (K : is_ok (snd (k_bytesToIQ (AList 1 (map inject_Z [7; 0; 255]%Z)) s)) = true).
  { vm_compute in E. inversion E; subst. vm_compute. reflexivity. }
  destruct (snd (k_bytesToIQ _ s)) as [xs|]; [|discriminate]. exists (fsk_samples xs), (IZR (sig_f xs)). split; reflexivity.
Qed.
