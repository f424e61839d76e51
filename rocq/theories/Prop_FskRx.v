(** * C87-C89: receiving MR-FSK *)
From Coq Require Import Qreals Reals Lra Psatz.
From Coquelicot Require Import Complex.
From Verif Require Import Py MBits MPn9 Tables MFsk SBits SEntry SPn9 SFsk PList PBits PEntry PPn9 PConv PFskFec PFsk Prop_Fsk MTime PTime SFskWave MFskWave Prop_FskWave SGap SFskGap PFskGap PFskNoise SFskRx PSync.
From Verif Require PGap.
Local Open Scope nat_scope.

(** ** C87: finding the frame *)
Lemma k_sfd_delimiter s : fsk_object s -> In (k_sfd s, k_fec s) delimiters.
Proof.
  intro Hs. apply object_valid in Hs. assert (K : (k_sfd s = 0 \/ k_sfd s = 1)%Z) by (destruct Hs as (_ & _ & H); tauto).
  destruct K as [-> | ->], (k_fec s); cbn; tauto.
Qed.
(** [r] is what is received of a frame from bit j on, j within the preamble and at a symbol boundary; in none of the windows
    of the length of a delimiter up to the delimiter itself is more than one bit wrong *)
Theorem C87_found : forall s a bits frame j r, fsk_object s -> sends s a bits frame ->
  j <= preamble_length (k_fsk4 s) (k_preamble s) -> j mod symbol_bits (k_fsk4 s) = 0 -> length r = length frame - j ->
  (forall i, j + i <= preamble_length (k_fsk4 s) (k_preamble s) ->
     distance (firstn (sfd_length (k_fsk4 s)) (skipn i r)) (firstn (sfd_length (k_fsk4 s)) (skipn (j + i) frame)) <= 1) ->
  find_frame (k_fsk4 s) 1 r = Some (k_sfd s, k_fec s, skipn (preamble_length (k_fsk4 s) (k_preamble s) - j) r).
Proof.
  intros s a bits fr j r Hs Hb Hj Hm Hl Hw. destruct (C16_layout s a bits fr Hs Hb) as [body E].
  unfold find_frame. set (N := preamble_length (k_fsk4 s) (k_preamble s)) in *. pose proof (k_sfd_delimiter s Hs) as D.
  assert (EN : (N = Z.to_nat (k_preamble s) * unit_length (k_fsk4 s))) by reflexivity.
  rewrite tile_pre, <- EN in E. set (f4 := k_fsk4 s) in *. set (d := (k_sfd s, k_fec s)) in *.
  change (sfd f4 (k_sfd s) (k_fec s)) with (sfd f4 (fst d) (snd d)) in E.
  assert (LF : length fr = N + (sfd_length f4 + length body)) by (rewrite E, !app_length, tail_pre_length, sfd_len; reflexivity).
  assert (W0 : 0 < sfd_length f4) by (destruct f4; cbn; lia).
  transitivity (Some (fst d, snd d, skipn (N - j) r)); [|reflexivity]. apply hunt_found; auto; try lia.
  - assert (M : N mod symbol_bits f4 = 0).
    { rewrite EN. unfold f4, unit_length, symbol_bits. destruct (k_fsk4 s); [|apply Nat.mod_1_r]. replace (Z.to_nat (k_preamble s) * 16) with (Z.to_nat (k_preamble s) * 8 * 2) by lia. apply Nat.mod_mul. lia. }
    assert (Sb : symbol_bits f4 <> 0) by (destruct f4; cbn; lia).
    apply Nat.mod_divides in M as [u Hu]; [|assumption]. apply Nat.mod_divides in Hm as [v Hv]; [|assumption].
    rewrite Hu, Hv, <- Nat.mul_sub_distr_l, Nat.mul_comm. now apply Nat.mod_mul.
  - intros i Hi. specialize (Hw i ltac:(lia)). enough (X : firstn (sfd_length f4) (skipn (j + i) fr) = window f4 (N - j - i) d) by (rewrite <- X; exact Hw).
    rewrite E, skipn_app, tail_pre_length, tail_pre_skip by lia. replace (j + i - N) with 0 by lia. cbn [skipn].
    unfold window. rewrite (app_assoc (tail_pre f4 (N - (j + i)))), firstn_app. replace (N - j - i) with (N - (j + i)) by lia.
    replace (sfd_length f4 - length (tail_pre f4 (N - (j + i)) ++ sfd f4 (fst d) (snd d))) with 0 by (rewrite app_length, tail_pre_length, sfd_len; lia).
    cbn [firstn]. apply app_nil_r.
Qed.
Print Assumptions C87_found.
Lemma receiver_from f4 pre fec il scheme fr : (0 <= pre)%Z ->
  fsk_receiver f4 pre fec il scheme fr = fsk_receiver f4 0 fec il scheme (skipn (Z.to_nat pre * (if f4 then 16 else 8)) fr).
Proof.
  intro H. unfold fsk_receiver. rewrite !skipn_twice.
  replace (Z.to_nat (pre * (if f4 then 16 else 8) + (if f4 then 32 else 16))%Z) with (Z.to_nat (0 * (if f4 then 16 else 8) + (if f4 then 32 else 16))%Z + Z.to_nat pre * (if f4 then 16 else 8)) by (destruct f4; lia).
  reflexivity.
Qed.
(** without errors, from any symbol of the preamble on: delimiter group, FEC flag, header and payload are read *)
Theorem C87_receiver : forall s a bits frame j, fsk_object s -> sends s a bits frame ->
  j <= preamble_length (k_fsk4 s) (k_preamble s) -> j mod symbol_bits (k_fsk4 s) = 0 ->
  hunting_receiver (k_fsk4 s) (k_il s) (k_scheme s) 1 (skipn j frame)
  = Some (k_sfd s, k_fec s, {| rx_fcs := k_fcs s; rx_white := k_white s; rx_octets := (zlen bits / 8)%Z; rx_payload := bits |}).
Proof.
  intros s a bits fr j Hs Hb Hj Hm. unfold hunting_receiver. rewrite (C87_found s a bits fr j (skipn j fr)); auto.
  - pose proof (C17_bits s a bits fr Hs Hb) as R. apply object_valid in Hs.
    rewrite receiver_from in R by (destruct Hs as (_ & _ & H); lia).
    rewrite skipn_twice. replace (preamble_length (k_fsk4 s) (k_preamble s) - j + j) with (preamble_length (k_fsk4 s) (k_preamble s)) by lia. unfold preamble_length. rewrite R. reflexivity.
  - apply skipn_length.
  - intros i Hi. rewrite skipn_twice, (Nat.add_comm i j), PConv.distance_refl. lia.
Qed.
Print Assumptions C87_receiver.

(** ** C88: frequency offset, gain, and where the samples start *)
Local Open Scope R_scope.
Lemma tone_offset h t phi : (1 / 4 <= h <= 5 / 2)%R -> (t = -3 \/ t = -1 \/ t = 1 \/ t = 3)%Z -> Rabs phi < PI * h / 20 ->
  (if Rlt_dec 0 (sin (phi + 2 * PI * (IZR t * h / 40))) then true else false) = (0 <? t)%Z
  /\ (if Rlt_dec (cos (phi + 2 * PI * (IZR t * h / 40))) (cos (2 * PI * h / 20)) then true else false) = (2 <? Z.abs t)%Z.
Proof.
  intros Hh Ht Hp. pose proof PI_RGT_0 as P. apply Rabs_def2 in Hp. set (th := PI * h / 20) in *.
  assert (B : 0 < th <= PI / 8) by (unfold th; split; nra).
  replace (2 * PI * (IZR t * h / 40)) with (IZR t * th) by (unfold th; field). replace (2 * PI * h / 20) with (2 * th) by (unfold th; field). clearbody th.
  destruct Ht as [->|[->|[->| ->]]].
  - assert (S : sin (phi + -3 * th) < 0) by (replace (phi + -3 * th) with (- (3 * th - phi)) by ring; rewrite sin_neg; pose proof (sin_gt_0 (3 * th - phi)); lra).
    assert (K : cos (phi + -3 * th) < cos (2 * th)) by (replace (phi + -3 * th) with (- (3 * th - phi)) by ring; rewrite cos_neg; apply cos_decreasing_1; lra).
    split; [destruct (Rlt_dec 0 _); [lra|reflexivity]|destruct (Rlt_dec _ _); [reflexivity|lra]].
  - assert (S : sin (phi + -1 * th) < 0) by (replace (phi + -1 * th) with (- (th - phi)) by ring; rewrite sin_neg; pose proof (sin_gt_0 (th - phi)); lra).
    assert (K : cos (2 * th) < cos (phi + -1 * th)) by (replace (phi + -1 * th) with (- (th - phi)) by ring; rewrite cos_neg; apply cos_decreasing_1; lra).
    split; [destruct (Rlt_dec 0 _); [lra|reflexivity]|destruct (Rlt_dec _ _); [lra|reflexivity]].
  - assert (S : 0 < sin (phi + 1 * th)) by (apply sin_gt_0; lra).
    assert (K : cos (2 * th) < cos (phi + 1 * th)) by (apply cos_decreasing_1; lra).
    split; [destruct (Rlt_dec 0 _); [reflexivity|lra]|destruct (Rlt_dec _ _); [lra|reflexivity]].
  - assert (S : 0 < sin (phi + 3 * th)) by (apply sin_gt_0; lra).
    assert (K : cos (phi + 3 * th) < cos (2 * th)) by (apply cos_decreasing_1; lra).
    split; [destruct (Rlt_dec 0 _); [reflexivity|lra]|destruct (Rlt_dec _ _); [reflexivity|lra]].
Qed.
Lemma flat_map_offset {B} (F : nat -> list B) m : forall q, flat_map (fun j => F (q + j)%nat) (seq 0 m) = flat_map F (seq q m).
Proof.
  induction m as [|m IH]; intro q; [reflexivity|]. cbn [seq flat_map]. rewrite Nat.add_0_r. f_equal. rewrite <- (IH (S q)), <- seq_shift, !flat_map_concat_map, map_map.
  f_equal. apply map_ext. intro j. f_equal. lia.
Qed.
Lemma index_real s : fsk_object s -> (1 / 4 <= Q2R (k_h s) <= 5 / 2)%R.
Proof. intro Hs. apply object_valid in Hs. destruct Hs as (_ & [H1 H2] & _). apply Qle_Rle in H1, H2. unfold Q2R in H1, H2 |- *. cbn [Qnum Qden] in *. lra. Qed.
Lemma samples_at s a x f frame j i : fsk_object s -> snd (k_bitsToSamples a s) = Ok (x, f) -> k_binary (fst (k_bitsToSamples a s)) = Some frame ->
  (j < symbols (k_fsk4 s) frame)%nat -> (i < 20)%nat ->
  nth (20 * j + i) x (RtoC 0) = cis (2 * PI * (IZR (symbol_tone (k_fsk4 s) frame j) * Q2R (k_h s) * (INR (20 * j + i) / 40))).
Proof.
  intros Hs Hx Hb Hj Hi. destruct (C65_tones s a x f frame Hs Hx Hb) as (Ef & _ & _ & T). rewrite (T j i Hj Hi). unfold carrier, cis. rewrite Ef.
  apply object_valid in Hs. assert (R0 : IZR (k_rate s) <> 0) by (apply not_0_IZR; destruct Hs as (H & _); lia).
  set (n := INR (20 * j + i)). set (t := IZR (symbol_tone _ _ _)).
  replace (2 * PI * (t * (Q2R (k_h s) * IZR (k_rate s) / 2)) * (n / (20 * IZR (k_rate s)))) with (2 * PI * (t * Q2R (k_h s) * (n / 40))) by (field; assumption). reflexivity.
Qed.
Lemma frame_whole s a x f frame : snd (k_bitsToSamples a s) = Ok (x, f) -> k_binary (fst (k_bitsToSamples a s)) = Some frame ->
  k_fsk4 s = true -> Nat.even (length frame) = true.
Proof.
  intros Hx Hb F. rewrite samples_result in Hx. rewrite samples_state in Hb. destruct (snd (k_bitsToIQ a s)) as [xs|] eqn:E; [|discriminate].
  destruct (signal_all s a xs E) as (bits & fr' & _ & _ & B & -> & W). rewrite B in Hb. inversion Hb; subst fr'. unfold whole_symbols in W. rewrite F in W. exact W.
Qed.
Lemma seen_length g phi x : length (seen g phi x) = length x.
Proof. unfold seen. now rewrite map_length, seq_length. Qed.
Definition tone_word (fsk4 : bool) (t : Z) : list bool := if fsk4 then [(0 <? t)%Z; (2 <? Z.abs t)%Z] else [(0 <? t)%Z].
Lemma words_length f4 frame q : length (flat_map (fun j => tone_word f4 (symbol_tone f4 frame j)) (seq 0 q)) = (q * symbol_bits f4)%nat.
Proof. induction q as [|q IH]; [reflexivity|]. rewrite seq_S, flat_map_app, app_length, IH. cbn [flat_map]. rewrite app_nil_r. unfold tone_word. destruct f4; cbn; lia. Qed.
(** the samples seen from sample n on (but not from the last sample of a symbol), through a gain and a frequency offset below the
    inner deviation: the discriminator reads the frame from the symbol of sample n on *)
Theorem C88_frame : forall s a x f frame g phi n, fsk_object s -> snd (k_bitsToSamples a s) = Ok (x, f) ->
  k_binary (fst (k_bitsToSamples a s)) = Some frame -> g <> RtoC 0 -> Rabs phi < PI * Q2R (k_h s) / 20 -> (n mod 20 <> 19)%nat ->
  demodulate (k_fsk4 s) (Q2R (k_h s)) (skipn n (seen g phi x)) = skipn (n / 20 * symbol_bits (k_fsk4 s)) frame.
Proof.
  intros s a x f fr g phi n Hs Hx Hb Hg Hp Hn. pose proof (index_real s Hs) as Hh. destruct (C65_tones s a x f fr Hs Hx Hb) as (_ & Lx & _ & _).
  pose proof (frame_whole s a x f fr Hx Hb) as W. set (f4 := k_fsk4 s) in *. set (h := Q2R (k_h s)) in *.
  pose proof (frame_by_symbols f4 fr W) as FS. change (flat_map (fun j => tone_word f4 (symbol_tone f4 fr j)) (seq 0 (symbols f4 fr)) = fr) in FS.
  pose proof (Nat.div_mod n 20 ltac:(lia)) as D. pose proof (Nat.mod_upper_bound n 20 ltac:(lia)) as M. set (q := (n / 20)%nat) in *. set (o := (n mod 20)%nat) in *. set (K := symbols f4 fr) in *.
  unfold demodulate. rewrite skipn_length, seen_length, Lx.
  replace ((20 * K - n + 18) / 20)%nat with (K - q)%nat by (apply Nat.div_unique with (if Nat.leb q (K - 1) then if Nat.ltb 0 K then 18 - o else 18 else 18)%nat; destruct (Nat.leb_spec q (K - 1)), (Nat.ltb_spec 0 K); lia).
  transitivity (flat_map (fun j => tone_word f4 (symbol_tone f4 fr j)) (seq q (K - q))).
  - rewrite <- (flat_map_offset (fun j => tone_word f4 (symbol_tone f4 fr j)) (K - q) q), !flat_map_concat_map. f_equal. apply map_ext_in. intros j Hj. apply in_seq in Hj. cbv zeta. rewrite !nth_skipn.
    assert (P : forall i, (i < 20)%nat -> nth (20 * (q + j) + i) (seen g phi x) (RtoC 0)
              = (g * cis (INR (20 * (q + j) + i) * phi + 2 * PI * (IZR (symbol_tone f4 fr (q + j)) * h * (INR (20 * (q + j) + i) / 40))))%C).
    { intros i Hi. unfold seen. rewrite nth_map_seq by lia. rewrite (samples_at s a x f fr) by (auto; fold f4 K; lia). fold f4 h. rewrite cis_add.
      change (cos (INR (20 * (q + j) + i) * phi), sin (INR (20 * (q + j) + i) * phi)) with (cis (INR (20 * (q + j) + i) * phi)). ring. }
    replace (n + 20 * j)%nat with (20 * (q + j) + o)%nat by lia. replace (n + (20 * j + 1))%nat with (20 * (q + j) + S o)%nat by lia.
    rewrite (P o), (P (S o)) by lia. rewrite positive_spec, outer_spec by assumption. set (t := symbol_tone f4 fr (q + j)).
    match goal with |- context [sin ?v] => replace v with (phi + 2 * PI * (IZR t * h / 40)) by (rewrite Nat.add_succ_r, S_INR; field) end.
    destruct (tone_offset h t phi Hh (symbol_tone_cases _ _ _) Hp) as [-> ->]. reflexivity.
  - destruct (Nat.le_gt_cases q K) as [L|L].
    + transitivity (skipn (q * symbol_bits f4) (flat_map (fun j => tone_word f4 (symbol_tone f4 fr j)) (seq 0 K))); [|now rewrite FS]. rewrite (flat_map_split _ q K L), skipn_app, words_length, Nat.sub_diag, skipn_all2 by (rewrite words_length; lia). reflexivity.
    + replace (K - q)%nat with 0%nat by lia. cbn [seq flat_map]. symmetry. apply skipn_all2. pose proof (words_length f4 fr K) as WL. rewrite FS in WL. rewrite WL. destruct f4; cbn [symbol_bits]; lia.
Qed.
Print Assumptions C88_frame.
Lemma sent_frame s a bits x f : check_binary_array a = Ok bits -> snd (k_bitsToSamples a s) = Ok (x, f) ->
  exists fr, k_binary (fst (k_bitsToSamples a s)) = Some fr /\ sends s a bits fr.
Proof.
  intros Ca Hx. rewrite samples_state. rewrite samples_result in Hx. destruct (k_bitsToIQ a s) as [t r] eqn:E. cbn [fst snd] in *.
  destruct r as [xs|]; [|discriminate]. pose proof (signal_all s a xs) as S. rewrite E in S. destruct (S eq_refl) as (b & fr & C' & _ & B & _). exists fr.
  split; [exact B|]. split; [assumption|]. exists t, xs. split; [exact E|exact B].
Qed.
(** so a receiver that starts anywhere in the preamble, at any sample but the last of a symbol, with unknown gain and phase and a
    frequency offset below the inner deviation, reads delimiter group, FEC flag, header and payload *)
Theorem C88_receiver : forall s a bits x f g phi n, fsk_object s -> check_binary_array a = Ok bits -> snd (k_bitsToSamples a s) = Ok (x, f) ->
  g <> RtoC 0 -> Rabs phi < PI * Q2R (k_h s) / 20 -> (n mod 20 <> 19)%nat -> (n / 20 * symbol_bits (k_fsk4 s) <= preamble_length (k_fsk4 s) (k_preamble s))%nat ->
  hunting_receiver (k_fsk4 s) (k_il s) (k_scheme s) 1 (demodulate (k_fsk4 s) (Q2R (k_h s)) (skipn n (seen g phi x)))
  = Some (k_sfd s, k_fec s, {| rx_fcs := k_fcs s; rx_white := k_white s; rx_octets := (zlen bits / 8)%Z; rx_payload := bits |}).
Proof.
  intros s a bits x f g phi n Hs Ca Hx Hg Hp Hn Hl.
  destruct (sent_frame s a bits x f Ca Hx) as (fr & B & Sd). rewrite (C88_frame s a x f fr g phi n Hs Hx B Hg Hp Hn). apply (C87_receiver s a bits fr _ Hs Sd Hl).
  apply Nat.mod_mul. destruct (k_fsk4 s); cbn; lia.
Qed.
Print Assumptions C88_receiver.

(** ** C89: nearest-tone detection through noise *)
Lemma tone_block h t j : tone_samples h t j = map (fun i => cis (tone_phase h t i)) (seq (20 * j) 20).
Proof. reflexivity. Qed.
Lemma nearest_right h f4 y t j : 1 / 4 <= h <= 5 / 2 -> (t = -3 \/ t = -1 \/ t = 1 \/ t = 3)%Z -> (f4 = false -> t = -1 \/ t = 1)%Z ->
  length y = 20%nat -> gap y (tone_samples h t j) < 3 / 4 -> nearest h f4 y j = tone_word f4 t.
Proof.
  intros Hh Ht H2 Hl Hg.
  assert (C : forall t', (t' = -3 \/ t' = -1 \/ t' = 1 \/ t' = 3)%Z -> t' <> t -> gap y (tone_samples h t j) < gap y (tone_samples h t' j)).
  { intros t' Ht' N. pose proof (symbol_gap h t t' j Hh Ht Ht' ltac:(congruence)) as G. rewrite <- !tone_block in G.
    pose proof (PGap.gap_par (tone_samples h t j) (tone_samples h t' j) y ltac:(rewrite Hl, tone_block, map_length, seq_length; reflexivity)) as T. lra. }
  assert (B : forall a b, (a = -3 \/ a = -1 \/ a = 1 \/ a = 3)%Z -> (b = -3 \/ b = -1 \/ b = 1 \/ b = 3)%Z -> (a = t \/ b = t) ->
    (if closer y (tone_samples h a j) (tone_samples h b j) then a else b) = t).
  { intros a b Ha Hb Hab. unfold closer. destruct (Rlt_dec (gap y (tone_samples h a j)) (gap y (tone_samples h b j))) as [L|L].
    - destruct (Z.eq_dec a t) as [|N]; [assumption|]. destruct Hab as [|E]; [contradiction|]. subst b. pose proof (C a Ha N). lra.
    - destruct (Z.eq_dec b t) as [|N]; [assumption|]. destruct Hab as [E|]; [|contradiction]. subst a. pose proof (C b Hb N). lra. }
  assert (I : forall a b, (a = -3 \/ a = -1 \/ a = 1 \/ a = 3)%Z -> (b = -3 \/ b = -1 \/ b = 1 \/ b = 3)%Z ->
    let c := if closer y (tone_samples h a j) (tone_samples h b j) then a else b in c = a \/ c = b) by (intros a b _ _; cbv zeta; destruct (closer _ _ _); auto).
  unfold nearest. destruct f4.
  - cbv zeta. set (l := if closer y (tone_samples h (-3) j) (tone_samples h (-1) j) then (-3)%Z else (-1)%Z).
    set (r := if closer y (tone_samples h 1 j) (tone_samples h 3 j) then 1%Z else 3%Z).
    pose proof (I (-3)%Z (-1)%Z ltac:(tauto) ltac:(tauto)) as Il. fold l in Il. cbv zeta in Il.
    pose proof (I 1%Z 3%Z ltac:(tauto) ltac:(tauto)) as Ir. fold r in Ir. cbv zeta in Ir.
    rewrite (B l r); [reflexivity| | |].
    + destruct Il as [-> | ->]; tauto.
    + destruct Ir as [-> | ->]; tauto.
    + destruct Ht as [E|[E|[E|E]]].
      * left. apply (B (-3)%Z (-1)%Z); auto.
      * left. apply (B (-3)%Z (-1)%Z); auto.
      * right. apply (B 1%Z 3%Z); auto.
      * right. apply (B 1%Z 3%Z); auto.
  - cbv zeta. rewrite (B (-1)%Z 1%Z); [reflexivity|tauto|tauto|]. destruct (H2 eq_refl); auto.
Qed.
Lemma block_length r j k : length r = (20 * k)%nat -> (j < k)%nat -> length (block r j) = 20%nat.
Proof. intros E L. unfold block. rewrite firstn_length, skipn_length. lia. Qed.
Lemma frame_block s a x f frame j : fsk_object s -> snd (k_bitsToSamples a s) = Ok (x, f) -> k_binary (fst (k_bitsToSamples a s)) = Some frame ->
  (j < symbols (k_fsk4 s) frame)%nat -> block x j = tone_samples (Q2R (k_h s)) (symbol_tone (k_fsk4 s) frame j) j.
Proof.
  intros Hs Hx Hb Hj. destruct (C65_tones s a x f frame Hs Hx Hb) as (_ & Lx & _ & _).
  apply (nth_ext _ _ (RtoC 0) (RtoC 0)); rewrite (block_length x j _ Lx Hj); [rewrite tone_block, map_length, seq_length; reflexivity|].
  intros i Hi. unfold block. rewrite nth_firstn, nth_skipn by lia. rewrite (samples_at s a x f frame j i) by assumption.
  rewrite tone_block, (nth_map _ _ _ 0%nat), seq_nth by (rewrite ?seq_length; lia). reflexivity.
Qed.
Lemma tone_two f4 frame j : f4 = false -> (symbol_tone f4 frame j = -1 \/ symbol_tone f4 frame j = 1)%Z.
Proof. intros ->. unfold symbol_tone, tone2. destruct (nth j frame false); auto. Qed.
(** every symbol whose noise energy is below 3/4 (a sample has energy 1) is detected; so at most the others are wrong *)
Theorem C89_symbols : forall s a x f frame r, fsk_object s -> snd (k_bitsToSamples a s) = Ok (x, f) ->
  k_binary (fst (k_bitsToSamples a s)) = Some frame -> length r = length x ->
  (differing_symbols (k_fsk4 s) (detect (k_fsk4 s) (Q2R (k_h s)) r) frame
   <= length (filter (fun j => if Rlt_dec (gap (block r j) (block x j)) (3 / 4) then false else true) (seq 0 (symbols (k_fsk4 s) frame))))%nat.
Proof.
  intros s a x f fr r Hs Hx Hb Hl. destruct (C65_tones s a x f fr Hs Hx Hb) as (_ & Lx & _ & _). pose proof (index_real s Hs) as Hh.
  set (f4 := k_fsk4 s) in *. set (h := Q2R (k_h s)) in *. set (K := symbols f4 fr) in *. rewrite Lx in Hl.
  assert (LW : forall j, length (nearest h f4 (block r j) j) = symbol_bits f4) by (intro j; unfold nearest; destruct f4; reflexivity).
  assert (ED : detect f4 h r = flat_map (fun j => nearest h f4 (block r j) j) (seq 0 K)).
  { unfold detect. rewrite Hl. replace (20 * K / 20)%nat with K by (rewrite Nat.mul_comm, Nat.div_mul; lia). reflexivity. }
  set (F := fun j => nearest h f4 (block r j) j) in *.
  assert (LF : forall n q, length (flat_map F (seq q n)) = (n * symbol_bits f4)%nat).
  { induction n as [|n IH]; intro q; [reflexivity|]. cbn [seq flat_map]. rewrite app_length, IH. unfold F at 1. rewrite LW. lia. }
  assert (NT : forall n j e, (j < n)%nat -> (e < symbol_bits f4)%nat -> nth (j * symbol_bits f4 + e) (flat_map F (seq 0 n)) false = nth e (F j) false).
  { intros n j e Hj He. rewrite (flat_map_split F j n ltac:(lia)), app_nth2 by (rewrite LF; lia). rewrite LF.
    replace (j * symbol_bits f4 + e - j * symbol_bits f4)%nat with e by lia. replace (n - j)%nat with (S (n - j - 1)) by lia. cbn [seq flat_map].
    apply app_nth1. unfold F. now rewrite LW. }
  assert (SK : symbols f4 (detect f4 h r) = K).
  { rewrite ED. unfold symbols at 1. rewrite LF. destruct f4; cbn [symbol_bits]; [|lia]. now rewrite Nat.div_mul. }
  unfold differing_symbols. rewrite SK. fold K. rewrite Nat.min_id.
  assert (M : forall (p q : nat -> bool) l, (forall j, In j l -> p j = true -> q j = true) -> (length (filter p l) <= length (filter q l))%nat).
  { intros p q. induction l as [|j l IH]; intro H; [reflexivity|]. cbn [filter]. specialize (IH (fun i Hi => H i (or_intror Hi))).
    pose proof (H j (or_introl eq_refl)) as Hj. destruct (p j); [rewrite Hj by reflexivity; cbn [length]; lia|destruct (q j); cbn [length]; lia]. }
  apply M. intros j Hj Hd. apply in_seq in Hj. destruct (Rlt_dec (gap (block r j) (block x j)) (3 / 4)) as [G|]; [|reflexivity]. exfalso.
  rewrite (frame_block s a x f fr j Hs Hx Hb) in G by (fold f4 K; lia). fold f4 h in G.
  pose proof (nearest_right h f4 (block r j) (symbol_tone f4 fr j) j Hh (symbol_tone_cases _ _ _) (fun E => tone_two f4 fr j E) (block_length r j K Hl ltac:(lia)) G) as NR.
  apply negb_true_iff, Z.eqb_neq in Hd. apply Hd. rewrite ED. fold (F j) in NR. clear -NR NT Hj.
  unfold symbol_tone at 1. destruct f4; cbn [symbol_bits] in *.
  - pose proof (NT K j 0%nat ltac:(lia) ltac:(lia)) as N0. pose proof (NT K j 1%nat ltac:(lia) ltac:(lia)) as N1. rewrite Nat.add_0_r in N0.
    rewrite (Nat.mul_comm 2 j), N0, N1, NR. unfold tone_word. cbn [nth]. unfold symbol_tone. destruct (nth (2 * j) fr false), (nth (2 * j + 1) fr false); reflexivity.
  - pose proof (NT K j 0%nat ltac:(lia) ltac:(lia)) as N0. rewrite Nat.add_0_r, Nat.mul_1_r in N0. rewrite N0, NR. unfold tone_word. cbn [nth].
    unfold symbol_tone. destruct (nth j fr false); reflexivity.
Qed.
Print Assumptions C89_symbols.
(** all symbols below: the frame, hence the payload *)
Theorem C89_frame : forall s a x f frame r, fsk_object s -> snd (k_bitsToSamples a s) = Ok (x, f) ->
  k_binary (fst (k_bitsToSamples a s)) = Some frame -> length r = length x ->
  (forall j, (j < symbols (k_fsk4 s) frame)%nat -> gap (block r j) (block x j) < 3 / 4) ->
  detect (k_fsk4 s) (Q2R (k_h s)) r = frame.
Proof.
  intros s a x f fr r Hs Hx Hb Hl Hn. destruct (C65_tones s a x f fr Hs Hx Hb) as (_ & Lx & _ & _). pose proof (index_real s Hs) as Hh.
  transitivity (flat_map (fun j => tone_word (k_fsk4 s) (symbol_tone (k_fsk4 s) fr j)) (seq 0 (symbols (k_fsk4 s) fr))).
  2:{ exact (frame_by_symbols (k_fsk4 s) fr (frame_whole s a x f fr Hx Hb)). }
  unfold detect. rewrite Hl, Lx.
  rewrite Nat.mul_comm, Nat.div_mul by lia. rewrite !flat_map_concat_map. f_equal. apply map_ext_in. intros j Hj. apply in_seq in Hj.
  specialize (Hn j ltac:(lia)). rewrite (frame_block s a x f fr j Hs Hx Hb) in Hn by lia.
  apply (nearest_right (Q2R (k_h s)) (k_fsk4 s) (block r j) (symbol_tone (k_fsk4 s) fr j) j Hh (symbol_tone_cases _ _ _) (fun E => tone_two _ fr j E)); [|assumption].
  apply (block_length r j (symbols (k_fsk4 s) fr)); [now rewrite Hl|lia].
Qed.
Print Assumptions C89_frame.
Theorem C89_receiver : forall s a bits x f r, fsk_object s -> check_binary_array a = Ok bits -> snd (k_bitsToSamples a s) = Ok (x, f) ->
  length r = length x -> (forall j, (20 * j < length x)%nat -> gap (block r j) (block x j) < 3 / 4) ->
  hunting_receiver (k_fsk4 s) (k_il s) (k_scheme s) 1 (detect (k_fsk4 s) (Q2R (k_h s)) r)
  = Some (k_sfd s, k_fec s, {| rx_fcs := k_fcs s; rx_white := k_white s; rx_octets := (zlen bits / 8)%Z; rx_payload := bits |}).
Proof.
  intros s a bits x f r Hs Ca Hx Hl Hn. destruct (sent_frame s a bits x f Ca Hx) as (fr & B & Sd).
  destruct (C65_tones s a x f fr Hs Hx B) as (_ & Lx & _ & _). rewrite (C89_frame s a x f fr r Hs Hx B Hl) by (intros j Hj; apply Hn; lia).
  apply (C87_receiver s a bits fr 0 Hs Sd); [lia|]. apply Nat.mod_0_l. destruct (k_fsk4 s); cbn; lia.
Qed.
Print Assumptions C89_receiver.

(** non-vacuity: a coded, whitened, interleaved transmitter; any sample offset, any small frequency offset *)
Example C87_case : exists s frame, fsk_a = Ok s /\ fsk_object s /\ (exists bits, sends s (bits_arg bits) bits frame) /\ (preamble_length (k_fsk4 s) (k_preamble s) < length frame)%nat.
Proof.
  destruct fsk_a as [s|] eqn:E; [|vm_compute in E; discriminate]. exists s.
  assert (O : fsk_object s) by (unfold fsk_object, fsk_a in *; repeat eexists; [exact E|exact (eq_refl (fsk_history [] s))]).
  set (bits := repeat true 8). destruct (k_bitsToIQ (bits_arg bits) s) as [t r] eqn:Q.
  assert (K : is_ok r = true /\ match k_binary t with Some fr => (preamble_length (k_fsk4 s) (k_preamble s) <? length fr)%nat = true | None => False end).
  { vm_compute in E. inversion E; subst. vm_compute in Q. inversion Q; subst. vm_compute. split; reflexivity. }
  destruct K as [K1 K2]. destruct (k_binary t) as [fr|] eqn:B; [|destruct K2]. exists fr. split; [reflexivity|]. split; [exact O|]. split.
  - exists bits. split; [vm_compute; reflexivity|]. destruct r as [sig|]; [|discriminate]. exists t, sig. split; assumption.
  - now apply Nat.ltb_lt.
Qed.
Example C88_case : exists s, fsk_a = Ok s /\ Rabs (1 / 100) < PI * Q2R (k_h s) / 20.
Proof.
  destruct fsk_a as [s|] eqn:E; [|vm_compute in E; discriminate]. exists s. split; [reflexivity|].
  assert (O : fsk_object s) by (unfold fsk_object, fsk_a in *; repeat eexists; [exact E|exact (eq_refl (fsk_history [] s))]). pose proof (index_real s O) as H.
  rewrite Rabs_right by lra. pose proof PI2_3_2 as P. assert (3 <= PI) by lra. nra.
Qed.
(** the transmitted samples themselves are within reach of C89: distance 0 in every symbol; 4-FSK *)
Example C89_case : exists s a x f frame, fsk_b = Ok s /\ fsk_object s /\ snd (k_bitsToSamples a s) = Ok (x, f)
  /\ k_binary (fst (k_bitsToSamples a s)) = Some frame /\ (60 <= symbols (k_fsk4 s) frame)%nat
  /\ forall j, (j < symbols (k_fsk4 s) frame)%nat -> gap (block x j) (block x j) < 3 / 4.
Proof.
  destruct C65_case as (s & x & f & fr & E & O & H1 & H2 & H3 & H4). exists s. eexists. exists x, f, fr.
  split; [exact E|]. split; [exact O|]. split; [exact H1|]. split; [exact H2|]. rewrite H3. split; [exact H4|].
  intros j _. rewrite PGap.gap_same. lra.
Qed.
