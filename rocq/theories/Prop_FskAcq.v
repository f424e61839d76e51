(** * C100: complete reception of MR-FSK frames *)
From Coq Require Import Qreals Reals Lra Psatz.
From Coquelicot Require Import Complex.
From Verif Require Import Py MBits MPn9 Tables MFsk SBits SEntry SPn9 SFsk PList PBits PEntry PPn9 PConv PFskFec PFsk Prop_Fsk MTime STime PTime SFskWave MFskWave Prop_FskWave SFskRx PSync Prop_FskRx SGap PGap SPower PPower SMrRx PChannel SCfo PCfo SOfdmAcq POfdmAcq SFskAcq.
From Verif Require Prop_OfdmAcq.
From Verif Require PFskNoise.
From Verif Require Import SFsk.
Local Open Scope R_scope.

(** ** the turn of a symbol, in noise *)
Definition fsk_error (e : R) : R := 2 * e + e ^ 2.
Lemma turn_noise (g : C) (e w psi0 psi : R) (x : list C) j : g <> RtoC 0 -> 0 <= e -> fsk_error e < 1 ->
  (forall i, (i < 20)%nat -> Cmod (nth (20 * j + i) x (RtoC 0) - cis (psi0 + INR i * psi) * g)%C <= e * Cmod g) ->
  Rabs psi + 2 * fsk_error e < PI -> Rabs (turn x j - psi) <= 2 * fsk_error e.
Proof.
  intros Hg He H1 Hx Hp. assert (G0 : 0 < Cmod g) by now apply Cmod_gt_0.
  set (m := fun i => (cis (- (psi0 + INR i * psi)) * (nth (20 * j + i) x (RtoC 0) - cis (psi0 + INR i * psi) * g))%C).
  assert (Mb : forall i, (i < 20)%nat -> Cmod (m i) <= e * Cmod g) by (intros i Hi; unfold m; rewrite Cmod_mult, Cmod_cis, Rmult_1_l; now apply Hx).
  assert (Xm : forall i, nth (20 * j + i) x (RtoC 0) = (cis (psi0 + INR i * psi) * (g + m i))%C).
  { intro i. unfold m. set (c := cis (psi0 + INR i * psi)). set (c' := cis (- (psi0 + INR i * psi))).
    assert (CC : (c * c' = RtoC 1)%C) by (unfold c, c'; rewrite <- cis_add, Rplus_opp_r; apply cis_0).
    transitivity (c * g + (c * c') * (nth (20 * j + i) x (RtoC 0) - c * g))%C; [rewrite CC|]; ring. }
  assert (Co : rotation x j = (cis psi * Csum (fun i => (g + m (S i)) * Cconj (g + m i)) 19)%C).
  { unfold rotation. rewrite csum_Csum, <- Csum_scal. apply Csum_ext. intros i Hi. replace (20 * j + i + 1)%nat with (20 * j + S i)%nat by lia. rewrite !Xm, Cconj_mult, cis_conj, S_INR.
    replace (psi0 + (INR i + 1) * psi) with (psi + (psi0 + INR i * psi)) by ring. rewrite cis_add.
    match goal with |- (?cp * ?c1 * ?y * (?c2 * ?z))%C = _ => transitivity (cp * (c1 * c2) * (y * z))%C; [ring|] end. rewrite <- cis_add, Rplus_opp_r, cis_0. ring. }
  assert (E0 : 0 <= e * Cmod g) by (apply Rmult_le_pos; lra).
  pose proof (noisy_sum (fun _ => g) m (fun i => m (S i)) (e * Cmod g) 19 E0 ltac:(intros i Hi; split; apply Mb; lia)) as NS. cbv beta in NS.
  rewrite !rsum_const in NS. set (S := Csum _ 19) in *. set (N := INR 19) in *. assert (N0 : 0 < N) by (apply lt_0_INR; lia). set (E := N * Cmod g ^ 2) in *.
  assert (EP : 0 < E) by (apply Rmult_lt_0_compat; [assumption|nra]).
  assert (Err : Cmod (S - RtoC E)%C <= fsk_error e * E) by (eapply Rle_trans; [exact NS|]; right; unfold fsk_error, E; ring).
  replace S with (RtoC E + (S - RtoC E))%C in Co by ring. assert (R0 : 0 <= fsk_error e) by (unfold fsk_error; nra).
  unfold turn. rewrite Co. apply angle_noise; auto.
Qed.

(** the bits of a symbol from a turn close enough to that of its tone *)
Lemma above_iff a b (P : bool) : (P = true -> a < b) -> (P = false -> b <= a) -> above a b = P.
Proof. intros H1 H2. unfold above. destruct (Rlt_dec a b), P; try reflexivity; [specialize (H2 eq_refl)|specialize (H1 eq_refl)]; lra. Qed.
Lemma read_close f4 h t v : 0 < h -> (t = -3 \/ t = -1 \/ t = 1 \/ t = 3)%Z -> Rabs (v - IZR t * (PI * h / 20)) < PI * h / 20 -> read_turn f4 h v = tone_word f4 t.
Proof.
  intros Hh Ht Hv. pose proof PI_RGT_0 as P. set (th := PI * h / 20) in *. assert (T : 0 < th) by (unfold th; nra).
  assert (A : above 0 v = (0 <? t)%Z).
  { apply Rabs_def2 in Hv. destruct Ht as [->|[->|[->| ->]]]; cbn [Z.ltb Z.compare]; apply above_iff; intro; try discriminate; lra. }
  assert (B : above (2 * th) (Rabs v) = (2 <? Z.abs t)%Z).
  { apply Rabs_def2 in Hv. destruct Ht as [->|[->|[->| ->]]]; cbn [Z.ltb Z.compare Z.abs]; apply above_iff; intro; try discriminate; unfold Rabs; destruct (Rcase_abs v); lra. }
  unfold read_turn, tone_word. fold th. now rewrite A, B.
Qed.

(** ** the stream receiver ignores what follows the frame *)
Lemma preamble_start s a bits frame : fsk_object s -> sends s a bits frame ->
  symbol_tone (k_fsk4 s) frame 0 = Z.opp (symbol_tone (k_fsk4 s) frame 1) /\ (2 <= symbols (k_fsk4 s) frame)%nat.
Proof.
  intros Hs Hb. destruct (C16_layout s a bits frame Hs Hb) as [body E]. apply object_valid in Hs.
  assert (K : (4 <= k_preamble s)%Z) by (destruct Hs as (_ & _ & H); lia).
  replace (Z.to_nat (k_preamble s)) with (S (Z.to_nat (k_preamble s - 1))) in E by lia. unfold tile in E. cbn [repeat concat] in E. rewrite <- !app_assoc in E. set (rest := _ ++ sfd _ _ _ ++ body) in E.
  rewrite E. unfold symbol_tone, symbols. destruct (k_fsk4 s); [cbn [preamble_unit]|]; (split; [reflexivity|]); rewrite app_length.
  - change (length (preamble_unit true)) with 16%nat. apply Nat.div_le_lower_bound; lia.
  - change (length (preamble_unit false)) with 8%nat. lia.
Qed.
Lemma hunt_more f4 tol (junk : list bool) : forall n n' l g c r, (n <= n')%nat -> hunt n f4 tol l = Some (g, c, r) -> hunt n' f4 tol (l ++ junk) = Some (g, c, r ++ junk).
Proof.
  induction n as [|n IH]; intros n' l g c r Hn H; [discriminate|]. destruct n' as [|n']; [lia|]. cbn [hunt] in H |- *.
  destruct (Nat.ltb_spec (length l) (sfd_length f4)) as [|L]; [discriminate|]. destruct (Nat.ltb_spec (length (l ++ junk)) (sfd_length f4)) as [L'|_]; [rewrite app_length in L'; lia|].
  assert (D : delimiter_here f4 tol (l ++ junk) = delimiter_here f4 tol l).
  { unfold delimiter_here. rewrite firstn_app. replace (sfd_length f4 - length l)%nat with 0%nat by lia. cbn [firstn]. now rewrite app_nil_r. }
  rewrite D. destruct (delimiter_here f4 tol l) as [[g' c']|]; [now inversion H|].
  assert (K : (symbol_bits f4 <= length l)%nat) by (destruct f4; cbn [symbol_bits sfd_length] in *; lia).
  rewrite skipn_app. replace (symbol_bits f4 - length l)%nat with 0%nat by lia. cbn [skipn]. apply (IH n'); [lia|exact H].
Qed.
Lemma firstn_exact {A} n (l r : list A) : length l = n -> firstn n (l ++ r) = l.
Proof. intros <-. rewrite firstn_app, Nat.sub_diag, firstn_all. cbn [firstn]. apply app_nil_r. Qed.
(** the length announced by the header does not depend on what follows it *)
Lemma header_prefix f4 (c : bool) il scheme (l junk : list bool) : (sfd_length f4 + (if c then 32 else 16) <= length l)%nat ->
  rx_octets (fsk_receiver f4 0 c il scheme (l ++ junk)) = rx_octets (fsk_receiver f4 0 c il scheme l).
Proof.
  intro H. unfold fsk_receiver. cbn [rx_octets]. do 2 f_equal.
  set (k := Z.to_nat _). assert (K : k = sfd_length f4) by (unfold k; destruct f4; reflexivity). rewrite K.
  rewrite skipn_app. replace (sfd_length f4 - length l)%nat with 0%nat by lia. cbn [skipn]. rewrite firstn_app, skipn_length.
  replace ((if c then 32 else 16) - (length l - sfd_length f4))%nat with 0%nat by lia. cbn [firstn]. now rewrite app_nil_r.
Qed.
(** the frame, followed by anything: delimiter group, FEC flag, header and payload *)
Theorem C100_stream : forall s a zs frame junk, fsk_object s -> sends s a (octet_bits zs) frame -> Forall is_octet zs -> (zlen zs <= 2047)%Z ->
  stream_receiver (k_fsk4 s) (k_il s) (k_scheme s) 1 (frame ++ junk)
  = Some (k_sfd s, k_fec s, {| rx_fcs := k_fcs s; rx_white := k_white s; rx_octets := zlen zs; rx_payload := octet_bits zs |}).
Proof.
  intros s a zs fr junk Hs Hb Hz Hl. pose proof (C87_receiver s a (octet_bits zs) fr 0 Hs Hb ltac:(lia) ltac:(destruct (k_fsk4 s); reflexivity)) as R. cbn [skipn] in R.
  pose proof (sends_frame s a _ fr Hb) as F. pose proof (object_valid s Hs) as V. 
  assert (L : zlen fr = fsk_frame_bits (k_fsk4 s) (k_preamble s) (k_fec s) (zlen zs)).
  { destruct (f_frame_inv s (octet_bits zs) fr V F) as [C ->]. apply octet_frame_bits; [assumption|unfold zlen in Hl; lia]. }
  assert (Z8 : (zlen (octet_bits zs) / 8 = zlen zs)%Z) by (unfold zlen; rewrite octet_bits_length, Nat2Z.inj_mul, Z.mul_comm; apply Z.div_mul; lia).
  unfold hunting_receiver in R. destruct (find_frame (k_fsk4 s) 1 fr) as [[[g c] rest]|] eqn:FF; [|discriminate]. 
  pose proof (C87_found s a (octet_bits zs) fr 0 fr Hs Hb ltac:(lia) ltac:(destruct (k_fsk4 s); reflexivity) ltac:(lia)
    ltac:(intros i Hi; rewrite Nat.add_0_l, PConv.distance_refl; lia)) as FF'. rewrite FF in FF'. rewrite Nat.sub_0_r in FF'. injection FF' as Eg Ec Er.
  rewrite Z8 in R. subst g c.
  set (v := {| rx_fcs := _ |}) in *. set (z := fsk_receiver _ _ _ _ _ _) in R. assert (R' : z = v) by congruence. clear R. unfold z in R'. rename R' into R. clear z.
  set (N := preamble_length (k_fsk4 s) (k_preamble s)) in *. assert (K : (0 <= k_preamble s)%Z) by (destruct V as (_ & _ & V'); lia).
  assert (Z0 : (0 <= zlen zs)%Z) by (unfold zlen; lia).
  assert (LR : Z.of_nat (length rest) = fsk_frame_bits (k_fsk4 s) 0 (k_fec s) (zlen zs) /\ (sfd_length (k_fsk4 s) + (if k_fec s then 32 else 16) <= length rest)%nat).
  { rewrite Er, skipn_length. unfold zlen in L, Z0 |- *. unfold N, preamble_length. unfold fsk_frame_bits in *. clear R. destruct (k_fsk4 s), (k_fec s); cbn [sfd_length]; try destruct (Z.even (Z.of_nat (length zs))); lia. }
  destruct LR as [LR1 LR2].
  unfold stream_receiver, find_frame. rewrite (hunt_more (k_fsk4 s) 1 junk (length fr) (length (fr ++ junk)) fr (k_sfd s) (k_fec s) rest); [|rewrite app_length; lia|exact FF].
  rewrite header_prefix by assumption. rewrite R. change (rx_octets v) with (zlen zs). rewrite firstn_exact by lia. now rewrite R.
Qed.
Print Assumptions C100_stream.

(** ** from the samples *)
Lemma bytes_sent s a zs x f : holds_octets a zs -> zs <> [] -> Forall is_octet zs -> snd (k_bytesToSamples a s) = Ok (x, f) ->
  snd (k_bitsToSamples (bits_arg (octet_bits zs)) s) = Ok (x, f) /\ check_binary_array (bits_arg (octet_bits zs)) = Ok (octet_bits zs).
Proof.
  intros Ha Hne Hz Hx. unfold k_bytesToSamples, sbind, slift in Hx. rewrite (holds_octets_ok a zs) in Hx by assumption. split; [exact Hx|now apply check_binary_bits_arg, octet_bits_nonnil].
Qed.
Lemma tone_outermost f4 frame j : Rabs (IZR (symbol_tone f4 frame j)) <= outermost f4.
Proof.
  unfold symbol_tone, outermost. destruct f4.
  - unfold tone4. destruct (nth (2 * j) frame false), (nth (2 * j + 1) frame false); cbn [Z.mul Pos.mul]; unfold Rabs; destruct (Rcase_abs _); lra.
  - unfold tone2. destruct (nth j frame false); unfold Rabs; destruct (Rcase_abs _); lra.
Qed.
Theorem C100_complete : forall s a zs x f g e df threshold before mid after,
  fsk_object s -> holds_octets a zs -> zs <> [] -> Forall is_octet zs -> (zlen zs <= 2047)%Z -> snd (k_bytesToSamples a s) = Ok (x, f) ->
  g <> RtoC 0 -> 0 <= e -> length mid = length x ->
  (forall t, (t < length x)%nat -> Cmod (nth t mid (RtoC 0) - unit_at (2 * PI * df / f * INR t) * (g * nth t x (RtoC 0)))%C <= e * Cmod g) ->
  Forall (fun z => Cmod z <= threshold) before -> threshold < (1 - e) * Cmod g ->
  Rabs (2 * PI * df / f) + outermost (k_fsk4 s) * (PI * Q2R (k_h s) / 20) + 2 * (2 * e + e ^ 2) < PI ->
  4 * (2 * e + e ^ 2) < PI * Q2R (k_h s) / 20 ->
  complete_fsk_receiver (k_fsk4 s) (Q2R (k_h s)) (k_il s) (k_scheme s) threshold (before ++ mid ++ after)
  = Some (k_sfd s, k_fec s, {| rx_fcs := k_fcs s; rx_white := k_white s; rx_octets := zlen zs; rx_payload := octet_bits zs |}).
Proof.
  intros s a zs x f g e df th before mid after Hs Ha Hne Hz Hl Hx Hg He Lm Hm Hb Ht Hw Hn.
  destruct (bytes_sent s a zs x f Ha Hne Hz Hx) as [Hx' Ca]. set (a' := bits_arg (octet_bits zs)) in *. clear Hx. rename Hx' into Hx.
  destruct (sent_frame s a' (octet_bits zs) x f Ca Hx) as (fr & B & Sd). destruct (C65_tones s a' x f fr Hs Hx B) as (_ & Lx & U & _).
  destruct (preamble_start s a' _ fr Hs Sd) as [T01 S2]. pose proof (frame_whole s a' x f fr Hx B) as W. pose proof (index_real s Hs) as Hh.
  set (f4 := k_fsk4 s) in *. set (h := Q2R (k_h s)) in *. set (K := symbols f4 fr) in *. set (w := 2 * PI * df / f) in *. set (rho := 2 * e + e ^ 2) in *.
  change rho with (fsk_error e) in *. clear rho. pose proof PI_RGT_0 as Pp. pose proof PI_4 as P4. assert (R0 : 0 <= fsk_error e) by (unfold fsk_error; nra).
  assert (G0 : 0 < Cmod g) by now apply Cmod_gt_0. set (th1 := PI * h / 20) in *. assert (T1 : 0 < th1 <= 1 / 2) by (unfold th1; split; nra).
  (* the start *)
  set (y := mid ++ after). assert (Yn : forall t, (t < length x)%nat -> nth t y (RtoC 0) = nth t mid (RtoC 0)) by (intros t T; unfold y; apply app_nth1; lia).
  assert (X0 : Cmod (nth 0 x (RtoC 0)) = 1) by (apply U, nth_In; lia).
  assert (St : from_first_above th (before ++ y) = y).
  { apply Prop_OfdmAcq.above_skip; [assumption| |].
    - specialize (Hm 0%nat ltac:(lia)). rewrite <- Yn in Hm by lia. change (INR 0) with 0 in Hm. rewrite Rmult_0_r in Hm. change (unit_at 0) with (cis 0) in Hm. rewrite cis_0, Cmult_1_l in Hm.
      set (z := nth 0 y (RtoC 0)) in *. set (u := Cmult g (nth 0 x (RtoC 0))) in *.
      assert (T : Cmod u <= Cmod (z - u)%C + Cmod z).
      { replace (Cmod (z - u)%C) with (Cmod (u - z)%C) by (rewrite <- Cmod_opp; f_equal; ring). pose proof (Cmod_triangle (u - z)%C z) as Q. now replace (u - z + z)%C with u in Q by ring. }
      unfold u at 1 in T. rewrite Cmod_mult, X0, Rmult_1_r in T. lra.
    - unfold y. intro Z. apply (f_equal (@length C)) in Z. rewrite app_length, Lm, Lx in Z. cbn [length] in Z. lia. }
  unfold complete_fsk_receiver. rewrite St.
  (* turns *)
  assert (Tn : forall j, (j < K)%nat -> Rabs (turn y j - (w + IZR (symbol_tone f4 fr j) * th1)) <= 2 * fsk_error e).
  { intros j Hj. set (t := symbol_tone f4 fr j). apply (turn_noise g e w (w * INR (20 * j) + 2 * PI * (IZR t * h * (INR (20 * j) / 40)))); auto.
    - lra.
    - intros i Hi. assert (Ti : (20 * j + i < length x)%nat) by lia. specialize (Hm _ Ti). rewrite Yn by assumption. rewrite (samples_at s a' x f fr j i) in Hm by assumption. fold f4 t h in Hm.
      change (unit_at (w * INR (20 * j + i))) with (cis (w * INR (20 * j + i))) in Hm.
      match goal with |- Cmod (_ - ?z)%C <= _ => replace z with (cis (w * INR (20 * j + i)) * (g * cis (2 * PI * (IZR t * h * (INR (20 * j + i) / 40)))))%C; [exact Hm|] end.
      rewrite (Cmult_comm g), Cmult_assoc, <- cis_add. f_equal. f_equal. rewrite (plus_INR (20 * j) i). unfold th1. field.
    - pose proof (tone_outermost f4 fr j) as TO. fold t in TO. pose proof (Rabs_triang w (IZR t * th1)) as Q. rewrite Rabs_mult, (Rabs_pos_eq th1) in Q by lra.
      assert (Rabs (IZR t) * th1 <= outermost f4 * th1) by (apply Rmult_le_compat_r; lra). lra. }
  assert (Po : Rabs (preamble_offset y - w) <= 2 * fsk_error e).
  { pose proof (Tn 0%nat ltac:(lia)) as A0. pose proof (Tn 1%nat ltac:(lia)) as A1. rewrite T01, opp_IZR in A0. unfold preamble_offset. set (c := IZR (symbol_tone f4 fr 1) * th1) in *.
    replace (- IZR (symbol_tone f4 fr 1) * th1) with (- c) in A0 by (unfold c; ring). apply Rcomplements.Rabs_le_between in A0, A1. apply Rabs_le. lra. }
  (* bits *)
  assert (Lk : (K <= length y / 20)%nat) by (unfold y; rewrite app_length, Lm, Lx; apply Nat.div_le_lower_bound; lia).
  unfold read_bits. rewrite (PFskNoise.flat_map_split _ K _ Lk).
  match goal with |- stream_receiver _ _ _ _ (?A ++ ?J) = _ => set (junk := J); assert (EA : A = fr) end.
  { etransitivity; [|exact (frame_by_symbols f4 fr W)]. fold K. rewrite !flat_map_concat_map. f_equal. apply map_ext_in. intros j Hj. apply in_seq in Hj. fold (tone_word f4 (symbol_tone f4 fr j)).
    apply read_close; [lra|apply symbol_tone_cases|]. fold th1. specialize (Tn j ltac:(lia)). set (t := IZR _ * th1) in *.
    replace (turn y j - preamble_offset y - t) with ((turn y j - (w + t)) - (preamble_offset y - w)) by ring. 
    pose proof (Rabs_triang (turn y j - (w + t)) (- (preamble_offset y - w))) as Q. rewrite Rabs_Ropp in Q. unfold Rminus at 1. lra. }
  rewrite EA. apply (C100_stream s a'); assumption.
Qed.
Print Assumptions C100_complete.
(** a coded transmitter; an offset of 1.8 radians per sample, more than sixteen times the inner deviation; noise 0.5% of the amplitude *)
Example C100_case : exists s x f, fsk_a = Ok s /\ fsk_object s /\ snd (k_bytesToSamples (AList 1 (map inject_Z [7; 0; 255]%Z)) s) = Ok (x, f)
  /\ Rabs (2 * PI * (9 / 5 * f / (2 * PI)) / f) + outermost (k_fsk4 s) * (PI * Q2R (k_h s) / 20) + 2 * (2 * / 200 + (/ 200) ^ 2) < PI
  /\ 4 * (2 * / 200 + (/ 200) ^ 2) < PI * Q2R (k_h s) / 20 /\ 16 * (PI * Q2R (k_h s) / 20) < 9 / 5.
Proof.
  destruct fsk_a_object as (s & E & Hs). destruct C66_case as (s' & x & f & E' & Hx). rewrite E in E'. inversion E'; subst s'. exists s, x, f. split; [assumption|]. split; [assumption|]. split; [assumption|].
  assert (F0 : f <> 0).
  { unfold k_bytesToSamples, sbind, slift in Hx. destruct (to_binary_array _) as [l|]; [|discriminate]. rewrite samples_result in Hx. destruct (snd (k_bitsToIQ _ s)) as [xs|] eqn:Q; [|discriminate].
    cbn [rbind] in Hx. inversion Hx. destruct (signal_all _ _ _ Q) as (? & ? & _ & _ & _ & -> & _). cbn [sig_f]. apply object_valid in Hs. apply not_0_IZR. destruct Hs as (H & _). lia. }
  pose proof PI_RGT_0 as Pp. replace (2 * PI * (9 / 5 * f / (2 * PI)) / f) with (9 / 5) by (field; lra). rewrite Rabs_pos_eq by lra.
  assert (H : Q2R (k_h s) = 1 / 2 /\ k_fsk4 s = false) by (vm_compute in E; inversion E; subst; split; [unfold Q2R; cbn; lra|reflexivity]). destruct H as [-> ->]. cbn [outermost].
  assert (3 < PI) by (pose proof PI2_3_2; lra). pose proof PI_4. lra.
Qed.
