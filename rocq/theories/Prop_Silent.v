(** * C116: MR-OFDM signals are silent on DC and in the guard bands *)
From Coq Require Import Reals Lra.
From Coquelicot Require Import Complex.
From Verif Require Import Py PList SBits SEntry MBits PBits PEntry MPn9 SPn9 MModul MOfdm Tables SOfdm SMrOfdm PModul POfdm MMrOfdm PStd PMrOfdm PMrRx MTime STime PTime SGap PGap SPower PPower SMrRx PRecv Prop_MrOfdm Prop_Time Prop_Power Prop_MrRx Prop_Track.
Open Scope Z_scope.

(** f is DC or one of the guard subcarriers of the option *)
Definition unused (opt f : Z) : bool := guard_or_dc (fft_size opt) (guard_left opt) (guard_right opt) f.
Lemma pilots_used opt i f : 1 <= opt <= 4 -> unused opt f = true -> memb f (nth i (std_sets opt) []) = false.
Proof.
  intros Ho Hf. apply memb_false. intro I.
  assert (K : (i < length (pilot_sets opt))%nat).
  { destruct (Nat.lt_ge_cases i (length (pilot_sets opt))) as [K|K]; [exact K|]. change (std_sets opt) with (pilot_sets opt) in I. rewrite nth_overflow in I by exact K. destruct I. }
  destruct (pilots_facts opt i Ho) as (_ & _ & F). unfold pilots_of in F. rewrite Nat.mod_small in F by exact K. rewrite Forall_forall in F.
  apply F in I as [_ I]. unfold unused in Hf. congruence.
Qed.
Lemma sym_silent opt m col v b n k f : 1 <= opt <= 4 -> unused opt f = true -> - (fft_size opt / 2) <= f < fft_size opt / 2 ->
  fft_size opt = 2 * (fft_size opt / 2) -> amplitude k (tone_at (fft_size opt) (sym opt m col v b n) f) = RtoC 0.
Proof.
  intros Ho Hf Hr H2. unfold sym. rewrite tone_at_layout by lia. unfold layout_tone. rewrite pilots_used by assumption. unfold unused in Hf. rewrite Hf. reflexivity.
Qed.
Theorem C116_symbols opt mcs il scr s a zs sig fr n f : modulator opt mcs il scr s -> holds_octets a zs -> Forall is_octet zs -> 1 <= zlen zs <= 2047 ->
  snd (m_bytesToIQ a s) = Ok (sig, fr) -> (n < frame_symbols_of opt mcs il (zlen zs))%nat ->
  - (fft_size opt / 2) <= f < fft_size opt / 2 -> unused opt f = true -> rx_tone opt sig n f = RtoC 0.
Proof.
  intros Hm Ha Hz Hl E Hn Hr Hf. destruct (frame_parts _ _ _ _ _ _ _ _ _ Hm Ha Hz Hl E) as (H1 & H2 & H3 & lb & body & P & _ & A).
  assert (Ho : 1 <= opt <= 4) by (unfold supported in H1; lia). destruct (quarter_4 opt Ho) as (Hq & Hq0 & N2).
  unfold rx_tone. rewrite (parts_body _ _ _ _ _ _ P Hn), A by assumption.
  set (y := nth n _ _). assert (I : In y (frame_phr opt mcs il scr (octet_bits zs) ++ frame_payload opt mcs il scr (octet_bits zs))).
  { apply nth_In. rewrite app_length. unfold frame_phr, frame_payload. rewrite !map_length, !seq_length.
    unfold frame_symbols_of in Hn. rewrite (header_symbols_eq opt mcs il H1 H2) in Hn.
    replace (npay opt mcs (length (octet_bits zs))) with (payload_symbols_of opt mcs (zlen zs)); [exact Hn|].
    unfold payload_symbols_of, npay. rewrite octet_bits_length. do 2 f_equal. unfold zlen. lia. }
  apply in_app_or in I as [I|I]; apply in_map_iff in I as (i & <- & _); apply sym_silent; auto; lia.
Qed.
Print Assumptions C116_symbols.
(** every other subcarrier is used: with BPSK and QPSK at modulus 1, with 16-QAM between 1/5 and 9/5 of that power *)
Lemma sym_used opt mcs col v b n m f : supported opt mcs -> length b = (m * coded_bits opt mcs)%nat -> (n < m)%nat ->
  - (fft_size opt / 2) <= f < fft_size opt / 2 -> fft_size opt = 2 * (fft_size opt / 2) -> unused opt f = false ->
  let k := norm_factor (mcs_modulation mcs) in
  (weakest (mcs_modulation mcs) <= Cmod (amplitude k (tone_at (fft_size opt) (sym opt mcs col v b n) f)) ^ 2 <= strongest (mcs_modulation mcs))%R.
Proof.
  intros H Hb Hn Hr H2 Hf. cbv zeta. rewrite amplitude_value. pose proof (sym_data_length opt mcs b n m H Hb Hn) as LD. unfold sym. fold (pset_of opt col n). destruct (pset_of_ok opt mcs col n H) as [Hs Hz].
  pose proof (good_nd (std_cfg opt mcs) _ _ (pset_of opt col n) (std_good opt mcs H) Hs) as E.
  rewrite (std_np opt mcs H) in E. specialize (E Hz). cbn [std_cfg o_N o_pl o_pr] in E. pose proof (points_tones opt mcs H) as PT.
  set (d := symbol_data _ _ _) in *. rewrite tone_at_layout by lia. set (pv := map _ (seq 0 (npil opt))).
  destruct (memb f (pset_of opt col n)) eqn:M.
  - unfold layout_tone. rewrite M. unfold pv. apply memb_position in M. rewrite nth_map_seq by (unfold zlen in Hz; lia). rewrite pilot_one.
    destruct (mcs_modulation mcs); cbn [weakest strongest]; lra.
  - assert (Ld : length d = n_data (fft_size opt) (guard_left opt) (guard_right opt) (pset_of opt col n)) by (rewrite LD, E; lia).
    assert (I : In (layout_tone (fft_size opt) (guard_left opt) (guard_right opt) (pset_of opt col n) pv d f) (map TData d)).
    { rewrite (layout_data _ _ _ _ pv d Ld). apply in_map. apply filter_In. split; [apply freqs_In; lia|]. unfold is_data. rewrite M. unfold unused in Hf. rewrite Hf. reflexivity. }
    apply in_map_iff in I as (g & <- & Hg). pose proof (block_length opt mcs b n m Hb Hn) as B.
    assert (F : Forall (fun g => ring (mcs_modulation mcs) (power g)) d).
    { unfold d. apply data_ring. rewrite B, (coded_points opt mcs H). apply mod_mult. pose proof (group_size_pos (mcs_modulation mcs)). lia. }
    rewrite Forall_forall in F. rewrite tone_power. apply ring_bounds, F, Hg.
Qed.
Theorem C116_used opt mcs il scr s a zs sig fr n f : modulator opt mcs il scr s -> holds_octets a zs -> Forall is_octet zs -> 1 <= zlen zs <= 2047 ->
  snd (m_bytesToIQ a s) = Ok (sig, fr) -> (n < frame_symbols_of opt mcs il (zlen zs))%nat ->
  - (fft_size opt / 2) <= f < fft_size opt / 2 -> unused opt f = false ->
  (weakest (symbol_modulation opt mcs il n) <= Cmod (rx_tone opt sig n f) ^ 2 <= strongest (symbol_modulation opt mcs il n))%R.
Proof.
  intros Hm Ha Hz Hl E Hn Hr Hf. destruct (frame_parts _ _ _ _ _ _ _ _ _ Hm Ha Hz Hl E) as (H1 & H2 & H3 & lb & body & P & _ & A).
  assert (Ho : 1 <= opt <= 4) by (unfold supported in H1; lia). destruct (quarter_4 opt Ho) as (Hq & Hq0 & N2).
  unfold rx_tone. rewrite (parts_body _ _ _ _ _ _ P Hn), A by assumption.
  assert (NP : payload_symbols_of opt mcs (zlen zs) = npay opt mcs (length (octet_bits zs))).
  { unfold payload_symbols_of, npay. rewrite octet_bits_length. do 2 f_equal. unfold zlen. lia. }
  unfold frame_symbols_of in Hn. unfold symbol_factor, symbol_modulation. rewrite (header_symbols_eq opt mcs il H1 H2) in *. rewrite NP in Hn.
  unfold frame_phr, frame_payload. rewrite app_nth_map by lia. destruct (Nat.ltb_spec n (nphr opt mcs il)) as [L|L].
  - apply (sym_used opt (lowest_mcs opt) 0 511 _ n (nphr opt mcs il) f); auto; [now apply (supported_low opt mcs)|now apply hdr_sent_length|lia].
  - apply (sym_used opt mcs _ _ _ _ (npay opt mcs (length (octet_bits zs))) f); auto; [now apply pay_sent_length|lia|lia].
Qed.
Print Assumptions C116_used.
(** the long training field likewise; it is not zero anywhere else *)
Lemma ltf_unused opt f : 1 <= opt <= 4 -> - (fft_size opt / 2) <= f < fft_size opt / 2 -> (ltf_sign opt f = 0 <-> unused opt f = true).
Proof.
  intros Ho Hf. assert (T : forallb (fun o => forallb (fun f => Bool.eqb (ltf_sign o f =? 0) (unused o f)) (freqs (fft_size o))) [1; 2; 3; 4] = true) by (vm_compute; reflexivity).
  rewrite forallb_forall in T. assert (I : In opt [1; 2; 3; 4]) by (cbn; lia). specialize (T _ I). rewrite forallb_forall in T.
  specialize (T f). rewrite freqs_In in T. destruct (quarter_4 opt Ho) as (Hq & Hq0 & N2). specialize (T ltac:(lia)). apply Bool.eqb_prop in T. rewrite <- T. symmetry. apply Z.eqb_eq.
Qed.
Theorem C116_training opt mcs il scr s a zs sig fr f : modulator opt mcs il scr s -> holds_octets a zs -> Forall is_octet zs -> 1 <= zlen zs <= 2047 ->
  snd (m_bytesToIQ a s) = Ok (sig, fr) -> - (fft_size opt / 2) <= f < fft_size opt / 2 ->
  (unused opt f = true -> analyse (rx_ltf opt sig) f = RtoC 0) /\ (unused opt f = false -> Cmod (analyse (rx_ltf opt sig) f) = 1%R).
Proof.
  intros Hm Ha Hz Hl E Hr. destruct (frame_parts _ _ _ _ _ _ _ _ _ Hm Ha Hz Hl E) as (H1 & H2 & H3 & lb & body & P & B & _).
  assert (Ho : 1 <= opt <= 4) by (unfold supported in H1; lia).
  assert (R : rx_ltf opt sig = lb).
  { destruct P as [P1 _ P3 P4 _]. destruct (quarter_4 opt Ho) as (Hq & Hq0 & N2). unfold rx_ltf. set (q := quarter opt) in *.
    apply (nth_ext _ _ (RtoC 0) (RtoC 0)); rewrite firstn_length, skipn_length, P3; [nia|]. intros i Hi. rewrite nth_firstn, nth_skipn by lia.
    replace (26 * q + i)%nat with (25 * q + (q + i))%nat by lia. rewrite P4 by lia. f_equal.
    replace (q + i + 3 * q)%nat with (i + 1 * (4 * q))%nat by lia. rewrite Nat.mod_add by lia. apply Nat.mod_small. lia. }
  rewrite R, B by exact Hr. split; intro Hu.
  - apply (ltf_unused opt f Ho Hr) in Hu. rewrite Hu. reflexivity.
  - rewrite Cmod_R, <- abs_IZR. apply IZR_eq. assert (N : ltf_sign opt f <> 0) by (intro X; apply (ltf_unused opt f Ho Hr) in X; congruence).
    assert (V : ltf_sign opt f = 1 \/ ltf_sign opt f = -1) by (apply ltf_sign_used; assumption). lia.
Qed.
Print Assumptions C116_training.
(** the useful part of symbol k of the short training field, for its first three symbols (the second half of the fourth is negated) *)
Definition rx_stf (opt : Z) (sig : list C) (k : nat) : list C :=
  firstn (Z.to_nat (fft_size opt)) (skipn (k * Z.to_nat (fft_size opt + fft_size opt / 4) + Z.to_nat (fft_size opt / 4)) sig).
Lemma stf_unused opt f : 1 <= opt <= 4 -> - (fft_size opt / 2) <= f < fft_size opt / 2 -> unused opt f = true -> stf_amplitude opt f = 0%R.
Proof.
  intros Ho Hf Hu. assert (T : forallb (fun o => forallb (fun f => negb (unused o f) || negb ((f mod stf_step o =? 0) && negb (f =? 0) && (Z.abs f <=? stf_edge o))) (freqs (fft_size o))) [1; 2; 3; 4] = true) by (vm_compute; reflexivity).
  rewrite forallb_forall in T. assert (I : In opt [1; 2; 3; 4]) by (cbn; lia). specialize (T _ I). rewrite forallb_forall in T.
  specialize (T f). rewrite freqs_In in T. destruct (quarter_4 opt Ho) as (Hq & Hq0 & N2). specialize (T ltac:(lia)). rewrite Hu in T. cbn [negb orb] in T.
  unfold stf_amplitude. destruct (_ && _ && _); [discriminate|reflexivity].
Qed.
Theorem C116_stf opt mcs il scr s r sig fr k f : modulator opt mcs il scr s -> 1 <= opt <= 4 -> snd (iq_send r s) = Ok (sig, fr) ->
  (k < 3)%nat -> - (fft_size opt / 2) <= f < fft_size opt / 2 ->
  analyse (rx_stf opt sig k) f = RtoC (5 / 4 * stf_amplitude opt f) /\ (unused opt f = true -> analyse (rx_stf opt sig k) f = RtoC 0).
Proof.
  intros Hm Ho E Hk Hf. destruct (C42_frame opt Ho) as (stf & ltf & E1 & _ & Fr). destruct (Fr _ _ _ _ _ _ _ Hm E) as (rest & ->).
  destruct (C42_stf opt Ho) as (stf' & body & E1' & Lb & S & An & _). rewrite E1 in E1'. injection E1' as <-. cbv zeta in S.
  destruct (quarter_4 opt Ho) as (Hq & Hq0 & N2).
  assert (Q4 : fft_size opt / 4 = Z.of_nat (quarter opt)) by (rewrite Hq, Z.mul_comm; apply Z.div_mul; lia).
  set (qq := Z.to_nat (fft_size opt / 4)) in *. assert (Eq : qq = quarter opt) by (unfold qq; rewrite Q4; apply Nat2Z.id).
  assert (LB : length body = Z.to_nat (fft_size opt)) by (unfold zlen in Lb; lia).
  assert (Hle : (qq <= length body)%nat) by lia.
  pose proof (prefixed_length qq body Hle) as LS.
  assert (Lp : length (tail_of qq body) = qq) by (unfold tail_of; rewrite skipn_length; lia).
  assert (R : forall l x, (k < 3)%nat -> l = prefixed qq body -> rx_stf opt ((l ++ l ++ l ++ x) ++ ltf ++ rest) k = body).
  { intros l x _ El. unfold rx_stf. fold qq.
    replace (Z.to_nat (fft_size opt + fft_size opt / 4)) with (length l) by (rewrite El, LS, LB, Q4; lia).
    rewrite <- LB.
    assert (G : forall y, firstn (length body) (skipn qq (l ++ y)) = body).
    { intro y. rewrite El. unfold prefixed. rewrite <- app_assoc, skipn_app, Lp, Nat.sub_diag, (skipn_all2 (tail_of qq body)) by lia. cbn [app skipn]. rewrite firstn_app, Nat.sub_diag, firstn_all. cbn [firstn]. apply app_nil_r. }
    assert (D : forall n y, skipn (length l + n) (l ++ y) = skipn n y).
    { intros n y. rewrite skipn_app, skipn_all2 by lia. cbn [app]. f_equal. lia. }
    rewrite <- !app_assoc. destruct k as [|[|[|k]]]; [| | |lia].
    - cbn [Nat.mul Nat.add]. apply G.
    - replace (1 * length l + qq)%nat with (length l + qq)%nat by lia. rewrite D. apply G.
    - replace (2 * length l + qq)%nat with (length l + (length l + qq))%nat by lia. rewrite !D. apply G. }
  rewrite S. rewrite R by (try reflexivity; assumption). rewrite An by assumption. split; [reflexivity|]. intro Hu. rewrite (stf_unused opt f Ho Hf Hu). f_equal. lra.
Qed.
Print Assumptions C116_stf.
(** option 3: 32 subcarriers, 6 unused; option 2: 12 unused *)
Example C116_case : exists s, modulator 3 5 1 2 s /\ is_ok (snd (send (Octets (ABytes [x55; x0f])) s)) = true /\ frame_symbols_of 3 5 1 2 = 7%nat
  /\ filter (unused 3) (freqs 32) = [-16; -15; -14; 0; 14; 15] /\ length (filter (unused 2) (freqs 64)) = 12%nat.
Proof. destruct C85_case as (s & A & B & D & _). exists s. split; [exact A|]. split; [exact B|]. split; [exact D|]. split; reflexivity. Qed.
