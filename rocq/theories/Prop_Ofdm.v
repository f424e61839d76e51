(** * C35, C36, C37, C39, C40: constellations and the generic OFDM modulator (frequency domain) *)
From Verif Require Import Py PList SBits MPn9 SPn9 MModul MOfdm SOfdm SMrOfdm PModul POfdm MMrOfdm Tables PBits PStd.

(** ** C35 *)
(** group by group, in order *)
Theorem C35_mapping m bits : Nat.modulo (length bits) (group_size m) = 0%nat ->
  convert_column m bits = Ok (map (point m) (chunks (group_size m) bits)).
Proof. apply convert_spec. Qed.
Print Assumptions C35_mapping.
Theorem C35_rejected m bits : Nat.modulo (length bits) (group_size m) <> 0%nat ->
  convert_column m bits = Err AssertionError \/ convert_column m bits = Err ValueError.
Proof. apply convert_err. Qed.
Print Assumptions C35_rejected.
(** different bits give different points *)
Theorem C35_injective m a b ya yb : convert_column m a = Ok ya -> convert_column m b = Ok yb -> ya = yb -> a = b.
Proof.
  intros Ha Hb ->. assert (Hm : forall x y, convert_column m x = Ok y -> Nat.modulo (length x) (group_size m) = 0%nat).
  { intros x y H. destruct (Nat.eq_dec (Nat.modulo (length x) (group_size m)) 0) as [|E]; [assumption|].
    destruct (convert_err m x E) as [E2|E2]; congruence. }
  pose proof (Hm _ _ Ha) as HA. pose proof (Hm _ _ Hb) as HB. pose proof (group_size_pos m) as Hg.
  rewrite convert_spec in Ha, Hb by assumption. rewrite <- Hb in Ha. injection Ha as E.
  apply map_point_inj in E; try (now apply chunks_length_all).
  rewrite <- (concat_chunks (group_size m) a), <- (concat_chunks (group_size m) b) by assumption. now rewrite E.
Qed.
Print Assumptions C35_injective.
(** distinct points are at least 2 apart and points at that distance differ in one bit *)
Theorem C35_gray m g h : length g = group_size m -> length h = group_size m -> g <> h ->
  4 <= dist2 (point m g) (point m h) /\ (dist2 (point m g) (point m h) = 4 -> distance g h = 1%nat).
Proof. apply constellation. Qed.
Print Assumptions C35_gray.
Example C35_example : convert_column QAM16 [true; false; false; true; false; false; true; true]
  = Ok [(3, -1); (-3, 1)].
Proof. reflexivity. Qed.

(** ** C36 *)
Theorem C36_spread (sf : nat) data : sf = 1%nat \/ sf = 2%nat \/ sf = 4%nat ->
  exists out, frequency_spread (Z.of_nat sf) data = Ok out /\ length out = (sf * length data)%nat
  /\ forall j k, (j < sf)%nat -> (k < length data)%nat ->
     nth (j * length data + k) out (0, 0)
     = turn (spread_phase (Z.of_nat sf) (Z.of_nat j) (Z.of_nat k)) (nth k data (0, 0)).
Proof.
  intro H. exists (spread sf data). split; [now apply frequency_spread_ok|]. split; [apply spread_length|].
  intros. now apply spread_nth.
Qed.
Print Assumptions C36_spread.
(** each copy has the power of the data *)
Theorem C36_power (sf : nat) data out j k : frequency_spread (Z.of_nat sf) data = Ok out ->
  (j < sf)%nat -> (k < length data)%nat -> power (nth (j * length data + k) out (0, 0)) = power (nth k data (0, 0)).
Proof.
  intros H Hj Hk. assert (Hsf : sf = 1%nat \/ sf = 2%nat \/ sf = 4%nat).
  { unfold frequency_spread in H. destruct (Z.eqb_spec (Z.of_nat sf) 1); [lia|].
    destruct (Z.eqb_spec (Z.of_nat sf) 2); [lia|]. destruct (Z.eqb_spec (Z.of_nat sf) 4); [lia|discriminate]. }
  rewrite frequency_spread_ok in H by assumption. injection H as <-. rewrite spread_nth by assumption. apply turn_power.
Qed.
Print Assumptions C36_power.
(** any single copy determines the data *)
Theorem C36_each_copy (sf : nat) a b oa ob j : frequency_spread (Z.of_nat sf) a = Ok oa -> frequency_spread (Z.of_nat sf) b = Ok ob ->
  length a = length b -> (j < sf)%nat ->
  firstn (length a) (skipn (j * length a) oa) = firstn (length b) (skipn (j * length b) ob) -> a = b.
Proof.
  intros Ha Hb Hl Hj E. assert (Hsf : sf = 1%nat \/ sf = 2%nat \/ sf = 4%nat).
  { unfold frequency_spread in Ha. destruct (Z.eqb_spec (Z.of_nat sf) 1); [lia|].
    destruct (Z.eqb_spec (Z.of_nat sf) 2); [lia|]. destruct (Z.eqb_spec (Z.of_nat sf) 4); [lia|discriminate]. }
  rewrite frequency_spread_ok in Ha, Hb by assumption. injection Ha as <-. injection Hb as <-.
  apply list_eq_nth with ((0, 0) : gauss); [assumption|]. intros k Hk.
  apply (turn_inv (spread_phase (Z.of_nat sf) (Z.of_nat j) (Z.of_nat k))).
  rewrite <- !spread_nth by lia.
  apply (f_equal (fun l => nth k l ((0, 0) : gauss))) in E.
  rewrite !nth_firstn, !nth_skipn in E by lia. exact E.
Qed.
Print Assumptions C36_each_copy.
Theorem C36_rejected sf data : sf <> 1 -> sf <> 2 -> sf <> 4 -> frequency_spread sf data = Err ValueError.
Proof.
  intros H1 H2 H4. unfold frequency_spread.
  destruct (Z.eqb_spec sf 1), (Z.eqb_spec sf 2), (Z.eqb_spec sf 4); congruence.
Qed.
Print Assumptions C36_rejected.
Example C36_example : frequency_spread 2 [(1, 1); (3, -1)] = Ok [(-1, 1); (-1, -3) ; (1, 1); (3, -1)].
Proof. reflexivity. Qed.

(** ** C37 *)
(** The symbols of one call on a new modulator with PN9 pilots.  [q] data points per symbol, [q * group_size] bits.
    Symbol n takes pilot set (initial + n) mod S, pilot values PN9 n*P .. n*P+P-1; tone by tone. *)
Theorem C37_symbols N mn pl pr (sf q P : nat) sets ips seed c st bits :
  ofdm_new N mn pl pr (Z.of_nat sf) (Some sets) (Some PvPn9) ips seed = Ok (c, st) ->
  guards_fit N pl pr -> pilots_inside N pl pr P sets -> (0 < P)%nat -> (0 < q)%nat ->
  N - Z.of_nat P - pl - pr - 1 = Z.of_nat (sf * q) -> 0 <= ips < zlen sets ->
  let bps := (q * group_size (o_mod c))%nat in
  get_number_of_bits_per_symbol c = Z.of_nat bps /\
  forall k, length bits = (k * bps)%nat ->
  exists st' syms, ofdm_symbols c st bits false = (st', Ok syms) /\ length syms = k /\
  forall n, (n < k)%nat ->
    let pset := nth (Z.to_nat ((ips + Z.of_nat n) mod zlen sets)) sets [] in
    let data := symbol_data (o_mod c) sf (firstn bps (skipn (n * bps) bits)) in
    let sym := nth n syms [] in
    length sym = Z.to_nat N
    /\ length data = length (filter (is_data N pl pr pset) (freqs N))
    /\ (forall j, (j < P)%nat -> tone_at N sym (nth j pset 0) = TPilot (inject_Z (level (pn9_bit seed (n * P + j))), 0%Q))
    /\ (forall f, - (N / 2) <= f < N / 2 -> guard_or_dc N pl pr f = true -> ~ In f pset /\ tone_at N sym f = TZero)
    /\ (forall f, - (N / 2) <= f < N / 2 -> guard_or_dc N pl pr f = false -> ~ In f pset ->
          tone_at N sym f = TData (nth (rank N pl pr pset f) data (0, 0)))
    /\ read_data N pl pr pset sym = data.
Proof.
  intros Hnew (HN & Hpl & Hpr) Hin HP Hq Hnd Hips bps.
  destruct (ofdm_new_inv _ _ _ _ _ _ _ _ _ _ _ Hnew) as (Hpow & Hsf & EN & Epl & Epr & Esf & _ & Epil & _ & Est).
  destruct (pow2_even N Hpow HN) as [He Hh].
  pose proof (sets_inside N pl pr P sets He Hin) as Hsets.
  assert (Hband : band_ok N pl pr) by (constructor; assumption).
  assert (Hnp : n_pilots c = Z.of_nat P).
  { unfold n_pilots. rewrite Epil. destruct sets as [|s sets]; [unfold zlen in Hips; cbn in Hips; lia|].
    inversion Hsets as [|? ? [_ H] _]. assumption. }
  assert (Hg : good_cfg c sf q).
  { constructor; rewrite ?EN, ?Epl, ?Epr, ?Hnp; try assumption. unfold valid_sf in Hsf. lia. }
  split. { unfold get_number_of_bits_per_symbol. apply (split_good c sf q Hg). }
  intros k Hk. pose proof (group_size_pos (o_mod c)) as Hgs. assert (Hbps : (0 < bps)%nat) by (unfold bps; nia).
  assert (Hmod : Nat.modulo (length bits) bps = 0%nat) by (rewrite Hk; apply mod_mult; lia).
  assert (Hsets' : Forall (fun s => pset_ok (o_N c) (o_pl c) (o_pr c) s /\ zlen s = n_pilots c) sets)
    by (now rewrite EN, Epl, Epr, Hnp).
  assert (Hcol : 0 <= o_col st < zlen sets) by (rewrite Est; exact Hips).
  pose proof (symbols_pn9 c sf q sets st bits Hg Epil ltac:(lia) Hsets' Hcol Hmod) as E. fold bps in E. cbv zeta in E.
  set (msg := map (symbol_data (o_mod c) sf) (chunks bps bits)) in E.
  assert (Hlm : length msg = k).
  { unfold msg. rewrite map_length, chunks_length, Hk by assumption. now rewrite Nat.div_mul by lia. }
  eexists. eexists. split; [exact E|]. split; [now rewrite map_length, seq_length|].
  intros n Hn pset data sym.
  assert (Edata : nth n msg [] = data).
  { unfold msg. rewrite (nth_map _ _ _ []) by (rewrite chunks_length, Hk, Nat.div_mul by (assumption || lia); lia).
    unfold data. f_equal. rewrite chunks_as_map by assumption. rewrite nth_map_seq by (rewrite Hk, Nat.div_mul by lia; lia). reflexivity. }
  assert (Esym : sym = layout N pl pr pset (map (fun j => pn_pilot seed (n * P + j)) (seq 0 P)) data).
  { unfold sym. rewrite nth_map_seq by lia. unfold nth_symbol. rewrite Edata, EN, Epl, Epr, Hnp, Nat2Z.id, Est. reflexivity. }
  assert (Hsm : 0 < zlen sets) by lia. pose proof (Z.mod_pos_bound (ips + Z.of_nat n) (zlen sets) Hsm) as Hb.
  assert (Hps : In pset sets) by (apply nth_In; unfold zlen in Hb |- *; lia).
  rewrite Forall_forall in Hsets. destruct (Hsets pset Hps) as [Hok Hlp].
  assert (Hld : length data = n_data N pl pr pset).
  { rewrite <- Edata. pose proof (symbol_data_all c sf q bits Hg Hmod) as H. rewrite Forall_forall in H.
    assert (Hl : length (nth n msg []) = (sf * q)%nat) by (apply H, (nth_In msg []); rewrite Hlm; exact Hn).
    rewrite Hl. symmetry. rewrite <- EN, <- Epl, <- Epr. apply good_nd; [assumption| |now rewrite Hnp].
    now rewrite EN, Epl, Epr. }
  split; [rewrite Esym; unfold layout; now rewrite map_length, freqs_length|].
  split; [exact Hld|].
  split.
  { intros j Hj. pose proof (read_pilots_layout N pl pr pset (map (fun j => pn_pilot seed (n * P + j)) (seq 0 P)) data Hband Hok) as H.
    rewrite map_length, seq_length in H. rewrite <- Esym in H. unfold zlen in Hlp. specialize (H ltac:(lia)).
    apply (f_equal (fun l => nth j l TZero)) in H. unfold read_pilots in H.
    rewrite (nth_map _ _ _ 0) in H by lia. rewrite map_map, nth_map_seq in H by lia. exact H. }
  split.
  { intros f Hf Hgd. assert (Hni : ~ In f pset).
    { intro Hin'. destruct Hok as [_ Hok]. rewrite Forall_forall in Hok. specialize (Hok f Hin'). apply usable_In in Hok. destruct Hok; congruence. }
    split; [assumption|]. rewrite Esym, tone_at_layout by lia. unfold layout_tone. apply memb_false in Hni. now rewrite Hni, Hgd. }
  split.
  { intros f Hf Hgd Hni. rewrite Esym, tone_at_layout by lia. unfold layout_tone. apply memb_false in Hni. now rewrite Hni, Hgd. }
  rewrite Esym. now apply read_data_layout.
Qed.
Print Assumptions C37_symbols.

(** the same for pilot values given as an array: the values are used in order in every symbol *)
Theorem C37_fixed_pilots N mn pl pr (sf q : nat) sets vs ips seed c st bits :
  ofdm_new N mn pl pr (Z.of_nat sf) (Some sets) (Some (PvArray vs)) ips seed = Ok (c, st) ->
  guards_fit N pl pr -> pilots_inside N pl pr (length vs) sets -> vs <> [] -> (0 < q)%nat ->
  N - zlen vs - pl - pr - 1 = Z.of_nat (sf * q) -> 0 <= ips < zlen sets ->
  let bps := (q * group_size (o_mod c))%nat in
  forall k, length bits = (k * bps)%nat ->
  exists st' syms, ofdm_symbols c st bits false = (st', Ok syms) /\ length syms = k /\
  forall n, (n < k)%nat ->
    nth n syms [] = layout N pl pr (nth (Z.to_nat ((ips + Z.of_nat n) mod zlen sets)) sets []) vs
                           (symbol_data (o_mod c) sf (firstn bps (skipn (n * bps) bits))).
Proof.
  intros Hnew (HN & Hpl & Hpr) Hin Hvs Hq Hnd Hips bps k Hk.
  destruct (ofdm_new_inv _ _ _ _ _ _ _ _ _ _ _ Hnew) as (Hpow & Hsf & EN & Epl & Epr & Esf & _ & Epil & _ & Est).
  destruct (pow2_even N Hpow HN) as [He Hh].
  pose proof (sets_inside N pl pr (length vs) sets He Hin) as Hsets.
  assert (Hband : band_ok N pl pr) by (constructor; assumption).
  assert (Hnp : n_pilots c = zlen vs).
  { unfold n_pilots. rewrite Epil. destruct sets as [|s sets]; [unfold zlen in Hips; cbn in Hips; lia|].
    inversion Hsets as [|? ? [_ H] _]. assumption. }
  assert (Hvl : 0 < zlen vs) by (destruct vs; [congruence|unfold zlen; cbn [length]; lia]).
  assert (Hg : good_cfg c sf q).
  { constructor; rewrite ?EN, ?Epl, ?Epr, ?Hnp; try assumption. unfold valid_sf in Hsf. lia. }
  pose proof (group_size_pos (o_mod c)) as Hgs. assert (Hbps : (0 < bps)%nat) by (unfold bps; nia).
  assert (Hmod : Nat.modulo (length bits) bps = 0%nat) by (rewrite Hk; apply mod_mult; lia).
  assert (Hsets' : Forall (fun s => pset_ok (o_N c) (o_pl c) (o_pr c) s /\ zlen s = n_pilots c) sets)
    by (now rewrite EN, Epl, Epr, Hnp).
  assert (Hcol : 0 <= o_col st < zlen sets) by (rewrite Est; exact Hips).
  pose proof (symbols_array c sf q sets vs st bits Hg Epil ltac:(lia) (eq_sym Hnp) Hsets' Hcol Hmod) as E. fold bps in E. cbv zeta in E.
  set (msg := map (symbol_data (o_mod c) sf) (chunks bps bits)) in E.
  assert (Hlm : length msg = k).
  { unfold msg. rewrite map_length, chunks_length, Hk by assumption. now rewrite Nat.div_mul by lia. }
  eexists. eexists. split; [exact E|]. split; [now rewrite map_length, seq_length|].
  intros n Hn. rewrite nth_map_seq by lia. unfold nth_symbol_fixed. rewrite EN, Epl, Epr, Est. cbn [o_col]. f_equal.
  unfold msg. rewrite (nth_map _ _ _ []) by (rewrite chunks_length, Hk, Nat.div_mul by (assumption || lia); lia).
  f_equal. rewrite chunks_as_map by assumption. rewrite nth_map_seq by (rewrite Hk, Nat.div_mul by lia; lia). reflexivity.
Qed.
Print Assumptions C37_fixed_pilots.
Theorem C37_without_pilots N mn pl pr (sf q : nat) ips seed c st bits :
  ofdm_new N mn pl pr (Z.of_nat sf) None None ips seed = Ok (c, st) ->
  guards_fit N pl pr -> (0 < q)%nat -> N - pl - pr - 1 = Z.of_nat (sf * q) ->
  let bps := (q * group_size (o_mod c))%nat in
  Nat.modulo (length bits) bps = 0%nat ->
  ofdm_symbols c st bits false
  = (st, Ok (map (fun b => layout N pl pr [] [] (symbol_data (o_mod c) sf b)) (chunks bps bits))).
Proof.
  intros Hnew (HN & Hpl & Hpr) Hq Hnd bps Hm.
  destruct (ofdm_new_inv _ _ _ _ _ _ _ _ _ _ _ Hnew) as (Hpow & Hsf & EN & Epl & Epr & Esf & _ & Epil & _ & Est).
  destruct (pow2_even N Hpow HN) as [He Hh].
  assert (Hnp : n_pilots c = 0) by (unfold n_pilots; now rewrite Epil).
  assert (Hg : good_cfg c sf q).
  { constructor; rewrite ?EN, ?Epl, ?Epr, ?Hnp; try assumption; [constructor; assumption|unfold valid_sf in Hsf; lia|lia]. }
  rewrite (symbols_no_pilots c sf q st bits Hg Epil Hm). rewrite map_map, EN, Epl, Epr. reflexivity.
Qed.
Print Assumptions C37_without_pilots.
(** the hypotheses on a small configuration: 16 subcarriers, guards of 2 and 1, two sets of two pilots, spreading 2 *)
Example C37_case : exists c st, ofdm_new 16 "QPSK" 2 1 2 (Some [[-5; 3]; [-4; 6]]) (Some PvPn9) 1 511 = Ok (c, st)
  /\ guards_fit 16 2 1 /\ pilots_inside 16 2 1 2 [[-5; 3]; [-4; 6]] /\ 16 - 2 - 2 - 1 - 1 = Z.of_nat (2 * 5) /\ 0 <= 1 < zlen [[-5; 3]; [-4; 6]]
  /\ is_ok (snd (ofdm_symbols c st (repeat true 30) false)) = true.
Proof.
  eexists. eexists. split; [reflexivity|]. split; [unfold guards_fit; cbn; lia|]. split.
  { unfold pilots_inside. repeat constructor; cbn; try lia; intros [K|K]; try lia; assumption. }
  split; [reflexivity|]. split; [cbn; lia|]. vm_compute. reflexivity.
Qed.

(** The configurations MR-OFDM uses meet the hypotheses of [C37_symbols], with the standard's tone numbers *)
Theorem C37_options opt mcs ips seed : supported opt mcs ->
  exists sets q st0 c,
  make_ofdm opt mcs ips seed = Ok (c, st0)
  /\ ofdm_new (fft_size opt) (modulation_name (mcs_modulation mcs)) (guard_left opt) (guard_right opt) (Z.of_nat (mcs_spreading mcs)) (Some sets) (Some PvPn9) ips seed = Ok (c, st0)
  /\ o_mod c = mcs_modulation mcs
  /\ guards_fit (fft_size opt) (guard_left opt) (guard_right opt)
  /\ pilots_inside (fft_size opt) (guard_left opt) (guard_right opt) (Z.to_nat (pilot_tones opt)) sets
  /\ (0 < Z.to_nat (pilot_tones opt))%nat /\ (0 < q)%nat /\ 0 < zlen sets
  /\ data_tones opt = Z.of_nat (mcs_spreading mcs * q)
  /\ fft_size opt = data_tones opt + pilot_tones opt + guard_left opt + guard_right opt + 1
  /\ coded_bits opt mcs = (q * group_size (mcs_modulation mcs))%nat.
Proof.
  intro H. apply supported_cases in H. cbn [In] in H.
  assert (I1 : insideb 128 12 11 8 PILOTS_INDICES_OPTION_1 = true) by (vm_compute; reflexivity).
  assert (I2 : insideb 64 6 5 4 PILOTS_INDICES_OPTION_2 = true) by (vm_compute; reflexivity).
  assert (I3 : insideb 32 3 2 2 PILOTS_INDICES_OPTION_3 = true) by (vm_compute; reflexivity).
  assert (I4 : insideb 16 1 0 2 PILOTS_INDICES_OPTION_4 = true) by (vm_compute; reflexivity).
  Ltac one sets q I := exists sets, q; eexists; eexists;
    split; [reflexivity|]; split; [reflexivity|]; split; [reflexivity|];
    split; [split; [|split; split]; vm_compute; first [reflexivity | discriminate]|];
    split; [apply insideb_ok; exact I|]; repeat split; try reflexivity; try (vm_compute; lia).
  Ltac go I1 I2 I3 I4 := repeat match goal with H : _ \/ _ |- _ => destruct H as [H|H] end;
    match goal with H : False |- _ => destruct H | H : (_, _) = (_, _) |- _ => inversion H; subst end;
    match goal with
    | |- context [make_ofdm 1 0] => one PILOTS_INDICES_OPTION_1 24%nat I1
    | |- context [make_ofdm 1 1] => one PILOTS_INDICES_OPTION_1 48%nat I1
    | |- context [make_ofdm 1 2] => one PILOTS_INDICES_OPTION_1 48%nat I1
    | |- context [make_ofdm 1 _] => one PILOTS_INDICES_OPTION_1 96%nat I1
    | |- context [make_ofdm 2 0] => one PILOTS_INDICES_OPTION_2 12%nat I2
    | |- context [make_ofdm 2 1] => one PILOTS_INDICES_OPTION_2 24%nat I2
    | |- context [make_ofdm 2 2] => one PILOTS_INDICES_OPTION_2 24%nat I2
    | |- context [make_ofdm 2 _] => one PILOTS_INDICES_OPTION_2 48%nat I2
    | |- context [make_ofdm 3 1] => one PILOTS_INDICES_OPTION_3 12%nat I3
    | |- context [make_ofdm 3 2] => one PILOTS_INDICES_OPTION_3 12%nat I3
    | |- context [make_ofdm 3 _] => one PILOTS_INDICES_OPTION_3 24%nat I3
    | |- context [make_ofdm 4 2] => one PILOTS_INDICES_OPTION_4 6%nat I4
    | |- context [make_ofdm 4 _] => one PILOTS_INDICES_OPTION_4 12%nat I4
    end.
  go I1 I2 I3 I4.
Qed.
Print Assumptions C37_options.

(** ** C39 *)
(** The second operand of [feed]: consecutive calls on one object.  numpy arrays are rectangular, hence [rect]. *)
Definition rect (sets : option (list (list Z))) : Prop :=
  match sets with None => True | Some l => Forall (fun s : list Z => length s = length (hd [] l)) l end.
Theorem C39_pieces N mn pl pr sf sets pv ips seed c st0 :
  ofdm_new N mn pl pr sf sets pv ips seed = Ok (c, st0) -> rect sets -> 0 < get_number_of_bits_per_symbol c ->
  forall pieces st st' y, pieces <> [] -> Forall (fun p => zlen p mod get_number_of_bits_per_symbol c = 0) pieces ->
  (feed c st pieces = Some (st', y) <-> ofdm_symbols c st (concat pieces) false = (st', Ok y)).
Proof.
  intros Hnew Hr Hsl. unfold get_number_of_bits_per_symbol in *.
  destruct (ofdm_new_inv _ _ _ _ _ _ _ _ _ _ _ Hnew) as (_ & _ & _ & _ & _ & _ & _ & Epil & Hvs & _).
  assert (Hm : matrix c).
  { unfold matrix. rewrite Epil. destruct sets as [sets|], pv as [pv|]; try exact I. split; [exact Hr|]. destruct pv; auto. }
  induction pieces as [|p pieces IH]; intros st st' y Hne Hf; [congruence|].
  inversion Hf as [|? ? Hp Hf']; subst. destruct pieces as [|p2 pieces].
  - cbn [feed concat]. rewrite app_nil_r. destruct (ofdm_symbols c st p false) as [st1 [y1|e]]; split; intro H; try discriminate.
    + inversion H; subst. now rewrite app_nil_r.
    + inversion H; subst. now rewrite app_nil_r.
  - change (concat (p :: p2 :: pieces)) with (p ++ concat (p2 :: pieces)).
    assert (Hc : zlen (concat (p2 :: pieces)) mod split_length c = 0).
    { clear -Hf' Hsl. generalize dependent (p2 :: pieces). intros l Hf. induction Hf as [|x l Hx Hf IH]; [reflexivity|].
      cbn [concat]. rewrite zlen_app, Z.add_mod, Hx, IH by lia. reflexivity. }
    rewrite (feed_app c st p (concat (p2 :: pieces)) Hm Hsl Hp Hc). split.
    + intro H. cbn [feed] in H. fold feed in H. destruct (ofdm_symbols c st p false) as [st1 [y1|e]]; [|discriminate].
      destruct (feed c st1 (p2 :: pieces)) as [[st2 ys]|] eqn:E.
      * cbn [feed] in E. rewrite E in H. inversion H; subst. exists st1, y1, ys. split; [reflexivity|]. split; [|reflexivity].
        apply IH; [discriminate|assumption|exact E].
      * cbn [feed] in E. rewrite E in H. discriminate.
    + intros (st1 & ya & yb & H1 & H2 & ->). apply IH in H2; [|discriminate|assumption].
      change (feed c st (p :: p2 :: pieces)) with (match ofdm_symbols c st p false with
              | (st1, Ok y) => match feed c st1 (p2 :: pieces) with Some (st2, ys) => Some (st2, y ++ ys) | None => None end
              | (_, Err _) => None end).
      rewrite H1, H2. reflexivity.
Qed.
Print Assumptions C39_pieces.
(** a non-trivial instance: option 4, MCS 2, three calls of one symbol each; the pilot sets rotate *)
Example C39_example : exists c st, make_ofdm 4 2 0 0x1FF = Ok (c, st) /\
  (let bits := repeat true 12 in
   match feed c st [bits; bits; bits], ofdm_symbols c st (bits ++ bits ++ bits) false with
   | Some (s1, y1), (s2, Ok y2) => o_col s1 = 3 /\ o_col s2 = 3 /\ y1 = y2 /\ length y1 = 3%nat
   | _, _ => False end).
Proof. eexists; eexists. split; [reflexivity|]. vm_compute. repeat split. Qed.

(** ** C40 *)
Theorem C40_partial_rejected c st bits : 0 < get_number_of_bits_per_symbol c ->
  zlen bits mod get_number_of_bits_per_symbol c <> 0 -> ofdm_symbols c st bits false = (st, Err ValueError).
Proof.
  unfold get_number_of_bits_per_symbol. intros Hs Hm. unfold ofdm_symbols.
  replace (split_length c <=? 0) with false by (symmetry; apply Z.leb_gt; lia).
  apply Z.eqb_neq in Hm. rewrite Hm. reflexivity.
Qed.
Print Assumptions C40_partial_rejected.
Theorem C40_pad c st bits : 0 < get_number_of_bits_per_symbol c ->
  exists n, Z.of_nat n < get_number_of_bits_per_symbol c
    /\ zlen (bits ++ repeat false n) mod get_number_of_bits_per_symbol c = 0
    /\ ofdm_symbols c st bits true = ofdm_symbols c st (bits ++ repeat false n) false.
Proof.
  unfold get_number_of_bits_per_symbol. intro Hs. set (sl := split_length c) in *.
  set (z := missing_zeros sl (zlen bits)).
  assert (Hz : 0 <= z < sl /\ (zlen bits + z) mod sl = 0).
  { unfold z, missing_zeros. pose proof (Z.div_mod (- zlen bits) sl ltac:(lia)) as H. pose proof (Z.mod_pos_bound (- zlen bits) sl ltac:(lia)).
    split; [lia|]. replace (zlen bits + (- (- zlen bits / sl) * sl - zlen bits)) with ((- (- zlen bits / sl)) * sl) by lia. apply Z.mod_mul. lia. }
  exists (Z.to_nat z). split; [lia|]. assert (E : zlen (bits ++ repeat false (Z.to_nat z)) mod sl = 0).
  { rewrite zlen_app, zlen_repeat, Z2Nat.id by lia. tauto. }
  split; [exact E|]. unfold ofdm_symbols. fold sl. replace (sl <=? 0) with false by (symmetry; apply Z.leb_gt; lia).
  rewrite E. cbn [Z.eqb negb andb]. rewrite andb_false_r. reflexivity.
Qed.
Print Assumptions C40_pad.
Example C40_case : exists c st, make_ofdm 4 2 0 0x1FF = Ok (c, st) /\ get_number_of_bits_per_symbol c = 12 /\ ofdm_symbols c st (repeat true 11) false = (st, Err ValueError)
  /\ is_ok (snd (ofdm_symbols c st (repeat true 11) true)) = true.
Proof. eexists; eexists. split; [reflexivity|]. split; [reflexivity|]. split; vm_compute; reflexivity. Qed.
