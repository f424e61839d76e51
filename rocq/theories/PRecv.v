(** * Proofs: the MR-OFDM receiver of [SMrRx] *)
From Coq Require Import Reals Lra.
From Coquelicot Require Import Complex.
From Verif Require Import Py PList SBits MBits PBits MPn9 SPn9 PPn9 MRate SRate PConv PRate PRate34 MFields PFields SCrc MModul MOfdm Tables SOfdm SMrOfdm PModul POfdm MMrOfdm PStd PMrOfdm PMrRx.
From Verif Require SOqRx POqRx.
From Verif Require Import STime SMrRx.

(** ** decision *)
Lemma positive_pos x : (0 < x)%R -> positive x = true.
Proof. intro H. unfold positive. destruct (Rlt_dec 0 x); [reflexivity|contradiction]. Qed.
Lemma positive_neg x : (x < 0)%R -> positive x = false.
Proof. intro H. unfold positive. destruct (Rlt_dec 0 x); [lra|reflexivity]. Qed.
Lemma inner_in k x : (Rabs x < 2 * k)%R -> inner k x = true.
Proof. intro H. unfold inner. destruct (Rlt_dec (Rabs x) (2 * k)); [reflexivity|contradiction]. Qed.
Lemma inner_out k x : (2 * k <= Rabs x)%R -> inner k x = false.
Proof. intro H. unfold inner. destruct (Rlt_dec (Rabs x) (2 * k)); [lra|reflexivity]. Qed.
Lemma decide_axis1 k x b : (Rabs (x - k * IZR (level b)) < k)%R -> positive x = b.
Proof.
  intro H. apply Rabs_def2 in H as [H1 H2]. destruct b; cbn [level] in *; [apply positive_pos|apply positive_neg]; lra.
Qed.
Lemma decide_axis2 k x b0 b1 : (Rabs (x - k * IZR (level4 b0 b1)) < k)%R -> positive x = b0 /\ inner k x = b1.
Proof.
  intro H. apply Rabs_def2 in H as [H1 H2]. destruct b0, b1; cbn [level4] in *; split.
  all: try (apply positive_pos; lra). all: try (apply positive_neg; lra).
  all: try (apply inner_in; apply Rabs_def1; lra).
  - apply inner_out. rewrite Rabs_pos_eq; lra.
  - apply inner_out. rewrite Rabs_left; lra.
Qed.
Lemma Cmod_axes (z w : C) k : (Cmod (Cminus z w) < k)%R -> (Rabs (fst z - fst w) < k)%R /\ (Rabs (snd z - snd w) < k)%R.
Proof.
  intro H. pose proof (Rmax_Cmod (Cminus z w)) as M. destruct z as [a b], w as [c d]. unfold Cminus, Cplus, Copp in *. cbn [fst snd] in *.
  pose proof (Rmax_l (Rabs (a + - c)) (Rabs (b + - d))). pose proof (Rmax_r (Rabs (a + - c)) (Rabs (b + - d))).
  unfold Rminus. split; lra.
Qed.
Lemma decide_ok m g z : length g = group_size m ->
  (Cmod (Cminus z (amplitude (norm_factor m) (TData (point m g)))) < norm_factor m)%R -> decide m z = g.
Proof.
  intros L H. apply Cmod_axes in H as [H1 H2]. destruct m; cbn [group_size] in L.
  - destruct g as [|b [|? ?]]; try discriminate. cbn [point amplitude fst] in H1. cbn [decide]. now rewrite (decide_axis1 _ _ _ H1).
  - destruct g as [|b [|c [|? ?]]]; try discriminate. cbn [point amplitude fst snd] in H1, H2. cbn [decide].
    now rewrite (decide_axis1 _ _ _ H1), (decide_axis1 _ _ _ H2).
  - destruct g as [|a [|b [|c [|d [|? ?]]]]]; try discriminate. cbn [point amplitude fst snd] in H1, H2. cbn [decide].
    destruct (decide_axis2 _ _ _ _ H1) as [-> ->]. destruct (decide_axis2 _ _ _ _ H2) as [-> ->]. reflexivity.
Qed.

(** ** decoding *)
Lemma chk34 s a0 a1 a2 : 0 <= s < 64 ->
  let t := fin rstep s [a0; a1; a2] in
  0 <= t < 64 /\ exists c, punct (out_at rstep s [a0; a1; a2]) 0 =
    [xorb a0 (xorb (Z.testbit s 4) (xorb (Z.testbit s 3) (xorb (Z.testbit s 1) (Z.testbit s 0)))); c;
     xorb a1 (xorb (Z.testbit s 5) (xorb (Z.testbit s 4) (xorb (Z.testbit s 2) (Z.testbit s 1))));
     xorb a2 (xorb a1 (xorb a0 (xorb (Z.testbit s 5) (Z.testbit s 2))))]
  /\ Z.testbit t 5 = a2 /\ Z.testbit t 4 = a1 /\ Z.testbit t 3 = a0 /\ Z.testbit t 2 = Z.testbit s 5 /\ Z.testbit t 1 = Z.testbit s 4 /\ Z.testbit t 0 = Z.testbit s 3.
Proof.
  intros Hs t.
  set (leq := fix leq (a b : list bool) : bool := match a, b with [], [] => true | x :: a', y :: b' => Bool.eqb x y && leq a' b' | _, _ => false end).
  assert (LEQ : forall a b, leq a b = true -> a = b).
  { induction a as [|x a IH]; intros [|y b] H; try discriminate; [reflexivity|]. cbn [leq] in H. apply andb_prop in H as [H1 H2]. apply Bool.eqb_prop in H1. f_equal; auto. }
  assert (C : forallb (fun s => forallb (fun a => let t := fin rstep s a in
     (0 <=? t) && (t <? 64) &&
     let p := punct (out_at rstep s a) 0 in let a0 := nth 0 a false in let a1 := nth 1 a false in let a2 := nth 2 a false in
     leq p [xorb a0 (xorb (Z.testbit s 4) (xorb (Z.testbit s 3) (xorb (Z.testbit s 1) (Z.testbit s 0)))); nth 1 p false;
     xorb a1 (xorb (Z.testbit s 5) (xorb (Z.testbit s 4) (xorb (Z.testbit s 2) (Z.testbit s 1))));
     xorb a2 (xorb a1 (xorb a0 (xorb (Z.testbit s 5) (Z.testbit s 2))))]
     && leq [Z.testbit t 5; Z.testbit t 4; Z.testbit t 3; Z.testbit t 2; Z.testbit t 1; Z.testbit t 0] [a2; a1; a0; Z.testbit s 5; Z.testbit s 4; Z.testbit s 3]) triples) (states 64) = true) by (vm_compute; reflexivity).
  pose proof (states_forall 64 _ C s Hs) as H. cbv beta in H. rewrite forallb_forall in H. specialize (H [a0; a1; a2] (triples_all [a0; a1; a2] eq_refl)).
  cbv zeta in H. fold t in H. apply andb_prop in H as [H H3]. apply andb_prop in H as [H1 H2]. apply Z.leb_le in H1. apply Z.ltb_lt in H2.
  apply andb_prop in H3 as [H3 H4]. apply LEQ in H3, H4. change (nth 0 [a0; a1; a2] false) with a0 in *. change (nth 1 [a0; a1; a2] false) with a1 in *. change (nth 2 [a0; a1; a2] false) with a2 in *.
  split; [lia|]. eexists. split; [exact H3|]. injection H4. auto 10.
Qed.
Lemma uncode34_enc x : Nat.modulo (length x) 3 = 0%nat -> forall s, 0 <= s < 64 ->
  uncode_34 (Z.testbit s 5) (Z.testbit s 4) (Z.testbit s 3) (Z.testbit s 2) (Z.testbit s 1) (Z.testbit s 0) (enc34 s x) = x.
Proof.
  revert x. apply (block_ind 3 (fun x => forall s, 0 <= s < 64 ->
    uncode_34 (Z.testbit s 5) (Z.testbit s 4) (Z.testbit s 3) (Z.testbit s 2) (Z.testbit s 1) (Z.testbit s 0) (enc34 s x) = x)); [lia|reflexivity|].
  intros a x La IH s Hs. rewrite enc34_app by assumption. destruct (len3 a La) as (a0 & a1 & a2 & ->).
  destruct (chk34 s a0 a1 a2 Hs) as (Ht & c & -> & T5 & T4 & T3 & T2 & T1 & T0). set (t := fin rstep s _) in *.
  specialize (IH t Ht). rewrite T5, T4, T3, T2, T1, T0 in IH. cbn [app uncode_34].
  assert (X : forall u v, xorb (xorb u v) v = u) by (intros [] []; reflexivity). rewrite !X.
  assert (Y : forall u v w z, xorb (xorb u (xorb v (xorb w z))) (xorb v (xorb w z)) = u) by (intros [] [] [] []; reflexivity).
  rewrite IH. reflexivity.
Qed.
Lemma decode_coded mcs x : (mcs_three_quarters mcs = true -> Nat.modulo (length x) 3 = 0%nat) -> decode (mcs_three_quarters mcs) (coded mcs x) = x.
Proof.
  intro H. unfold decode, coded. destruct (mcs_three_quarters mcs); [|apply POqRx.decode_code].
  change 0 with (r12_new 0). rewrite <- enc34_code. exact (uncode34_enc x (H eq_refl) 0 ltac:(lia)).
Qed.
Lemma uncode_firstn k : forall m1 m2 m3 m4 m5 m6 l,
  SOqRx.uncode m1 m2 m3 m4 m5 m6 (firstn (2 * k) l) = firstn k (SOqRx.uncode m1 m2 m3 m4 m5 m6 l).
Proof.
  induction k as [|k IH]; intros; [reflexivity|]. replace (2 * S k)%nat with (S (S (2 * k))) by lia.
  destruct l as [|a [|b l]]; [reflexivity|reflexivity|]. cbn [firstn SOqRx.uncode]. now rewrite IH.
Qed.

(** ** octets, scrambler *)
Lemma octets_of_bits zs : Forall is_octet zs -> octets_of (octet_bits zs) = zs.
Proof.
  induction zs as [|z zs IH]; intro F; [reflexivity|]. inversion F; subst.
  assert (E : octet_bits (z :: zs) = lsb_bits 8 z ++ octet_bits zs) by reflexivity. rewrite E. clear E.
  pose proof (lsb_value_lsb_bits 8 z) as V. pose proof (lsb_bits_length 8 z) as L.
  destruct (lsb_bits 8 z) as [|b0 [|b1 [|b2 [|b3 [|b4 [|b5 [|b6 [|b7 [|? ?]]]]]]]]]; try discriminate L.
  cbn [app octets_of]. rewrite IH by assumption. f_equal. rewrite V. apply Z.mod_small. unfold is_octet in *. cbn. lia.
Qed.
Lemma unscramble_eq scr l : unscramble scr l = scrambler l (scrambling_seed scr).
Proof.
  apply list_eq_nth with false; [unfold unscramble; rewrite map_length, seq_length, scrambler_length; reflexivity|].
  unfold unscramble. rewrite map_length, seq_length. intros i Hi. rewrite nth_map_seq by assumption. now rewrite scrambler_nth.
Qed.

(** ** interleaver *)
Lemma deinterleave_undo opt mcs il l : supported opt mcs -> il_ok il -> deinterleave opt mcs il l = il_undo (std_ij opt mcs il) l.
Proof.
  intros H Hi. destruct (std_perm opt mcs il H Hi) as (L & _ & _).
  assert (E : std_ij opt mcs il = map (fun k => rx_position opt mcs il (Z.of_nat k)) (seq 0 (il_block opt mcs il))).
  { clear L. set (leq := fix leq (a b : list Z) : bool := match a, b with [], [] => true | x :: a', y :: b' => Z.eqb x y && leq a' b' | _, _ => false end).
    assert (LEQ : forall a b, leq a b = true -> a = b).
    { induction a as [|x a IH]; intros [|y b] HH; try discriminate; [reflexivity|]. cbn [leq] in HH. apply andb_prop in HH as [H1 H2]. apply Z.eqb_eq in H1. f_equal; auto. }
    apply LEQ. clear LEQ.
    destruct Hi as [-> | ->].
    - apply (supported_forall (fun o m => leq (std_ij o m 0) (map (fun k => rx_position o m 0 (Z.of_nat k)) (seq 0 (il_block o m 0))))); [vm_compute; reflexivity|assumption].
    - apply (supported_forall (fun o m => leq (std_ij o m 1) (map (fun k => rx_position o m 1 (Z.of_nat k)) (seq 0 (il_block o m 1))))); [vm_compute; reflexivity|assumption]. }
  unfold deinterleave, il_undo. rewrite L. cbv zeta. apply flat_map_ext. intro b. rewrite E at 1. now rewrite map_map.
Qed.
Lemma il_undo_firstn n ij x m : is_perm n ij -> (0 < n)%nat -> (m <= length x)%nat ->
  il_undo ij (firstn m (il_apply ij x)) = firstn (m / n * n) x.
Proof.
  intros Hp Hn Hm. destruct (il_apply_spec n ij x Hp Hn) as [H1 _]. destruct Hp as (Hl & Hd & Hr). rewrite Forall_forall in Hr.
  unfold il_undo. rewrite Hl, firstn_length, il_apply_length, Nat.min_l by lia.
  set (f := fun b => map (fun i => nth (b * n + Z.to_nat i) (firstn m (il_apply ij x)) false) ij).
  assert (Hf : forall i, length (f i) = n) by (intro; unfold f; now rewrite map_length).
  pose proof (Nat.mul_div_le m n ltac:(lia)) as Hle. assert (m / n <= length x / n)%nat by (apply Nat.div_le_mono; lia).
  apply list_eq_nth with false.
  { rewrite (flat_map_block_length f n) by assumption. rewrite firstn_length. lia. }
  intros i Hi. rewrite (flat_map_block_length f n) in Hi by assumption.
  assert (Ei : i = (i / n * n + i mod n)%nat) by (rewrite Nat.mul_comm; apply Nat.div_mod; lia).
  assert (i mod n < n)%nat by (apply Nat.mod_upper_bound; lia).
  assert (i / n < m / n)%nat by (apply Nat.div_lt_upper_bound; lia).
  rewrite nth_firstn by lia. rewrite Ei at 1. rewrite (flat_map_block_nth f n) by assumption.
  unfold f. rewrite (nth_map _ _ _ 0) by lia.
  assert (Hz : 0 <= nth (i mod n) ij 0 < Z.of_nat n) by (apply Hr, nth_In; lia).
  rewrite nth_firstn by nia. rewrite H1 by lia. now rewrite <- Ei.
Qed.

(** ** one symbol *)
Lemma spread_plain sf a : (sf = 1 \/ sf = 2 \/ sf = 4)%nat -> firstn (length a) (skipn (sf / 2 * length a) (spread sf a)) = a.
Proof.
  intro Hsf. assert (L : length (spread sf a) = (sf * length a)%nat).
  { unfold spread. rewrite (flat_map_block_length _ (length a)); [reflexivity|]. intro. now rewrite map_length, seq_length. }
  assert (Hj : (sf / 2 < sf)%nat) by (destruct Hsf as [->|[->| ->]]; cbn; lia).
  apply list_eq_nth with ((0, 0) : gauss); [rewrite firstn_length, skipn_length, L; nia|].
  rewrite firstn_length, skipn_length, L. intros i Hi. rewrite nth_firstn, nth_skipn by nia.
  rewrite spread_nth by (try assumption; nia).
  replace (spread_phase (Z.of_nat sf) (Z.of_nat (sf / 2)) (Z.of_nat i)) with 0 by (destruct Hsf as [->|[->| ->]]; reflexivity).
  apply turn_0.
Qed.
Lemma decide_all m (rt : Z -> C) (P : Z -> tone) fs gs : map (fun f => tone_data (P f)) fs = map (point m) gs -> Forall (fun g => length g = group_size m) gs ->
  (forall f, In f fs -> exists g, P f = TData g) ->
  (forall f, In f fs -> (Cmod (Cminus (rt f) (amplitude (norm_factor m) (P f))) < norm_factor m)%R) ->
  flat_map (fun f => decide m (rt f)) fs = concat gs.
Proof.
  revert gs. induction fs as [|f fs IH]; intros [|g gs] E F D H; try discriminate; [reflexivity|].
  cbn [map] in E. injection E as E1 E2. inversion F; subst. cbn [flat_map concat]. f_equal.
  - apply decide_ok; [assumption|]. specialize (H f (or_introl eq_refl)). destruct (D f (or_introl eq_refl)) as [p Ep]. rewrite Ep in H, E1.
    cbn [tone_data] in E1. now rewrite <- E1.
  - apply IH; auto; intros; [apply D|apply H]; now right.
Qed.
Lemma firstn_map' {A B} (f : A -> B) n l : map f (firstn n l) = firstn n (map f l).
Proof. symmetry. apply firstn_map. Qed.
Lemma data_freqs_tones opt mcs col v bits n0 n f : (n0 mod length (pilot_sets opt) = Z.to_nat ((col + Z.of_nat n) mod zlen (std_sets opt)))%nat ->
  In f (data_freqs opt n0) -> exists g, tone_at (fft_size opt) (sym opt mcs col v bits n) f = TData g.
Proof.
  intros E Hf. unfold data_freqs, pilots_of in Hf. apply filter_In in Hf as [Hf HP]. apply freqs_In in Hf. unfold sym.
  rewrite tone_at_layout by assumption. change (pilot_sets opt) with (std_sets opt) in *. rewrite E in HP.
  unfold layout_tone. unfold is_data in HP. apply andb_true_iff in HP as [H1 H2]. apply negb_true_iff in H1, H2. rewrite H1, H2. eauto.
Qed.
Lemma rx_symbol_ok opt mcs col v bits n k n0 (tone : nat -> Z -> C) : supported opt mcs -> length bits = (k * coded_bits opt mcs)%nat -> (n < k)%nat ->
  (n0 mod length (pilot_sets opt) = Z.to_nat ((col + Z.of_nat n) mod zlen (std_sets opt)))%nat ->
  (forall f, In f (plain_freqs opt mcs n0) ->
     (Cmod (Cminus (tone n0 f) (amplitude (norm_factor (mcs_modulation mcs)) (tone_at (fft_size opt) (sym opt mcs col v bits n) f))) < norm_factor (mcs_modulation mcs))%R) ->
  rx_symbol tone opt mcs n0 = block opt mcs bits n.
Proof.
  intros H Hl Hn Hcol Ht. unfold rx_symbol. set (m := mcs_modulation mcs) in *. pose proof (group_size_pos m) as Hg.
  pose proof (block_length opt mcs bits n k Hl Hn) as Lb. rewrite (coded_points opt mcs H) in Lb. fold m in Lb.
  assert (Mb : Nat.modulo (length (block opt mcs bits n)) (group_size m) = 0%nat) by (rewrite Lb; apply mod_mult; lia).
  rewrite <- (concat_chunks (group_size m) (block opt mcs bits n)) by assumption.
  apply decide_all with (P := tone_at (fft_size opt) (sym opt mcs col v bits n)).
  - pose proof (sym_read opt mcs col v bits n k H Hl Hn) as R. unfold read_data in R. unfold plain_freqs. fold (points opt mcs).
    assert (ED : data_freqs opt n0 = filter (is_data (fft_size opt) (guard_left opt) (guard_right opt) (pset_of opt col n)) (freqs (fft_size opt))).
    { unfold data_freqs, pilots_of, pset_of. change (pilot_sets opt) with (std_sets opt) in *. now rewrite Hcol. }
    rewrite ED. rewrite firstn_map', <- skipn_map, R. unfold symbol_data. fold m.
    set (a := map (point m) _). assert (La : length a = points opt mcs).
    { unfold a. rewrite map_length, chunks_length, Lb by assumption. apply Nat.div_mul. lia. }
    rewrite <- La. apply spread_plain. clear -H. revert H. each; vm_compute; auto.
  - now apply chunks_length_all.
  - intros f Hf. apply (data_freqs_tones opt mcs col v bits n0 n f Hcol). unfold plain_freqs in Hf.
    set (l := data_freqs opt n0) in *. set (a := (_ / 2 * _)%nat) in Hf. set (b := (_ / _)%nat) in Hf.
    rewrite <- (firstn_skipn a l). apply in_or_app. right. rewrite <- (firstn_skipn b (skipn a l)). apply in_or_app. now left.
  - exact Ht.
Qed.

(** ** a run of symbols *)
Lemma blocks_concat opt mcs bits m : (m * coded_bits opt mcs <= length bits)%nat ->
  flat_map (block opt mcs bits) (seq 0 m) = firstn (m * coded_bits opt mcs) bits.
Proof.
  intro H. induction m as [|m IH]; [reflexivity|]. rewrite seq_S, flat_map_app, IH by nia. cbn [flat_map Nat.add]. rewrite app_nil_r. unfold block.
  replace (S m * coded_bits opt mcs)%nat with (m * coded_bits opt mcs + coded_bits opt mcs)%nat by lia.
  rewrite <- (firstn_skipn (m * coded_bits opt mcs) bits) at 3.
  rewrite firstn_app, firstn_length, Nat.min_l by nia. replace (_ + _ - _)%nat with (coded_bits opt mcs) by lia. f_equal.
  symmetry. apply firstn_all2. rewrite firstn_length. lia.
Qed.
Lemma rx_run opt mcs col v bits k m first (rt : nat -> Z -> C) : supported opt mcs -> length bits = (k * coded_bits opt mcs)%nat -> (m <= k)%nat ->
  (forall n, ((first + n) mod length (pilot_sets opt) = Z.to_nat ((col + Z.of_nat n) mod zlen (std_sets opt)))%nat) ->
  (forall n f, (n < m)%nat -> In f (plain_freqs opt mcs (first + n)) ->
     (Cmod (Cminus (rt (first + n)%nat f) (amplitude (norm_factor (mcs_modulation mcs)) (tone_at (fft_size opt) (sym opt mcs col v bits n) f))) < norm_factor (mcs_modulation mcs))%R) ->
  flat_map (rx_symbol rt opt mcs) (seq first m) = firstn (m * coded_bits opt mcs) bits.
Proof.
  intros H Hl Hm Hc Ht. rewrite <- (blocks_concat opt mcs bits m) by nia.
  replace (seq first m) with (map (fun n => first + n)%nat (seq 0 m)).
  2:{ clear. assert (X : forall m a, map (fun n => first + n)%nat (seq a m) = seq (first + a) m).
    { induction m0 as [|m0 IH]; intro a; [reflexivity|]. cbn [seq map]. rewrite IH. f_equal. f_equal. lia. }
    rewrite X. f_equal. lia. }
  rewrite !flat_map_concat_map, map_map. f_equal. apply map_ext_in. intros n Hn. apply in_seq in Hn.
  apply rx_symbol_ok with (col := col) (v := v) (k := k); auto; [lia|]. intros f Hf. apply Ht; [lia|assumption].
Qed.

(** ** the fields of the header *)
Lemma header_read mcs len scr n h : 0 <= mcs <= 6 -> 1 <= len <= 2047 -> scr_ok scr -> firstn 30 h = firstn 30 (phr_layout mcs len scr n) ->
  msb_value (slice 0 5 h) = mcs /\ msb_value (slice 6 11 h) = len /\ msb_value (slice 19 2 h) = scr.
Proof.
  intros Hm Hl Hs E. unfold scr_ok in Hs.
  assert (S : forall a b, (a + b <= 30)%nat -> slice a b h = slice a b (phr_layout mcs len scr n)).
  { intros a b Hab. unfold slice.
    assert (X : forall l : list bool, firstn b (skipn a l) = firstn b (skipn a (firstn 30 l))).
    { intro l. rewrite skipn_firstn_comm, firstn_firstn. f_equal. lia. }
    rewrite (X h), E, <- X. reflexivity. }
  rewrite !S by lia. unfold phr_layout. cbv zeta. generalize (crc8_ofdm (msb_bits 5 mcs ++ [false] ++ msb_bits 11 len ++ [false; false] ++ msb_bits 2 scr ++ [false]) ++ repeat false (n - 30)). intro R.
  assert (X : forall (l1 l2 r : list bool) a b, length l1 = a -> length l2 = b -> slice a b (l1 ++ l2 ++ r) = l2).
  { intros l1 l2 r a b <- <-. unfold slice. rewrite skipn_app, skipn_all, Nat.sub_diag. cbn [skipn app]. rewrite firstn_app, Nat.sub_diag, firstn_O, app_nil_r. apply firstn_all. }
  pose proof (msb_bits_length 5 mcs) as L1. pose proof (msb_bits_length 11 len) as L2. pose proof (msb_bits_length 2 scr) as L3.
  pose proof (msb_value_msb_bits 5 mcs ltac:(cbn; lia)) as V1. pose proof (msb_value_msb_bits 11 len ltac:(cbn; lia)) as V2. pose proof (msb_value_msb_bits 2 scr ltac:(cbn; lia)) as V3.
  revert L1 L2 L3 V1 V2 V3. generalize (msb_bits 5 mcs) (msb_bits 11 len) (msb_bits 2 scr). intros A B D L1 L2 L3 V1 V2 V3.
  split; [|split].
  - rewrite <- V1. f_equal. rewrite <- app_assoc. apply (X [] A); [reflexivity|assumption].
  - rewrite <- V2. f_equal.
    replace ((A ++ [false] ++ B ++ [false; false] ++ D ++ [false]) ++ R) with ((A ++ [false]) ++ B ++ ([false; false] ++ D ++ [false]) ++ R) by now rewrite <- !app_assoc.
    apply X; [|assumption]. rewrite app_length, L1. reflexivity.
  - rewrite <- V3. f_equal.
    replace ((A ++ [false] ++ B ++ [false; false] ++ D ++ [false]) ++ R) with ((A ++ [false] ++ B ++ [false; false]) ++ D ++ [false] ++ R) by now rewrite <- !app_assoc.
    apply X; [|assumption]. rewrite !app_length, L1, L2. reflexivity.
Qed.
Lemma header_symbols_eq opt mcs il : supported opt mcs -> il_ok il -> header_symbols_of opt mcs il = nphr opt mcs il.
Proof. intros H [-> | ->]; revert H; each; reflexivity. Qed.
Lemma pilots_turn opt first n : opt_ok opt ->
  ((first + n) mod length (pilot_sets opt) = Z.to_nat ((Z.of_nat first mod zlen (std_sets opt) + Z.of_nat n) mod zlen (std_sets opt)))%nat.
Proof.
  intro Ho. pose proof (std_sets_pos opt Ho) as Hp. change (pilot_sets opt) with (std_sets opt). unfold zlen in *.
  rewrite Zplus_mod_idemp_l, <- Nat2Z.inj_add, <- Nat2Z.inj_mod, Nat2Z.id. reflexivity.
Qed.
Theorem receiver_core opt mcs il scr zs (rt : nat -> Z -> C) : supported opt mcs -> il_ok il -> scr_ok scr -> Forall is_octet zs -> 1 <= zlen zs <= 2047 ->
  (forall n f, (n < frame_symbols_of opt mcs il (zlen zs))%nat -> In f (data_freqs opt n) ->
     (Cmod (Cminus (rt n f) (amplitude (symbol_factor opt mcs il n)
        (tone_at (fft_size opt) (nth n (frame_phr opt mcs il scr (octet_bits zs) ++ frame_payload opt mcs il scr (octet_bits zs)) []) f))) < symbol_factor opt mcs il n)%R) ->
  mr_receiver opt il rt = {| f_mcs := mcs; f_scrambler := scr; f_octets := zs |}.
Proof.
  intros H Hi Hs Hz Hl Ht. pose proof (supported_low opt mcs H) as Hlow. pose proof (supported_opt _ _ H) as Ho.
  pose proof (header_symbols_eq opt mcs il H Hi) as HS. pose proof (nphr_ge opt mcs il H Hi) as G.
  assert (D : zlen (octet_bits zs) / 8 = zlen zs).
  { unfold zlen. rewrite octet_bits_length, Nat2Z.inj_mul. change (Z.of_nat 8) with 8. rewrite Z.mul_comm, Z.div_mul; lia. }
  assert (L8 : length (octet_bits zs) = Z.to_nat (8 * zlen zs)) by (rewrite octet_bits_length; unfold zlen; lia).
  assert (NP : payload_symbols_of opt mcs (zlen zs) = npay opt mcs (length (octet_bits zs))) by (unfold payload_symbols_of, npay; now rewrite L8).
  assert (IN : forall m n f, In f (plain_freqs opt m n) -> In f (data_freqs opt n)).
  { intros m n f Hf. unfold plain_freqs in Hf. set (l := data_freqs opt n) in *. set (a := (_ / 2 * _)%nat) in Hf. set (b := (_ / _)%nat) in Hf.
    rewrite <- (firstn_skipn a l). apply in_or_app. right. rewrite <- (firstn_skipn b (skipn a l)). apply in_or_app. now left. }
  (* header *)
  set (low := lowest_mcs opt) in *. set (m := Z.to_nat (phr_symbols il opt)) in *.
  pose proof (hdr_sent_length opt mcs il scr (zlen zs) H Hi) as Ls. fold low in Ls.
  assert (B1 : flat_map (rx_symbol rt opt low) (seq 0 m) = firstn (m * coded_bits opt low) (hdr_sent opt mcs il scr (zlen zs))).
  { apply (rx_run opt low 0 511 _ (nphr opt mcs il)); auto.
    - intro n. exact (pilots_turn opt 0 n Ho).
    - intros n f Hn Hf. cbn [Nat.add] in *. apply IN in Hf. unfold frame_symbols_of in Ht. rewrite HS in Ht. specialize (Ht n f ltac:(lia) Hf).
      unfold symbol_factor, symbol_modulation in Ht. rewrite HS in Ht. destruct (Nat.ltb_spec n (nphr opt mcs il)); [|lia]. fold low in Ht.
      unfold frame_phr, frame_payload in Ht. rewrite <- NP in Ht. rewrite app_nth_map in Ht by lia.
      destruct (Nat.ltb_spec n (nphr opt mcs il)); [|lia]. fold low in Ht. rewrite D in Ht. exact Ht. }
  assert (Lh : length (hdr opt mcs il scr (zlen zs)) = header_bits opt mcs il) by (apply phr_layout_length, header_30; assumption).
  pose proof (header_symbols opt mcs il H Hi) as Hsym. fold low in Hsym.
  pose proof (phr_blocks opt mcs il H Hi) as B60. cbv zeta in B60. fold low m in B60.
  set (M := (m * coded_bits opt low)%nat) in *. set (nb := il_block opt low il) in *.
  assert (Hh : firstn 30 (rx_header rt opt il) = firstn 30 (hdr opt mcs il scr (zlen zs))).
  { unfold rx_header. fold low m. rewrite B1, deinterleave_undo by assumption. unfold hdr_sent. fold low.
    rewrite (il_undo_firstn nb (std_ij opt low il)).
    - cbn [decode]. unfold SOqRx.decode_12.
      assert (FF : forall l : list bool, firstn 30 (SOqRx.uncode false false false false false false (firstn (M / nb * nb) l)) = firstn 30 (SOqRx.uncode false false false false false false l)).
      { intro l. rewrite <- !uncode_firstn, firstn_firstn. do 2 f_equal. lia. }
      rewrite FF. fold (SOqRx.decode_12 (code_12 0 (hdr opt mcs il scr (zlen zs)))). now rewrite POqRx.decode_code.
    - now apply std_perm.
    - now apply il_block_pos.
    - rewrite code_12_length, Lh, Hsym. unfold M. apply Nat.mul_le_mono_r. assumption. }
  unfold hdr in Hh. pose proof (mcs_range _ _ H) as Rm.
  destruct (header_read mcs (zlen zs) scr _ _ Rm Hl Hs Hh) as (E1 & E2 & E3).
  unfold mr_receiver. cbv zeta. rewrite E1, E2, E3. f_equal.
  (* payload *)
  unfold rx_payload. rewrite HS, NP. pose proof (pay_sent_length opt mcs il scr (octet_bits zs) H) as Lp.
  assert (B2 : flat_map (rx_symbol rt opt mcs) (seq (nphr opt mcs il) (npay opt mcs (length (octet_bits zs)))) = pay_sent opt mcs il scr (octet_bits zs)).
  { rewrite (rx_run opt mcs (Z.of_nat (nphr opt mcs il) mod zlen (std_sets opt)) (pn_iter (nphr opt mcs il * npil opt) 511) _ _ _ _ rt H Lp (Nat.le_refl _)).
    - apply firstn_all2. lia.
    - intro n. now apply pilots_turn.
    - intros n f Hn Hf. apply IN in Hf. unfold frame_symbols_of in Ht. rewrite HS, NP in Ht. specialize (Ht (nphr opt mcs il + n)%nat f ltac:(lia) Hf).
      unfold symbol_factor, symbol_modulation in Ht. rewrite HS in Ht. destruct (Nat.ltb_spec (nphr opt mcs il + n) (nphr opt mcs il)); [lia|].
      unfold frame_phr, frame_payload in Ht. rewrite app_nth_map in Ht by lia.
      destruct (Nat.ltb_spec (nphr opt mcs il + n) (nphr opt mcs il)); [lia|]. replace (nphr opt mcs il + n - nphr opt mcs il)%nat with n in Ht by lia. exact Ht. }
  rewrite B2, deinterleave_undo by assumption. unfold pay_sent. rewrite (il_undo_apply (il_block opt mcs il)) by (try apply std_perm; try apply il_block_pos; assumption).
  assert (Hw : exists w, (npay opt mcs (length (octet_bits zs)) * coded_bits opt mcs = w * il_block opt mcs il)%nat).
  { unfold npay, il_block. destruct (il =? 0).
    - exists (groups opt mcs (length (octet_bits zs)) * mcs_spreading mcs)%nat. lia.
    - exists (groups opt mcs (length (octet_bits zs))). lia. }
  destruct Hw as [w Hw]. pose proof (il_block_pos opt mcs il H Hi) as Hb.
  assert (CL : length (coded mcs (plain opt mcs scr (octet_bits zs))) = (w * il_block opt mcs il)%nat) by (rewrite coded_length; assumption).
  rewrite CL, Nat.div_mul by lia. rewrite (firstn_all2 (coded mcs (plain opt mcs scr (octet_bits zs)))) by (rewrite CL; apply Nat.le_refl).
  rewrite decode_coded by (intro; now apply plain_3). rewrite <- L8, plain_prefix, unscramble_eq, scrambler_involutive. now apply octets_of_bits.
Qed.
