(** * MR-OFDM: what a receiver can read from the symbols of a frame *)
From Verif Require Import Py PList SBits MBits MPn9 SPn9 PPn9 MRate SRate PConv PRate MFields PFields SCrc MModul MOfdm Tables SOfdm SMrOfdm PModul POfdm MMrOfdm PBits PStd PMrOfdm.

Lemma symbol_data_inj m sf q a b : (0 < sf)%nat -> length a = (q * group_size m)%nat -> length b = (q * group_size m)%nat ->
  symbol_data m sf a = symbol_data m sf b -> a = b.
Proof.
  intros Hsf Ha Hb E. pose proof (group_size_pos m) as Hg. unfold symbol_data in E.
  assert (Ma : Nat.modulo (length a) (group_size m) = 0%nat) by (rewrite Ha; apply mod_mult; lia).
  assert (Mb : Nat.modulo (length b) (group_size m) = 0%nat) by (rewrite Hb; apply mod_mult; lia).
  apply spread_inj in E; [|assumption|rewrite !map_length, !chunks_length by assumption; now rewrite Ha, Hb].
  apply map_point_inj in E; try (now apply chunks_length_all).
  rewrite <- (concat_chunks (group_size m) a), <- (concat_chunks (group_size m) b) by assumption. now rewrite E.
Qed.

Lemma block_length opt mcs bits n k : length bits = (k * coded_bits opt mcs)%nat -> (n < k)%nat ->
  length (block opt mcs bits n) = coded_bits opt mcs.
Proof. intros Hl Hn. unfold block. rewrite firstn_length, skipn_length, Hl. nia. Qed.

Lemma sym_data_length opt mcs bits n k : supported opt mcs -> length bits = (k * coded_bits opt mcs)%nat -> (n < k)%nat ->
  length (symbol_data (mcs_modulation mcs) (mcs_spreading mcs) (block opt mcs bits n)) = Z.to_nat (data_tones opt).
Proof.
  intros H Hl Hn. rewrite (symbol_data_length _ _ (points opt mcs)).
  - pose proof (points_tones opt mcs H). lia.
  - rewrite <- coded_points by assumption. now apply block_length with k.
Qed.
Definition pset_of (opt col : Z) (n : nat) : list Z := nth (Z.to_nat ((col + Z.of_nat n) mod zlen (std_sets opt))) (std_sets opt) [].
Lemma pset_of_ok opt mcs col n : supported opt mcs ->
  pset_ok (fft_size opt) (guard_left opt) (guard_right opt) (pset_of opt col n) /\ zlen (pset_of opt col n) = Z.of_nat (npil opt).
Proof.
  intro H. pose proof (std_pilots opt (supported_opt _ _ H)) as F. rewrite Forall_forall in F. apply F.
  unfold pset_of. pose proof (std_sets_pos opt (supported_opt _ _ H)) as Hp.
  pose proof (Z.mod_pos_bound (col + Z.of_nat n) (zlen (std_sets opt)) Hp). apply nth_In. unfold zlen in *. lia.
Qed.
Lemma sym_read opt mcs col v bits n k : supported opt mcs -> length bits = (k * coded_bits opt mcs)%nat -> (n < k)%nat ->
  read_data (fft_size opt) (guard_left opt) (guard_right opt) (pset_of opt col n) (sym opt mcs col v bits n)
  = symbol_data (mcs_modulation mcs) (mcs_spreading mcs) (block opt mcs bits n).
Proof.
  intros H Hl Hn. unfold sym. apply read_data_layout. rewrite (sym_data_length opt mcs bits n k H Hl Hn).
  destruct (pset_of_ok opt mcs col n H) as [Hp Hz].
  pose proof (good_nd (std_cfg opt mcs) _ _ (pset_of opt col n) (std_good opt mcs H) Hp) as E.
  rewrite (std_np opt mcs H) in E. specialize (E Hz). cbn [std_cfg o_N o_pl o_pr] in E. fold (pset_of opt col n). rewrite E.
  pose proof (points_tones opt mcs H). lia.
Qed.
Lemma sym_inj opt mcs col v b1 b2 n k1 k2 : supported opt mcs ->
  length b1 = (k1 * coded_bits opt mcs)%nat -> length b2 = (k2 * coded_bits opt mcs)%nat -> (n < k1)%nat -> (n < k2)%nat ->
  sym opt mcs col v b1 n = sym opt mcs col v b2 n -> block opt mcs b1 n = block opt mcs b2 n.
Proof.
  intros H H1 H2 N1 N2 E. apply (f_equal (read_data (fft_size opt) (guard_left opt) (guard_right opt) (pset_of opt col n))) in E.
  rewrite (sym_read opt mcs col v b1 n k1), (sym_read opt mcs col v b2 n k2) in E by assumption.
  apply symbol_data_inj with (q := points opt mcs) in E; [exact E| | |].
  - clear -H. revert H. each; vm_compute; lia.
  - rewrite <- coded_points by assumption. now apply block_length with k1.
  - rewrite <- coded_points by assumption. now apply block_length with k2.
Qed.
(** equal symbols 0..m-1 give equal bits *)
Lemma syms_inj opt mcs col v b1 b2 k1 k2 m : supported opt mcs ->
  length b1 = (k1 * coded_bits opt mcs)%nat -> length b2 = (k2 * coded_bits opt mcs)%nat -> (m <= k1)%nat -> (m <= k2)%nat ->
  (forall n, (n < m)%nat -> sym opt mcs col v b1 n = sym opt mcs col v b2 n) ->
  forall i, (i < m * coded_bits opt mcs)%nat -> nth i b1 false = nth i b2 false.
Proof.
  intros H H1 H2 M1 M2 E i Hi. pose proof (coded_pos opt mcs H) as Hc. set (c := coded_bits opt mcs) in *.
  assert (Ei : i = (i / c * c + i mod c)%nat) by (rewrite Nat.mul_comm; apply Nat.div_mod; lia).
  assert (Hr : (i mod c < c)%nat) by (apply Nat.mod_upper_bound; lia).
  assert (Hq : (i / c < m)%nat) by (apply Nat.div_lt_upper_bound; lia).
  pose proof (sym_inj opt mcs col v b1 b2 (i / c) k1 k2 H H1 H2 ltac:(lia) ltac:(lia) (E _ Hq)) as B.
  apply (f_equal (fun l => nth (i mod c) l false)) in B. unfold block in B. fold c in B.
  rewrite !nth_firstn, !nth_skipn in B by assumption. now rewrite <- Ei in B.
Qed.
Lemma il_apply_agree n ij x y m : is_perm n ij -> (0 < n)%nat -> (m <= length x)%nat -> (m <= length y)%nat ->
  (forall i, (i < m)%nat -> nth i (il_apply ij x) false = nth i (il_apply ij y) false) ->
  forall i, (i < m / n * n)%nat -> nth i x false = nth i y false.
Proof.
  intros Hp Hn Hx Hy E i Hi. destruct (il_apply_spec n ij x Hp Hn) as [X _]. destruct (il_apply_spec n ij y Hp Hn) as [Y _].
  assert (Ei : i = (i / n * n + i mod n)%nat) by (rewrite Nat.mul_comm; apply Nat.div_mod; lia).
  assert (Hr : (i mod n < n)%nat) by (apply Nat.mod_upper_bound; lia).
  assert (Hq : (i / n < m / n)%nat) by (apply Nat.div_lt_upper_bound; lia).
  assert (m / n <= length x / n)%nat by (apply Nat.div_le_mono; lia).
  assert (m / n <= length y / n)%nat by (apply Nat.div_le_mono; lia).
  rewrite Ei. rewrite <- X, <- Y by lia. apply E.
  destruct Hp as (Hl & _ & F). rewrite Forall_forall in F. assert (Hz : 0 <= nth (i mod n) ij 0 < Z.of_nat n) by (apply F, nth_In; lia).
  pose proof (Nat.mul_div_le m n ltac:(lia)). nia.
Qed.
Lemma firstn_agree {A} (x y : list A) m d : (m <= length x)%nat -> (m <= length y)%nat ->
  (forall i, (i < m)%nat -> nth i x d = nth i y d) -> firstn m x = firstn m y.
Proof.
  intros Hx Hy E. apply list_eq_nth with d; [rewrite !firstn_length; lia|]. intros i Hi. rewrite firstn_length in Hi.
  rewrite !nth_firstn by lia. apply E. lia.
Qed.
Lemma enc_firstn step s x k : firstn (2 * k) (enc step s x) = enc step s (firstn k x).
Proof.
  revert s x. induction k as [|k IH]; intros s x; [reflexivity|]. replace (2 * S k)%nat with (S (S (2 * k))) by lia.
  destruct x as [|b x]; [reflexivity|]. cbn [firstn]. rewrite !enc_cons. cbn [firstn]. now rewrite IH.
Qed.
Lemma code_12_inj_prefix x y k : (k <= length x)%nat -> (k <= length y)%nat ->
  (forall i, (i < 2 * k)%nat -> nth i (code_12 0 x) false = nth i (code_12 0 y) false) -> firstn k x = firstn k y.
Proof.
  intros Hx Hy E. change 0 with (r12_new 0) in E. rewrite <- !enc_code_12 in E.
  assert (F : firstn (2 * k) (enc rstep (r12_new 0) x) = firstn (2 * k) (enc rstep (r12_new 0) y)).
  { apply firstn_agree with false; rewrite ?enc_length; try lia. exact E. }
  rewrite !enc_firstn in F. now apply r12_enc_inj in F; [|apply r12_new_range].
Qed.

(** the first 30 bits of the header determine the fields *)
Lemma header_fields m1 l1 s1 n1 m2 l2 s2 n2 : 0 <= m1 <= 6 -> 0 <= m2 <= 6 -> 1 <= l1 <= 2047 -> 1 <= l2 <= 2047 -> scr_ok s1 -> scr_ok s2 ->
  firstn 30 (phr_layout m1 l1 s1 n1) = firstn 30 (phr_layout m2 l2 s2 n2) -> m1 = m2 /\ l1 = l2 /\ s1 = s2.
Proof.
  intros M1 M2 L1 L2 S1 S2 E. apply (f_equal (firstn 22)) in E. rewrite !firstn_firstn in E. cbn [Nat.min] in E.
  unfold phr_layout in E.
  assert (A : forall m l s r, firstn 22 ((msb_bits 5 m ++ [false] ++ msb_bits 11 l ++ [false; false] ++ msb_bits 2 s ++ [false]) ++ r)
     = msb_bits 5 m ++ [false] ++ msb_bits 11 l ++ [false; false] ++ msb_bits 2 s ++ [false]).
  { intros m l s r. set (h := _ ++ _ ++ _ ++ _ ++ _ ++ _).
    assert (Hh : length h = 22%nat) by (unfold h; rewrite !app_length, !msb_bits_length; reflexivity).
    rewrite firstn_app, Hh, Nat.sub_diag, firstn_all2 by lia. apply app_nil_r. }
  rewrite !A in E. apply app_inj_len in E as [E1 E]; [|now rewrite !msb_bits_length].
  apply app_inj_len in E as [_ E]; [|reflexivity]. apply app_inj_len in E as [E2 E]; [|now rewrite !msb_bits_length].
  apply app_inj_len in E as [_ E]; [|reflexivity]. apply app_inj_len in E as [E3 _]; [|now rewrite !msb_bits_length].
  apply (f_equal msb_value) in E1, E2, E3. unfold scr_ok in *.
  rewrite !msb_value_msb_bits in E1, E2, E3 by (simpl; lia). auto.
Qed.

Lemma nphr_ge opt mcs il : supported opt mcs -> il_ok il -> (Z.to_nat (phr_symbols il opt) <= nphr opt mcs il)%nat.
Proof. intros H [-> | ->]; revert H; each; vm_compute; lia. Qed.
Lemma phr_blocks opt mcs il : supported opt mcs -> il_ok il ->
  let m := (Z.to_nat (phr_symbols il opt) * coded_bits opt (lowest_mcs opt))%nat in
  (60 <= m / il_block opt (lowest_mcs opt) il * il_block opt (lowest_mcs opt) il)%nat.
Proof. intros H [-> | ->]; revert H; each; vm_compute; lia. Qed.

Lemma coded_inj opt mcs scr x y : supported opt mcs -> length x = length y ->
  coded mcs (plain opt mcs scr x) = coded mcs (plain opt mcs scr y) -> plain opt mcs scr x = plain opt mcs scr y.
Proof.
  intros H Hl E. assert (Hp : length (plain opt mcs scr x) = length (plain opt mcs scr y)).
  { rewrite !plain_length. unfold padded. rewrite !app_length, !repeat_length, Hl. reflexivity. }
  unfold coded in E. pose proof (plain_3 opt mcs scr x H) as H3. destruct (mcs_three_quarters mcs).
  - change 0 with (r12_new 0) in E. rewrite <- !enc34_code in E. apply enc34_inj in E; auto. apply r12_new_range.
  - change 0 with (r12_new 0) in E. rewrite <- !enc_code_12 in E. apply r12_enc_inj in E; [assumption|apply r12_new_range].
Qed.
Lemma plain_prefix opt mcs scr x : firstn (length x) (plain opt mcs scr x) = scrambler x (scrambling_seed scr).
Proof.
  rewrite <- (scrambler_prefix x (repeat false (6 + pad_bits opt mcs (length x)))). fold (padded opt mcs x).
  unfold plain. destruct (Nat.eqb _ 0); [reflexivity|].
  assert (Hw : (length x <= length (scrambler (padded opt mcs x) (scrambling_seed scr)))%nat)
    by (rewrite scrambler_length; unfold padded; rewrite app_length; lia).
  rewrite firstn_app, firstn_length. replace (length x - _)%nat with 0%nat by lia. rewrite firstn_O, app_nil_r, firstn_firstn.
  f_equal. lia.
Qed.
Lemma plain_inj opt mcs scr x y : length x = length y -> plain opt mcs scr x = plain opt mcs scr y -> x = y.
Proof.
  intros Hl E. apply (f_equal (firstn (length x))) in E. rewrite plain_prefix in E. rewrite Hl, plain_prefix in E.
  apply (f_equal (fun l => scrambler l (scrambling_seed scr))) in E. now rewrite !scrambler_involutive in E.
Qed.

Lemma app_nth_map {A} (f g : nat -> A) a b n d : (n < a + b)%nat ->
  nth n (map f (seq 0 a) ++ map g (seq 0 b)) d = if Nat.ltb n a then f n else g (n - a)%nat.
Proof.
  intro H. destruct (Nat.ltb_spec n a).
  - rewrite app_nth1 by (rewrite map_length, seq_length; lia). now apply nth_map_seq.
  - rewrite app_nth2; rewrite map_length, seq_length; [|lia]. apply nth_map_seq. lia.
Qed.

(** the symbols every header has determine MCS, frame length and scrambler seed *)
Lemma header_inj opt il m1 s1 l1 m2 s2 l2 : il_ok il -> supported opt m1 -> supported opt m2 -> scr_ok s1 -> scr_ok s2 ->
  (1 <= l1 <= 2047) -> (1 <= l2 <= 2047) ->
  (forall n, (n < Z.to_nat (phr_symbols il opt))%nat ->
     sym opt (lowest_mcs opt) 0 511 (hdr_sent opt m1 il s1 l1) n = sym opt (lowest_mcs opt) 0 511 (hdr_sent opt m2 il s2 l2) n) ->
  m1 = m2 /\ l1 = l2 /\ s1 = s2.
Proof.
  intros Hi H1 H2 S1 S2 L1 L2 Esym. pose proof (supported_low opt m1 H1) as Hlow.
  set (low := lowest_mcs opt) in *. set (cl := coded_bits opt low).
  set (m := Z.to_nat (phr_symbols il opt)) in *.
  pose proof (nphr_ge opt m1 il H1 Hi) as G1. pose proof (nphr_ge opt m2 il H2 Hi) as G2. fold m in G1, G2.
  pose proof (hdr_sent_length opt m1 il s1 l1 H1 Hi) as Ls1. pose proof (hdr_sent_length opt m2 il s2 l2 H2 Hi) as Ls2.
  fold low cl in Ls1, Ls2.
  pose proof (syms_inj opt low 0 511 _ _ _ _ m Hlow Ls1 Ls2 G1 G2 Esym) as Ebits.
  assert (Lh1 : length (hdr opt m1 il s1 l1) = header_bits opt m1 il) by (apply phr_layout_length, header_30; assumption).
  assert (Lh2 : length (hdr opt m2 il s2 l2) = header_bits opt m2 il) by (apply phr_layout_length, header_30; assumption).
  pose proof (header_symbols opt m1 il H1 Hi) as Hs1. pose proof (header_symbols opt m2 il H2 Hi) as Hs2. fold low cl in Hs1, Hs2.
  pose proof (header_30 opt m1 il H1 Hi) as T1. pose proof (header_30 opt m2 il H2 Hi) as T2.
  pose proof (il_apply_agree (il_block opt low il) (std_ij opt low il) (code_12 0 (hdr opt m1 il s1 l1)) (code_12 0 (hdr opt m2 il s2 l2))
    (m * cl) (std_perm opt low il Hlow Hi) (il_block_pos opt low il Hlow Hi)) as Ecode.
  rewrite !code_12_length, Lh1, Lh2, Hs1, Hs2 in Ecode.
  specialize (Ecode ltac:(nia) ltac:(nia) Ebits).
  pose proof (phr_blocks opt m1 il H1 Hi) as B60. cbv zeta in B60. fold low m cl in B60.
  assert (E30 : firstn 30 (hdr opt m1 il s1 l1) = firstn 30 (hdr opt m2 il s2 l2)).
  { apply code_12_inj_prefix; try lia. intros i Hi'. apply Ecode. fold cl in B60. lia. }
  pose proof (mcs_range _ _ H1) as R1. pose proof (mcs_range _ _ H2) as R2.
  apply header_fields in E30; try assumption.
Qed.
Theorem frames_inj opt il m1 s1 b1 m2 s2 b2 : il_ok il -> supported opt m1 -> supported opt m2 -> scr_ok s1 -> scr_ok s2 ->
  (1 <= zlen b1 / 8 <= 2047) -> (1 <= zlen b2 / 8 <= 2047) -> Nat.modulo (length b1) 8 = 0%nat -> Nat.modulo (length b2) 8 = 0%nat ->
  frame_phr opt m1 il s1 b1 ++ frame_payload opt m1 il s1 b1 = frame_phr opt m2 il s2 b2 ++ frame_payload opt m2 il s2 b2 ->
  m1 = m2 /\ s1 = s2 /\ b1 = b2.
Proof.
  intros Hi H1 H2 S1 S2 L1 L2 O1 O2 E. pose proof (nphr_ge opt m1 il H1 Hi) as G1. pose proof (nphr_ge opt m2 il H2 Hi) as G2.
  destruct (header_inj opt il m1 s1 (zlen b1 / 8) m2 s2 (zlen b2 / 8)) as (-> & El & ->); try assumption.
  { intros n Hn. apply (f_equal (fun l => nth n l [])) in E. unfold frame_phr, frame_payload in E.
    rewrite !app_nth_map in E by lia. destruct (Nat.ltb_spec n (nphr opt m1 il)); [|lia]. destruct (Nat.ltb_spec n (nphr opt m2 il)); [|lia]. exact E. }
  split; [reflexivity|]. split; [reflexivity|].
  assert (Hlen : length b1 = length b2).
  { unfold zlen in El. pose proof (Nat.div_mod (length b1) 8 ltac:(lia)). pose proof (Nat.div_mod (length b2) 8 ltac:(lia)).
    assert (Z.of_nat (length b1 / 8) = Z.of_nat (length b2 / 8)) by (rewrite !Nat2Z.inj_div; exact El). lia. }
  assert (Epay : frame_payload opt m2 il s2 b1 = frame_payload opt m2 il s2 b2).
  { unfold frame_phr in E. apply app_inj_len in E; [apply E|]. now rewrite !map_length, !seq_length. }
  unfold frame_payload in Epay. rewrite Hlen in Epay.
  set (col := Z.of_nat (nphr opt m2 il) mod zlen (std_sets opt)) in Epay. set (v := pn_iter _ _) in Epay.
  pose proof (pay_sent_length opt m2 il s2 b1 H2) as P1. pose proof (pay_sent_length opt m2 il s2 b2 H2) as P2. rewrite Hlen in P1.
  assert (Esent : pay_sent opt m2 il s2 b1 = pay_sent opt m2 il s2 b2).
  { apply list_eq_nth with false; [now rewrite P1, P2|]. rewrite P1.
    apply (syms_inj opt m2 col v _ _ _ _ (npay opt m2 (length b2)) H2 P1 P2 (Nat.le_refl _) (Nat.le_refl _)).
    intros n Hn. apply (f_equal (fun l => nth n l [])) in Epay. now rewrite !nth_map_seq in Epay by assumption. }
  apply (plain_inj opt m2 s2); [assumption|]. apply coded_inj; try assumption.
  unfold pay_sent in Esent. apply list_eq_nth with false; [rewrite !coded_length, Hlen by assumption; reflexivity|].
  set (n := il_block opt m2 il). pose proof (il_block_pos opt m2 il H2 Hi) as Hn. fold n in Hn.
  assert (Hw : exists w, (npay opt m2 (length b2) * coded_bits opt m2 = w * n)%nat).
  { unfold npay, n, il_block. destruct (il =? 0).
    - exists (groups opt m2 (length b2) * mcs_spreading m2)%nat. lia.
    - exists (groups opt m2 (length b2)). lia. }
  destruct Hw as [w Hw].
  pose proof (il_apply_agree n (std_ij opt m2 il) (coded m2 (plain opt m2 s2 b1)) (coded m2 (plain opt m2 s2 b2)) (w * n)
     (std_perm opt m2 il H2 Hi) Hn) as A. rewrite !coded_length in A by assumption. rewrite Hlen in A. rewrite Hw in A.
  specialize (A ltac:(lia) ltac:(lia)). rewrite Nat.div_mul in A by lia.
  rewrite coded_length by assumption. rewrite Hlen, Hw. apply A. intros i _. now rewrite Esent.
Qed.
