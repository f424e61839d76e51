(** * Properties C29-C31, C47: header fields and header check sequences *)
From Verif Require Import Py MBits MFields PList SBits PBits SCrc PPoly PFields MOqpsk Tables.

(** [slice lo n l]: n bits from position lo *)

Lemma skipn_pre {A} n (a b : list A) : length a = n -> skipn n (a ++ b) = b.
Proof. intros <-. rewrite skipn_app, skipn_all, Nat.sub_diag. reflexivity. Qed.
Lemma firstn_pre {A} n (a b : list A) : length a = n -> firstn n (a ++ b) = a.
Proof. intros <-. rewrite firstn_app, firstn_all, Nat.sub_diag. apply app_nil_r. Qed.

(** ** C29 *)
(** PHR(rate, length, scrambler, phr_length).value() of fields.py *)
Definition ofdm_phr (rate len scr : Z) (n : nat) : res (list bool) :=
  do p <- phr_new rate len scr n; phr_value p.

Theorem C29_layout : forall rate len scr n,
  0 <= rate <= 6 -> 1 <= len <= 2047 -> 0 <= scr <= 3 -> (30 <= n)%nat ->
  exists v, ofdm_phr rate len scr n = Ok v
    /\ length v = n
    /\ msb_value (slice 0 5 v) = rate
    /\ msb_value (slice 6 11 v) = len
    /\ msb_value (slice 19 2 v) = scr
    /\ word_ok crc8_ofdm 22 (firstn 30 v)
    /\ slice 5 1 v = [false] /\ slice 17 2 v = [false; false] /\ slice 21 1 v = [false]
    /\ skipn 30 v = repeat false (n - 30).
Proof.
  intros rate len scr n Hr Hl Hs Hn. exists (phr_layout rate len scr n).
  split; [now apply phr_value_ok|]. unfold phr_layout.
  assert (E5 : length (msb_bits 5 rate) = 5%nat) by apply msb_bits_length.
  assert (E11 : length (msb_bits 11 len) = 11%nat) by apply msb_bits_length.
  assert (E2 : length (msb_bits 2 scr) = 2%nat) by apply msb_bits_length.
  assert (V5 : msb_value (msb_bits 5 rate) = rate) by (apply msb_value_msb_bits; simpl; lia).
  assert (V11 : msb_value (msb_bits 11 len) = len) by (apply msb_value_msb_bits; simpl; lia).
  assert (V2 : msb_value (msb_bits 2 scr) = scr) by (apply msb_value_msb_bits; simpl; lia).
  set (R := msb_bits 5 rate) in *. set (L := msb_bits 11 len) in *. set (S := msb_bits 2 scr) in *.
  assert (E8 := crc8_ofdm_length (R ++ [false] ++ L ++ [false; false] ++ S ++ [false])).
  set (C := crc8_ofdm (R ++ [false] ++ L ++ [false; false] ++ S ++ [false])) in *.
  assert (Hc : word_ok crc8_ofdm 22 ((R ++ [false] ++ L ++ [false; false] ++ S ++ [false]) ++ C)).
  { unfold word_ok.
    assert (E22 : length (R ++ [false] ++ L ++ [false; false] ++ S ++ [false]) = 22%nat)
      by (rewrite !app_length, E5, E11, E2; reflexivity).
    rewrite (skipn_pre _ _ _ E22), (firstn_pre _ _ _ E22). reflexivity. }
  clearbody R L S C. clear Hr Hl Hs.
  do 5 (destruct R as [|? R]; [discriminate E5|]). destruct R; [|discriminate E5].
  do 11 (destruct L as [|? L]; [discriminate E11|]). destruct L; [|discriminate E11].
  do 2 (destruct S as [|? S]; [discriminate E2|]). destruct S; [|discriminate E2].
  do 8 (destruct C as [|? C]; [discriminate E8|]). destruct C; [|discriminate E8].
  unfold slice. cbn [app firstn skipn length]. rewrite repeat_length.
  repeat split; auto. lia.
Qed.
Print Assumptions C29_layout.

Theorem C29_accepted_lengths : forall rate len scr n,
  0 <= rate <= 6 -> 0 <= scr <= 3 -> (30 <= n)%nat ->
  (1 <= len <= 2047 -> exists v, ofdm_phr rate len scr n = Ok v)
  /\ (~ 1 <= len <= 2047 -> ofdm_phr rate len scr n = Err ValueError).
Proof.
  intros rate len scr n Hr Hs Hn. split; intro H.
  - eexists. now apply phr_value_ok.
  - now apply phr_value_err.
Qed.
Print Assumptions C29_accepted_lengths.

(** bad rate or scrambler values are refused too, whatever the length *)
Theorem C29_refuses : forall rate len scr n,
  ~ 0 <= rate <= 6 \/ ~ 0 <= scr <= 3 -> ofdm_phr rate len scr n = Err ValueError.
Proof.
  intros rate len scr n H. unfold ofdm_phr, phr_new.
  destruct (Z.leb_spec 0 rate); destruct (Z.leb_spec rate 6); cbn [andb negb]; try reflexivity.
  destruct ((1 <=? len) && (len <=? 2 ^ 11)); cbn [negb]; [|reflexivity].
  destruct (Z.leb_spec 0 scr); destruct (Z.leb_spec scr 3); cbn [andb negb]; try reflexivity. lia.
Qed.
Print Assumptions C29_refuses.

(** one reader recovers the three fields from any header *)
Theorem C29_recoverable : exists read : list bool -> Z * Z * Z, forall rate len scr n v,
  ofdm_phr rate len scr n = Ok v -> (30 <= n)%nat -> read v = (rate, len, scr).
Proof.
  exists (fun v => (msb_value (slice 0 5 v), msb_value (slice 6 11 v), msb_value (slice 19 2 v))).
  intros rate len scr n v H Hn.
  destruct (Z_le_dec 0 rate), (Z_le_dec rate 6), (Z_le_dec 0 scr), (Z_le_dec scr 3);
    try (rewrite C29_refuses in H by lia; discriminate).
  destruct (Z_le_dec 1 len), (Z_le_dec len 2047);
    try (rewrite (proj2 (C29_accepted_lengths rate len scr n ltac:(lia) ltac:(lia) Hn)) in H by lia; discriminate).
  destruct (C29_layout rate len scr n) as (v' & E & _ & Hr & Hl & Hs & _); try lia.
  assert (v' = v) by congruence. subst v'. rewrite Hr, Hl, Hs. reflexivity.
Qed.
Print Assumptions C29_recoverable.
Example C29_case : exists v, ofdm_phr 3 1000 2 36 = Ok v /\ slice 6 11 v =
  [false; true; true; true; true; true; false; true; false; false; false].
Proof. eexists. split; vm_compute; reflexivity. Qed.

(** ** C30 *)
Theorem C30_hcs_is_crc8 : forall h : list bool, length h = 22%nat ->
  HCS_calculation h = map b2z (crc8_ofdm h).
Proof. exact HCS_spec. Qed.
Print Assumptions C30_hcs_is_crc8.

(** The CRC register is the remainder of the division over GF(2): for every header there is a quotient q with
    header(x) * x^8 = q(x) * G(x) + crc(x) coefficient by coefficient modulo 2.  Polynomials are functions from the exponent. *)
Definition coef (l : list bool) (k : nat) : bool := nth k (rev l) false.
(** (q * G) at exponent k, G = x^8 + x^2 + x + 1 *)
Definition qcoef (q : list bool) (k d : nat) : bool := if Nat.leb d k then coef q (k - d) else false.
Definition times_G (q : list bool) (k : nat) : bool :=
  xorb (qcoef q k 8) (xorb (qcoef q k 2) (xorb (qcoef q k 1) (qcoef q k 0))).
Theorem C30_crc8_is_remainder : forall data : list bool, exists q,
  forall k, xorb (times_G q k) (coef (crc8_oqpsk data) k) = coef (data ++ repeat false 8) k.
Proof.
  intro data. unfold crc8_oqpsk.
  induction data as [|b data IH] using rev_ind.
  - exists []. intro k. unfold times_G, qcoef, coef. cbn [rev app].
    assert (E : forall j, nth j (@nil bool) false = false) by (intros []; reflexivity).
    rewrite !E. change (crc8 (repeat false 8) []) with (repeat false 8).
    destruct (Nat.leb 8 k), (Nat.leb 2 k), (Nat.leb 1 k), (Nat.leb 0 k); apply xorb_false_l.
  - destruct IH as [q IH]. unfold crc8 in *. rewrite fold_left_app. cbn [fold_left].
    pose proof (crc8_length (repeat false 8) data eq_refl) as Hr. unfold crc8 in Hr.
    set (r := fold_left crc_step data (repeat false 8)) in *.
    destruct (list8 r Hr) as (r7&r6&r5&r4&r3&r2&r1&r0&Er). rewrite Er in *. clear Er r Hr.
    exists (q ++ [xorb r7 b]). intro k.
    assert (R : forall (l : list bool) x, rev (l ++ [x]) = x :: rev l) by (intros; rewrite rev_app_distr; reflexivity).
    assert (D : forall j, coef ((data ++ [b]) ++ repeat false 8) j =
               if Nat.eqb j 8 then b else match j with O => false | S i => coef (data ++ repeat false 8) i end).
    { intro j. unfold coef. rewrite !rev_app_distr. cbn [rev app repeat].
      do 9 (destruct j as [|j]; [reflexivity|]). cbn [nth Nat.eqb]. reflexivity. }
    assert (Q : forall j, coef (q ++ [xorb r7 b]) j = match j with O => xorb r7 b | S i => coef q i end).
    { intro j. unfold coef. rewrite R. destruct j; reflexivity. }
    rewrite D. unfold times_G, qcoef. rewrite !Q.
    destruct k as [|k].
    { unfold crc_step, coef. cbn [hd tl app rev Nat.leb Nat.sub nth Nat.eqb].
      destruct (xorb r7 b); cbn; reflexivity. }
    specialize (IH k). destruct (Nat.eqb_spec (S k) 8) as [E8|N8].
    + inversion E8; subst k. unfold times_G, qcoef in IH. cbn [Nat.leb Nat.sub] in IH |- *. unfold crc_step, coef in *.
      assert (Z0 : nth 7 (rev (data ++ repeat false 8)) false = false) by (rewrite rev_app_distr; reflexivity).
      rewrite Z0 in IH. cbn [rev app hd tl nth] in IH |- *.
      destruct (xorb r7 b) eqn:Eb; cbn [rev app xor_bits crc_taps nth]; destruct r7, b; try discriminate Eb;
      revert IH; generalize (nth 5 (rev q) false); generalize (nth 6 (rev q) false); generalize (nth 7 (rev q) false);
      intros [] [] []; cbn; congruence.
    + rewrite <- IH. unfold times_G, qcoef.
      unfold crc_step, coef. cbn [hd tl app rev].
      destruct (xorb r7 b) eqn:Eb; cbn [rev app xor_bits crc_taps];
      rewrite ?xorb_false_r, ?xorb_true_r, ?xorb_false_l, ?xorb_true_l;
      do 9 (destruct k as [|k]; [try congruence; cbn; 
         repeat match goal with |- context [nth ?i (rev q) false] => destruct (nth i (rev q) false) end;
         repeat match goal with x : bool |- _ => destruct x end; try discriminate Eb; reflexivity|]);
      cbn [Nat.leb Nat.sub nth]; destruct k; cbn; reflexivity.
Qed.
Print Assumptions C30_crc8_is_remainder.

(** coefficients met while dividing stay far below 2^53, so the float arithmetic of numpy.polydiv is exact:
    for a 22-bit header (part b) and for the constant polynomial of part a *)
Theorem C30_float_exact : forall h : list bool, length h = 22%nat ->
  let u := polymul (poly1d (map b2z h)) (poly1d (1 :: repeat 0 8)) in
  Forall (Forall (fun x => Z.abs x < 2 ^ 53)) (polydiv_arrays (length u + 1 - length HCS_G) u HCS_G)
  /\ let c := polymul (poly1d (1 :: repeat 0 22)) (poly1d (repeat 1 8)) in
     Forall (Forall (fun x => Z.abs x < 2 ^ 53)) (polydiv_arrays (length c + 1 - length HCS_G) c HCS_G).
Proof.
  intros h Hh u.
  assert (G : forall n r, (n <= 52)%nat -> bounded 1 r ->
     Forall (Forall (fun x => Z.abs x < 2 ^ 53)) (polydiv_arrays n r HCS_G)).
  { intros n r Hn Hr. pose proof (polydiv_arrays_bounded n r 1 ltac:(lia) Hr) as H.
    eapply Forall_impl; [|exact H]. intros l Hl. unfold bounded in Hl. eapply Forall_impl; [|exact Hl].
    cbv beta. intros x Hx. rewrite Z.mul_1_r in Hx.
    assert (2 ^ Z.of_nat n <= 2 ^ 52) by (apply Z.pow_le_mono_r; lia).
    assert (2 ^ 52 < 2 ^ 53) by reflexivity. lia. }
  assert (Hp : (length (poly1d (map b2z h)) <= 22)%nat /\ bounded 1 (poly1d (map b2z h))).
  { assert (F : bounded 1 (map b2z h)).
    { apply Forall_forall. intros x Hx. apply in_map_iff in Hx as (b & <- & _). destruct b; cbn; lia. }
    unfold poly1d. destruct (trim_front_decomp (map b2z h)) as [k E]. rewrite E in F. apply Forall_app in F as [_ F].
    apply (f_equal (@length Z)) in E. rewrite app_length, map_length, repeat_length in E.
    destruct (trim_front (map b2z h)); [split; [simpl; lia|repeat constructor; lia]|split; [lia|assumption]]. }
  destruct Hp as [Hp1 Hp2]. split.
  - subst u. change (poly1d (1 :: repeat 0 8)) with (1 :: repeat 0 8). rewrite polymul_xn, poly1d_idem.
    apply G.
    + rewrite app_length, repeat_length. change (length HCS_G) with 9%nat. lia.
    + apply Forall_app. split; [assumption|]. repeat constructor; lia.
  - cbv zeta. apply G.
    + vm_compute. lia.
    + replace (polymul (poly1d (1 :: repeat 0 22)) (poly1d (repeat 1 8))) with (repeat 1 8 ++ repeat 0 22) by (vm_compute; reflexivity).
      repeat constructor; lia.
Qed.
Print Assumptions C30_float_exact.
Example C30_case : HCS_calculation (msb_bits 22 0x155555) = map b2z (crc8_ofdm (msb_bits 22 0x155555))
  /\ HCS_calculation (msb_bits 22 0x155555) <> HCS_calculation (msb_bits 22 0x155557).
Proof. split; vm_compute; [reflexivity|discriminate]. Qed.

(** ** C31 *)
(** MR-OFDM: 22 header bits and 8 check bits; MR-O-QPSK: 16 and 8 *)
Theorem C31_ofdm_detects : forall w e, length w = 30%nat -> detectable 30 e ->
  word_ok crc8_ofdm 22 w -> ~ word_ok crc8_ofdm 22 (xor_bits w e).
Proof.
  intros w e Hw He H1 H2. apply (detect 22 e); auto.
  apply (accepted_lin crc8_ofdm 22 w e); auto. apply He.
Qed.
Print Assumptions C31_ofdm_detects.
Theorem C31_oqpsk_detects : forall w e, length w = 24%nat -> detectable 24 e ->
  word_ok crc8_oqpsk 16 w -> ~ word_ok crc8_oqpsk 16 (xor_bits w e).
Proof.
  intros w e Hw He H1 H2. apply (detect 16 e); auto.
  apply (accepted_lin crc8_oqpsk 16 w e); auto. apply He.
Qed.
Print Assumptions C31_oqpsk_detects.
(** the sent words are accepted: in the headers built by the code *)
Theorem C31_ofdm_sent : forall rate len scr n v, ofdm_phr rate len scr n = Ok v -> (30 <= n)%nat ->
  forall e, detectable 30 e -> ~ word_ok crc8_ofdm 22 (xor_bits (firstn 30 v) e).
Proof.
  intros rate len scr n v H Hn e He.
  destruct (Z_le_dec 0 rate), (Z_le_dec rate 6), (Z_le_dec 0 scr), (Z_le_dec scr 3);
    try (rewrite C29_refuses in H by lia; discriminate).
  destruct (Z_le_dec 1 len), (Z_le_dec len 2047);
    try (rewrite (proj2 (C29_accepted_lengths rate len scr n ltac:(lia) ltac:(lia) Hn)) in H by lia; discriminate).
  destruct (C29_layout rate len scr n) as (v' & E & Hl & _ & _ & _ & Hw & _); try lia.
  assert (v' = v) by congruence. subst v'. apply C31_ofdm_detects; auto. rewrite firstn_length. lia.
Qed.
Print Assumptions C31_ofdm_sent.
Example C31_case : detectable 30 (msb_bits 30 0x00100000) /\ detectable 30 (msb_bits 30 0x10040001)
  /\ detectable 30 (msb_bits 30 0x0003F800).
Proof.
  split; [split; [reflexivity|left; vm_compute; lia]|]. split; [split; [reflexivity|left; vm_compute; lia]|].
  split; [reflexivity|]. right. right. exists 12%nat. exists (repeat true 7). split; [simpl; lia|]. split; [left; reflexivity|].
  split; [vm_compute; reflexivity|simpl; lia].
Qed.

(** ** C47 *)
Definition oqpsk_layout (sm : bool) (rm len : Z) : list bool :=
  let h := [sm] ++ msb_bits 2 rm ++ [false; false] ++ msb_bits 11 len in h ++ crc8_oqpsk h.

Lemma q_PHR_ok s len : 0 <= q_RM s <= 3 -> 0 <= len <= 2047 ->
  q_PHR Wrapping s len = Ok (oqpsk_layout (negb (q_SM s =? 0)) (q_RM s) len).
Proof.
  intros Hr Hl. unfold q_PHR, to_bin.
  rewrite binary_repr_msb by (simpl; lia). rewrite (binary_repr_msb len) by (simpl; lia).
  assert (E2 : length (msb_bits 2 (q_RM s)) = 2%nat) by apply msb_bits_length.
  assert (E11 : length (msb_bits 11 len) = 11%nat) by apply msb_bits_length.
  set (b := negb (q_SM s =? 0)). unfold oqpsk_layout.
  set (R := msb_bits 2 (q_RM s)) in *. set (L := msb_bits 11 len) in *.
  change (set_nth 0 b (repeat false 24)) with ([b] ++ repeat false 2 ++ (repeat false 2 ++ repeat false 11 ++ repeat false 8)).
  rewrite (assign_slice_mid [b] (repeat false 2) R) by (rewrite ?E2; reflexivity). cbn [rbind].
  rewrite (app_assoc R), (app_assoc [b]).
  rewrite (assign_slice_mid ([b] ++ R ++ repeat false 2) (repeat false 11) L)
    by (rewrite ?app_length, ?E2, ?E11; reflexivity). cbn [rbind].
  set (h := [b] ++ R ++ [false; false] ++ L).
  assert (Eh : ([b] ++ R ++ repeat false 2) ++ L ++ repeat false 8 = h ++ repeat false 8).
  { unfold h. rewrite <- !app_assoc. reflexivity. }
  rewrite Eh. assert (Hh : length h = 16%nat) by (unfold h; rewrite !app_length, E2, E11; reflexivity).
  replace (firstn 16 (h ++ repeat false 8)) with h.
  2:{ rewrite firstn_app, Hh, Nat.sub_diag, app_nil_r. rewrite <- Hh. symmetry. apply firstn_all. }
  destruct (q_HCS_spec h) as [H1 H2]; [unfold h; discriminate|].
  assert (E : Nat.ltb 8 (length (q_HCS Wrapping h)) = false) by (apply Nat.ltb_ge; lia). rewrite E, H2.
  rewrite <- (app_nil_r (repeat false 8)).
  rewrite (assign_slice_mid h (repeat false 8)); [now rewrite app_nil_r| | |].
  - now rewrite Hh.
  - unfold crc8_oqpsk. rewrite crc8_length; reflexivity.
  - unfold crc8_oqpsk. rewrite crc8_length; reflexivity.
Qed.
Lemma assign_slice_len_err {A} lo hi (vs l : list A) :
  (length vs <> 1)%nat -> (length vs <> Nat.min hi (length l) - lo)%nat -> assign_slice lo hi vs l = Err ValueError.
Proof.
  intros H1 H2. unfold assign_slice. apply Nat.eqb_neq in H2. rewrite H2.
  destruct vs as [|v [|w vs]]; [reflexivity|simpl in H1; lia|reflexivity].
Qed.
Lemma q_PHR_err p s len : 0 <= q_RM s <= 3 -> 2047 < len -> q_PHR p s len = Err ValueError.
Proof.
  intros Hr Hl. unfold q_PHR, to_bin. rewrite binary_repr_msb by (simpl; lia).
  set (s0 := set_nth 0 _ _). assert (H0 : length s0 = 24%nat) by (unfold s0; now rewrite set_nth_length, repeat_length).
  destruct (assign_slice 1 3 (msb_bits 2 (q_RM s)) s0) as [s1|e] eqn:E.
  - cbn [rbind]. rewrite assign_slice_len_err; [reflexivity| |].
    + pose proof (binary_repr_long len 11 ltac:(lia)) as H. change (2 ^ Z.of_nat 11) with 2048 in H. lia.
    + pose proof (binary_repr_long len 11 ltac:(lia)) as H. change (2 ^ Z.of_nat 11) with 2048 in H. lia.
  - exfalso. unfold assign_slice in E. rewrite msb_bits_length, H0 in E. discriminate E.
Qed.

(** [s]: an object of the class, with one of the four rate modes *)
Theorem C47_layout : forall (s : oqpsk) len, 0 <= q_RM s <= 3 -> 0 <= len <= 2047 ->
  exists v, q_PHR Wrapping s len = Ok v
    /\ length v = 24%nat
    /\ slice 0 1 v = [negb (q_SM s =? 0)]
    /\ msb_value (slice 1 2 v) = q_RM s
    /\ slice 3 2 v = [false; false]
    /\ msb_value (slice 5 11 v) = len
    /\ word_ok crc8_oqpsk 16 v.
Proof.
  intros s len Hr Hl. exists (oqpsk_layout (negb (q_SM s =? 0)) (q_RM s) len).
  split; [now apply q_PHR_ok|]. unfold oqpsk_layout.
  assert (E2 : length (msb_bits 2 (q_RM s)) = 2%nat) by apply msb_bits_length.
  assert (E11 : length (msb_bits 11 len) = 11%nat) by apply msb_bits_length.
  assert (V2 : msb_value (msb_bits 2 (q_RM s)) = q_RM s) by (apply msb_value_msb_bits; simpl; lia).
  assert (V11 : msb_value (msb_bits 11 len) = len) by (apply msb_value_msb_bits; simpl; lia).
  set (b := negb (q_SM s =? 0)). set (R := msb_bits 2 (q_RM s)) in *. set (L := msb_bits 11 len) in *.
  set (C := crc8_oqpsk ([b] ++ R ++ [false; false] ++ L)).
  assert (E8 : length C = 8%nat) by (apply crc8_length; reflexivity).
  assert (HC : word_ok crc8_oqpsk 16 (([b] ++ R ++ [false; false] ++ L) ++ C)).
  { unfold word_ok. assert (E16 : length ([b] ++ R ++ [false; false] ++ L) = 16%nat) by (rewrite !app_length, E2, E11; reflexivity).
    rewrite (skipn_pre _ _ _ E16), (firstn_pre _ _ _ E16). reflexivity. }
  clearbody R L C.
  do 2 (destruct R as [|? R]; [discriminate E2|]). destruct R; [|discriminate E2].
  do 11 (destruct L as [|? L]; [discriminate E11|]). destruct L; [|discriminate E11].
  do 8 (destruct C as [|? C]; [discriminate E8|]). destruct C; [|discriminate E8].
  unfold slice. cbn [app firstn skipn length]. repeat split; auto.
Qed.
Print Assumptions C47_layout.
(** an octet count above 2047 is refused, on every platform *)
Theorem C47_accepted_lengths : forall p (s : oqpsk) len, 0 <= q_RM s <= 3 -> 2047 < len ->
  q_PHR p s len = Err ValueError.
Proof. intros. now apply q_PHR_err. Qed.
Print Assumptions C47_accepted_lengths.
(** every detectable error pattern on the header is seen by a receiver checking the CRC *)
Theorem C47_errors_detected : forall (s : oqpsk) len v e, 0 <= q_RM s <= 3 -> 0 <= len <= 2047 ->
  q_PHR Wrapping s len = Ok v -> detectable 24 e -> ~ word_ok crc8_oqpsk 16 (xor_bits v e).
Proof.
  intros s len v e Hr Hl H He. destruct (C47_layout s len Hr Hl) as (v' & E & Hv & _ & _ & _ & _ & Hw).
  assert (v' = v) by congruence. subst v'. now apply C31_oqpsk_detects.
Qed.
Print Assumptions C47_errors_detected.
(** The code converts the (possibly negative) float remainder with astype(uint8), which numpy leaves to the platform.
    Where negative values become 0 (AArch64) the check sequence is wrong: *)
Theorem C47_saturating_platform_refuted : exists (s : oqpsk) len v,
  0 <= q_RM s <= 3 /\ 0 <= len <= 2047 /\ q_PHR Saturating s len = Ok v /\ ~ word_ok crc8_oqpsk 16 v.
Proof.
  exists {| q_sps := 8; q_SM := 0; q_band := Band_470MHz; q_RM := 1; q_mem := [] |}, 100.
  eexists. split; [simpl; lia|]. split; [lia|]. split; [vm_compute; reflexivity|].
  unfold word_ok. vm_compute. discriminate.
Qed.
Print Assumptions C47_saturating_platform_refuted.
Example C47_case : exists v, q_PHR Wrapping {| q_sps := 10; q_SM := 1; q_band := Band_470MHz; q_RM := 2; q_mem := [] |} 1000 = Ok v
  /\ length v = 24%nat /\ msb_value (slice 5 11 v) = 1000 /\ detectable 24 (repeat false 10 ++ [true] ++ repeat false 13)
  /\ detectable 24 (repeat false 3 ++ [true] ++ repeat false 9 ++ [true] ++ repeat false 10).
Proof.
  eexists. split; [vm_compute; reflexivity|]. split; [reflexivity|]. split; [vm_compute; reflexivity|].
  split; split; try reflexivity; left; vm_compute; lia.
Qed.
