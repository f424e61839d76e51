(** * Properties C01-C03: payload conversion (bits.py and the entry points of the modulators) *)
From Verif Require Import Py MBits SBits SEntry PBits PEntry MFsk MMrOfdm MOqpsk Tables.

(** C01: octets become bits LSB first: bit 8*i+j of the result is bit j of octet i *)
Theorem C01_lsb_first : forall (a : arg) (octets : list Z),
  holds_octets a octets -> octets <> [] -> Forall is_octet octets ->
  exists bits, to_binary_array a = Ok bits
    /\ length bits = (8 * length octets)%nat
    /\ forall i j, (i < length octets)%nat -> (j < 8)%nat ->
         nth (8 * i + j) bits false = Z.testbit (nth i octets 0) (Z.of_nat j).
Proof.
  intros a zs H Hne Ho. exists (octet_bits zs). split; [now apply holds_octets_ok|].
  split; [apply octet_bits_length|]. intros. now apply octet_bits_nth.
Qed.
Print Assumptions C01_lsb_first.

(** bytesToIQ of each modulator is bitsToIQ on those bits, whatever container holds the octets *)
Theorem C01_bytes_is_bits : forall (a : arg) (octets : list Z),
  holds_octets a octets -> octets <> [] -> Forall is_octet octets ->
  let bits := AArr 1 (map (fun b : bool => if b then 1%Q else 0%Q) (octet_bits octets)) in
  (forall s, k_bytesToIQ a s = k_bitsToIQ bits s)
  /\ (forall s, m_bytes_symbols a s = m_bits_symbols bits s)
  /\ (forall p s, q_bytesToChips p a s = q_bitsToChips p bits s).
Proof.
  intros a zs H Hne Ho. repeat split; intros.
  - exact (fsk_bytes_bits a zs s H Hne Ho).
  - exact (ofdm_bytes_bits a zs s H Hne Ho).
  - exact (oqpsk_bytes_bits p a zs s H Hne Ho).
Qed.
Print Assumptions C01_bytes_is_bits.

Theorem C01_lossless : forall xs ys,
  Forall is_octet xs -> Forall is_octet ys -> octet_bits xs = octet_bits ys -> xs = ys.
Proof. exact octet_bits_inj. Qed.
Print Assumptions C01_lossless.

Theorem C01_containers_agree : forall a b octets s t p,
  holds_octets a octets -> holds_octets b octets ->
  k_bytesToIQ a s = k_bytesToIQ b s
  /\ m_bytes_symbols a t = m_bytes_symbols b t
  /\ forall u, q_bytesToChips p a u = q_bytesToChips p b u.
Proof.
  intros a b zs s t p Ha Hb.
  assert (E : to_binary_array a = to_binary_array b).
  { unfold to_binary_array.
    assert (Ev : forall c, holds_octets c zs -> to_int_array c = Ok (1%nat, zs)).
    { intros c Hc. destruct Hc; simpl; try rewrite map_Qtrunc_inject; reflexivity. }
    now rewrite (Ev a Ha), (Ev b Hb). }
  unfold k_bytesToIQ, m_bytes_symbols, q_bytesToChips, sbind, slift. rewrite E. auto.
Qed.
Print Assumptions C01_containers_agree.

Example C01_case : holds_octets (ABytes [x02; xf6]) [2; 246] /\ Forall is_octet [2; 246]
  /\ to_binary_array (ABytes [x02; xf6]) =
     Ok [false; true; false; false; false; false; false; false;
         false; true; true; false; true; true; true; true].
Proof.
  split; [exact (HO_bytes [x02; xf6])|]. split; [|vm_compute; reflexivity].
  repeat constructor; vm_compute; discriminate.
Qed.

(** C02: malformed payloads raise TypeError or ValueError and leave the object as it was *)
Theorem C02_bytes_rejected : forall a, malformed_octets a ->
  exists e, rejection e
    /\ (forall s, k_bytesToIQ a s = (s, Err e))
    /\ (forall s, m_bytes_symbols a s = (s, Err e))
    /\ (forall p s, q_bytesToChips p a s = (s, Err e)).
Proof.
  intros a H. destruct (malformed_octets_err a H) as (e & He & Hr). exists e.
  repeat split; auto; intros; [now apply fsk_bytes_err|now apply ofdm_bytes_err|now apply oqpsk_bytes_err].
Qed.
Print Assumptions C02_bytes_rejected.

Theorem C02_bits_rejected : forall a, malformed_bits a ->
  exists e, rejection e
    /\ (forall s, k_bitsToIQ a s = (s, Err e))
    /\ (forall s, m_bits_symbols a s = (s, Err e))
    /\ (forall p s, q_bitsToChips p a s = (s, Err e)).
Proof.
  intros a H. destruct (malformed_bits_err a H) as (e & He & Hr). exists e.
  repeat split; auto; intros; [now apply fsk_bits_err|now apply ofdm_bits_err|now apply oqpsk_bits_err].
Qed.
Print Assumptions C02_bits_rejected.

(** an accepted payload is a non-empty 1-D list or array of numbers between 0 and 1, and is treated as the
    bits "element = 1": an element equal to 0 or 1 keeps its value *)
Definition reads_as (a : arg) (bits : list bool) : Prop :=
  exists xs, (a = AList 1 xs \/ a = AArr 1 xs) /\ xs <> []
    /\ Forall (fun q => 0 <= q <= 1)%Q xs
    /\ length bits = length xs
    /\ forall i, (i < length xs)%nat ->
         (nth i bits false = true <-> (nth i xs 0%Q == 1)%Q).
Theorem C02_accepted_bits : forall a,
  (exists s t sig, k_bitsToIQ a s = (t, Ok sig))
  \/ (exists s t sig, m_bits_symbols a s = (t, Ok sig))
  \/ (exists p s t sig, q_bitsToChips p a s = (t, Ok sig)) ->
  exists bits, reads_as a bits
    /\ (forall s, k_bitsToIQ a s = k_bitsToIQ (bits_arg bits) s)
    /\ (forall s, m_bits_symbols a s = m_bits_symbols (bits_arg bits) s)
    /\ (forall p s, q_bitsToChips p a s = q_bitsToChips p (bits_arg bits) s).
Proof.
  intros a H. destruct (check_binary_array a) as [bits|e] eqn:E.
  - exists bits. split.
    + pose proof (check_binary_inv a bits E) as (xs & Ha & Hne & Hu & Hb). exists xs.
      repeat split; auto; subst bits.
      * apply map_length.
      * rewrite PList.nth_map with (d := 0%Q) by assumption. apply Qeq_bool_iff.
      * rewrite PList.nth_map with (d := 0%Q) by assumption. apply Qeq_bool_iff.
    + pose proof (check_binary_value a bits E) as E2.
      unfold k_bitsToIQ, m_bits_symbols, q_bitsToChips.
      repeat split; intros; unfold sbind at 1 2, slift at 1 2; rewrite E, E2; reflexivity.
  - exfalso. destruct H as [(s & t & g & H)|[(s & t & g & H)|(p & s & t & g & H)]].
    + rewrite (fsk_bits_err a e s E) in H. discriminate.
    + rewrite (ofdm_bits_err a e s E) in H. discriminate.
    + rewrite (oqpsk_bits_err p a e s E) in H. discriminate.
Qed.
Print Assumptions C02_accepted_bits.

Example C02_case : malformed_octets (AList 1 [inject_Z 3; inject_Z 256])
  /\ malformed_bits (AArr 2 [1%Q; 0%Q]) /\ malformed_octets (AStr "abc") /\ malformed_bits (ABytes [x01]).
Proof.
  repeat split.
  - right. right. exists (inject_Z 256). split; [simpl; auto|]. right. apply Qle_refl.
  - right. left. discriminate.
Qed.

(** C03 is false of the code: numbers strictly between 0 and 1 are silently sent as 0 by every modulator *)
Definition default_fsk : res fsk :=
  fsk_new (PInt 50000) (PFloat 1) (PInt 0) (PStr "2FSK") (PBool false) (PInt 0) (PInt 0) (PBool false)
          (PBool false) (PInt 4).
Definition default_ofdm : res mr_ofdm := mr_ofdm_new (PInt 3) (PInt 2) (PInt 0) (PInt 0).
Definition default_oqpsk : res oqpsk := oqpsk_new Band_868MHz 0 0 4.

Theorem C03_refuted :
  exists xs : list Q, Exists (fun q => ~ (q == 0)%Q /\ ~ (q == 1)%Q) xs
  /\ (exists s, default_fsk = Ok s /\ is_ok (snd (k_bitsToIQ (AList 1 xs) s)) = true
        /\ k_bitsToIQ (AList 1 xs) s = k_bitsToIQ (AList 1 (repeat 0%Q 8)) s)
  /\ (exists s, default_ofdm = Ok s /\ is_ok (snd (m_bits_symbols (AList 1 xs) s)) = true
        /\ m_bits_symbols (AList 1 xs) s = m_bits_symbols (AList 1 (repeat 0%Q 8)) s)
  /\ (exists s, default_oqpsk = Ok s /\ is_ok (snd (q_bitsToChips Wrapping (AList 1 xs) s)) = true
        /\ q_bitsToChips Wrapping (AList 1 xs) s = q_bitsToChips Wrapping (AList 1 (repeat 0%Q 8)) s).
Proof.
  exists (repeat (1 # 2)%Q 8). split.
  { left. split; intro H; vm_compute in H; discriminate. }
  split; [|split].
  - destruct default_fsk as [s|] eqn:E; [|vm_compute in E; discriminate]. exists s.
    vm_compute in E. inversion E; subst; clear E. split; [reflexivity|]. split; vm_compute; reflexivity.
  - destruct default_ofdm as [s|] eqn:E; [|vm_compute in E; discriminate]. exists s.
    vm_compute in E. inversion E; subst; clear E. split; [reflexivity|]. split; vm_compute; reflexivity.
  - destruct default_oqpsk as [s|] eqn:E; [|vm_compute in E; discriminate]. exists s.
    vm_compute in E. inversion E; subst; clear E. split; [reflexivity|]. split; vm_compute; reflexivity.
Qed.
Print Assumptions C03_refuted.

(** what holds: integral payloads are accepted only if they are bits (every other integer is rejected) *)
Theorem C03_integers_partial : forall zs,
  (forall z, In z zs -> z = 0 \/ z = 1) \/
  exists e, rejection e
    /\ (forall s, k_bitsToIQ (AList 1 (map inject_Z zs)) s = (s, Err e))
    /\ (forall s, m_bits_symbols (AList 1 (map inject_Z zs)) s = (s, Err e))
    /\ (forall p s, q_bitsToChips p (AList 1 (map inject_Z zs)) s = (s, Err e)).
Proof.
  intro zs. destruct (forallb (fun z => (z =? 0) || (z =? 1)) zs) eqn:E.
  - left. intros z Hz. rewrite forallb_forall in E. specialize (E z Hz). lia.
  - right. apply C02_bits_rejected. simpl. right. right.
    assert (Hex : exists z, In z zs /\ (z < 0 \/ 1 < z)).
    { induction zs as [|z zs IH]; [discriminate|]. simpl in E.
      destruct ((z =? 0) || (z =? 1)) eqn:Ez.
      - destruct IH as (z' & Hin & Hz'); [exact E|]. exists z'. simpl. auto.
      - exists z. simpl. split; [auto|lia]. }
    destruct Hex as (z & Hin & Hz). exists (inject_Z z). split; [now apply in_map|].
    destruct Hz as [Hz|Hz]; [left|right]; [change 0%Q with (inject_Z 0)|change 1%Q with (inject_Z 1)];
      rewrite <- Zlt_Qlt; assumption.
Qed.
Print Assumptions C03_integers_partial.
(** a list of bits and a list with a 2: each side of the alternative occurs *)
Example C03_case : (forall z, In z [1; 0; 0; 1; 1; 0; 1; 0] -> z = 0 \/ z = 1) /\ ~ (forall z, In z [1; 2; 0] -> z = 0 \/ z = 1).
Proof. split; [cbn; intros z H; decompose [or] H; subst; tauto|]. intro H. specialize (H 2 ltac:(cbn; tauto)). lia. Qed.

(** ** C70: numbers to bits and back *)
Theorem C70_to_bin : forall n w, (0 < w)%nat -> 0 <= n < 2 ^ Z.of_nat w ->
  to_bin n w true = msb_bits w n /\ to_bin n w false = lsb_bits w n
  /\ length (to_bin n w true) = w /\ length (to_bin n w false) = w
  /\ msb_value (to_bin n w true) = n /\ lsb_value (to_bin n w false) = n.
Proof.
  intros n w Hw Hn. unfold to_bin. rewrite binary_repr_msb by assumption. rewrite rev_msb.
  split; [reflexivity|]. split; [reflexivity|]. split; [apply msb_bits_length|]. split; [apply lsb_bits_length|].
  split; [now apply msb_value_msb_bits|]. rewrite lsb_value_lsb_bits. apply Z.mod_small. assumption.
Qed.
Print Assumptions C70_to_bin.
Theorem C70_too_wide : forall n w m, (0 < w)%nat -> 2 ^ Z.of_nat w <= n -> (w < length (to_bin n w m))%nat.
Proof. intros n w m Hw Hn. unfold to_bin. destruct m; rewrite ?rev_length; now apply binary_repr_long. Qed.
Print Assumptions C70_too_wide.
Lemma le_value_lsb l : le_value l = lsb_value l.
Proof. induction l as [|b r IH]; [reflexivity|]. cbn [le_value lsb_value]. rewrite IH. unfold b2z. destruct b; reflexivity. Qed.
Lemma firstn_lsb_bits k w z : firstn k (lsb_bits w z) = lsb_bits (Nat.min k w) z.
Proof.
  revert w z. induction k as [|k IH]; intros w z; [reflexivity|]. destruct w as [|w]; [reflexivity|].
  cbn [Nat.min]. rewrite !lsb_bits_S. cbn [firstn]. now rewrite IH.
Qed.
(** with opposite orders the two functions are inverse to each other, up to 8 bits *)
Theorem C70_opposite_orders_partial : forall n w m, (0 < w)%nat -> 0 <= n < 2 ^ Z.of_nat w ->
  to_int (to_bin n w m) (negb m) = Ok (n mod 256).
Proof.
  intros n w m Hw Hn.
  assert (E : (if negb m then to_bin n w m else rev (to_bin n w m)) = lsb_bits w n).
  { unfold to_bin. rewrite binary_repr_msb by assumption. destruct m; cbn [negb]; now rewrite rev_msb. }
  unfold to_int. rewrite E. destruct w as [|w]; [lia|]. rewrite lsb_bits_S at 1. rewrite le_value_lsb, firstn_lsb_bits, lsb_value_lsb_bits. f_equal.
  destruct (Nat.le_gt_cases 8 (S w)) as [H|H].
  - rewrite Nat.min_l by lia. reflexivity.
  - rewrite Nat.min_r by lia. assert (L : 2 ^ Z.of_nat (S w) <= 2 ^ 8) by (apply Z.pow_le_mono_r; lia). change (2 ^ 8) with 256 in L.
    rewrite !Z.mod_small; lia.
Qed.
Print Assumptions C70_opposite_orders_partial.
(** with the same order (the documented use, and the defaults) the bits come back reversed *)
Theorem C70_same_order_refuted : forall n w m, (0 < w <= 8)%nat -> 0 <= n < 2 ^ Z.of_nat w ->
  to_int (to_bin n w m) m = Ok (msb_value (lsb_bits w n))
  /\ (to_int (to_bin n w m) m = Ok n <-> lsb_bits w n = msb_bits w n).
Proof.
  intros n w m Hw Hn.
  assert (E : (if m then to_bin n w m else rev (to_bin n w m)) = msb_bits w n).
  { unfold to_bin. rewrite binary_repr_msb by (lia || assumption). destruct m; [reflexivity|apply rev_involutive]. }
  assert (F : to_int (to_bin n w m) m = Ok (msb_value (lsb_bits w n))).
  { unfold to_int. rewrite E. assert (L := msb_bits_length w n). destruct (msb_bits w n) as [|b r] eqn:B; [cbn in L; lia|].
    rewrite le_value_lsb, firstn_all2 by lia. unfold msb_value. rewrite <- B, rev_lsb. reflexivity. }
  split; [exact F|]. rewrite F. split; intro H.
  - assert (M : msb_value (lsb_bits w n) = msb_value (msb_bits w n)) by (rewrite msb_value_msb_bits by assumption; congruence).
    unfold msb_value in M. rewrite rev_msb, rev_lsb in M. apply lsb_value_inj in M; [now rewrite M|]. now rewrite msb_bits_length, lsb_bits_length.
  - rewrite H. f_equal. now apply msb_value_msb_bits.
Qed.
Print Assumptions C70_same_order_refuted.
Example C70_case : to_int (to_bin 1 8 true) true = Ok 128.
Proof. reflexivity. Qed.
