(** * C55: exactly what is lost of DSSS payloads of 8 octets or more *)
From Verif Require Import Py MBits MModul MOfdm Tables MRate MOqpsk SBits SEntry SRate SOqpsk PList PBits PEntry PConv PRate POqpsk POqRun Prop_Oqpsk.
Open Scope Z_scope.
Lemma pos_reached nb j : (0 < nb)%nat -> (j < 126 * nb)%nat -> (j < 126 \/ 108 * nb + 18 <= j)%nat -> exists k, (k < 126 * nb)%nat /\ q_pos true (126 * nb) k = j.
Proof.
  intros Hn Hj Hr.
  assert (K : exists k i, (k < 126 * nb)%nat /\ q_il_index true (Z.of_nat k) = i /\ Z.to_nat (if i <? 0 then Z.of_nat (126 * nb) + i else i) = j).
  { destruct (Nat.lt_ge_cases j 126) as [H|H].
    - exists (125 - (7 * (j mod 18) + j / 18))%nat, (Z.of_nat j). pose proof (Nat.div_mod j 18 ltac:(lia)) as D. pose proof (Nat.mod_upper_bound j 18 ltac:(lia)) as U.
      split; [lia|]. split; [|destruct (Z.ltb_spec (Z.of_nat j) 0); lia]. unfold q_il_index. cbv zeta. change (126 / 7) with 18.
      set (q := (j mod 18)%nat) in *. set (a := (j / 18)%nat) in *. assert (a <= 6)%nat by lia. replace (126 - 1 - Z.of_nat (125 - (7 * q + a))) with (Z.of_nat a + Z.of_nat q * 7) by lia.
      rewrite Z.mod_add, Z.div_add by lia. rewrite Z.mod_small, Z.div_small by lia. lia.
    - exists (125 + 7 * (126 * nb - j))%nat, (- Z.of_nat (126 * nb - j)). split; [lia|]. split.
      + unfold q_il_index. cbv zeta. change (126 / 7) with 18. replace (126 - 1 - Z.of_nat (125 + 7 * (126 * nb - j))) with (0 + - Z.of_nat (126 * nb - j) * 7) by lia.
        rewrite Z.mod_add, Z.div_add by lia. change (0 mod 7) with 0. change (0 / 7) with 0. lia.
      + destruct (Z.ltb_spec (- Z.of_nat (126 * nb - j)) 0); lia. }
  destruct K as (k & i & Hk & Ei & E). exists k. split; [assumption|]. unfold q_pos. rewrite Ei. exact E.
Qed.
Lemma taps_step x y n : (forall t, (0 < t <= 6)%nat -> (t <= n)%nat -> nth (n - t) x false = nth (n - t) y false) ->
  xor_taps 0 x n taps_133 = xor_taps 0 y n taps_133 -> nth n x false = nth n y false.
Proof.
  intros H E. unfold xor_taps, taps_133 in E. cbn [fold_right] in E.
  assert (T : forall t, (0 < t <= 6)%nat -> tap 0 x n t = tap 0 y n t). { intros t Ht. unfold tap. destruct (Nat.leb_spec t n); [now apply H|reflexivity]. }
  rewrite !(T 2%nat), !(T 3%nat), !(T 5%nat), !(T 6%nat) in E by lia. unfold tap at 1 in E. cbn [Nat.leb] in E. rewrite Nat.sub_0_r in E.
  match type of E with xorb ?a ?r = xorb ?b _ => destruct a, r; unfold tap in E at 1; cbn [Nat.leb] in E; rewrite Nat.sub_0_r in E; destruct (nth n y false); cbn in E; congruence end.
Qed.
Lemma taps_back x y j : (forall i, (j < i <= j + 6)%nat -> nth i x false = nth i y false) ->
  xor_taps 0 x (j + 6) taps_133 = xor_taps 0 y (j + 6) taps_133 -> nth j x false = nth j y false.
Proof.
  intros H E. unfold xor_taps, taps_133 in E. cbn [fold_right] in E.
  assert (T : forall z t, (t <= 6)%nat -> tap 0 z (j + 6) t = nth (j + 6 - t) z false). { intros z t Ht. unfold tap. destruct (Nat.leb_spec t (j + 6)); [reflexivity|lia]. }
  rewrite !T in E by lia. rewrite (H (j + 6 - 0)%nat), (H (j + 6 - 2)%nat), (H (j + 6 - 3)%nat), (H (j + 6 - 5)%nat) in E by lia. replace (j + 6 - 6)%nat with j in E by lia.
  rewrite !xorb_false_r in E. repeat match type of E with xorb ?c ?a = xorb ?c ?b => assert (a = b) as E' by (destruct c, a, b; cbn in E; congruence); clear E; rename E' into E end. exact E.
Qed.
(** what the transmitted coded bits determine *)
Lemma kept_bits x y nb : (0 < nb)%nat -> length x = (63 * nb)%nat -> length y = (63 * nb)%nat ->
  (forall j, (63 * nb - 6 <= j)%nat -> nth j x false = nth j y false) ->
  q_interleaver (code_12 0 x) true = q_interleaver (code_12 0 y) true ->
  forall j, (j < 63 \/ 54 * nb + 3 <= j)%nat -> nth j x false = nth j y false.
Proof.
  intros Hn Hx Hy Ht E.
  assert (C : forall j, (j < 126 * nb)%nat -> (j < 126 \/ 108 * nb + 18 <= j)%nat -> nth j (code_12 0 x) false = nth j (code_12 0 y) false).
  { intros j Hj Hr. destruct (pos_reached nb j Hn Hj Hr) as (k & Hk & Ek). rewrite (q_interleaver_run true _ nb), (q_interleaver_run true _ nb) in E by (try assumption; rewrite code_12_length; lia).
    injection E as E. apply (f_equal (fun l => nth k l false)) in E. rewrite !code_12_length, Hx, Hy in E. rewrite !nth_map_seq in E by lia. replace (2 * (63 * nb))%nat with (126 * nb)%nat in E by lia. rewrite Ek in E. exact E. }
  assert (A : forall n, (n < 63 * nb)%nat -> (n < 63 \/ 54 * nb + 9 <= n)%nat -> xor_taps 0 x n taps_133 = xor_taps 0 y n taps_133).
  { intros n Hn' Hr. destruct (code_12_nth 0 x n ltac:(lia)) as [<- _]. destruct (code_12_nth 0 y n ltac:(lia)) as [<- _]. apply C; lia. }
  assert (F : forall j, (j < 63)%nat -> nth j x false = nth j y false).
  { intro j. induction j as [j IH] using lt_wf_ind. intro Hj. apply taps_step; [intros; apply IH; lia|]. apply A; lia. }
  assert (B : forall d j, (63 * nb - j <= d)%nat -> (54 * nb + 3 <= j)%nat -> nth j x false = nth j y false).
  { induction d as [|d IH]; intros j Hd Hj; [apply Ht; lia|]. destruct (Nat.lt_ge_cases j (63 * nb - 6)) as [L|L]; [|apply Ht; lia].
    apply taps_back; [intros; apply IH; lia|]. apply A; lia. }
  intros j [Hj|Hj]; [now apply F|]. now apply (B (63 * nb)%nat); [lia|].
Qed.
Lemma psdu_chips_kept b rm zs zs' : 0 <= rm <= 3 -> zlen zs = zlen zs' -> 1 <= zlen zs -> (four_bits b rm = true -> Z.odd (psdu_blocks (zlen zs)) = false) ->
  psdu_chips b rm 0 (zlen zs) (octet_bits zs) = psdu_chips b rm 0 (zlen zs) (octet_bits zs') ->
  forall j, (j < 63 \/ 54 * Z.to_nat (psdu_blocks (zlen zs)) + 3 <= j)%nat -> nth j (octet_bits zs) false = nth j (octet_bits zs') false.
Proof.
  intros Hr El Hl H4 E. unfold psdu_chips in E. change (0 =? 0) with true in E. cbv iota in E.
  destruct (sp_psdu_ok b rm Hr) as (_ & _ & E3). unfold four_bits in H4.
  destruct (psdu_blocks_spec (zlen zs) ltac:(lia)) as [B Bp]. set (nb := Z.to_nat (psdu_blocks (zlen zs))) in *. assert (Hnb : Z.of_nat nb = psdu_blocks (zlen zs)) by (unfold nb; lia).
  assert (L : length (octet_bits zs) = Z.to_nat (8 * zlen zs)) by (rewrite octet_bits_length; unfold zlen; lia).
  assert (L' : length (octet_bits zs') = Z.to_nat (8 * zlen zs)) by (rewrite octet_bits_length; unfold zlen in *; lia).
  assert (P : forall z, length (octet_bits z) = Z.to_nat (8 * zlen zs) -> length (psdu_code (zlen zs) (octet_bits z)) = (126 * nb)%nat) by (intros z Hz; rewrite psdu_code_length by (auto; lia); unfold nb; lia).
  assert (Ld : forall z, length (octet_bits z) = Z.to_nat (8 * zlen zs) -> length (dsss_bits b rm (zlen zs) (octet_bits z)) = (126 * nb)%nat).
  { intros z Hz. unfold dsss_bits. cbv zeta. destruct (bde_psdu b rm); rewrite ?BDE_length, ilv_length; now apply P. }
  assert (Dd : dsss_bits b rm (zlen zs) (octet_bits zs) = dsss_bits b rm (zlen zs) (octet_bits zs')).
  { destruct (sp_psdu b rm) as [sp|]; [|assumption]. destruct (E3 sp eq_refl) as [Hi Hk].
    assert (M : Nat.modulo (126 * nb) (spread_bits sp) = 0%nat).
    { destruct Hk as [Hk|Hk]; rewrite Hk; [apply Nat.mod_1_r|]. rewrite Hk in H4. specialize (H4 eq_refl). rewrite <- Hnb in H4.
      rewrite <- Z.negb_even in H4. apply negb_false_iff, Z.even_spec in H4 as [q Hq]. replace (126 * nb)%nat with (63 * Z.to_nat q * 4)%nat by lia. apply Nat.mod_mul. lia. }
    apply spread_inj in E; [assumption|assumption| |]; rewrite Ld; assumption. }
  assert (I : ilv true (psdu_code (zlen zs) (octet_bits zs)) = ilv true (psdu_code (zlen zs) (octet_bits zs'))).
  { unfold dsss_bits in Dd. cbv zeta in Dd. destruct (bde_psdu b rm); [now apply BDE_inj in Dd|assumption]. }
  assert (Q : q_interleaver (psdu_code (zlen zs) (octet_bits zs)) true = q_interleaver (psdu_code (zlen zs) (octet_bits zs')) true).
  { rewrite !(q_interleaver_run true _ nb); try (unfold nb; lia); try (apply P; assumption). f_equal. exact I. }
  unfold psdu_code in Q. set (z := Z.to_nat (63 * psdu_blocks (zlen zs) - 8 * zlen zs)) in *. assert (Hz : (6 <= z)%nat /\ (Z.to_nat (8 * zlen zs) + z = 63 * nb)%nat) by (unfold z, nb; lia).
  assert (K := fun H => kept_bits (octet_bits zs ++ repeat false z) (octet_bits zs' ++ repeat false z) nb ltac:(unfold nb; lia) ltac:(rewrite app_length, repeat_length; lia) ltac:(rewrite app_length, repeat_length; lia) H Q).
  intros j Hj. destruct (Nat.lt_ge_cases j (length (octet_bits zs))) as [H|H]; [|rewrite !nth_overflow by lia; reflexivity].
  specialize (K ltac:(intros i Hi; rewrite !app_nth2 by lia; now rewrite L, L') j Hj). rewrite !app_nth1 in K by lia. exact K.
Qed.
(** a DSSS frame and any other frame of its band (any mode): same chips exactly when rate mode, spreading mode, number of octets
    and the payload bits outside 63 .. 54 nb + 2 are the same (nb: interleaver blocks).  Bits 63 to 54 nb + 2 are lost, no others *)
Theorem C55_exact_partial p b rm sps s a zs chips f rm' sm' sps' s' a' zs' chips' f' :
  oq_used p b rm 0 sps s -> oq_used p b rm' sm' sps' s' -> oq_supported b rm 0 -> oq_supported b rm' sm' -> 0 < sps -> 0 < sps' ->
  holds_octets a zs -> holds_octets a' zs' -> Forall is_octet zs -> Forall is_octet zs' -> 1 <= zlen zs <= 2047 -> 1 <= zlen zs' <= 2047 ->
  snd (q_bytesToChips p a s) = Ok (chips, f) -> snd (q_bytesToChips p a' s') = Ok (chips', f') ->
  (chips = chips' <->
   rm = rm' /\ sm' = 0 /\ zlen zs = zlen zs'
   /\ forall j, (j < 63 \/ 54 * Z.to_nat (psdu_blocks (zlen zs)) + 3 <= j)%nat -> nth j (octet_bits zs) false = nth j (octet_bits zs') false).
Proof.
  intros Hu Hu' Hs Hs' Hp Hp' Ha Ha' Ho Ho' Hl Hl' E E'. split.
  - intros <-. destruct (C56_header p b rm 0 sps s a zs chips f rm' sm' sps' s' a' zs' f') as (<- & <- & El); auto.
    split; [reflexivity|]. split; [reflexivity|]. assert (Ez : zlen zs = zlen zs') by (unfold zlen; lia). split; [assumption|].
    change (q_bytesToChips p a s) with (oq_send p (Octets a) s) in E. change (q_bytesToChips p a' s') with (oq_send p (Octets a') s') in E'.
    rewrite (octets_sent p b rm 0 sps s a zs) in E by (auto; lia). rewrite (octets_sent p b rm 0 sps' s' a' zs') in E' by (auto; lia).
    rewrite <- Ez in E'. destruct (needs_pairs b rm 0 && Z.odd (psdu_blocks (zlen zs))) eqn:Hn; [discriminate|].
    injection E as E _. injection E' as E' _. rewrite <- E' in E. apply app_inv_head in E. apply app_inv_head in E. apply with_pilots_inj in E.
    rewrite <- (needs_pairs_eq b rm 0 Hs) in Hn. change (pairs_only b rm 0) with (four_bits b rm) in Hn.
    apply (psdu_chips_kept b rm); auto; [apply Hs|lia|]. intro H4. now rewrite H4 in Hn.
  - intros (<- & -> & El & K). pose proof (octets_sent p b rm 0 sps s a zs Hu Hs Hp Ha Ho Hl) as F. pose proof (octets_sent p b rm 0 sps' s' a' zs' Hu' Hs' Hp' Ha' Ho' Hl') as F'.
    cbn [oq_send] in F, F'. rewrite E in F. rewrite E' in F'. destruct (_ && _) in F; [discriminate|]. destruct (_ && _) in F'; [discriminate|]. injection F as -> _. injection F' as -> _.
    rewrite <- El. now rewrite (psdu_chips_agree b rm 0 zs zs') by (auto; lia).
Qed.
Print Assumptions C55_exact_partial.
(** non-vacuity: 8 octets (2 blocks): bits 63 to 110 are lost, so only the last bit of the eighth octet *)
Example C55_exact_case : exists s chips f, oq_used Wrapping Band_915MHz 1 0 10 s /\ oq_supported Band_915MHz 1 0
  /\ snd (q_bytesToChips Wrapping (ABytes (repeat x55 8)) s) = Ok (chips, f) /\ psdu_blocks 8 = 2.
Proof. eexists. eexists. eexists. split; [eexists; exists []; split; reflexivity|]. split; [split; [lia|now left]|]. split; [vm_compute; reflexivity|reflexivity]. Qed.
