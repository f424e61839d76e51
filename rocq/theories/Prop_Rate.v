(** * Properties C23-C27, C71, C72: convolutional encoders of rate_encoder.py
    Bits are given to the encoders as the integers 0/1 ([map b2z]). *)
From Verif Require Import Py MRate PList SBits PBits SRate PConv PRate PRate34.

(** C23: from any seed, on any input *)
Theorem C23_taps : forall (seed : Z) (x : list bool),
  let '(_, (A, B, out)) := r12_sequence (r12_new seed) (map b2z x) in
  out = map b2z (code_12 seed x)
  /\ length A = length x /\ length B = length x
  /\ forall n, (n < length x)%nat ->
       nth n A 0 = b2z (xor_taps seed x n taps_133)
       /\ nth n B 0 = b2z (xor_taps seed x n taps_171)
       /\ nth (2 * n) out 0 = nth n A 0
       /\ nth (2 * n + 1) out 0 = nth n B 0.
Proof.
  intros seed x. rewrite r12_sequence_spec by apply r12_new_range. rewrite enc_code_12.
  split; [reflexivity|]. rewrite !map_length, !seq_length. split; [reflexivity|]. split; [reflexivity|].
  intros n Hn. rewrite !nth_map_seq by assumption. rewrite out_at_taps by assumption. cbn [fst snd].
  split; [reflexivity|]. split; [reflexivity|].
  assert (E : forall f m k, (k < m)%nat ->
    nth (2 * k) (map b2z (flat_map (fun i => [fst (f i); snd (f i)]) (seq 0 m))) 0 = b2z (fst (f k))
    /\ nth (2 * k + 1) (map b2z (flat_map (fun i => [fst (f i); snd (f i)]) (seq 0 m))) 0 = b2z (snd (f k))).
  { clear. intros f m. revert f. induction m as [|m IH]; intros f k Hk; [lia|].
    cbn [seq flat_map]. rewrite map_app. destruct k as [|k].
    - split; reflexivity.
    - replace (2 * S k)%nat with (S (S (2 * k))) by lia. replace (S (S (2 * k)) + 1)%nat with (S (S (2 * k + 1))) by lia.
      cbn [map app nth]. rewrite flat_map_seq_shift. apply (IH (fun i => f (1 + i)%nat)). lia. }
  unfold code_12.
  exact (E (fun i => (xor_taps seed x i taps_133, xor_taps seed x i taps_171)) (length x) n Hn).
Qed.
Print Assumptions C23_taps.
(** from the seed 0b100001, one bit *)
Example C23_case : snd (r12_sequence (r12_new 33) (map b2z [true; false])) = ([0; 1], [1; 0], [0; 1; 1; 0]).
Proof. vm_compute. reflexivity. Qed.

(** C24: streaming, linearity, invertibility, flushing *)
Theorem C24_streaming : forall (seed : Z) (x y : list bool),
  let '(v1, (A1, B1, o1)) := r12_sequence (r12_new seed) (map b2z x) in
  let '(v2, (A2, B2, o2)) := r12_sequence v1 (map b2z y) in
  r12_sequence (r12_new seed) (map b2z (x ++ y)) = (v2, (A1 ++ A2, B1 ++ B2, o1 ++ o2)).
Proof.
  intros seed x y. pose proof (r12_new_range seed) as Hr.
  assert (H : 0 <= fin rstep (r12_new seed) x < 64) by (apply fin_range; [apply r_range|assumption]).
  rewrite !r12_sequence_spec by assumption.
  rewrite fin_app, enc_app, map_app. rewrite app_length, seq_app, !map_app.
  f_equal. f_equal. f_equal; f_equal.
  - apply map_ext_in. intros n Hn. apply in_seq in Hn. rewrite out_at_app_l by lia. reflexivity.
  - replace (seq (0 + length x) (length y)) with (map (fun i => (length x + i)%nat) (seq 0 (length y))).
    + rewrite map_map. apply map_ext. intro n. now rewrite out_at_app_r.
    + clear. rewrite Nat.add_0_l. generalize (length x). induction (length y) as [|m IH]; intro k; [reflexivity|].
      cbn [seq map]. f_equal; [lia|]. rewrite <- seq_shift, map_map, <- (IH (S k)). apply map_ext. intro. lia.
  - apply map_ext_in. intros n Hn. apply in_seq in Hn. rewrite out_at_app_l by lia. reflexivity.
  - replace (seq (0 + length x) (length y)) with (map (fun i => (length x + i)%nat) (seq 0 (length y))).
    + rewrite map_map. apply map_ext. intro n. now rewrite out_at_app_r.
    + clear. rewrite Nat.add_0_l. generalize (length x). induction (length y) as [|m IH]; intro k; [reflexivity|].
      cbn [seq map]. f_equal; [lia|]. rewrite <- seq_shift, map_map, <- (IH (S k)). apply map_ext. intro. lia.
Qed.
Print Assumptions C24_streaming.

(** [coded x]: bits returned by a new encoder (seed 0) for x *)
Definition coded (x : list bool) : list bool :=
  let '(_, (_, _, out)) := r12_sequence (r12_new 0) (map b2z x) in map z2b out.
Definition register_after (seed : Z) (x : list bool) : Z := fst (r12_sequence (r12_new seed) (map b2z x)).

Lemma coded_enc x : coded x = enc rstep 0 x.
Proof. unfold coded. rewrite r12_sequence_spec by apply r12_new_range. apply map_z2b_b2z. Qed.

Theorem C24_linear : forall x y, length x = length y ->
  coded (xor_bits x y) = xor_bits (coded x) (coded y).
Proof.
  intros x y H. rewrite !coded_enc.
  destruct (enc_diff rstep rstep 64 r_range r_diff 0 0 x y) as [E _]; auto; try lia.
Qed.
Print Assumptions C24_linear.

(** for every seed the output determines the input (of any length) *)
Theorem C24_invertible : forall seed, exists decode : list Z -> list bool, forall x,
  decode (snd (snd (r12_sequence (r12_new seed) (map b2z x)))) = x.
Proof.
  intro seed.
  exists (fun out => (fix dec (s : Z) (l : list bool) : list bool :=
            match l with
            | u :: _ :: r => let b := xorb u (fst (snd (rstep s false))) in b :: dec (fst (rstep s b)) r
            | _ => []
            end) (r12_new seed) (map z2b out)).
  intro x. pose proof (r12_new_range seed) as Hr. rewrite r12_sequence_spec by assumption. cbn [snd].
  rewrite map_z2b_b2z. revert Hr. generalize (r12_new seed). induction x as [|b x IH]; intros s Hs; [reflexivity|].
  rewrite enc_cons.
  assert (E : xorb (fst (snd (rstep s b))) (fst (snd (rstep s false))) = b).
  { destruct (r_bits s b Hs) as (_ & _ & Ha & _). destruct (r_bits s false Hs) as (_ & _ & Hb & _).
    rewrite Ha, Hb. destruct b, (Z.testbit s 4), (Z.testbit s 3), (Z.testbit s 1), (Z.testbit s 0); reflexivity. }
  cbv zeta. rewrite E. f_equal. apply IH. now apply r_range.
Qed.
Print Assumptions C24_invertible.

Theorem C24_flush : forall seed x, register_after seed (x ++ repeat false 6) = 0.
Proof.
  intros. unfold register_after. rewrite r12_sequence_spec by apply r12_new_range. cbn [fst].
  rewrite fin_app. apply r12_zero6. apply fin_range; [apply r_range|apply r12_new_range].
Qed.
Print Assumptions C24_flush.
Example C24_case : coded [true; false; true] = [true; true; false; true; false; false]
  /\ register_after 0 [true; false; true] = 40.
Proof. vm_compute. split; reflexivity. Qed.

(** C25 *)
Theorem C25_free_distance :
  (forall x y, length x = length y -> x <> y ->
     (10 <= distance (coded (x ++ repeat false 6)) (coded (y ++ repeat false 6)))%nat)
  /\ exists x y, length x = length y /\ x <> y
     /\ distance (coded (x ++ repeat false 6)) (coded (y ++ repeat false 6)) = 10%nat.
Proof.
  split.
  - intros x y Hl Hn. rewrite !coded_enc. now apply r12_distance.
  - exists [true], [false]. split; [reflexivity|]. split; [discriminate|]. vm_compute. reflexivity.
Qed.
Print Assumptions C25_free_distance.
Example C25_case : [true; false; true] <> [true; false; false]
  /\ distance (coded ([true; false; true] ++ repeat false 6)) (coded ([true; false; false] ++ repeat false 6)) = 10%nat
  /\ distance (coded ([true; true; true] ++ repeat false 6)) (coded ([true; false; false] ++ repeat false 6)) = 10%nat.
Proof. split; [discriminate|]. split; vm_compute; reflexivity. Qed.

(** C26 *)
Theorem C26_puncture : forall (seed : Z) (x : list bool),
  Nat.modulo (length x) 3 = 0%nat -> x <> [] ->
  exists v A B out, r34_sequence (r12_new seed) (map b2z x) = (v, Ok (A, B, out))
    /\ out = map b2z (code_34 seed x)
    /\ (3 * length out = 4 * length x)%nat.
Proof.
  intros seed x Hm Hne. destruct (r34_sequence_spec (r12_new seed) x (r12_new_range seed) Hm Hne) as (A & B & E).
  eexists _, _, _, _. split; [exact E|]. rewrite enc34_code. split; [reflexivity|].
  rewrite map_length. unfold code_34.
  assert (L : forall f l, length (flat_map (fun k : nat => [f k; f k; f k; f k] : list bool) l) = (4 * length l)%nat)
    by (induction l as [|k l IH]; [reflexivity|cbn [flat_map length app]; rewrite IH; lia]).
  pose proof (Nat.div_mod (length x) 3 ltac:(lia)) as Hd.
  transitivity (3 * (4 * (length x / 3)))%nat; [|lia]. f_equal.
  rewrite flat_map_concat_map, concat_length_const with (n := 4%nat).
  - rewrite map_length, seq_length. lia.
  - apply Forall_forall. intros l Hl. apply in_map_iff in Hl as (k & <- & _). reflexivity.
Qed.
Print Assumptions C26_puncture.
Theorem C26_invertible : forall seed x y o1 o2 v1 v2 A1 B1 A2 B2,
  r34_sequence (r12_new seed) (map b2z x) = (v1, Ok (A1, B1, o1)) ->
  r34_sequence (r12_new seed) (map b2z y) = (v2, Ok (A2, B2, o2)) ->
  o1 = o2 -> x = y.
Proof.
  intros seed x y o1 o2 v1 v2 A1 B1 A2 B2 Hx Hy Ho.
  assert (G : forall z v A B o, r34_sequence (r12_new seed) (map b2z z) = (v, Ok (A, B, o)) ->
     Nat.modulo (length z) 3 = 0%nat /\ z <> [] /\ o = map b2z (enc34 (r12_new seed) z)).
  { intros z v A B o Hz.
    assert (Hm : Nat.modulo (length z) 3 = 0%nat).
    { unfold r34_sequence in Hz. rewrite map_length in Hz.
      destruct (Nat.eqb_spec (Nat.modulo (length z) 3) 0); [assumption|discriminate]. }
    assert (Hne : z <> []) by (intro; subst; vm_compute in Hz; discriminate).
    destruct (r34_sequence_spec (r12_new seed) z (r12_new_range seed) Hm Hne) as (A' & B' & E).
    rewrite E in Hz. inversion Hz. auto. }
  destruct (G x _ _ _ _ Hx) as (Hm & _ & E1). destruct (G y _ _ _ _ Hy) as (Hm2 & _ & E2).
  assert (Ee : enc34 (r12_new seed) x = enc34 (r12_new seed) y).
  { rewrite <- (map_z2b_b2z (enc34 _ x)), <- (map_z2b_b2z (enc34 _ y)). congruence. }
  apply (enc34_inj x Hm y (r12_new seed)); auto using r12_new_range.
  apply (f_equal (@length bool)) in Ee. unfold enc34 in Ee.
  rewrite !flat_map_concat_map, !concat_length_const with (n := 4%nat) in Ee
    by (apply Forall_forall; intros l Hl; apply in_map_iff in Hl as (k & <- & _); reflexivity).
  rewrite !map_length, !seq_length in Ee.
  pose proof (Nat.div_mod (length x) 3 ltac:(lia)). pose proof (Nat.div_mod (length y) 3 ltac:(lia)). lia.
Qed.
Print Assumptions C26_invertible.
Theorem C26_sizes : forall v x,
  (Nat.modulo (length x) 3 <> 0%nat -> snd (r34_sequence v x) = Err ValueError).
Proof.
  intros v x H. unfold r34_sequence. apply Nat.eqb_neq in H. rewrite H. reflexivity.
Qed.
Print Assumptions C26_sizes.
Example C26_case : snd (r34_sequence (r12_new 0) (map b2z [true; true; false; false; true; true]))
  = Ok ([0; 0; 0], [0; 0; 0], [1; 1; 1; 0; 0; 0; 0; 0]).
Proof. vm_compute. reflexivity. Qed.

(** C27 is false of the code for seeds of more than six bits: reset does not mask them *)
Theorem C27_refuted : exists (s : Z) (x : list bool),
  snd (r12_sequence (r12_reset s) (map b2z x)) <> snd (r12_sequence (r12_new s) (map b2z x)).
Proof. exists 64, [false; false]. vm_compute. discriminate. Qed.
Print Assumptions C27_refuted.
Theorem C27_partial : forall s x, 0 <= s < 64 ->
  r12_sequence (r12_reset s) x = r12_sequence (r12_new s) x.
Proof. intros s x H. now rewrite r12_new_small. Qed.
Print Assumptions C27_partial.
(** exactly the seeds of six bits: for every other integer some input tells the two encoders apart *)
Lemma one_bit v k : 0 <= k -> Z.shiftr (Z.land v (2 ^ k)) k = b2z (Z.testbit v k).
Proof.
  intro H. apply Z.bits_inj'. intros i Hi. rewrite Z.shiftr_spec, Z.land_spec, Z.pow2_bits_eqb by assumption.
  destruct (Z.eqb_spec k (i + k)) as [E|E].
  - replace i with 0 in * by lia. rewrite andb_true_r, Z.add_0_l. destruct (Z.testbit v k); reflexivity.
  - rewrite andb_false_r. destruct (Z.testbit v k); cbn [b2z]; [|now rewrite Z.bits_0]. change 1 with (2 ^ 0). rewrite Z.pow2_bits_eqb by lia. symmetry. apply Z.eqb_neq. lia.
Qed.
Lemma zero_input_B v : snd (snd (r12_single v 0)) = b2z (xorb (xorb (xorb (Z.testbit v 5) (Z.testbit v 4)) (Z.testbit v 3)) (Z.testbit v 0)).
Proof.
  unfold r12_single. cbn [snd]. change (0 <? 0) with false. cbv iota.
  change 0x20 with (2 ^ 5). change 0x10 with (2 ^ 4). change 0x08 with (2 ^ 3). rewrite !one_bit by lia.
  replace (Z.land v 1) with (b2z (Z.testbit v 0)) by (rewrite <- (one_bit v 0) by lia; now rewrite Z.shiftr_0_r).
  destruct (Z.testbit v 5), (Z.testbit v 4), (Z.testbit v 3), (Z.testbit v 0); reflexivity.
Qed.
Lemma zeros_run n : forall v, nth n (snd (fst (snd (r12_sequence v (map b2z (repeat false (S n))))))) 0 = snd (snd (r12_single (Z.shiftr v (Z.of_nat n)) 0)).
Proof.
  induction n as [|n IH]; intro v.
  - cbn [repeat map r12_sequence b2z]. change (Z.of_nat 0) with 0. rewrite Z.shiftr_0_r. destruct (r12_single v 0) as [v1 [a b]]. reflexivity.
  - change (repeat false (S (S n))) with (false :: repeat false (S n)). cbn [map r12_sequence b2z]. 
    assert (F : fst (r12_single v 0) = Z.shiftr v 1) by (unfold r12_single; cbn [fst]; change (0 <? 0) with false; cbv iota; change (0 =? 0) with true; cbv iota; apply Z.lor_0_r).
    destruct (r12_single v 0) as [v1 [a b]]. cbn [fst] in F. subst v1. specialize (IH (Z.shiftr v 1)).
    destruct (r12_sequence (Z.shiftr v 1) (map b2z (repeat false (S n)))) as [v2 [[A B] o]]. cbn [snd fst nth] in *. rewrite IH, Z.shiftr_shiftr by lia.
    repeat f_equal. lia.
Qed.
Lemma lowest_high_bit s : ~ 0 <= s < 64 -> exists q : nat, (6 <= q)%nat /\ Z.testbit s (Z.of_nat q) = true /\ forall i, (6 <= i < q)%nat -> Z.testbit s (Z.of_nat i) = false.
Proof.
  intro H.
  assert (E : exists q : nat, (6 <= q)%nat /\ Z.testbit s (Z.of_nat q) = true).
  { destruct (Z.ltb_spec s 0) as [N|N].
    - destruct (Z.bits_iff_neg_ex s) as [_ I]. apply Z.bits_iff_neg_ex in N as [k K]. exists (Z.to_nat (Z.max k 6 + 1)). split; [lia|]. apply K. lia.
    - assert (64 <= s) by lia. exists (Z.to_nat (Z.log2 s)). assert (6 <= Z.log2 s) by (change 6 with (Z.log2 64); now apply Z.log2_le_mono). split; [lia|]. rewrite Z2Nat.id by lia. apply Z.bit_log2. lia. }
  destruct E as (q & Hq & T).
  revert T. induction q as [q IH] using lt_wf_ind. intro T.
  destruct (forallb (fun i => negb (Z.testbit s (Z.of_nat i))) (seq 6 (q - 6))) eqn:F.
  - exists q. split; [assumption|]. split; [assumption|]. intros i Hi. rewrite forallb_forall in F. apply negb_true_iff. apply F, in_seq. lia.
  - assert (X : existsb (fun i => Z.testbit s (Z.of_nat i)) (seq 6 (q - 6)) = true).
    { clear -F. induction (seq 6 (q - 6)) as [|a l IHl]; [discriminate|]. cbn [forallb existsb] in *. destruct (Z.testbit s (Z.of_nat a)); [reflexivity|]. cbn in *. auto. }
    apply existsb_exists in X as (i & Hi & Ti). apply in_seq in Hi. apply (IH i); try lia. assumption.
Qed.
Theorem C27_exact_partial : forall s, (forall x, snd (r12_sequence (r12_reset s) (map b2z x)) = snd (r12_sequence (r12_new s) (map b2z x))) <-> 0 <= s < 64.
Proof.
  intro s. split.
  - intro H. assert (D : 0 <= s < 64 \/ ~ 0 <= s < 64) by lia. destruct D as [D|D]; [assumption|exfalso].
    destruct (lowest_high_bit s D) as (q & Hq & T & Z0). specialize (H (repeat false (S (q - 5)))).
    assert (E : nth (q - 5) (snd (fst (snd (r12_sequence (r12_reset s) (map b2z (repeat false (S (q - 5)))))))) 0
              = nth (q - 5) (snd (fst (snd (r12_sequence (r12_new s) (map b2z (repeat false (S (q - 5)))))))) 0) by now rewrite H.
    rewrite !zeros_run, !zero_input_B, !Z.shiftr_spec in E by lia. unfold r12_reset, r12_new in E. rewrite !Z.land_spec in E. change 63 with (Z.ones 6) in E.
    assert (Hi : forall j, 6 <= j -> Z.testbit (Z.ones 6) j = false) by (intros; apply Z.ones_spec_high; lia).
    assert (Lo : forall j, 0 <= j < 6 -> Z.testbit (Z.ones 6) j = true) by (intros; apply Z.ones_spec_low; lia).
    assert (Z1 : forall j, 0 <= j < Z.of_nat q -> Z.testbit s j && Z.testbit (Z.ones 6) j = Z.testbit s j).
    { intros j Hj. destruct (Z.ltb_spec j 6) as [L|L]; [rewrite Lo by lia; apply andb_true_r|]. specialize (Z0 (Z.to_nat j) ltac:(lia)). rewrite Z2Nat.id in Z0 by lia. now rewrite Z0. }
    rewrite (Z1 (4 + Z.of_nat (q - 5))), (Z1 (3 + Z.of_nat (q - 5))), (Z1 (0 + Z.of_nat (q - 5))) in E by lia.
    replace (5 + Z.of_nat (q - 5)) with (Z.of_nat q) in E by lia. rewrite T, (Hi (Z.of_nat q)) in E by lia.
    destruct (Z.testbit s (4 + Z.of_nat (q - 5))), (Z.testbit s (3 + Z.of_nat (q - 5))), (Z.testbit s (0 + Z.of_nat (q - 5))); discriminate.
  - intros H x. unfold r12_reset. now rewrite r12_new_small.
Qed.
Print Assumptions C27_exact_partial.
Example C27_case : 0 <= 45 < 64 /\ snd (r12_sequence (r12_reset 45) (map b2z [true; true; false])) = snd (r12_sequence (r12_new 45) (map b2z [true; true; false]))
  /\ snd (r12_sequence (r12_reset 45) (map b2z [true; true; false])) <> snd (r12_sequence (r12_new 0) (map b2z [true; true; false])).
Proof. split; [lia|]. split; [vm_compute; reflexivity|vm_compute; discriminate]. Qed.

(** ** C26, empty input: fails as well, but with UnboundLocalError *)
Theorem C26_empty : forall v, snd (r34_sequence v []) = Err UnboundLocalError.
Proof. reflexivity. Qed.
Print Assumptions C26_empty.

(** ** C71: the punctured code *)
(** bits returned by a new rate-3/4 encoder *)
Definition coded34 (seed : Z) (x : list bool) : list bool :=
  match snd (r34_sequence (r12_new seed) (map b2z x)) with Ok (_, _, out) => map z2b out | Err _ => [] end.
Lemma coded34_enc seed x : Nat.modulo (length x) 3 = 0%nat -> x <> [] -> coded34 seed x = enc34 (r12_new seed) x.
Proof.
  intros M N. unfold coded34. destruct (r34_sequence_spec (r12_new seed) x (r12_new_range seed) M N) as (A & B & ->). apply map_z2b_b2z.
Qed.
(** messages followed by the same six bits or more (the zero tail of the standard, or its scrambled image) *)
Theorem C71_free_distance :
  (forall seed x y tail, length x = length y -> x <> y -> (6 <= length tail)%nat -> Nat.modulo (length (x ++ tail)) 3 = 0%nat ->
     (5 <= distance (coded34 seed (x ++ tail)) (coded34 seed (y ++ tail)))%nat)
  /\ exists x y, length x = length y /\ x <> y
     /\ distance (coded34 0 (x ++ repeat false 6)) (coded34 0 (y ++ repeat false 6)) = 5%nat.
Proof.
  split.
  - intros seed x y w L N W M.
    assert (L2 : length (x ++ w) = length (y ++ w)) by (rewrite !app_length; lia).
    rewrite !coded34_enc.
    + apply enc34_distance; [apply r12_new_range|assumption|assumption| |apply fin_common_tail; [apply r12_new_range|assumption]].
      intro E. apply N. now apply app_inv_tail in E.
    + now rewrite <- L2.
    + destruct y; [destruct w; [cbn in W; lia|discriminate]|discriminate].
    + assumption.
    + destruct x; [destruct w; [cbn in W; lia|discriminate]|discriminate].
  - exists [false; true; true], [false; false; false]. split; [reflexivity|]. split; [discriminate|]. vm_compute. reflexivity.
Qed.
Print Assumptions C71_free_distance.
(** the same for the rate-1/2 code, from any seed and with any common tail *)
Theorem C25_common_tail : forall seed x y tail, length x = length y -> x <> y -> (6 <= length tail)%nat ->
  (10 <= distance (code_12 seed (x ++ tail)) (code_12 seed (y ++ tail)))%nat.
Proof.
  intros seed x y w L N W. rewrite <- !enc_code_12. apply enc12_distance; [apply r12_new_range|rewrite !app_length; lia| |].
  - intro E. apply N. now apply app_inv_tail in E.
  - apply fin_common_tail; [apply r12_new_range|assumption].
Qed.
Print Assumptions C25_common_tail.
(** pieces of whole triples *)
Theorem C71_streaming : forall seed x y, Nat.modulo (length x) 3 = 0%nat -> Nat.modulo (length y) 3 = 0%nat -> x <> [] -> y <> [] ->
  exists v1 A1 B1 o1 v2 A2 B2 o2,
    r34_sequence (r12_new seed) (map b2z x) = (v1, Ok (A1, B1, o1))
    /\ r34_sequence v1 (map b2z y) = (v2, Ok (A2, B2, o2))
    /\ exists A B, r34_sequence (r12_new seed) (map b2z (x ++ y)) = (v2, Ok (A, B, o1 ++ o2)).
Proof.
  intros seed x y Mx My Nx Ny. pose proof (r12_new_range seed) as Hr.
  destruct (r34_sequence_spec (r12_new seed) x Hr Mx Nx) as (A1 & B1 & E1).
  destruct (r34_sequence_spec (fin rstep (r12_new seed) x) y (fin_range rstep 64 r_range _ x Hr) My Ny) as (A2 & B2 & E2).
  assert (M : Nat.modulo (length (x ++ y)) 3 = 0%nat) by (rewrite app_length, Nat.add_mod, Mx, My by lia; reflexivity).
  assert (N : x ++ y <> []) by (destruct x; [contradiction|discriminate]).
  destruct (r34_sequence_spec (r12_new seed) (x ++ y) Hr M N) as (A & B & E).
  exists (fin rstep (r12_new seed) x), A1, B1, (map b2z (enc34 (r12_new seed) x)), (fin rstep (fin rstep (r12_new seed) x) y), A2, B2,
    (map b2z (enc34 (fin rstep (r12_new seed) x) y)).
  split; [exact E1|]. split; [exact E2|]. exists A, B. rewrite E, fin_app, <- map_app. do 4 f_equal.
  clear - Mx. generalize (r12_new seed). revert x Mx. apply (block_ind 3 (fun x => forall z, enc34 z (x ++ y) = enc34 z x ++ enc34 (fin rstep z x) y)); [lia|reflexivity|].
  intros a x La IH z. rewrite <- app_assoc, (enc34_app z a (x ++ y)), (enc34_app z a x) by assumption. rewrite IH, fin_app, app_assoc. reflexivity.
Qed.
Print Assumptions C71_streaming.
Example C71_case : (6 <= length (repeat false 6))%nat /\ Nat.modulo (length ([true; false; true] ++ repeat false 6)) 3 = 0%nat
  /\ length (coded34 0 ([true; false; true] ++ repeat false 6)) = 12%nat.
Proof. vm_compute. repeat split; lia. Qed.

(** ** C72: the A and B sequences returned along with the coded bits are those of the last triple only *)
Lemma r34_rows_last v last rows v' l out : r34_rows v last rows = (v', l, out) -> rows <> [] ->
  Forall (fun r => length r = 3%nat) rows -> exists A B, l = Some (A, B) /\ length A = 3%nat /\ length B = 3%nat.
Proof.
  revert v last v' l out. induction rows as [|r rows IH]; intros v last v' l out H N F; [contradiction|].
  cbn [r34_rows] in H. inversion F as [|? ? F1 F2]; subst. destruct (r12_sequence v r) as [v1 [[A B] o]] eqn:E.
  destruct (r34_rows v1 (Some (A, B)) rows) as [[v2 l2] o2] eqn:E2. inversion H; subst.
  destruct rows as [|r2 rows].
  - cbn [r34_rows] in E2. inversion E2; subst. exists A, B. split; [reflexivity|].
    clear - E F1. destruct (len3 r F1) as (x & y & z & ->). cbn [r12_sequence] in E.
    destruct (r12_single v x) as [? [? ?]]. destruct (r12_single z0 y) as [? [? ?]]. destruct (r12_single z3 z) as [? [? ?]]. inversion E; subst. split; reflexivity.
  - apply (IH _ _ _ _ _ E2); [discriminate|assumption].
Qed.
Theorem C72_refuted : forall seed x v A B out, (3 < length x)%nat -> r34_sequence (r12_new seed) (map b2z x) = (v, Ok (A, B, out)) ->
  length A = 3%nat /\ length B = 3%nat
  /\ A <> map (fun n => b2z (xor_taps seed x n taps_133)) (seq 0 (length x))
  /\ B <> map (fun n => b2z (xor_taps seed x n taps_171)) (seq 0 (length x)).
Proof.
  intros seed x v A B out Hx E. unfold r34_sequence in E. rewrite map_length in E.
  destruct (Nat.eqb_spec (Nat.modulo (length x) 3) 0) as [M|]; [|discriminate]. cbn [negb] in E.
  destruct (r34_rows (r12_new seed) None (chunks 3 (map b2z x))) as [[v' l] o] eqn:R.
  assert (N : chunks 3 (map b2z x) <> []).
  { intro C. apply (f_equal (@length _)) in C. rewrite chunks_length in C by (rewrite ?map_length; lia). rewrite map_length in C. cbn [length] in C.
    pose proof (Nat.div_mod (length x) 3 ltac:(lia)). lia. }
  destruct (r34_rows_last _ _ _ _ _ _ R N) as (A' & B' & -> & LA & LB).
  { apply chunks_length_all; rewrite ?map_length; lia. }
  inversion E; subst. split; [exact LA|]. split; [exact LB|].
  split; intro C; apply (f_equal (@length _)) in C; rewrite map_length, seq_length in C; lia.
Qed.
Print Assumptions C72_refuted.
Example C72_case : exists v o, r34_sequence (r12_new 0) (map b2z [true; true; false; false; true; true]) = (v, Ok ([0; 0; 0], [0; 0; 0], o)).
Proof. do 2 eexists. vm_compute. reflexivity. Qed.
