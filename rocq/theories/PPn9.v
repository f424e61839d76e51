(** * Proofs about pn9.py and the scrambler *)
From Verif Require Import Py MPn9 PList SBits SPn9.

(** n successive register values *)
Definition pn_iter (n : nat) (v : Z) : Z := Nat.iter n pn9_step v.

Lemma pn_iter_S n v : pn_iter (S n) v = pn9_step (pn_iter n v).
Proof. reflexivity. Qed.
Lemma pn_iter_S' n v : pn_iter (S n) v = pn_iter n (pn9_step v).
Proof. induction n as [|n IH]; [reflexivity|]. rewrite pn_iter_S, IH. reflexivity. Qed.
Lemma pn_iter_add a b v : pn_iter (a + b) v = pn_iter a (pn_iter b v).
Proof. induction a as [|a IH]; [reflexivity|]. cbn [Nat.add]. rewrite !pn_iter_S, IH. reflexivity. Qed.

Lemma nextN_spec p n :
  pn9_nextN p n = ({| pn_seed := pn_seed p; pn_value := pn_iter n (pn_value p) |},
                   map (fun i => pn9_out (pn_iter (S i) (pn_value p))) (seq 0 n)).
Proof.
  revert p. induction n as [|n IH]; intro p.
  - destruct p; reflexivity.
  - cbn [pn9_nextN]. unfold pn9_next. rewrite IH. cbn [pn_seed pn_value].
    f_equal.
    + f_equal. symmetry. apply pn_iter_S'.
    + cbn [seq map]. f_equal. rewrite <- seq_shift, map_map. apply map_ext. intro i.
      now rewrite <- pn_iter_S'.
Qed.
Lemma pn9_output_iter seed n : pn9_output seed n = pn9_out (pn_iter (S n) seed).
Proof. unfold pn9_output. rewrite nextN_spec. cbn [snd pn_value pn9_new]. rewrite nth_map_seq by lia. reflexivity. Qed.
Lemma nextN_outputs seed n : snd (pn9_nextN (pn9_new seed) n) = map (pn9_output seed) (seq 0 n).
Proof. rewrite nextN_spec. cbn [snd pn_value pn9_new]. apply map_ext. intro i. now rewrite pn9_output_iter. Qed.

(** ** bits of the register *)
Lemma testbit_const_above c k n : 0 <= c -> Z.log2 c < k -> k <= n -> Z.testbit c n = false.
Proof. intros. apply Z.bits_above_log2; lia. Qed.

Lemma step_low v i : 0 <= i < 8 -> Z.testbit (pn9_step v) i = Z.testbit v (i + 1).
Proof.
  intro H. unfold pn9_step. rewrite Z.lor_spec, Z.shiftl_spec_low by lia. rewrite orb_false_r.
  rewrite Z.land_spec, Z.shiftr_spec by lia. change 0xFF with (Z.ones 8).
  rewrite Z.ones_spec_low by lia. apply andb_true_r.
Qed.
Lemma step_8 v : Z.testbit (pn9_step v) 8 = xorb (Z.testbit v 0) (Z.testbit v 5).
Proof.
  unfold pn9_step. rewrite Z.lor_spec, Z.land_spec. change 0xFF with (Z.ones 8).
  rewrite Z.ones_spec_high by lia. rewrite andb_false_r, orb_false_l.
  rewrite Z.shiftl_spec by lia. change (8 - 8) with 0. rewrite Z.lxor_spec, Z.shiftr_spec, !Z.land_spec by lia.
  change (0 + 5) with 5. change (Z.testbit 50 5) with true. change (Z.testbit 1 0) with true.
  rewrite !andb_true_r. apply xorb_comm.
Qed.
Lemma step_high v i : 9 <= i -> Z.testbit (pn9_step v) i = false.
Proof.
  intro H. unfold pn9_step. rewrite Z.lor_spec, Z.land_spec. change 0xFF with (Z.ones 8).
  rewrite Z.ones_spec_high by lia. rewrite andb_false_r, orb_false_l.
  rewrite Z.shiftl_spec by lia. rewrite Z.lxor_spec, Z.shiftr_spec, !Z.land_spec by lia.
  rewrite (testbit_const_above 50 6) by (simpl; lia).
  rewrite (testbit_const_above 1 1) by (simpl; lia). now rewrite !andb_false_r.
Qed.

Lemma bound_of_bits v n : 0 <= n -> (forall i, n <= i -> Z.testbit v i = false) -> 0 <= v < 2 ^ n.
Proof.
  intros Hn H. assert (Hm : v = v mod 2 ^ n).
  { apply Z.bits_inj'. intros i Hi. destruct (Z.lt_ge_cases i n).
    - now rewrite Z.mod_pow2_bits_low by lia.
    - rewrite Z.mod_pow2_bits_high by lia. now apply H. }
  rewrite Hm. apply Z.mod_pos_bound. apply Z.pow_pos_nonneg; lia.
Qed.
Lemma step_range v : 0 <= pn9_step v < 512.
Proof. change 512 with (2 ^ 9). apply bound_of_bits; [lia|]. apply step_high. Qed.
Lemma step_mod v : pn9_step (v mod 512) = pn9_step v.
Proof.
  change 512 with (2 ^ 9). apply Z.bits_inj'. intros i Hi.
  destruct (Z.lt_ge_cases i 8); [|destruct (Z.eq_dec i 8)].
  - rewrite !step_low by lia. apply Z.mod_pow2_bits_low. lia.
  - subst. rewrite !step_8. now rewrite !Z.mod_pow2_bits_low by lia.
  - rewrite !step_high by lia. reflexivity.
Qed.
Lemma out_testbit v : pn9_out v = b2z (Z.testbit v 8).
Proof.
  unfold pn9_out. apply Z.bits_inj'. intros i Hi. rewrite Z.shiftr_spec, Z.land_spec by lia.
  destruct (Z.eq_dec i 0) as [->|].
  - change (0 + 8) with 8. change (Z.testbit 256 8) with true. rewrite andb_true_r.
    destruct (Z.testbit v 8); reflexivity.
  - rewrite (testbit_const_above 256 9) by (simpl; lia). rewrite andb_false_r.
    destruct (Z.testbit v 8); simpl b2z; [rewrite (testbit_const_above 1 1) by (simpl; lia); reflexivity
                                        |now rewrite Z.bits_0].
Qed.

(** bit i after n steps is bit 0 after n+i steps *)
Lemma iter_shift seed n (i : nat) : (i <= 8)%nat ->
  Z.testbit (pn_iter n seed) (Z.of_nat i) = Z.testbit (pn_iter (n + i) seed) 0.
Proof.
  revert n. induction i as [|i IH]; intros n Hi.
  - now rewrite Nat.add_0_r.
  - replace (n + S i)%nat with (S n + i)%nat by lia. rewrite <- IH by lia.
    rewrite pn_iter_S, step_low by lia. f_equal. lia.
Qed.

Lemma pn9_output_b2z seed n : pn9_output seed n = b2z (pn9_bit seed n).
Proof.
  unfold pn9_bit. rewrite pn9_output_iter, out_testbit. destruct (Z.testbit _ 8); reflexivity.
Qed.
Lemma pn9_bit_iter seed n : pn9_bit seed n = Z.testbit (pn_iter (n + 9) seed) 0.
Proof.
  unfold pn9_bit. rewrite pn9_output_iter, out_testbit.
  change 8 with (Z.of_nat 8). rewrite iter_shift by lia.
  replace (S n + 8)%nat with (n + 9)%nat by lia. destruct (Z.testbit _ 0); reflexivity.
Qed.
Lemma before_iter seed n k : (1 <= k <= 9)%nat ->
  pn9_before seed (pn9_bit seed) n k = Z.testbit (pn_iter (n + 9 - k) seed) 0.
Proof.
  intro Hk. unfold pn9_before. destruct (Nat.leb_spec k n).
  - rewrite pn9_bit_iter. do 2 f_equal. lia.
  - replace (Z.testbit seed (Z.of_nat (9 + n - k))) with (Z.testbit (pn_iter 0 seed) (Z.of_nat (9 + n - k)))
      by reflexivity.
    rewrite iter_shift by lia. do 2 f_equal. lia.
Qed.
Lemma pn9_rec seed : pn9_recurrence seed (pn9_bit seed).
Proof.
  intro n. rewrite !before_iter by lia. rewrite pn9_bit_iter.
  change 0 with (Z.of_nat 0) at 1.
  replace (n + 9)%nat with (S n + 8)%nat at 1 by lia. simpl Z.of_nat. rewrite <- iter_shift by lia.
  rewrite pn_iter_S. simpl Z.of_nat. rewrite step_8. f_equal.
  - do 2 f_equal. lia.
  - change 5 with (Z.of_nat 5). rewrite iter_shift by lia. do 2 f_equal. lia.
Qed.

(** the recurrence determines the sequence *)
Lemma pn9_rec_unique seed o1 o2 :
  pn9_recurrence seed o1 -> pn9_recurrence seed o2 -> forall n, o1 n = o2 n.
Proof.
  intros H1 H2 n. induction n as [n IH] using lt_wf_ind. rewrite H1, H2. unfold pn9_before.
  destruct (Nat.leb_spec 9 n), (Nat.leb_spec 4 n); try lia; rewrite ?(IH (n - 9)%nat), ?(IH (n - 4)%nat) by lia; reflexivity.
Qed.

(** ** period *)
Definition orbit : list Z := map (fun i => pn_iter (S i) 511) (seq 0 511).

Fixpoint iter_list (n : nat) (v : Z) : list Z :=
  match n with O => [] | S m => let v' := pn9_step v in v' :: iter_list m v' end.
Lemma iter_list_spec n v : iter_list n v = map (fun i => pn_iter (S i) v) (seq 0 n).
Proof.
  revert v. induction n as [|n IH]; intro v; [reflexivity|]. cbn [iter_list seq map]. rewrite IH.
  f_equal. rewrite <- seq_shift, map_map. apply map_ext. intro i. now rewrite <- pn_iter_S'.
Qed.
(** every non-zero register value is reached from 511, and 511 returns after 511 steps, not before *)
Lemma orbit_all : forallb (fun v => existsb (Z.eqb (Z.of_nat v)) (iter_list 511 511)) (seq 1 511) = true.
Proof. vm_compute. reflexivity. Qed.
Lemma orbit_closed : pn_iter 511 511 = 511.
Proof. vm_compute. reflexivity. Qed.
Lemma orbit_first : existsb (Z.eqb 511) (iter_list 510 511) = false.
Proof. vm_compute. reflexivity. Qed.

Lemma reach v : 1 <= v <= 511 -> exists k, (k < 511)%nat /\ pn_iter (S k) 511 = v.
Proof.
  intro H. pose proof orbit_all as Ho. rewrite forallb_forall in Ho.
  specialize (Ho (Z.to_nat v)). rewrite Z2Nat.id in Ho by lia.
  rewrite iter_list_spec in Ho. apply existsb_exists in Ho.
  - destruct Ho as (x & Hx & E). apply Z.eqb_eq in E. apply in_map_iff in Hx as (k & Hk & Hin).
    apply in_seq in Hin. exists k. split; [lia|]. congruence.
  - apply in_seq. lia.
Qed.
Lemma iter_comm a b v : pn_iter a (pn_iter b v) = pn_iter b (pn_iter a v).
Proof. rewrite <- !pn_iter_add. f_equal. lia. Qed.
Lemma iter_511 v : 0 <= v <= 511 -> pn_iter 511 v = v.
Proof.
  intro H. destruct (Z.eq_dec v 0) as [->|]; [vm_compute; reflexivity|].
  destruct (reach v ltac:(lia)) as (k & _ & <-). rewrite iter_comm, orbit_closed. reflexivity.
Qed.
Lemma iter_period_mult n v : 0 <= v <= 511 -> pn_iter (511 * n) v = v.
Proof.
  intro H. induction n as [|n IH]; [rewrite Nat.mul_0_r; reflexivity|].
  replace (511 * S n)%nat with (511 * n + 511)%nat by lia. rewrite pn_iter_add, iter_511 by assumption. exact IH.
Qed.
Lemma iter_no_less p v : 1 <= v <= 511 -> (0 < p < 511)%nat -> pn_iter p v <> v.
Proof.
  intros Hv Hp E. destruct (reach v Hv) as (k & Hk & Ek).
  (* 511 = iter (510 - k) v *)
  assert (E511 : pn_iter (510 - k) v = 511).
  { rewrite <- Ek, <- pn_iter_add. replace (510 - k + S k)%nat with 511%nat by lia. apply orbit_closed. }
  assert (E2 : pn_iter p 511 = 511).
  { rewrite <- E511 at 1. rewrite iter_comm, E. exact E511. }
  pose proof orbit_first as Hf. rewrite <- not_true_iff_false in Hf. apply Hf.
  rewrite iter_list_spec. apply existsb_exists. exists 511. split; [|apply Z.eqb_refl].
  rewrite <- E2 at 1. apply in_map_iff. exists (p - 1)%nat. split; [f_equal; lia|]. apply in_seq. lia.
Qed.
Lemma iter_range n v : 0 <= v <= 511 -> 0 <= pn_iter n v <= 511.
Proof. intro H. destruct n; [exact H|]. rewrite pn_iter_S. pose proof (step_range (pn_iter n v)). lia. Qed.

Lemma iter_mod n v : pn_iter (S n) (v mod 512) = pn_iter (S n) v.
Proof. rewrite !pn_iter_S'. now rewrite step_mod. Qed.
Lemma output_mod seed n : pn9_output (seed mod 512) n = pn9_output seed n.
Proof. rewrite !pn9_output_iter. now rewrite iter_mod. Qed.

(** nine successive outputs are the register *)
Lemma outputs_register u v : 0 <= u <= 511 -> 0 <= v <= 511 ->
  (forall i, (i < 9)%nat -> Z.testbit (pn_iter i u) 0 = Z.testbit (pn_iter i v) 0) -> u = v.
Proof.
  intros Hu Hv H. apply Z.bits_inj'. intros i Hi. destruct (Z.lt_ge_cases i 9).
  - specialize (H (Z.to_nat i) ltac:(lia)).
    pose proof (iter_shift u 0 (Z.to_nat i) ltac:(lia)) as E1.
    pose proof (iter_shift v 0 (Z.to_nat i) ltac:(lia)) as E2.
    rewrite Nat.add_0_l, Z2Nat.id in E1, E2 by lia. unfold pn_iter at 1 in E1. unfold pn_iter at 1 in E2.
    simpl Nat.iter in E1, E2. congruence.
  - rewrite !Z.bits_above_log2; auto; try lia.
    + destruct (Z.eq_dec v 0) as [->|]; [simpl; lia|]. apply Z.log2_lt_pow2; [lia|].
      assert (2 ^ 9 <= 2 ^ i) by (apply Z.pow_le_mono_r; lia). lia.
    + destruct (Z.eq_dec u 0) as [->|]; [simpl; lia|]. apply Z.log2_lt_pow2; [lia|].
      assert (2 ^ 9 <= 2 ^ i) by (apply Z.pow_le_mono_r; lia). lia.
Qed.

Lemma step_inj u v : 0 <= u <= 511 -> 0 <= v <= 511 -> pn9_step u = pn9_step v -> u = v.
Proof.
  intros Hu Hv E. rewrite <- (iter_511 u), <- (iter_511 v) by assumption.
  rewrite !(pn_iter_S' 510). now rewrite E.
Qed.
Lemma iter_inj n u v : 0 <= u <= 511 -> 0 <= v <= 511 -> pn_iter n u = pn_iter n v -> u = v.
Proof.
  intros Hu Hv. induction n as [|n IH]; [auto|]. rewrite !pn_iter_S. intro E.
  apply IH. apply step_inj; auto using iter_range.
Qed.

Lemma period_511 seed n : pn9_output seed (n + 511) = pn9_output seed n.
Proof.
  rewrite <- (output_mod seed (n + 511)), <- (output_mod seed n), !pn9_output_iter.
  replace (S (n + 511)) with (S n + 511)%nat by lia. rewrite pn_iter_add, iter_511; [reflexivity|].
  pose proof (Z.mod_pos_bound seed 512). lia.
Qed.
Lemma period_minimal seed p :
  seed mod 512 <> 0 -> (0 < p < 511)%nat -> exists n, (n < 9)%nat /\ pn9_output seed (n + p) <> pn9_output seed n.
Proof.
  intros Hs Hp. set (v := seed mod 512) in *.
  assert (Hv : 1 <= v <= 511) by (pose proof (Z.mod_pos_bound seed 512); lia).
  destruct (forallb (fun n => pn9_output seed (n + p) =? pn9_output seed n) (seq 0 9)) eqn:E.
  - exfalso. rewrite forallb_forall in E. apply (iter_no_less p v Hv Hp).
    apply (iter_inj 9); [apply iter_range; lia|lia|].
    apply outputs_register; try (apply iter_range; try apply iter_range; lia).
    intros i Hi. specialize (E i). rewrite in_seq in E. specialize (E ltac:(lia)). apply Z.eqb_eq in E.
    rewrite <- (output_mod seed (i + p)), <- (output_mod seed i) in E. fold v in E.
    rewrite !pn9_output_b2z, !pn9_bit_iter in E.
    replace (pn_iter i (pn_iter 9 (pn_iter p v))) with (pn_iter (i + p + 9) v)
      by (rewrite <- !pn_iter_add; f_equal; lia).
    rewrite <- (pn_iter_add i 9).
    destruct (Z.testbit (pn_iter (i + p + 9) v) 0), (Z.testbit (pn_iter (i + 9) v) 0); simpl in E; congruence.
  - assert (Hex : exists n, In n (seq 0 9) /\ (pn9_output seed (n + p) =? pn9_output seed n) = false).
    { clear -E. induction (seq 0 9) as [|x l IH]; [discriminate|]. simpl in E.
      apply andb_false_iff in E as [E|E]; [exists x; simpl; auto|].
      destruct (IH E) as (n & ? & ?). exists n. simpl. auto. }
    destruct Hex as (n & Hin & Hn). apply in_seq in Hin. apply Z.eqb_neq in Hn. exists n. split; [lia|assumption].
Qed.

Lemma visits seed v : seed mod 512 <> 0 -> 1 <= v <= 511 ->
  exists n, (1 <= n <= 511)%nat /\ pn_iter n seed = v.
Proof.
  intros Hs Hv. pose proof (Z.mod_pos_bound seed 512 ltac:(lia)).
  destruct (reach v Hv) as (k & Hk & Ek).
  destruct (reach (seed mod 512) ltac:(lia)) as (j & Hj & Ej).
  (* iter (S k) 511 = v, iter (S j) 511 = seed; iter (S k + 511 - S j) seed = v *)
  assert (E : pn_iter (S k + (510 - j)) (seed mod 512) = v).
  { rewrite <- Ej, <- pn_iter_add. replace (S k + (510 - j) + S j)%nat with (S k + 511)%nat by lia.
    rewrite pn_iter_add, orbit_closed. exact Ek. }
  destruct (Nat.le_gt_cases (S k + (510 - j)) 511).
  - exists (S k + (510 - j))%nat. split; [lia|].
    rewrite <- E. symmetry. replace (S k + (510 - j))%nat with (S (k + (510 - j))) by lia. apply iter_mod.
  - exists (S k + (510 - j) - 511)%nat. split; [lia|].
    replace (S k + (510 - j))%nat with ((S k + (510 - j) - 511) + 511)%nat in E by lia.
    rewrite pn_iter_add, iter_511 in E by lia.
    rewrite <- E. symmetry. destruct (S k + (510 - j) - 511)%nat eqn:En; [lia|]. apply iter_mod.
Qed.

Lemma ones_in_app a b : ones_in (a ++ b) = ones_in a + ones_in b.
Proof. induction a; simpl; lia. Qed.
Definition ones_from (v : Z) : Z := ones_in (map (fun i => pn9_out (pn_iter (S i) v)) (seq 0 511)).
Lemma ones_shift v : 0 <= v <= 511 -> ones_from (pn9_step v) = ones_from v.
Proof.
  intro Hv. unfold ones_from.
  assert (E : forall n w, map (fun i => pn9_out (pn_iter (S i) w)) (seq 0 (S n))
              = pn9_out (pn9_step w) :: map (fun i => pn9_out (pn_iter (S i) (pn9_step w))) (seq 0 n)).
  { intros n w. cbn [seq map]. f_equal. rewrite <- seq_shift, map_map. apply map_ext. intro i.
    now rewrite <- pn_iter_S'. }
  assert (E2 : forall n w, map (fun i => pn9_out (pn_iter (S i) w)) (seq 0 (S n))
              = map (fun i => pn9_out (pn_iter (S i) w)) (seq 0 n) ++ [pn9_out (pn_iter (S n) w)]).
  { intros n w. rewrite seq_S, map_app. reflexivity. }
  rewrite (E 510%nat v). rewrite (E2 510%nat (pn9_step v)). rewrite ones_in_app. cbn [ones_in].
  replace (pn_iter 511 (pn9_step v)) with (pn9_step v); [lia|].
  rewrite iter_511; [reflexivity|]. pose proof (step_range v). lia.
Qed.
Lemma ones_iter n v : 0 <= v <= 511 -> ones_from (pn_iter n v) = ones_from v.
Proof.
  intro H. induction n as [|n IH]; [reflexivity|]. rewrite pn_iter_S, ones_shift; auto using iter_range.
Qed.
Lemma ones_511 : ones_in (map pn9_out (iter_list 511 511)) = 256.
Proof. vm_compute. reflexivity. Qed.
Lemma ones_from_511 : ones_from 511 = 256.
Proof. unfold ones_from. rewrite <- (map_map (fun i => pn_iter (S i) 511) pn9_out), <- iter_list_spec. apply ones_511. Qed.
Lemma ones_any v : 1 <= v <= 511 -> ones_from v = 256.
Proof.
  intro H. destruct (reach v H) as (k & _ & <-). rewrite ones_iter by lia. apply ones_from_511.
Qed.
Lemma ones_window seed k : seed mod 512 <> 0 ->
  ones_in (map (fun i => pn9_output seed (k + i)) (seq 0 511)) = 256.
Proof.
  intro Hs. pose proof (Z.mod_pos_bound seed 512 ltac:(lia)).
  rewrite <- (ones_any (seed mod 512)) by lia. rewrite <- (ones_iter k) by lia. unfold ones_from.
  f_equal. apply map_ext. intro i. rewrite <- (output_mod seed), pn9_output_iter, <- pn_iter_add.
  do 2 f_equal. lia.
Qed.

Lemma zero_seed seed n : seed mod 512 = 0 -> pn9_output seed n = 0.
Proof.
  intro H. rewrite <- output_mod, H, pn9_output_iter.
  assert (E : forall m, pn_iter m 0 = 0) by (induction m; [reflexivity|]; rewrite pn_iter_S, IHm; reflexivity).
  now rewrite E.
Qed.

(** ** scrambler *)
Lemma scrambler_spec m seed :
  scrambler m seed = map2 xorb (map (pn9_bit seed) (seq 0 (length m))) m.
Proof.
  unfold scrambler. rewrite nextN_outputs. generalize 0%nat. revert m.
  induction m as [|x m IH]; intro k; [reflexivity|]. cbn [length seq map map2]. rewrite IH. reflexivity.
Qed.
Lemma scrambler_length m seed : length (scrambler m seed) = length m.
Proof. rewrite scrambler_spec, map2_length, map_length, seq_length. lia. Qed.
Lemma scrambler_nth m seed i : (i < length m)%nat ->
  nth i (scrambler m seed) false = xorb (nth i m false) (pn9_bit seed i).
Proof.
  intro H. rewrite scrambler_spec. rewrite map2_nth with (da := false) (db := false)
    by (rewrite ?map_length, ?seq_length; lia).
  rewrite nth_map_seq by assumption. apply xorb_comm.
Qed.
Lemma scrambler_involutive m seed : scrambler (scrambler m seed) seed = m.
Proof.
  apply list_eq_nth with false; rewrite !scrambler_length; [reflexivity|]. intros i Hi.
  rewrite !scrambler_nth by (rewrite ?scrambler_length; lia).
  rewrite xorb_assoc, xorb_nilpotent. apply xorb_false_r.
Qed.
Lemma scrambler_prefix a b seed : firstn (length a) (scrambler (a ++ b) seed) = scrambler a seed.
Proof.
  rewrite !scrambler_spec. rewrite app_length, seq_app, map_app, map2_app by now rewrite map_length, seq_length.
  rewrite firstn_app. rewrite map2_length, map_length, seq_length, Nat.min_id, Nat.sub_diag, firstn_O, app_nil_r.
  apply firstn_all2. rewrite map2_length, map_length, seq_length. lia.
Qed.
Lemma scrambler_xor a b seed : length a = length b ->
  xor_bits (scrambler a seed) (scrambler b seed) = xor_bits a b.
Proof.
  intro H. rewrite !scrambler_spec, H. generalize 0%nat.
  revert b H. induction a as [|x a IH]; destruct b as [|y b]; intros H k; simpl in H; try lia; [reflexivity|].
  cbn [length seq map map2 xor_bits]. f_equal; [|apply IH; lia].
  destruct (pn9_bit seed k), x, y; reflexivity.
Qed.
