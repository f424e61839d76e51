(** * Properties C04-C07: PN9 generator and whitening *)
From Verif Require Import Py MPn9 SBits SPn9 PPn9.

(** C04 *)
Theorem C04_recurrence : forall seed : Z,
  pn9_recurrence seed (pn9_bit seed)
  /\ (forall n, pn9_output seed n = if pn9_bit seed n then 1 else 0)
  /\ (forall o, pn9_recurrence seed o -> forall n, o n = pn9_bit seed n).
Proof.
  intro seed. split; [exact (pn9_rec seed)|]. split; [exact (pn9_output_b2z seed)|].
  intros o Ho. exact (pn9_rec_unique seed o _ Ho (pn9_rec seed)).
Qed.
Print Assumptions C04_recurrence.

Theorem C04_nine_bits : forall s1 s2 n, s1 mod 512 = s2 mod 512 ->
  snd (pn9_nextN (pn9_new s1) n) = snd (pn9_nextN (pn9_new s2) n)
  /\ 0 <= pn9_current (fst (pn9_nextN (pn9_new s1) (S n))) < 512.
Proof.
  intros s1 s2 n H. split.
  - rewrite !nextN_outputs. apply map_ext. intro i. now rewrite <- (output_mod s1), H, output_mod.
  - rewrite nextN_spec. cbn [fst pn9_current pn_value]. rewrite pn_iter_S. apply step_range.
Qed.
Print Assumptions C04_nine_bits.
(** the bits of the standard's seed, and a seed of more than nine bits *)
Example C04_case : map (pn9_output 0x1FF) (seq 0 12) = [0; 0; 0; 0; 1; 1; 1; 1; 0; 1; 1; 1] /\ 0x3FF mod 512 = 0x1FF mod 512.
Proof. split; vm_compute; reflexivity. Qed.

(** C05 *)
Theorem C05_period : forall seed : Z,
  (forall n, pn9_output seed (n + 511) = pn9_output seed n)
  /\ (seed mod 512 <> 0 ->
      (forall p, (0 < p < 511)%nat -> exists n, pn9_output seed (n + p) <> pn9_output seed n)
      /\ (forall v, 1 <= v <= 511 -> exists n, (1 <= n <= 511)%nat
             /\ pn9_current (fst (pn9_nextN (pn9_new seed) n)) = v)
      /\ (forall k, ones_in (map (fun i => pn9_output seed (k + i)) (seq 0 511)) = 256))
  /\ (seed mod 512 = 0 -> forall n, pn9_output seed n = 0).
Proof.
  intro seed. split; [exact (period_511 seed)|]. split; [|intros H n; now apply zero_seed].
  intro H. repeat split.
  - intros p Hp. destruct (period_minimal seed p H Hp) as (n & _ & Hn). eauto.
  - intros v Hv. destruct (visits seed v H Hv) as (n & Hn & E). exists n. split; [assumption|].
    rewrite nextN_spec. exact E.
  - intro k. now apply ones_window.
Qed.
Print Assumptions C05_period.
Example C05_case : 0x1FF mod 512 <> 0 /\ 0x17F mod 512 <> 0 /\ 0x20C mod 512 <> 0.
Proof. vm_compute. repeat split; discriminate. Qed.

(** C06 *)
Theorem C06_resume : forall (p : pn9) (a b : nat) (s : Z),
  let '(pa, xa) := pn9_nextN p a in
  let '(pb, xb) := pn9_nextN pa b in
  pn9_nextN p (a + b) = (pb, xa ++ xb)
  /\ snd (pn9_nextN (pn9_new (pn9_current pa)) b) = xb
  /\ (forall k, snd (pn9_nextN (pn9_reset pa None) k) = snd (pn9_nextN (pn9_new (pn_seed p)) k))
  /\ (forall k, snd (pn9_nextN (pn9_reset pa (Some s)) k) = snd (pn9_nextN (pn9_new s) k)
             /\ pn9_current (fst (pn9_nextN (pn9_reset pa (Some s)) k)) = pn9_current (fst (pn9_nextN (pn9_new s) k))).
Proof.
  intros p a b s. rewrite !nextN_spec. cbn [pn_seed pn_value].
  repeat split; try (intro k; rewrite !nextN_spec; reflexivity).
  - f_equal.
    + f_equal. rewrite <- pn_iter_add. f_equal. apply Nat.add_comm.
    + rewrite seq_app, map_app. f_equal.
      replace (seq (0 + a) b) with (map (fun i => (a + i)%nat) (seq 0 b)).
      * rewrite map_map. apply map_ext. intro i. rewrite <- pn_iter_add. do 2 f_equal. lia.
      * clear. rewrite Nat.add_0_l. revert a. induction b as [|b IH]; intro a; [reflexivity|].
        cbn [seq map]. f_equal; [lia|]. rewrite <- seq_shift, map_map, <- (IH (S a)).
        apply map_ext. intro. lia.
  - all: rewrite !nextN_spec; reflexivity.
  - all: rewrite !nextN_spec; reflexivity.
Qed.
Print Assumptions C06_resume.
Example C06_case : exists p xs, pn9_nextN (pn9_new 0x1FF) 7 = (p, xs) /\ pn9_current p <> 0x1FF
  /\ snd (pn9_nextN (pn9_new (pn9_current p)) 5) = skipn 7 (snd (pn9_nextN (pn9_new 0x1FF) 12)).
Proof. eexists. eexists. split; [reflexivity|]. split; [vm_compute; discriminate|vm_compute; reflexivity]. Qed.

(** C07 *)
(** [o]: the PN9 sequence of the seed, as given by its recurrence (C04) *)
Theorem C07_whitening : forall (seed : Z) (o : nat -> bool) (m : list bool), pn9_recurrence seed o ->
  length (scrambler m seed) = length m
  /\ (forall i, (i < length m)%nat -> nth i (scrambler m seed) false = xorb (nth i m false) (o i))
  /\ scrambler (scrambler m seed) seed = m.
Proof.
  intros seed o m Ho. split; [apply scrambler_length|]. split; [|apply scrambler_involutive].
  intros i Hi. rewrite (pn9_rec_unique seed o _ Ho (pn9_rec seed)). now apply scrambler_nth.
Qed.
Print Assumptions C07_whitening.
Theorem C07_prefix_and_errors : forall (seed : Z) (a b : list bool),
  firstn (length a) (scrambler (a ++ b) seed) = scrambler a seed
  /\ (length a = length b -> xor_bits (scrambler a seed) (scrambler b seed) = xor_bits a b).
Proof.
  intros. split; [apply scrambler_prefix|]. intro H. now apply scrambler_xor.
Qed.
Print Assumptions C07_prefix_and_errors.
Example C07_case : scrambler [true; true; false; true; false; false; false; false; true; true] 0x17F
  = [true; true; true; true; true; true; false; false; true; false].
Proof. vm_compute. reflexivity. Qed.
