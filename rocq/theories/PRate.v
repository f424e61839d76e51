(** * Proofs about rate_encoder.py *)
From Verif Require Import Py MRate PList SBits PBits SRate PConv.

Definition rstep (v : Z) (b : bool) : Z * (bool * bool) :=
  let '(v', (a, c)) := r12_single v (b2z b) in (v', (z2b a, z2b c)).

Definition pot12 (s : Z) : nat :=
  nth (Z.to_nat s) [0; 2; 3; 3; 3; 5; 4; 4; 5; 3; 6; 6; 6; 4; 5; 5; 7; 5; 4; 4; 6; 6; 7; 7; 6; 6; 5; 5; 5; 7; 6; 6; 8; 8; 7; 5; 5; 5; 6; 4; 7; 7; 6; 6; 6; 6; 7; 7; 7; 7; 6; 6; 6; 6; 5; 7; 6; 6; 7; 7; 7; 7; 6; 6]%nat 0%nat.

Definition chk_range (step : Z -> bool -> Z * (bool * bool)) N :=
  forallb (fun s => forallb (fun b => (0 <=? fst (step s b)) && (fst (step s b) <? N)) bools) (states N).
Lemma chk_range_ok step N : chk_range step N = true ->
  forall s b, 0 <= s < N -> 0 <= fst (step s b) < N.
Proof.
  intros H s b Hs. pose proof (states_forall N _ H s Hs) as H1. pose proof (bools_forall _ H1 b) as H2.
  simpl in H2. lia.
Qed.
Definition pair_eqb (a b : Z * (bool * bool)) : bool :=
  (fst a =? fst b) && Bool.eqb (fst (snd a)) (fst (snd b)) && Bool.eqb (snd (snd a)) (snd (snd b)).
Lemma pair_eqb_eq a b : pair_eqb a b = true -> a = b.
Proof.
  destruct a as [x [y z]], b as [x' [y' z']]. unfold pair_eqb. simpl. intro H.
  apply andb_prop in H as [H H3]. apply andb_prop in H as [H1 H2].
  apply Z.eqb_eq in H1. apply eqb_prop in H2, H3. congruence.
Qed.
Definition chk_diff (step stepL : Z -> bool -> Z * (bool * bool)) N :=
  forallb (fun s => forallb (fun t => forallb (fun a => forallb (fun b =>
    pair_eqb (stepL (Z.lxor s t) (xorb a b))
    (Z.lxor (fst (step s a)) (fst (step t b)),
     (xorb (fst (snd (step s a))) (fst (snd (step t b))), xorb (snd (snd (step s a))) (snd (snd (step t b))))))
   bools) bools) (states N)) (states N).
Lemma chk_diff_ok step stepL N : chk_diff step stepL N = true ->
  forall s t a b, 0 <= s < N -> 0 <= t < N ->
    stepL (Z.lxor s t) (xorb a b) =
    (Z.lxor (fst (step s a)) (fst (step t b)),
     (xorb (fst (snd (step s a))) (fst (snd (step t b))), xorb (snd (snd (step s a))) (snd (snd (step t b))))).
Proof.
  intros H s t a b Hs Ht. pose proof (states_forall N _ H s Hs) as H1. cbv beta in H1.
  pose proof (states_forall N _ H1 t Ht) as H2. cbv beta in H2.
  pose proof (bools_forall _ H2 a) as H3. cbv beta in H3.
  pose proof (bools_forall _ H3 b) as H4. now apply pair_eqb_eq.
Qed.
Definition chk_pot (stepL : Z -> bool -> Z * (bool * bool)) (pot : Z -> nat) N :=
  forallb (fun s => forallb (fun b =>
    Nat.leb (pot s) (weight [fst (snd (stepL s b)); snd (snd (stepL s b))] + pot (fst (stepL s b)))) bools) (states N).
Lemma chk_pot_ok stepL pot N : chk_pot stepL pot N = true ->
  forall s b, 0 <= s < N ->
   (pot s <= weight [fst (snd (stepL s b)); snd (snd (stepL s b))] + pot (fst (stepL s b)))%nat.
Proof.
  intros H s b Hs. pose proof (states_forall N _ H s Hs) as H1. pose proof (bools_forall _ H1 b) as H2.
  now apply Nat.leb_le.
Qed.

Lemma r_range s b : 0 <= s < 64 -> 0 <= fst (rstep s b) < 64.
Proof. apply (chk_range_ok rstep 64). vm_compute. reflexivity. Qed.
Lemma r_diff s t a b : 0 <= s < 64 -> 0 <= t < 64 ->
    rstep (Z.lxor s t) (xorb a b) =
    (Z.lxor (fst (rstep s a)) (fst (rstep t b)),
     (xorb (fst (snd (rstep s a))) (fst (snd (rstep t b))), xorb (snd (snd (rstep s a))) (snd (snd (rstep t b))))).
Proof. apply (chk_diff_ok rstep rstep 64). vm_compute. reflexivity. Qed.
Lemma r_pot s b : 0 <= s < 64 ->
   (pot12 s <= weight [fst (snd (rstep s b)); snd (snd (rstep s b))] + pot12 (fst (rstep s b)))%nat.
Proof. apply (chk_pot_ok rstep pot12 64). vm_compute. reflexivity. Qed.

(** register update and outputs on bits *)
Definition chk_bits : bool :=
  forallb (fun s => forallb (fun b =>
    let '(s', (u, v)) := rstep s b in
    let t := Z.testbit s in
    forallb (fun i => Bool.eqb (Z.testbit s' i) (t (i + 1))) [0; 1; 2; 3; 4]
    && Bool.eqb (Z.testbit s' 5) b
    && Bool.eqb u (xorb b (xorb (t 4) (xorb (t 3) (xorb (t 1) (xorb (t 0) false)))))
    && Bool.eqb v (xorb b (xorb (t 5) (xorb (t 4) (xorb (t 3) (xorb (t 0) false)))))
    && match r12_single s (b2z b) with (_, (a, c)) => (a =? b2z u) && (c =? b2z v) end) bools) (states 64).
Lemma chk_bits_true : chk_bits = true.
Proof. vm_compute. reflexivity. Qed.
Lemma r_bits s b : 0 <= s < 64 ->
  (forall i, 0 <= i < 5 -> Z.testbit (fst (rstep s b)) i = Z.testbit s (i + 1))
  /\ Z.testbit (fst (rstep s b)) 5 = b
  /\ fst (snd (rstep s b)) = xorb b (xorb (Z.testbit s 4) (xorb (Z.testbit s 3) (xorb (Z.testbit s 1) (xorb (Z.testbit s 0) false))))
  /\ snd (snd (rstep s b)) = xorb b (xorb (Z.testbit s 5) (xorb (Z.testbit s 4) (xorb (Z.testbit s 3) (xorb (Z.testbit s 0) false))))
  /\ r12_single s (b2z b) = (fst (rstep s b), (b2z (fst (snd (rstep s b))), b2z (snd (snd (rstep s b))))).
Proof.
  intro Hs. pose proof (states_forall 64 _ chk_bits_true s Hs) as H1. cbv beta in H1.
  pose proof (bools_forall _ H1 b) as H2. cbv beta in H2.
  destruct (rstep s b) as [s' [u v]] eqn:Er. cbn [fst snd].
  apply andb_prop in H2 as [H2 H6]. apply andb_prop in H2 as [H2 H5]. apply andb_prop in H2 as [H2 H4].
  apply andb_prop in H2 as [H2 H3].
  rewrite forallb_forall in H2.
  repeat split.
  - intros i Hi. apply eqb_prop. apply H2. simpl. lia.
  - now apply eqb_prop.
  - now apply eqb_prop.
  - now apply eqb_prop.
  - unfold rstep in Er. destruct (r12_single s (b2z b)) as [w [a c]]. inversion Er; subst.
    apply andb_prop in H6 as [Ha Hc]. apply Z.eqb_eq in Ha, Hc. congruence.
Qed.
Lemma r_inj_fst s a b : 0 <= s < 64 -> fst (snd (rstep s a)) = fst (snd (rstep s b)) -> a = b.
Proof.
  intros Hs H. destruct (r_bits s a Hs) as (_ & _ & Ha & _). destruct (r_bits s b Hs) as (_ & _ & Hb & _).
  rewrite Ha, Hb in H. destruct a, b, (Z.testbit s 4), (Z.testbit s 3), (Z.testbit s 1), (Z.testbit s 0); simpl in H; congruence.
Qed.
Lemma r_inj_snd s a b : 0 <= s < 64 -> snd (snd (rstep s a)) = snd (snd (rstep s b)) -> a = b.
Proof.
  intros Hs H. destruct (r_bits s a Hs) as (_ & _ & _ & Ha & _). destruct (r_bits s b Hs) as (_ & _ & _ & Hb & _).
  rewrite Ha, Hb in H. destruct a, b, (Z.testbit s 5), (Z.testbit s 4), (Z.testbit s 3), (Z.testbit s 0); simpl in H; congruence.
Qed.

Lemma r12_new_range seed : 0 <= r12_new seed < 64.
Proof. unfold r12_new. change 0x3F with (Z.ones 6). rewrite Z.land_ones by lia. apply Z.mod_pos_bound. lia. Qed.
Lemma r12_new_bits seed i : 0 <= i < 6 -> Z.testbit (r12_new seed) i = Z.testbit seed i.
Proof. intro H. unfold r12_new. change 0x3F with (Z.ones 6). rewrite Z.land_spec, Z.ones_spec_low by lia. apply andb_true_r. Qed.
Lemma r12_new_small seed : 0 <= seed < 64 -> r12_new seed = seed.
Proof. intro H. unfold r12_new. change 0x3F with (Z.ones 6). rewrite Z.land_ones by lia. apply Z.mod_small. lia. Qed.

Lemma r12_sequence_spec v x : 0 <= v < 64 ->
  r12_sequence v (map b2z x) =
  (fin rstep v x, (map (fun n => b2z (fst (out_at rstep v x n))) (seq 0 (length x)),
                   map (fun n => b2z (snd (out_at rstep v x n))) (seq 0 (length x)),
                   map b2z (enc rstep v x))).
Proof.
  revert v. induction x as [|b x IH]; intros v Hv; [reflexivity|].
  cbn [map r12_sequence]. destruct (r_bits v b Hv) as (_ & _ & _ & _ & E). rewrite E.
  rewrite IH by now apply r_range. rewrite enc_cons. cbn [fin length map].
  cbn [seq map]. unfold out_at at 3 5. cbn [firstn fin nth].
  rewrite <- seq_shift, !map_map. reflexivity.
Qed.

(** ** taps *)
Lemma tap_shift seed x n t : tap seed x (S n) (S t) = tap seed x n t.
Proof. unfold tap. cbn [Nat.leb]. replace (6 + S n - S t)%nat with (6 + n - t)%nat by lia. reflexivity. Qed.
Lemma register_taps seed x n i : (n <= length x)%nat -> (i < 6)%nat ->
  Z.testbit (fin rstep (r12_new seed) (firstn n x)) (Z.of_nat i) = tap seed x n (6 - i).
Proof.
  revert i. induction n as [|n IH]; intros i Hn Hi.
  - cbn [firstn fin]. rewrite r12_new_bits by lia. unfold tap.
    destruct (Nat.leb_spec (6 - i) 0); [lia|]. f_equal. lia.
  - assert (Ef : firstn (S n) x = firstn n x ++ [nth n x false]).
    { clear -Hn. revert x Hn. induction n as [|n IH]; intros x Hn; destruct x as [|y x]; simpl in Hn; try lia; [reflexivity|].
      cbn [firstn nth app]. f_equal. apply IH. lia. }
    rewrite Ef, fin_app. cbn [fin].
    destruct (r_bits (fin rstep (r12_new seed) (firstn n x)) (nth n x false)) as (H1 & H2 & _).
    { apply fin_range; [apply r_range|apply r12_new_range]. }
    destruct (Nat.eq_dec i 5) as [->|].
    + change (Z.of_nat 5) with 5. rewrite H2. unfold tap. cbn [Nat.sub Nat.leb]. now rewrite Nat.sub_0_r.
    + rewrite H1 by lia. replace (Z.of_nat i + 1) with (Z.of_nat (S i)) by lia. rewrite IH by lia.
      replace (6 - i)%nat with (S (6 - S i)) by lia. now rewrite tap_shift.
Qed.
Lemma out_at_taps seed x n : (n < length x)%nat ->
  out_at rstep (r12_new seed) x n = (xor_taps seed x n taps_133, xor_taps seed x n taps_171).
Proof.
  intro Hn. unfold out_at.
  assert (Hr : 0 <= fin rstep (r12_new seed) (firstn n x) < 64) by (apply fin_range; [apply r_range|apply r12_new_range]).
  destruct (r_bits (fin rstep (r12_new seed) (firstn n x)) (nth n x false) Hr) as (_ & _ & HA & HB & _).
  rewrite (surjective_pairing (snd (rstep _ _))), HA, HB.
  assert (R : forall i, (i < 6)%nat -> Z.testbit (fin rstep (r12_new seed) (firstn n x)) (Z.of_nat i) = tap seed x n (6 - i))
    by (intros; apply register_taps; lia).
  pose proof (R 0%nat ltac:(lia)) as R0. pose proof (R 1%nat ltac:(lia)) as R1. pose proof (R 3%nat ltac:(lia)) as R3.
  pose proof (R 4%nat ltac:(lia)) as R4. pose proof (R 5%nat ltac:(lia)) as R5.
  cbn [Z.of_nat Nat.sub Pos.of_succ_nat Pos.succ] in R0, R1, R3, R4, R5.
  rewrite R0, R1, R3, R4, R5.
  unfold xor_taps, taps_133, taps_171. cbn [fold_right].
  replace (tap seed x n 0) with (nth n x false) by (unfold tap; cbn [Nat.leb]; now rewrite Nat.sub_0_r).
  reflexivity.
Qed.
Lemma enc_code_12 seed x : enc rstep (r12_new seed) x = code_12 seed x.
Proof.
  rewrite enc_out_at. unfold code_12. 
  rewrite !flat_map_concat_map. f_equal. apply map_ext_in. intros n Hn. apply in_seq in Hn.
  rewrite out_at_taps by lia. reflexivity.
Qed.

Lemma r12_zero6 s : 0 <= s < 64 -> fin rstep s (repeat false 6) = 0.
Proof.
  intro Hs. apply Z.eqb_eq. revert s Hs.
  apply (states_forall 64 (fun s => fin rstep s (repeat false 6) =? 0)). vm_compute. reflexivity.
Qed.

Lemma r12_distance x y : length x = length y -> x <> y ->
  (10 <= distance (enc rstep 0 (x ++ repeat false 6)) (enc rstep 0 (y ++ repeat false 6)))%nat.
Proof.
  intros Hl Hn. apply (free_distance rstep rstep 64 r_range r_range r_diff pot12 eq_refl r_pot).
  - lia.
  - reflexivity.
  - vm_compute. repeat constructor.
  - rewrite !app_length. lia.
  - intro E. apply Hn. apply app_inv_tail in E. exact E.
  - rewrite fin_app. apply r12_zero6. apply fin_range; [apply r_range|lia].
  - rewrite fin_app. apply r12_zero6. apply fin_range; [apply r_range|lia].
Qed.

Lemma r12_enc_inj s x y : 0 <= s < 64 -> enc rstep s x = enc rstep s y -> x = y.
Proof.
  apply (enc_inj rstep 64 r_range). intros t a b Ht H. apply (r_inj_fst t); [assumption|]. now rewrite H.
Qed.

(** ** rate 3/4 *)
Definition punct (o : nat -> bool * bool) (k : nat) : list bool :=
  [fst (o (3 * k)); snd (o (3 * k)); fst (o (3 * k + 1)); snd (o (3 * k + 2))]%nat.
Definition enc34 (s : Z) (x : list bool) : list bool := flat_map (punct (out_at rstep s x)) (seq 0 (length x / 3)).

Lemma len3 {A} (l : list A) : length l = 3%nat -> exists a b c, l = [a; b; c].
Proof. destruct l as [|a [|b [|c [|]]]]; simpl; try lia. eauto. Qed.
Lemma enc34_app s a x : length a = 3%nat ->
  enc34 s (a ++ x) = punct (out_at rstep s a) 0 ++ enc34 (fin rstep s a) x.
Proof.
  intro Ha. unfold enc34. rewrite app_length, Ha.
  replace (3 + length x)%nat with (length x + 1 * 3)%nat by lia. rewrite Nat.div_add by lia.
  rewrite Nat.add_1_r. cbn [seq flat_map]. f_equal.
  - unfold punct. rewrite !out_at_app_l by lia. reflexivity.
  - rewrite flat_map_seq_shift. apply flat_map_ext. intro k. unfold punct.
    replace (3 * (1 + k))%nat with (length a + 3 * k)%nat by lia.
    rewrite <- !Nat.add_assoc. rewrite !out_at_app_r. reflexivity.
Qed.
Lemma r34_rows_spec x : Nat.modulo (length x) 3 = 0%nat -> forall v last, 0 <= v < 64 ->
  exists last', (x <> [] -> last' <> None) /\ (x = [] -> last' = last) /\
  r34_rows v last (chunks 3 (map b2z x)) = (fin rstep v x, last', map b2z (enc34 v x)).
Proof.
  revert x. apply (block_ind 3 (fun x => forall v last, 0 <= v < 64 -> exists last', (x <> [] -> last' <> None) /\ (x = [] -> last' = last) /\
  r34_rows v last (chunks 3 (map b2z x)) = (fin rstep v x, last', map b2z (enc34 v x)))); [lia| |].
  - intros v last Hv. exists last. repeat split; congruence.
  - intros a x Ha IH v last Hv. rewrite map_app, chunks_app by (rewrite ?map_length; lia).
    cbn [r34_rows]. rewrite r12_sequence_spec by assumption.
    match goal with |- context [r34_rows _ (Some ?l) _] => set (l0 := l) end.
    destruct (IH (fin rstep v a) (Some l0)) as (last' & H1 & H2 & E).
    { apply fin_range; [apply r_range|assumption]. }
    rewrite E. exists last'. split; [|split].
    + intros _. destruct x; [rewrite H2 by reflexivity; discriminate|apply H1; discriminate].
    + destruct a; [discriminate Ha|discriminate].
    + rewrite fin_app. rewrite enc34_app by assumption. rewrite map_app.
      f_equal. f_equal. unfold punct. rewrite Ha. cbn [seq map nth]. reflexivity.
Qed.
Lemma r34_sequence_spec v x : 0 <= v < 64 -> Nat.modulo (length x) 3 = 0%nat -> x <> [] ->
  exists A B, r34_sequence v (map b2z x) = (fin rstep v x, Ok (A, B, map b2z (enc34 v x))).
Proof.
  intros Hv Hm Hne. unfold r34_sequence. rewrite map_length, Hm. cbn [Nat.eqb negb].
  destruct (r34_rows_spec x Hm v None Hv) as (last & H1 & _ & E). rewrite E.
  specialize (H1 Hne). destruct last as [[A B]|]; [|congruence]. eauto.
Qed.
Lemma enc34_code seed x : enc34 (r12_new seed) x = code_34 seed x.
Proof.
  unfold enc34, code_34. rewrite !flat_map_concat_map. f_equal. apply map_ext_in. intros k Hk.
  apply in_seq in Hk. pose proof (Nat.div_mod (length x) 3 ltac:(lia)).
  unfold punct. rewrite !out_at_taps by lia. reflexivity.
Qed.
Lemma enc34_inj x : Nat.modulo (length x) 3 = 0%nat -> forall y s, 0 <= s < 64 ->
  length x = length y -> enc34 s x = enc34 s y -> x = y.
Proof.
  revert x. apply (block_ind 3 (fun x => forall y s, 0 <= s < 64 -> length x = length y -> enc34 s x = enc34 s y -> x = y)); [lia| |].
  - intros y s _ Hl _. destruct y; [reflexivity|simpl in Hl; lia].
  - intros a x Ha IH y s Hs Hl E. rewrite app_length in Hl.
    rewrite <- (firstn_skipn 3 y) in E |- *.
    assert (Hy : length (firstn 3 y) = 3%nat) by (rewrite firstn_length; lia).
    assert (Hy2 : length x = length (skipn 3 y)) by (rewrite skipn_length; lia).
    set (b := firstn 3 y) in *. set (z := skipn 3 y) in *. clearbody b z. clear y Hl.
    rewrite !enc34_app in E by assumption.
    apply PBits.app_inj_len in E as [E1 E2]; [|reflexivity].
    assert (a = b).
    { destruct (len3 a Ha) as (a0 & a1 & a2 & ->). destruct (len3 b Hy) as (b0 & b1 & b2 & ->).
      unfold punct, out_at in E1. cbn [Nat.mul Nat.add firstn nth fin] in E1.
      injection E1 as F1 _ F2 F3.
      apply r_inj_fst in F1; [subst b0|assumption].
      apply r_inj_fst in F2; [subst b1|now apply r_range].
      apply r_inj_snd in F3; [subst b2; reflexivity|]. now repeat apply r_range. }
    subst b. f_equal. apply (IH z (fin rstep s a)); auto. apply fin_range; [apply r_range|assumption].
Qed.
