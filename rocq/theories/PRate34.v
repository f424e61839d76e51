(** * Distances of the convolutional codes: paths that start together and end together *)
From Verif Require Import Py MRate PList SBits PBits SRate PConv PRate.

(** two messages with the same last six bits leave the register in the same state *)
Lemma fin6 s t w : 0 <= s < 64 -> 0 <= t < 64 -> length w = 6%nat -> fin rstep s w = fin rstep t w.
Proof.
  intros Hs Ht L.
  destruct (enc_diff rstep rstep 64 r_range r_diff s t w w Hs Ht eq_refl) as [_ E].
  rewrite xor_bits_refl, L in E.
  assert (Hx : 0 <= Z.lxor s t < 64).
  { split; [apply Z.lxor_nonneg; lia|]. destruct (Z.eq_dec (Z.lxor s t) 0) as [->|N]; [lia|].
    assert (0 <= Z.lxor s t) by (apply Z.lxor_nonneg; lia). change 64 with (2 ^ 6). apply Z.log2_lt_pow2; [lia|].
    pose proof (Z.log2_lxor s t ltac:(lia) ltac:(lia)). 
    assert (A : forall u, 0 <= u < 64 -> Z.log2 u < 6).
    { intros u Hu. destruct (Z.eq_dec u 0) as [->|]; [reflexivity|]. apply Z.log2_lt_pow2; lia. }
    pose proof (A s Hs). pose proof (A t Ht). lia. }
  rewrite r12_zero6 in E by assumption. apply Z.lxor_eq in E. exact E.
Qed.
Lemma fin_common_tail s x y w : 0 <= s < 64 -> (6 <= length w)%nat -> fin rstep s (x ++ w) = fin rstep s (y ++ w).
Proof.
  intros Hs L. rewrite <- (firstn_skipn 6 w), !app_assoc, !fin_app. f_equal.
  apply fin6; try (apply fin_range; [apply r_range|assumption]). rewrite firstn_length. lia.
Qed.

Lemma enc12_distance s x y : 0 <= s < 64 -> length x = length y -> x <> y -> fin rstep s x = fin rstep s y ->
  (10 <= distance (enc rstep s x) (enc rstep s y))%nat.
Proof.
  intros Hs L N F. unfold distance.
  destruct (enc_diff rstep rstep 64 r_range r_diff s s x y Hs Hs L) as [E1 E2]. rewrite E1. rewrite F, Z.lxor_nilpotent in E2.
  rewrite Z.lxor_nilpotent in E2 |- *. destruct (xor_bits_neq x y L N) as (k & r & E). rewrite E in *.
  apply (weight_first_one rstep 64 r_range pot12 eq_refl r_pot 10 ltac:(lia) eq_refl ltac:(vm_compute; repeat constructor)). symmetry. exact E2.
Qed.

(** ** the punctured code *)
Lemma out_diff s t a b : 0 <= s < 64 -> 0 <= t < 64 -> length a = 3%nat -> length b = 3%nat ->
  punct (out_at rstep (Z.lxor s t) (xor_bits a b)) 0 = xor_bits (punct (out_at rstep s a) 0) (punct (out_at rstep t b) 0)
  /\ fin rstep (Z.lxor s t) (xor_bits a b) = Z.lxor (fin rstep s a) (fin rstep t b).
Proof.
  intros Hs Ht La Lb. destruct (len3 a La) as (a0 & a1 & a2 & ->). destruct (len3 b Lb) as (b0 & b1 & b2 & ->).
  cbn [xor_bits]. unfold punct, out_at. cbn [Nat.mul Nat.add firstn nth fin].
  rewrite !r_diff by (repeat apply r_range; assumption). cbn [fst snd].
  rewrite !r_diff by (repeat apply r_range; assumption). cbn [fst snd].
  rewrite !r_diff by (repeat apply r_range; assumption). cbn [fst snd xor_bits]. split; reflexivity.
Qed.
Lemma enc34_diff x : Nat.modulo (length x) 3 = 0%nat -> forall y s t, 0 <= s < 64 -> 0 <= t < 64 -> length x = length y ->
  xor_bits (enc34 s x) (enc34 t y) = enc34 (Z.lxor s t) (xor_bits x y).
Proof.
  revert x. apply (block_ind 3 (fun x => forall y s t, 0 <= s < 64 -> 0 <= t < 64 -> length x = length y ->
    xor_bits (enc34 s x) (enc34 t y) = enc34 (Z.lxor s t) (xor_bits x y))); [lia| |].
  - intros y s t _ _ L. destruct y; [reflexivity|discriminate].
  - intros a x La IH y s t Hs Ht L. rewrite app_length in L.
    rewrite <- (firstn_skipn 3 y). assert (Lb : length (firstn 3 y) = 3%nat) by (rewrite firstn_length; lia).
    assert (Ly : length x = length (skipn 3 y)) by (rewrite skipn_length; lia).
    set (b := firstn 3 y) in *. set (z := skipn 3 y) in *. clearbody b z. clear y L.
    rewrite xor_bits_app by lia. rewrite !enc34_app by (rewrite ?xor_bits_length; lia).
    rewrite xor_bits_app by reflexivity. destruct (out_diff s t a b Hs Ht La Lb) as [-> ->]. f_equal.
    apply IH; [apply fin_range; [apply r_range|assumption]..|assumption].
Qed.
Definition pot34 (s : Z) : nat :=
  nth (Z.to_nat s) [0; 2; 2; 2; 2; 4; 2; 2; 3; 2; 4; 4; 3; 3; 3; 3; 3; 3; 3; 3; 3; 3; 3; 3; 3; 3; 3; 3; 3; 4; 4; 4; 4; 4; 3; 3; 3; 3; 3; 3; 4; 4; 3; 3; 5; 5; 3; 4; 4; 4; 3; 4; 3; 3; 2; 3; 4; 4; 2; 3; 4; 4; 4; 2]%nat 0%nat.
Definition triples : list (list bool) := flat_map (fun a => flat_map (fun b => map (fun c => [a; b; c]) bools) bools) bools.
Lemma triples_all a : length a = 3%nat -> In a triples.
Proof. intro L. destruct (len3 a L) as (x & y & z & ->). destruct x, y, z; cbn; tauto. Qed.
Lemma pot34_step s a : 0 <= s < 64 -> length a = 3%nat ->
  (pot34 s <= weight (punct (out_at rstep s a) 0) + pot34 (fin rstep s a))%nat.
Proof.
  intros Hs La. apply Nat.leb_le.
  assert (H : forallb (fun s => forallb (fun a => Nat.leb (pot34 s) (weight (punct (out_at rstep s a) 0) + pot34 (fin rstep s a))) triples) (states 64) = true)
    by (vm_compute; reflexivity).
  pose proof (states_forall 64 _ H s Hs) as H1. cbv beta in H1. rewrite forallb_forall in H1. apply H1. now apply triples_all.
Qed.
Lemma pot34_first a : length a = 3%nat -> a <> repeat false 3 ->
  (5 <= weight (punct (out_at rstep 0 a) 0) + pot34 (fin rstep 0 a))%nat.
Proof.
  intros La Na. destruct (len3 a La) as (x & y & z & ->). destruct x, y, z; try (vm_compute; lia). exfalso. now apply Na.
Qed.
Lemma weight_path34 x : Nat.modulo (length x) 3 = 0%nat -> forall s, 0 <= s < 64 -> fin rstep s x = 0 -> (pot34 s <= weight (enc34 s x))%nat.
Proof.
  revert x. apply (block_ind 3 (fun x => forall s, 0 <= s < 64 -> fin rstep s x = 0 -> (pot34 s <= weight (enc34 s x))%nat)); [lia| |].
  - intros s Hs F. cbn [fin] in F. subst. cbn. lia.
  - intros a x La IH s Hs F. rewrite fin_app in F. rewrite enc34_app by assumption. rewrite weight_app.
    pose proof (pot34_step s a Hs La). specialize (IH _ (fin_range rstep 64 r_range s a Hs) F). lia.
Qed.
Lemma weight_first34 x : Nat.modulo (length x) 3 = 0%nat -> (exists i, (i < length x)%nat /\ nth i x false = true) -> fin rstep 0 x = 0 ->
  (5 <= weight (enc34 0 x))%nat.
Proof.
  intro M. cut (Nat.modulo (length x) 3 = 0%nat /\ ((exists i, (i < length x)%nat /\ nth i x false = true) -> fin rstep 0 x = 0 ->
    (5 <= weight (enc34 0 x))%nat)); [tauto|]. revert x M.
  apply (block_ind 3 (fun x => Nat.modulo (length x) 3 = 0%nat /\ ((exists i, (i < length x)%nat /\ nth i x false = true) -> fin rstep 0 x = 0 -> (5 <= weight (enc34 0 x))%nat))); [lia| |].
  - split; [reflexivity|]. intros (i & H & _). cbn in H. lia.
  - intros a x La [M IH]. split; [rewrite app_length, La, Nat.add_comm, Nat.add_mod, M by lia; reflexivity|].
    intros (i & Hi & E) F. rewrite fin_app in F. rewrite enc34_app by assumption. rewrite weight_app.
    destruct (list_eq_dec bool_dec a (repeat false 3)) as [->|Na].
    + change (fin rstep 0 (repeat false 3)) with 0 in F |- *. change (weight (punct (out_at rstep 0 (repeat false 3)) 0)) with 0%nat. cbn [Nat.add]. apply IH; [|exact F].
      rewrite app_length, repeat_length in Hi. destruct (Nat.lt_ge_cases i 3) as [H3|H3].
      * rewrite app_nth1 in E by (rewrite repeat_length; lia). destruct i as [|[|[|i]]]; try discriminate; lia.
      * rewrite app_nth2 in E by (rewrite repeat_length; lia). rewrite repeat_length in E. exists (i - 3)%nat. split; [lia|exact E].
    + pose proof (pot34_first a La Na) as P. pose proof (weight_path34 x M _ (fin_range rstep 64 r_range 0 a ltac:(lia)) F). lia.
Qed.
Lemma enc34_distance s x y : 0 <= s < 64 -> Nat.modulo (length x) 3 = 0%nat -> length x = length y -> x <> y -> fin rstep s x = fin rstep s y ->
  (5 <= distance (enc34 s x) (enc34 s y))%nat.
Proof.
  intros Hs M L N F. unfold distance.
  destruct (enc_diff rstep rstep 64 r_range r_diff s s x y Hs Hs L) as [_ E2]. rewrite F, Z.lxor_nilpotent, Z.lxor_nilpotent in E2.
  rewrite enc34_diff by assumption. rewrite Z.lxor_nilpotent.
  destruct (xor_bits_neq x y L N) as (k & r & E).
  apply weight_first34; [rewrite xor_bits_length, L, Nat.min_id, <- L; exact M| |symmetry; exact E2].
  exists k. rewrite E, app_length, repeat_length. cbn [length]. split; [lia|].
  rewrite app_nth2 by (rewrite repeat_length; lia). now rewrite repeat_length, Nat.sub_diag.
Qed.
