(** * Two-output binary Mealy machines with a finite state: injectivity, linearity and distance *)
From Verif Require Import Py PList SBits.

Lemma xor_bits_length a b : length (xor_bits a b) = Nat.min (length a) (length b).
Proof. revert b. induction a; destruct b; simpl; auto. Qed.
Lemma xor_bits_app a1 a2 b1 b2 : length a1 = length b1 ->
  xor_bits (a1 ++ a2) (b1 ++ b2) = xor_bits a1 b1 ++ xor_bits a2 b2.
Proof. revert b1. induction a1; destruct b1; simpl; intros; try lia; auto. f_equal. auto. Qed.
Lemma weight_app a b : weight (a ++ b) = (weight a + weight b)%nat.
Proof. induction a; simpl; lia. Qed.
Lemma xor_bits_refl a : xor_bits a a = repeat false (length a).
Proof. induction a; simpl; auto. rewrite xorb_nilpotent. now f_equal. Qed.
Lemma weight_repeat_false n : weight (repeat false n) = 0%nat.
Proof. induction n; simpl; auto. Qed.
Lemma distance_app a1 a2 b1 b2 : length a1 = length b1 ->
  distance (a1 ++ a2) (b1 ++ b2) = (distance a1 b1 + distance a2 b2)%nat.
Proof. intro H. unfold distance. now rewrite xor_bits_app, weight_app. Qed.
Lemma distance_refl a : distance a a = 0%nat.
Proof. unfold distance. now rewrite xor_bits_refl, weight_repeat_false. Qed.
Lemma xor_bits_neq a b : length a = length b -> a <> b -> exists k r, xor_bits a b = repeat false k ++ true :: r.
Proof.
  revert b. induction a as [|x a IH]; destruct b as [|y b]; simpl; intros Hl Hn; try lia; [congruence|].
  destruct (bool_dec x y) as [->|Hxy].
  - destruct (IH b) as (k & r & E); [lia|congruence|]. exists (S k), r. simpl. now rewrite xorb_nilpotent, E.
  - exists 0%nat, (xor_bits a b). simpl. f_equal. destruct x, y; try reflexivity; congruence.
Qed.

Section Mealy.
  Variable step : Z -> bool -> Z * (bool * bool).
  Fixpoint enc (s : Z) (x : list bool) : list bool :=
    match x with
    | [] => []
    | b :: r => let '(s', (u, v)) := step s b in u :: v :: enc s' r
    end.
  Fixpoint fin (s : Z) (x : list bool) : Z :=
    match x with [] => s | b :: r => fin (fst (step s b)) r end.

  Lemma enc_cons s b r : enc s (b :: r) = fst (snd (step s b)) :: snd (snd (step s b)) :: enc (fst (step s b)) r.
  Proof. cbn [enc]. destruct (step s b) as [s' [u v]]. reflexivity. Qed.
  Lemma enc_length s x : length (enc s x) = (2 * length x)%nat.
  Proof. revert s. induction x as [|b x IH]; intro s; [reflexivity|]. rewrite enc_cons. cbn [length]. rewrite IH. lia. Qed.
  Lemma enc_app s x y : enc s (x ++ y) = enc s x ++ enc (fin s x) y.
  Proof. revert s. induction x as [|b x IH]; intro s; [reflexivity|].
    cbn [app]. rewrite !enc_cons. cbn [fin]. rewrite IH. reflexivity. Qed.
  Lemma fin_app s x y : fin s (x ++ y) = fin (fin s x) y.
  Proof. revert s. induction x as [|b x IH]; intro s; [reflexivity|]. cbn [app fin]. apply IH. Qed.

  (** states 0 <= s < N *)
  Variable N : Z.
  Hypothesis Hrange : forall s b, 0 <= s < N -> 0 <= fst (step s b) < N.
  Lemma fin_range s x : 0 <= s < N -> 0 <= fin s x < N.
  Proof. revert s. induction x as [|b x IH]; intros s Hs; [exact Hs|]. cbn [fin]. auto. Qed.

  (** the output pair of a known state determines the input *)
  Hypothesis Hinj : forall s a b, 0 <= s < N -> snd (step s a) = snd (step s b) -> a = b.
  Lemma enc_inj s x y : 0 <= s < N -> enc s x = enc s y -> x = y.
  Proof.
    revert s y. induction x as [|a x IH]; intros s y Hs H; destruct y as [|b y]; auto.
    - apply (f_equal (@length bool)) in H. rewrite !enc_length in H. simpl in H. lia.
    - apply (f_equal (@length bool)) in H. rewrite !enc_length in H. simpl in H. lia.
    - rewrite !enc_cons in H. injection H as H1 H2 H3.
      assert (a = b).
      { apply (Hinj s); auto. destruct (snd (step s a)), (snd (step s b)); simpl in *; congruence. }
      subst b. f_equal. apply IH with (s := fst (step s a)); auto.
  Qed.
End Mealy.

Section Distance.
  (** [stepL] is the difference machine of [step] *)
  Variables (step stepL : Z -> bool -> Z * (bool * bool)) (N : Z).
  Hypothesis Hrange : forall s b, 0 <= s < N -> 0 <= fst (step s b) < N.
  Hypothesis HrangeL : forall s b, 0 <= s < N -> 0 <= fst (stepL s b) < N.
  Hypothesis Hdiff : forall s t a b, 0 <= s < N -> 0 <= t < N ->
    stepL (Z.lxor s t) (xorb a b) =
    (Z.lxor (fst (step s a)) (fst (step t b)),
     (xorb (fst (snd (step s a))) (fst (snd (step t b))), xorb (snd (snd (step s a))) (snd (snd (step t b))))).

  Lemma enc_diff s t x y : 0 <= s < N -> 0 <= t < N -> length x = length y ->
    xor_bits (enc step s x) (enc step t y) = enc stepL (Z.lxor s t) (xor_bits x y)
    /\ Z.lxor (fin step s x) (fin step t y) = fin stepL (Z.lxor s t) (xor_bits x y).
  Proof.
    revert s t y. induction x as [|a x IH]; intros s t y Hs Ht Hl; destruct y as [|b y]; simpl in Hl; try lia.
    - split; reflexivity.
    - rewrite !enc_cons. cbn [xor_bits fin].
      rewrite enc_cons. rewrite Hdiff by assumption. cbn [fst snd].
      destruct (IH (fst (step s a)) (fst (step t b)) y) as [E1 E2]; auto; try lia.
      rewrite E1, E2. split; reflexivity.
  Qed.

  (** potential: a lower bound on the weight of any path from a state to 0 *)
  Variable pot : Z -> nat.
  Hypothesis Hpot0 : pot 0 = 0%nat.
  Hypothesis Hpot : forall s b, 0 <= s < N ->
    (pot s <= weight [fst (snd (stepL s b)); snd (snd (stepL s b))] + pot (fst (stepL s b)))%nat.
  Lemma weight_path s x : 0 <= s < N -> fin stepL s x = 0 -> (pot s <= weight (enc stepL s x))%nat.
  Proof.
    revert s. induction x as [|b x IH]; intros s Hs Hf.
    - simpl in Hf. subst. rewrite Hpot0. lia.
    - rewrite enc_cons. cbn [fin] in Hf. specialize (IH (fst (stepL s b)) (HrangeL s b Hs) Hf).
      pose proof (Hpot s b Hs) as Hp. cbn [weight] in *. lia.
  Qed.
  Variable d : nat.
  Hypothesis HN : 0 < N.
  Hypothesis Hzero : stepL 0 false = (0, (false, false)).
  Hypothesis Hd : (d <= weight [fst (snd (stepL 0 true)); snd (snd (stepL 0 true))] + pot (fst (stepL 0 true)))%nat.
  Lemma weight_first_one k r : fin stepL 0 (repeat false k ++ true :: r) = 0 ->
    (d <= weight (enc stepL 0 (repeat false k ++ true :: r)))%nat.
  Proof.
    induction k as [|k IH]; intro Hf.
    - cbn [repeat app] in *. rewrite enc_cons. cbn [fin] in Hf.
      pose proof (weight_path (fst (stepL 0 true)) r) as Hw. cbn [weight] in *.
      specialize (Hw (HrangeL 0 true ltac:(lia)) Hf). lia.
    - cbn [repeat app] in *. rewrite enc_cons. cbn [fin] in Hf. rewrite Hzero in Hf |- *. cbn [fst snd] in *.
      cbn [weight]. apply IH. exact Hf.
  Qed.
  Lemma free_distance x y :
    length x = length y -> x <> y -> fin step 0 x = 0 -> fin step 0 y = 0 ->
    (d <= distance (enc step 0 x) (enc step 0 y))%nat.
  Proof.
    intros Hl Hn Hx Hy. unfold distance.
    destruct (enc_diff 0 0 x y) as [E1 E2]; auto; try lia. rewrite Z.lxor_0_l in E1, E2.
    rewrite Hx, Hy in E2. rewrite Z.lxor_0_l in E2. rewrite E1.
    destruct (xor_bits_neq x y Hl Hn) as (k & r & E). rewrite E in *. apply weight_first_one. congruence.
  Qed.
End Distance.

(** checking a statement on all states by computation *)
Definition states (N : Z) : list Z := map Z.of_nat (seq 0 (Z.to_nat N)).
Lemma in_states N s : 0 <= s < N -> In s (states N).
Proof. intro H. apply in_map_iff. exists (Z.to_nat s). split; [lia|]. apply in_seq. lia. Qed.
Lemma states_forall N (P : Z -> bool) : forallb P (states N) = true -> forall s, 0 <= s < N -> P s = true.
Proof. intros H s Hs. rewrite forallb_forall in H. apply H. now apply in_states. Qed.
Definition bools := [false; true].
Lemma bools_forall (P : bool -> bool) : forallb P bools = true -> forall b, P b = true.
Proof. intros H b. rewrite forallb_forall in H. apply H. destruct b; simpl; auto. Qed.

Lemma flat_map_seq_shift {A} (f : nat -> list A) k n :
  flat_map f (seq k n) = flat_map (fun i => f (k + i)%nat) (seq 0 n).
Proof.
  revert k f. induction n as [|n IH]; intros k f; [reflexivity|]. cbn [seq flat_map].
  rewrite Nat.add_0_r. f_equal. rewrite (IH (S k)), (IH 1%nat).
  apply flat_map_ext. intro i. f_equal. lia.
Qed.

(** output pair at position n *)
Definition out_at (step : Z -> bool -> Z * (bool * bool)) (s : Z) (x : list bool) (n : nat) : bool * bool :=
  snd (step (fin step s (firstn n x)) (nth n x false)).
Lemma enc_out_at step s x :
  enc step s x = flat_map (fun n => [fst (out_at step s x n); snd (out_at step s x n)]) (seq 0 (length x)).
Proof.
  revert s. induction x as [|b x IH]; intro s; [reflexivity|].
  rewrite enc_cons. cbn [length seq flat_map app]. unfold out_at at 1 2. cbn [firstn fin nth].
  do 2 f_equal. rewrite IH. rewrite (flat_map_seq_shift _ 1). reflexivity.
Qed.
Lemma out_at_app_r step s a x n : out_at step s (a ++ x) (length a + n) = out_at step (fin step s a) x n.
Proof.
  unfold out_at. rewrite firstn_app_2, fin_app. now rewrite app_nth2_plus.
Qed.
Lemma out_at_app_l step s a x n : (n < length a)%nat -> out_at step s (a ++ x) n = out_at step s a n.
Proof.
  intro H. unfold out_at. rewrite firstn_app. replace (n - length a)%nat with 0%nat by lia.
  rewrite firstn_O, app_nil_r, app_nth1 by assumption. reflexivity.
Qed.
