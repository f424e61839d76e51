(** * Proofs: the Viterbi decoder returns the input whose code word agrees best with what was received *)
From Coq Require Import Reals Lra.
From Coquelicot Require Import Complex.
From Verif Require Import Py PList SBits SPn9 SRate MModul SOfdm SMrOfdm STime SMrRx SVit.

(** agreement of a code word with the received values *)
Fixpoint corr (w : list bool) (s : list R) : R :=
  match w, s with b :: w', x :: s' => (agree b x + corr w' s')%R | _, _ => 0%R end.
Lemma corr_app a b s t : length a = length s -> corr (a ++ b) (s ++ t) = (corr a s + corr b t)%R.
Proof. revert s. induction a as [|x a IH]; intros [|y s] L; cbn [length] in L; try lia; cbn [app corr]; [lra|]. rewrite IH by lia. lra. Qed.

(** allowed inputs *)
Definition allowed (known : list (option bool)) (x : list bool) : Prop :=
  Forall2 (fun k b => match k with Some c => b = c | None => True end) known x.

(** ** code words by register contents *)
Fixpoint word (m : list bool) (x : list bool) : list bool :=
  match x with [] => [] | b :: r => gen_bit m b taps_133 :: gen_bit m b taps_171 :: word (shifted m b) r end.
Lemma tap_nth pre b y t : (t <= 6)%nat -> tap 0 (pre ++ b :: y) (length pre) t = nth t (b :: firstn 6 (rev pre ++ repeat false 6)) false.
Proof.
  intro Ht. unfold tap. destruct t as [|t].
  - cbn [Nat.leb nth]. rewrite Nat.sub_0_r, app_nth2, Nat.sub_diag by lia. reflexivity.
  - cbn [nth]. rewrite nth_firstn by lia. destruct (Nat.leb_spec (S t) (length pre)) as [H|H].
    + rewrite (app_nth1 pre) by lia. rewrite (app_nth1 (rev pre)) by (rewrite rev_length; lia). rewrite rev_nth by lia. f_equal.
    + rewrite Z.testbit_0_l. rewrite app_nth2; rewrite rev_length; [|lia].
      assert (X : forall k n, nth k (repeat false n) false = false) by (intros k n; revert k; induction n; intros [|k]; cbn; auto). now rewrite X.
Qed.
Lemma xor_taps_gen pre b y taps : Forall (fun t => (t <= 6)%nat) taps ->
  xor_taps 0 (pre ++ b :: y) (length pre) taps = gen_bit (firstn 6 (rev pre ++ repeat false 6)) b taps.
Proof.
  intro F. unfold xor_taps, gen_bit. induction taps as [|t taps IH]; [reflexivity|]. inversion F; subst.
  cbn [fold_right]. rewrite IH by assumption. now rewrite tap_nth by assumption.
Qed.
Lemma shifted_state pre b : shifted (firstn 6 (rev pre ++ repeat false 6)) b = firstn 6 (rev (pre ++ [b]) ++ repeat false 6).
Proof.
  unfold shifted. rewrite rev_app_distr. change (rev [b] ++ rev pre) with (b :: rev pre). set (l := rev pre). clearbody l.
  change ((b :: l) ++ repeat false 6) with (b :: (l ++ repeat false 6)). set (k := l ++ repeat false 6). clearbody k.
  change (firstn 6 (b :: firstn 6 k)) with (b :: firstn 5 (firstn 6 k)). change (firstn 6 (b :: k)) with (b :: firstn 5 k).
  now rewrite firstn_firstn.
Qed.
Lemma word_code_from y : forall pre,
  flat_map (fun n => [xor_taps 0 (pre ++ y) n taps_133; xor_taps 0 (pre ++ y) n taps_171]) (seq (length pre) (length y))
  = word (firstn 6 (rev pre ++ repeat false 6)) y.
Proof.
  induction y as [|b y IH]; intro pre; [reflexivity|]. cbn [length seq flat_map word app].
  rewrite !xor_taps_gen by (repeat constructor). do 2 f_equal. rewrite shifted_state, <- IH. rewrite app_length. cbn [length].
  replace (length pre + 1)%nat with (S (length pre)) by lia. rewrite <- app_assoc. reflexivity.
Qed.
Lemma word_code x : word (repeat false 6) x = code_12 0 x.
Proof. symmetry. apply (word_code_from x []). Qed.

(** ** the trellis *)
Definition flat (s : list (R * R)) : list R := flat_map (fun p => [fst p; snd p]) s.
Lemma best_in l v : best l = Some v -> In v l /\ forall w, In w l -> (p_score w <= p_score v)%R.
Proof.
  revert v. induction l as [|u l IH]; intros v E; [discriminate|]. cbn [best] in E.
  destruct (best l) as [w|] eqn:B.
  - destruct (IH w eq_refl) as [I M]. destruct (Rlt_dec (p_score u) (p_score w)) as [H|H]; injection E as <-.
    + split; [now right|]. intros x [<-|Hx]; [lra|auto].
    + split; [now left|]. intros x [<-|Hx]; [lra|]. specialize (M x Hx). lra.
  - injection E as <-. destruct l as [|w l]; [|cbn [best] in B; destruct (best l); [destruct (Rlt_dec _ _)|]; discriminate].
    split; [now left|]. intros x [<-|[]]. lra.
Qed.
Lemma best_none l : best l = None -> l = [].
Proof. destruct l as [|w l]; [reflexivity|]. cbn [best]. destruct (best l); [destruct (Rlt_dec _ _)|]; discriminate. Qed.
Lemma all_groups_in n m : length m = n -> In m (all_groups n).
Proof.
  revert m. induction n as [|n IH]; intros [|b m] L; cbn [length] in L; try lia; [now left|].
  cbn [all_groups]. apply in_flat_map. exists m. split; [apply IH; lia|]. destruct b; cbn; auto.
Qed.
Lemma survivors_sub l v : In v (survivors l) -> In v l.
Proof.
  unfold survivors. rewrite in_flat_map. intros (m & _ & H). destruct (best _) as [w|] eqn:B; [|destruct H]. destruct H as [<-|[]].
  apply best_in in B as [I _]. apply filter_In in I. tauto.
Qed.
Lemma survivors_best l v : In v l -> length (p_state v) = 6%nat ->
  exists w, In w (survivors l) /\ p_state w = p_state v /\ (p_score v <= p_score w)%R.
Proof.
  intros Hv L. set (f := fun u => if list_eq_dec bool_dec (p_state u) (p_state v) then true else false).
  assert (Fv : In v (filter f l)) by (apply filter_In; split; [assumption|]; unfold f; destruct (list_eq_dec bool_dec (p_state v) (p_state v)); congruence).
  destruct (best (filter f l)) as [w|] eqn:B; [|apply best_none in B; rewrite B in Fv; destruct Fv].
  exists w. destruct (best_in _ _ B) as [I M]. split; [|split].
  - unfold survivors. apply in_flat_map. exists (p_state v). split; [now apply all_groups_in|]. fold f. rewrite B. now left.
  - apply filter_In in I as [_ I]. unfold f in I. destruct (list_eq_dec bool_dec (p_state w) (p_state v)); congruence.
  - now apply M.
Qed.
Lemma choices_in k b : match k with Some c => b = c | None => True end <-> In b (choices k).
Proof. destruct k as [c|]; cbn; [intuition congruence|]. destruct b; intuition. Qed.
Lemma shifted_length m b : length m = 6%nat -> length (shifted m b) = 6%nat.
Proof. intro L. unfold shifted. rewrite firstn_length. cbn [length]. lia. Qed.
Lemma trellis_upper known : forall received l x v, length known = length received -> In v l -> length (p_state v) = 6%nat -> allowed known x ->
  exists w, In w (trellis known received l) /\ (p_score v + corr (word (p_state v) x) (flat received) <= p_score w)%R.
Proof.
  induction known as [|k known IH]; intros [|s received] l x v Hl Hv L6 Hx; cbn [length] in Hl; try lia.
  - inversion Hx; subst. exists v. split; [assumption|]. cbn. lra.
  - inversion Hx as [|? b ? x' Hb Hx']; subst. cbn [trellis].
    assert (Hc : In (extended s v b) (flat_map (fun v => map (extended s v) (choices k)) l)).
    { apply in_flat_map. exists v. split; [assumption|]. apply in_map. now apply choices_in. }
    destruct (survivors_best _ _ Hc) as (w & Iw & Sw & Gw); [now apply shifted_length|].
    destruct (IH received _ x' w ltac:(lia) Iw) as (u & Iu & Gu); [rewrite Sw; now apply shifted_length|assumption|].
    exists u. split; [assumption|]. cbn [word flat flat_map app corr]. fold (flat received). rewrite Sw in Gu. cbn [p_state extended] in Gu. cbn [p_score extended] in Gw. lra.
Qed.
Lemma trellis_lower known : forall received l w, length known = length received -> In w (trellis known received l) ->
  exists v x, In v l /\ allowed known x /\ p_bits w = rev x ++ p_bits v /\ p_score w = (p_score v + corr (word (p_state v) x) (flat received))%R.
Proof.
  induction known as [|k known IH]; intros [|s received] l w Hl Hw; cbn [length] in Hl; try lia.
  - exists w, []. repeat split; [exact Hw|constructor|]. cbn. lra.
  - cbn [trellis] in Hw. destruct (IH received _ w ltac:(lia) Hw) as (c & x & Ic & Hx & Eb & Es). apply survivors_sub in Ic.
    apply in_flat_map in Ic as (v & Iv & Ic). apply in_map_iff in Ic as (b & <- & Ib). exists v, (b :: x). split; [assumption|]. split; [|split].
    + constructor; [now apply choices_in|assumption].
    + rewrite Eb. cbn [p_bits extended rev]. now rewrite <- app_assoc.
    + rewrite Es. cbn [p_score p_state extended word flat flat_map app corr]. fold (flat received). lra.
Qed.
Theorem viterbi_best known received : length known = length received -> allowed known (viterbi known received)
  /\ forall x, allowed known x -> (corr (code_12 0 x) (flat received) <= corr (code_12 0 (viterbi known received)) (flat received))%R.
Proof.
  intro Hl. unfold viterbi. set (v0 := {| p_state := repeat false 6; p_score := 0; p_bits := [] |}).
  assert (E : exists x0, allowed known x0).
  { clear. induction known as [|k known [x IH]]; [exists []; constructor|]. exists (match k with Some c => c | None => false end :: x). constructor; [destruct k; auto|assumption]. }
  destruct E as [x0 H0]. destruct (trellis_upper known received [v0] x0 v0 Hl (or_introl eq_refl) eq_refl H0) as (u & Iu & _).
  destruct (best (trellis known received [v0])) as [w|] eqn:B; [|apply best_none in B; rewrite B in Iu; destruct Iu].
  destruct (best_in _ _ B) as [Iw Mw]. destruct (trellis_lower known received [v0] w Hl Iw) as (v & x & Iv & Hx & Eb & Es). destruct Iv as [<-|[]].
  cbn [p_bits v0] in Eb. rewrite app_nil_r in Eb. rewrite Eb, rev_involutive. split; [assumption|]. intros y Hy.
  destruct (trellis_upper known received [v0] y v0 Hl (or_introl eq_refl) eq_refl Hy) as (z & Iz & Gz). specialize (Mw z Iz). rewrite Es in Mw.
  cbn [p_state p_score v0] in *. rewrite !word_code in *. lra.
Qed.
(** the input sent is found if every other allowed input agrees less *)
Theorem viterbi_found known received x : length known = length received -> allowed known x ->
  (forall y, allowed known y -> y <> x -> (corr (code_12 0 y) (flat received) < corr (code_12 0 x) (flat received))%R) -> viterbi known received = x.
Proof.
  intros Hl Hx H. destruct (viterbi_best known received Hl) as [A M]. specialize (M x Hx).
  destruct (list_eq_dec bool_dec (viterbi known received) x) as [E|N]; [assumption|]. specialize (H _ A N). lra.
Qed.

(** ** the pairs *)
Lemma flat_pairs_12 l k : length l = (2 * k)%nat -> flat (pairs_12 l) = l /\ length (pairs_12 l) = k.
Proof.
  revert l. induction k as [|k IH]; intros l L.
  - destruct l; [now split|discriminate].
  - destruct l as [|a [|b l]]; cbn [length] in L; try lia. destruct (IH l ltac:(lia)) as [E1 E2]. cbn [pairs_12 flat flat_map app fst snd length]. fold (flat (pairs_12 l)). now rewrite E1, E2.
Qed.
Lemma seq_shift3 n : forall a, seq (3 * S a) (3 * n) = map (fun i => i + 3)%nat (seq (3 * a) (3 * n)).
Proof. intro a. replace (3 * S a)%nat with (3 + 3 * a)%nat by lia. generalize (3 * a)%nat, (3 * n)%nat. intros b c. revert b. induction c as [|c IH]; intro b; [reflexivity|]. cbn [seq map]. f_equal; [lia|]. specialize (IH (S b)). rewrite <- IH. f_equal. Qed.
(** agreement of the punctured word = agreement of the full word with zeros in place of what is missing *)
Lemma corr_34_from l : forall x k n, length l = (4 * n)%nat ->
  corr (flat_map (fun i => [xor_taps 0 x (3 * i) taps_133; xor_taps 0 x (3 * i) taps_171; xor_taps 0 x (3 * i + 1) taps_133; xor_taps 0 x (3 * i + 2) taps_171]) (seq k n)) l
  = corr (flat_map (fun i => [xor_taps 0 x i taps_133; xor_taps 0 x i taps_171]) (seq (3 * k) (3 * n))) (flat (pairs_34 l))
  /\ length (pairs_34 l) = (3 * n)%nat.
Proof.
  intros x k n. revert l k. induction n as [|n IH]; intros l k L.
  - destruct l; [now split|discriminate].
  - destruct l as [|a [|b [|c [|d l]]]]; cbn [length] in L; try lia. destruct (IH l (S k) ltac:(lia)) as [E1 E2].
    replace (3 * S n)%nat with (S (S (S (3 * n)))) by lia. cbn [seq flat_map app corr pairs_34 flat fst snd length]. fold (flat (pairs_34 l)).
    split; [|now rewrite E2]. rewrite E1. replace (S (S (S (3 * k)))) with (3 * S k)%nat by lia.
    replace (3 * k + 1)%nat with (S (3 * k)) by lia. replace (3 * k + 2)%nat with (S (S (3 * k))) by lia.
    assert (Z0 : forall b, agree b 0 = 0%R) by (intros []; cbn; lra). rewrite !Z0. lra.
Qed.
Definition code_of (three_quarters : bool) (x : list bool) : list bool := if three_quarters then code_34 0 x else code_12 0 x.
Lemma corr_pairs q x l k : length x = k -> (q = true -> Nat.modulo k 3 = 0%nat) -> length l = length (code_of q x) ->
  corr (code_of q x) l = corr (code_12 0 x) (flat (pairs q l)) /\ length (pairs q l) = k.
Proof.
  intros Hk M L. unfold code_of, pairs in *. destruct q.
  - specialize (M eq_refl). pose proof (Nat.div_mod k 3 ltac:(lia)) as D. rewrite M in D. set (n := (k / 3)%nat) in *.
    unfold code_34 in *. rewrite Hk in *. fold n in L |- *.
    assert (L4 : length l = (4 * n)%nat).
    { rewrite L. clear. generalize (seq_length n 0). generalize (seq 0 n) as s. intros s <-. induction s as [|i s IH]; [reflexivity|]. cbn [flat_map]. rewrite app_length, IH. cbn [length]. lia. }
    destruct (corr_34_from l x 0 n L4) as [E1 E2]. rewrite E1. split; [|lia]. unfold code_12. rewrite Hk. f_equal. f_equal. f_equal. lia.
  - assert (L2 : length l = (2 * k)%nat).
    { rewrite L. unfold code_12. rewrite Hk. clear. generalize (seq_length k 0). generalize (seq 0 k) as s. intros s <-. induction s as [|i s IH]; [reflexivity|]. cbn [flat_map]. rewrite app_length, IH. cbn [length]. lia. }
    destruct (flat_pairs_12 l k L2) as [E1 E2]. rewrite E1, E2. now split.
Qed.
