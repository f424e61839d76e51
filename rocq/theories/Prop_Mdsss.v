(** * C92: the stages of the MDSSS encoder *)
From Verif Require Import Py MBits MModul MOfdm Tables MRate MOqpsk SBits SMdsss PList PBits POqpsk POqRun.
Open Scope Z_scope.

Lemma dot_app a a' b b' : length a = length b -> dot (a ++ a') (b ++ b') = dot a b + dot a' b'.
Proof. revert b. induction a as [|x a IH]; intros [|y b] L; try discriminate; [reflexivity|]. cbn [app dot]. rewrite IH by (cbn in L; lia). lia. Qed.
Lemma dot_opp_r a : forall b, dot a (map Z.opp b) = - dot a b.
Proof. induction a as [|x a IH]; intros [|y b]; try reflexivity. cbn [map dot]. rewrite IH. lia. Qed.
Lemma dot_opp_l a : forall b, dot (map Z.opp a) b = - dot a b.
Proof. induction a as [|x a IH]; intros [|y b]; try reflexivity. cbn [map dot]. rewrite IH. lia. Qed.
Lemma hadamard_rows k i : (i < 2 ^ S k)%nat -> nth i (hadamard (S k)) [] =
  if Nat.ltb i (2 ^ k) then nth i (hadamard k) [] ++ nth i (hadamard k) [] else nth (i - 2 ^ k) (hadamard k) [] ++ map Z.opp (nth (i - 2 ^ k) (hadamard k) []).
Proof.
  intro H. destruct (hadamard_size k) as [L _]. cbn [hadamard]. destruct (Nat.ltb_spec i (2 ^ k)) as [G|G].
  - rewrite app_nth1 by (rewrite map_length; lia). now rewrite (nth_map _ _ _ []) by lia.
  - rewrite app_nth2 by (rewrite map_length; lia). rewrite map_length, L. cbn [Nat.pow] in H. now rewrite (nth_map _ _ _ []) by lia.
Qed.
Lemma row_length k i : (i < 2 ^ k)%nat -> length (nth i (hadamard k) []) = (2 ^ k)%nat.
Proof. intro H. destruct (hadamard_size k) as [L F]. rewrite Forall_forall in F. apply F, nth_In. lia. Qed.
Lemma hadamard_dot k : forall i j, (i < 2 ^ k)%nat -> (j < 2 ^ k)%nat -> dot (nth i (hadamard k) []) (nth j (hadamard k) []) = if Nat.eqb i j then Z.of_nat (2 ^ k) else 0.
Proof.
  induction k as [|k IH]; intros i j Hi Hj; [cbn [Nat.pow] in *; replace i with 0%nat by lia; replace j with 0%nat by lia; reflexivity|].
  rewrite !hadamard_rows by assumption. cbn [Nat.pow] in *.
  destruct (Nat.ltb_spec i (2 ^ k)) as [A|A], (Nat.ltb_spec j (2 ^ k)) as [B|B]; rewrite dot_app by (rewrite !row_length by lia; reflexivity);
    rewrite ?dot_opp_r, ?dot_opp_l, !IH by lia.
  - destruct (Nat.eqb_spec i j); lia.
  - destruct (Nat.eqb_spec i j); lia.
  - destruct (Nat.eqb_spec i j); lia.
  - destruct (Nat.eqb_spec (i - 2 ^ k) (j - 2 ^ k)), (Nat.eqb_spec i j); lia.
Qed.
Lemma hadamard_signs k : Forall (fun r => length r = (2 ^ k)%nat /\ Forall (fun x => x = 1 \/ x = -1) r) (hadamard k).
Proof.
  induction k as [|k IH]; [repeat constructor; now left|]. cbn [hadamard]. rewrite Forall_forall in IH.
  apply Forall_app. split; apply Forall_forall; intros r Hr; apply in_map_iff in Hr as (x & <- & Hx); destruct (IH _ Hx) as [L F]; (split; [rewrite app_length, ?map_length, L; cbn [Nat.pow]; lia|]); apply Forall_app; (split; [assumption|]); [assumption|].
  apply Forall_forall. intros z Hz. apply in_map_iff in Hz as (y & <- & Hy). rewrite Forall_forall in F. destruct (F _ Hy) as [->| ->]; [right|left]; reflexivity.
Qed.
Lemma log2_pow k : hadamard_matrix (2 ^ Z.of_nat k) = hadamard k.
Proof. unfold hadamard_matrix. now rewrite Z.log2_pow2, Nat2Z.id by lia. Qed.
(** ** the matrix: for every power of two a symmetric Hadamard matrix *)
Theorem C92_matrix k : let M := hadamard_matrix (2 ^ Z.of_nat k) in
  is_hadamard (2 ^ k) M /\ forall i j, (i < 2 ^ k)%nat -> (j < 2 ^ k)%nat -> entry M i j = entry M j i.
Proof.
  intro M. unfold M. rewrite log2_pow. split.
  - split; [apply hadamard_size|]. split; [apply hadamard_signs|]. apply hadamard_dot.
  - induction k as [|k IH]; intros i j Hi Hj; [cbn [Nat.pow] in *; replace i with 0%nat by lia; replace j with 0%nat by lia; reflexivity|].
    unfold entry in *. rewrite !hadamard_rows by assumption. cbn [Nat.pow] in *.
    destruct (Nat.ltb_spec i (2 ^ k)) as [A|A], (Nat.ltb_spec j (2 ^ k)) as [B|B].
    + rewrite !app_nth1 by (rewrite row_length; lia). now apply IH.
    + rewrite app_nth2, app_nth1 by (rewrite row_length; lia). rewrite row_length by lia. apply IH; lia.
    + rewrite app_nth1, app_nth2 by (rewrite row_length; lia). rewrite row_length by lia. apply IH; lia.
    + rewrite !app_nth2 by (rewrite row_length; lia). rewrite !row_length by lia. rewrite !(nth_map _ _ _ 0) by (rewrite row_length; lia). f_equal. apply IH; lia.
Qed.
Print Assumptions C92_matrix.
(** ** the Hadamard encoder *)
Lemma zero_row r : Forall (fun x => x = 1 \/ x = -1) r -> map (fun x => if x =? 0 then 1 else 0) r = repeat 0 (length r).
Proof. induction 1 as [|x r Hx _ IH]; [reflexivity|]. cbn [map length repeat]. rewrite IH. destruct Hx as [->| ->]; reflexivity. Qed.
Lemma row_signs k i : (i < 2 ^ k)%nat -> Forall (fun x => x = 1 \/ x = -1) (nth i (hadamard k) []).
Proof. intro H. pose proof (hadamard_signs k) as F. rewrite Forall_forall in F. apply F, nth_In. rewrite (proj1 (hadamard_size k)). lia. Qed.
Lemma four_fit k : (2 <= k)%nat -> (4 <= 2 ^ k)%nat.
Proof. intro H. change 4%nat with (2 ^ 2)%nat. apply Nat.pow_le_mono_r; lia. Qed.
Lemma group_word k b0 b1 b2 : hadamard_row (2 ^ Z.of_nat k) [b0; b1; b2]
  = Ok (hadamard_cw (hadamard k) (b2z b0 + 2 * b2z b1 + 4 * b2z b2)).
Proof. unfold hadamard_row. rewrite log2_pow. generalize (hadamard_cw (hadamard k)). intro F. destruct b0, b1, b2; cbn; rewrite ?app_nil_r; reflexivity. Qed.
(** every size N >= 4: the four groups whose last bit is 1 have the same code word, N zeros (np.logical_not of 1 and of -1 is
    False), so they cannot be told apart *)
Theorem C92_codewords_refuted k b0 b1 : (2 <= k)%nat -> hadamard_row (2 ^ Z.of_nat k) [b0; b1; true] = Ok (repeat 0 (2 ^ k)).
Proof.
  intro H. pose proof (four_fit k H). rewrite group_word. f_equal. unfold hadamard_cw. replace (b2z b0 + 2 * b2z b1 + 4 * b2z true <? 4) with false by (destruct b0, b1; reflexivity).
  rewrite zero_row by (apply row_signs; destruct b0, b1; cbn; lia). rewrite row_length by (destruct b0, b1; cbn; lia). reflexivity.
Qed.
Print Assumptions C92_codewords_refuted.
Lemma dot_places : forall a b, length a = length b -> Forall (fun x => x = 1 \/ x = -1) a -> Forall (fun x => x = 1 \/ x = -1) b ->
  dot a b = Z.of_nat (length a) - 2 * Z.of_nat (places a b).
Proof.
  induction a as [|x a IH]; intros [|y b] L Fa Fb; try discriminate; [reflexivity|]. inversion Fa; inversion Fb; subst. cbn [dot places length] in *.
  rewrite IH by (try lia; assumption). destruct (Z.eqb_spec x y); lia.
Qed.
(** the four groups whose last bit is 0 have words of 1 and -1 that differ from one another in half of the places, and from
    the zeros in all *)
Theorem C92_codewords_partial k b0 b1 b0' b1' w w' : (2 <= k)%nat -> (b0, b1) <> (b0', b1') ->
  hadamard_row (2 ^ Z.of_nat k) [b0; b1; false] = Ok w -> hadamard_row (2 ^ Z.of_nat k) [b0'; b1'; false] = Ok w' ->
  length w = (2 ^ k)%nat /\ Forall (fun x => x = 1 \/ x = -1) w /\ (2 * places w w' = 2 ^ k)%nat.
Proof.
  intros H N E E'. pose proof (four_fit k H).
  assert (P : forall c0 c1, hadamard_cw (hadamard k) (b2z c0 + 2 * b2z c1 + 4 * b2z false) = nth (Z.to_nat (b2z c0 + 2 * b2z c1)) (hadamard k) []).
  { intros c0 c1. unfold hadamard_cw. destruct c0, c1; reflexivity. }
  rewrite group_word, P in E, E'. apply (f_equal (fun r => match r with Ok x => x | _ => [] end)) in E. apply (f_equal (fun r => match r with Ok x => x | _ => [] end)) in E'. cbv beta iota in E, E'. set (i := Z.to_nat (b2z b0 + 2 * b2z b1)) in *. set (j := Z.to_nat (b2z b0' + 2 * b2z b1')) in *.
  assert (Hi : (i < 2 ^ k)%nat) by (unfold i; destruct b0, b1; cbn; lia). assert (Hj : (j < 2 ^ k)%nat) by (unfold j; destruct b0', b1'; cbn; lia).
  assert (Nij : i <> j) by (unfold i, j; destruct b0, b1, b0', b1'; cbn; congruence || lia).
  pose proof (hadamard_dot k i j Hi Hj) as D. apply Nat.eqb_neq in Nij. rewrite Nij in D. pose proof (row_signs k i Hi) as S. pose proof (row_signs k j Hj) as S'.
  pose proof (row_length k i Hi) as L. pose proof (row_length k j Hj) as L'. rewrite E in *. rewrite E' in *. split; [assumption|]. split; [assumption|].
  rewrite dot_places in D by (assumption || congruence). lia.
Qed.
Print Assumptions C92_codewords_partial.

(** ** the parity row, on rows of bits *)
Lemma parity_row nb : forall (f : nat -> Z) j, (j < 4 * nb)%nat -> nth j (flat_map (fun i => repeat (f i) 4) (seq 0 nb)) 0 = f (j / 4)%nat.
Proof.
  induction nb as [|nb IH]; intros f j Hj; [lia|]. rewrite seq_S, flat_map_app. assert (L : length (flat_map (fun i => repeat (f i) 4) (seq 0 nb)) = (4 * nb)%nat).
  { rewrite flat_map_concat_map, (concat_length_const 4); [now rewrite map_length, seq_length|]. apply Forall_forall. intros l Hl. apply in_map_iff in Hl as (x & <- & _). reflexivity. }
  destruct (Nat.lt_ge_cases j (4 * nb)) as [G|G]; [rewrite app_nth1 by lia; now apply IH|]. rewrite app_nth2, L by lia. replace (j / 4)%nat with nb by (apply (Nat.div_unique _ _ _ (j - 4 * nb)); lia).
  cbn [flat_map app Nat.add repeat]. destruct (j - 4 * nb)%nat as [|[|[|[|m]]]] eqn:E; try reflexivity. lia.
Qed.
Lemma bit_parity a b c : (a = 0 \/ a = 1) -> (b = 0 \/ b = 1) -> (c = 0 \/ c = 1) -> (if Z.lxor (Z.lxor a b) c =? 0 then 1 else 0) = (a + b + c + 1) mod 2.
Proof. intros [->| ->] [->| ->] [->| ->]; reflexivity. Qed.
(** three rows of bits of 4 nb columns are kept, and the parity bit of column j is right exactly when column j has the parity of
    the second column of its group of four (the only one looked at) *)
Theorem C92_parity_partial nb r0 r1 r2 : length r0 = (4 * nb)%nat -> length r1 = (4 * nb)%nat -> length r2 = (4 * nb)%nat ->
  (forall x, In x (r0 ++ r1 ++ r2) -> x = 0 \/ x = 1) ->
  exists p, SPC_encoder [r0; r1; r2] = [r0; r1; r2; p] /\ length p = (4 * nb)%nat
  /\ forall j, (j < 4 * nb)%nat -> let c := (4 * (j / 4) + 1)%nat in
     (column_ok (nth j r0 0) (nth j r1 0) (nth j r2 0) (nth j p 0)
      <-> (nth j r0 0 + nth j r1 0 + nth j r2 0) mod 2 = (nth c r0 0 + nth c r1 0 + nth c r2 0) mod 2).
Proof.
  intros L0 L1 L2 B. unfold SPC_encoder. cbn [nth]. rewrite L0. replace (4 * nb / 4)%nat with nb by (rewrite Nat.mul_comm, Nat.div_mul; lia). rewrite Nat.sub_diag. cbn [repeat]. rewrite !app_nil_r.
  assert (K : forall r, length r = (4 * nb)%nat -> (forall x, In x r -> x = 0 \/ x = 1) -> map (fun x => x mod 256) (firstn (4 * nb) r) = r).
  { intros r Lr Br. rewrite firstn_all2 by lia. rewrite (map_ext_in _ (fun x => x)); [apply map_id|]. intros x Hx. destruct (Br x Hx) as [->| ->]; reflexivity. }
  rewrite !K by (try assumption; intros; apply B; rewrite !in_app_iff; tauto).
  eexists. split; [reflexivity|]. split.
  - rewrite flat_map_concat_map, (concat_length_const 4); [now rewrite map_length, seq_length|]. apply Forall_forall. intros l Hl. apply in_map_iff in Hl as (x & <- & _). reflexivity.
  - intros j Hj. set (c := (4 * (j / 4) + 1)%nat). rewrite (parity_row nb (fun i => if Z.lxor (Z.lxor (nth (4 * i + 1) r0 0) (nth (4 * i + 1) r1 0)) (nth (4 * i + 1) r2 0) =? 0 then 1 else 0)) by assumption. cbv beta. fold c. assert (Hc : (c < 4 * nb)%nat) by (unfold c; pose proof (Nat.div_lt_upper_bound j 4 nb ltac:(lia) ltac:(lia)); lia).
    assert (V : forall r i, length r = (4 * nb)%nat -> (i < 4 * nb)%nat -> (forall x, In x r -> In x (r0 ++ r1 ++ r2)) -> nth i r 0 = 0 \/ nth i r 0 = 1).
    { intros r i Lr Hi I. apply B, I, nth_In. lia. }
    assert (I0 : forall x, In x r0 -> In x (r0 ++ r1 ++ r2)) by (intros; rewrite !in_app_iff; tauto).
    assert (I1 : forall x, In x r1 -> In x (r0 ++ r1 ++ r2)) by (intros; rewrite !in_app_iff; tauto).
    assert (I2 : forall x, In x r2 -> In x (r0 ++ r1 ++ r2)) by (intros; rewrite !in_app_iff; tauto).
    rewrite bit_parity by (apply V; assumption). unfold column_ok.
    pose proof (V r0 j L0 Hj I0). pose proof (V r1 j L1 Hj I1). pose proof (V r2 j L2 Hj I2). pose proof (V r0 c L0 Hc I0). pose proof (V r1 c L1 Hc I1). pose proof (V r2 c L2 Hc I2).
    set (s := nth j r0 0 + nth j r1 0 + nth j r2 0) in *. set (t := nth c r0 0 + nth c r1 0 + nth c r2 0) in *. Z.div_mod_to_equations. lia.
Qed.
Print Assumptions C92_parity_partial.
(** so for every number of columns there are rows whose parity row is wrong *)
Theorem C92_parity_refuted nb : (0 < nb)%nat -> exists r0 r1 r2 p, length r0 = (4 * nb)%nat /\ SPC_encoder [r0; r1; r2] = [r0; r1; r2; p]
  /\ ~ column_ok (nth 0 r0 0) (nth 0 r1 0) (nth 0 r2 0) (nth 0 p 0).
Proof.
  intro H. destruct (C92_parity_partial nb (1 :: repeat 0 (4 * nb - 1)) (repeat 0 (4 * nb)) (repeat 0 (4 * nb))) as (p & E & _ & K).
  - cbn [length]. rewrite repeat_length. lia.
  - apply repeat_length.
  - apply repeat_length.
  - intros x Hx. rewrite !in_app_iff in Hx. destruct Hx as [[<-|Hx]|[Hx|Hx]]; [now right|..]; apply repeat_spec in Hx; now left.
  - eexists. eexists. eexists. exists p. split; [|split; [exact E|]]; [cbn [length]; rewrite repeat_length; lia|]. rewrite K by lia. cbv zeta. change (4 * (0 / 4) + 1)%nat with 1%nat. cbn [nth]. rewrite !nth_repeat.
    destruct (4 * nb - 1)%nat as [|m]; cbn; discriminate.
Qed.
Print Assumptions C92_parity_refuted.

(** ** the whole encoder: refuses the messages whose size is not a multiple of 4 (pad = size mod 8 zeros are added to reach a
    multiple of 8, which works for remainders 0 and 4 only), and otherwise returns the same chips for every message *)
Theorem C92_message_refuted n : In n [4; 8; 16; 32] -> exists chips, length chips = Z.to_nat (4 * n)
  /\ forall t, t <> [] -> MDSSS t (4 * n) = if Nat.eqb (Nat.modulo (length t) 4) 0 then Ok chips else Err ValueError.
Proof.
  intro Hn. exists (cover n). split; [destruct Hn as [<-|[<-|[<-|[<-|[]]]]]; reflexivity|]. intros t Ht. rewrite MDSSS_run by assumption.
  replace (Nat.eqb (Nat.modulo (mdsss_size (length t)) 9) 0) with (Nat.eqb (Nat.modulo (length t) 4) 0); [reflexivity|].
  unfold mdsss_size. cbv zeta. set (l := length t). pose proof (Nat.div_mod l 8 ltac:(lia)) as D. pose proof (Nat.mod_upper_bound l 8 ltac:(lia)) as U. set (q := (l / 8)%nat) in *. set (r := (l mod 8)%nat) in *.
  assert (M4 : (l mod 4 = r mod 4)%nat) by (rewrite D; replace (8 * q + r)%nat with (r + 2 * q * 4)%nat by lia; apply Nat.mod_add; lia).
  rewrite M4, D. replace (8 * q + r + r)%nat with (2 * r + q * 8)%nat by lia. rewrite Nat.div_add by lia.
  replace (2 * r + q * 8 + (2 * r / 8 + q))%nat with (2 * r + 2 * r / 8 + q * 9)%nat by lia. rewrite Nat.mod_add by lia. clearbody q r. clear D M4 l.
  do 8 (destruct r as [|r]; [reflexivity|]). lia.
Qed.
Print Assumptions C92_message_refuted.
Example C92_case : MDSSS (repeat true 12) 16 = MDSSS (repeat false 24) 16 /\ MDSSS (repeat true 10) 16 = Err ValueError
  /\ hadamard_row 4 [false; false; true] = Ok [0; 0; 0; 0] /\ hadamard_row 4 [true; true; false] = Ok [1; -1; -1; 1].
Proof. vm_compute. repeat split. Qed.
