(** * Polynomial division over Z (numpy) related to the GF(2) CRC register *)
From Verif Require Import Py MBits MFields PList SBits PBits SCrc.

(** ** the division loop as an integer shift register *)
Definition zstep (r : list Z) (b : Z) : list Z :=
  let d := hd 0 r + b in
  map2 (fun x v => x - d * v) (tl r ++ [0]) [0; 0; 0; 0; 0; 1; 1; 1].
Fixpoint add_prefix (r u : list Z) : list Z :=
  match r, u with x :: r', y :: u' => (x + y) :: add_prefix r' u' | _, _ => u end.

Lemma list8 {A} (r : list A) : length r = 8%nat ->
  exists a b c d e f g h, r = [a; b; c; d; e; f; g; h].
Proof.
  intro H. do 8 (destruct r as [|? r]; [discriminate H|]). destruct r; [|discriminate H].
  do 8 eexists. reflexivity.
Qed.
Lemma zstep_length r b : length r = 8%nat -> length (zstep r b) = 8%nat.
Proof. intro H. destruct (list8 r H) as (?&?&?&?&?&?&?&?&->). reflexivity. Qed.

Lemma list8_app {A} (r : list A) : (8 <= length r)%nat ->
  exists a b c d e f g h t, r = a :: b :: c :: d :: e :: f :: g :: h :: t.
Proof.
  intro H. do 8 (destruct r as [|? r]; [simpl in H; lia|]). do 9 eexists. reflexivity.
Qed.

Lemma polydiv_loop_reg ds r : length r = 8%nat ->
  polydiv_loop (length ds) (add_prefix r (ds ++ repeat 0 8)) HCS_G
  = repeat 0 (length ds) ++ fold_left zstep ds r.
Proof.
  revert r. induction ds as [|x ds IH]; intros r Hr.
  - destruct (list8 r Hr) as (?&?&?&?&?&?&?&?&->). cbn. rewrite !Z.add_0_r. reflexivity.
  - change ((x :: ds) ++ repeat 0 8) with (x :: (ds ++ repeat 0 8)).
    change (repeat 0 (length (x :: ds)) ++ fold_left zstep (x :: ds) r)
      with (0 :: (repeat 0 (length ds) ++ fold_left zstep ds (zstep r x))).
    rewrite <- IH by (now apply zstep_length). clear IH. cbn [length].
    assert (Hu : (8 <= length (ds ++ repeat 0%Z 8))%nat) by (rewrite app_length, repeat_length; lia).
    generalize dependent (ds ++ repeat 0 8). intros U Hu. generalize (length ds). intro n.
    destruct (list8_app U Hu) as (u0&u1&u2&u3&u4&u5&u6&u7&t&Eu).
    destruct (list8 r Hr) as (a&b&c&d&e&f&g&h&->). subst U.
    cbn [add_prefix polydiv_loop]. unfold zstep, HCS_G. cbn [hd tl map sub_prefix map2 app].
    f_equal; [lia|]. f_equal. cbn [add_prefix]. repeat (f_equal; [lia|]). destruct t; reflexivity.
Qed.

Definition reg0 : list Z := repeat 0 8.
Lemma add_prefix_0 u : (8 <= length u)%nat -> add_prefix reg0 u = u.
Proof. intro H. destruct (list8_app u H) as (?&?&?&?&?&?&?&?&?&->). reflexivity. Qed.

Lemma polydiv_reg ds : (0 < length ds)%nat ->
  polydiv_rem (ds ++ repeat 0 8) HCS_G = strip_zeros (repeat 0 (length ds) ++ fold_left zstep ds reg0).
Proof.
  intro H. unfold polydiv_rem. rewrite <- polydiv_loop_reg by reflexivity.
  rewrite add_prefix_0 by (rewrite app_length, repeat_length; lia).
  rewrite app_length, repeat_length. change (length HCS_G) with 9%nat.
  replace (length ds + 8 + 1 - 9)%nat with (length ds) by lia. reflexivity.
Qed.

(** ** right-aligned views *)
Definition ralign (n : nat) (l : list Z) : list Z := repeat 0 (n - length l) ++ l.

Lemma strip_zeros_app n l : (0 < length l)%nat -> strip_zeros (repeat 0 n ++ l) = strip_zeros l.
Proof.
  intro H. induction n as [|n IH]; [reflexivity|]. cbn [repeat app].
  destruct (repeat 0 n ++ l) eqn:E.
  - apply app_eq_nil in E as [_ ->]. simpl in H. lia.
  - rewrite <- IH. reflexivity.
Qed.
Lemma strip_zeros_decomp l : exists k, l = repeat 0 k ++ strip_zeros l.
Proof.
  induction l as [|x l [k IH]]; [exists 0%nat; reflexivity|].
  destruct l as [|y l]; [exists 0%nat; reflexivity|].
  cbn [strip_zeros]. destruct (Z.eqb_spec x 0) as [->|].
  - exists (S k). change (0 :: y :: l = 0 :: (repeat 0 k ++ strip_zeros (y :: l))). now rewrite <- IH.
  - exists 0%nat. reflexivity.
Qed.
Lemma strip_zeros_ralign l : ralign (length l) (strip_zeros l) = l.
Proof.
  destruct (strip_zeros_decomp l) as [k E]. unfold ralign.
  assert (Hk : (length l - length (strip_zeros l))%nat = k).
  { apply (f_equal (@length Z)) in E. rewrite app_length, repeat_length in E. lia. }
  rewrite Hk. symmetry. exact E.
Qed.
Lemma strip_zeros_head l : strip_zeros l = [] \/ (exists x, strip_zeros l = [x]) \/ hd 0 (strip_zeros l) <> 0.
Proof.
  induction l as [|x l IH]; [auto|]. destruct l as [|y l]; [right; left; eexists; reflexivity|].
  cbn [strip_zeros] in *. destruct (Z.eqb_spec x 0) as [->|]; [exact IH|]. right. right. assumption.
Qed.
Lemma poly1d_strip l : l <> [] -> poly1d (strip_zeros l) = strip_zeros l.
Proof.
  intro Hl. destruct (strip_zeros_head l) as [E|[(x & E)|E]].
  - exfalso. destruct l as [|x l]; [congruence|]. clear Hl. revert x E. induction l as [|y l IH]; intros x E; [discriminate E|].
    cbn [strip_zeros] in E. destruct (x =? 0); [exact (IH y E)|discriminate E].
  - rewrite E. unfold poly1d. cbn [trim_front]. destruct (Z.eqb_spec x 0) as [->|]; reflexivity.
  - destruct (strip_zeros l) as [|x t]; [simpl in E; congruence|]. cbn [hd] in E. unfold poly1d. cbn [trim_front].
    apply Z.eqb_neq in E. rewrite E. reflexivity.
Qed.
Lemma trim_front_decomp l : exists k, l = repeat 0 k ++ trim_front l.
Proof.
  induction l as [|x l [k IH]]; [exists 0%nat; reflexivity|]. cbn [trim_front].
  destruct (Z.eqb_spec x 0) as [->|]; [exists (S k); cbn [repeat app]; now rewrite <- IH|exists 0%nat; reflexivity].
Qed.

(** ** multiplication by x^8 *)
Lemma add_left_0 v w : (length v <= length w)%nat -> (forall i, nth i v 0 = 0) -> add_left v w = w.
Proof.
  revert w. induction v as [|y v IH]; intros [|z w] Hl Hn; simpl in Hl; try lia; [reflexivity|reflexivity|].
  cbn [add_left]. f_equal; [specialize (Hn 0%nat); simpl in Hn; lia|].
  apply IH; [lia|]. intro i. exact (Hn (S i)).
Qed.
Lemma nth_repeat_Z i n : nth i (repeat 0 n) 0 = 0.
Proof. revert i. induction n; intros [|i]; simpl; auto. Qed.
Lemma map_mul_repeat0 x n : map (Z.mul x) (repeat 0 n) = repeat 0 n.
Proof. induction n; [reflexivity|]. cbn [repeat map]. now rewrite IHn, Z.mul_0_r. Qed.
Lemma convolve_xn a n : a <> [] -> convolve a (1 :: repeat 0 n) = a ++ repeat 0 n.
Proof.
  induction a as [|x a IH]; [congruence|]. intros _. destruct a as [|y a].
  - cbn [convolve map app]. now rewrite Z.mul_1_r, map_mul_repeat0.
  - change (convolve (x :: y :: a) (1 :: repeat 0 n))
      with (add_left (map (Z.mul x) (1 :: repeat 0 n)) (0 :: convolve (y :: a) (1 :: repeat 0 n))).
    rewrite IH by congruence. cbn [map add_left app]. f_equal; [lia|]. rewrite map_mul_repeat0.
    apply add_left_0; [|intro; apply nth_repeat_Z].
    cbn [length]. rewrite app_length, !repeat_length. lia.
Qed.
Lemma poly1d_nonnil c : poly1d c <> [].
Proof. unfold poly1d. destruct (trim_front c); congruence. Qed.
Lemma poly1d_xn n : poly1d (1 :: repeat 0 n) = 1 :: repeat 0 n.
Proof. reflexivity. Qed.
Lemma poly1d_idem c : poly1d (poly1d c) = poly1d c.
Proof.
  unfold poly1d at 2. destruct (trim_front c) as [|x t] eqn:E.
  - unfold poly1d. rewrite E. reflexivity.
  - unfold poly1d. rewrite E. cbn [trim_front].
    assert (Hx : x <> 0).
    { revert E. induction c as [|y c IH]; [discriminate|]. cbn [trim_front].
      destruct (Z.eqb_spec y 0); [auto|]. intro E. inversion E; subst. assumption. }
    apply Z.eqb_neq in Hx. rewrite Hx. reflexivity.
Qed.
Lemma polymul_xn c n : polymul c (1 :: repeat 0 n) = poly1d c ++ repeat 0 n.
Proof. unfold polymul. rewrite poly1d_xn. apply convolve_xn. apply poly1d_nonnil. Qed.

Lemma zstep_reg0 k : fold_left zstep (repeat 0 k) reg0 = reg0.
Proof. induction k; [reflexivity|]. cbn [repeat fold_left]. exact IHk. Qed.
Lemma fold_poly1d c : c <> [] -> fold_left zstep (poly1d c) reg0 = fold_left zstep c reg0.
Proof.
  intro Hc. destruct (trim_front_decomp c) as [k E]. unfold poly1d.
  destruct (trim_front c) as [|x t] eqn:Et.
  - rewrite app_nil_r in E. rewrite E, zstep_reg0. reflexivity.
  - rewrite E. rewrite fold_left_app, zstep_reg0. reflexivity.
Qed.
Lemma fold_zstep_length ds r : length r = 8%nat -> length (fold_left zstep ds r) = 8%nat.
Proof. revert r. induction ds; intros r H; [assumption|]. cbn [fold_left]. apply IHds. now apply zstep_length. Qed.

(** the remainder of c(x) x^8 by the generator, right-aligned on 8 coefficients *)
Lemma rem_ralign c : c <> [] ->
  let r := polydiv_rem (poly1d c ++ repeat 0 8) HCS_G in
  poly1d r = r /\ (1 <= length r <= 8)%nat /\ ralign 8 r = fold_left zstep c reg0.
Proof.
  intros Hc r. subst r.
  assert (Hp : (0 < length (poly1d c))%nat).
  { pose proof (poly1d_nonnil c). destruct (poly1d c); [congruence|simpl; lia]. }
  rewrite polydiv_reg by assumption. rewrite fold_poly1d by assumption.
  pose proof (fold_zstep_length c reg0 eq_refl) as Hl. set (R := fold_left zstep c reg0) in *.
  rewrite strip_zeros_app by lia. split; [apply poly1d_strip; destruct R; simpl in *; congruence|]. split.
  - destruct (strip_zeros_decomp R) as [k E]. apply (f_equal (@length Z)) in E.
    rewrite app_length, repeat_length in E.
    assert (strip_zeros R <> []).
    { destruct (strip_zeros_head R) as [E1|[(x&E1)|E1]]; [|rewrite E1; congruence|intro E2; rewrite E2 in E1; auto].
      rewrite E1 in *. exfalso. rewrite <- (poly1d_strip R) in E1 by (destruct R; simpl in *; congruence).
      now apply poly1d_nonnil in E1. }
    destruct (strip_zeros R); [congruence|]. cbn [length] in *. lia.
  - rewrite <- Hl. apply strip_zeros_ralign.
Qed.

(** ** reduction modulo 2 *)
Definition zbit (z : Z) : bool := Z.odd z.
Lemma zstep_crc r b : length r = 8%nat -> map Z.odd (zstep r b) = crc_step (map Z.odd r) (Z.odd b).
Proof.
  intro H. destruct (list8 r H) as (r0&r1&r2&r3&r4&r5&r6&r7&->).
  unfold zstep, crc_step, crc_taps. cbn [hd tl app map map2].
  assert (E0 : forall x d, Z.odd (x - d * 0) = Z.odd x) by (intros; rewrite Z.mul_0_r, Z.sub_0_r; reflexivity).
  assert (E1 : forall x d, Z.odd (x - d * 1) = xorb (Z.odd x) (Z.odd d)).
  { intros. rewrite Z.mul_1_r, <- Z.add_opp_r, Z.odd_add, Z.odd_opp. reflexivity. }
  rewrite !E0, !E1, Z.odd_add. change (Z.odd 0) with false.
  destruct (xorb (Z.odd r0) (Z.odd b)); cbn [xor_bits]; rewrite ?xorb_false_r, ?xorb_true_r, ?xorb_false_l;
    repeat match goal with |- context [Z.odd ?x] => destruct (Z.odd x) end; reflexivity.
Qed.
Lemma fold_crc ds r : length r = 8%nat ->
  map Z.odd (fold_left zstep ds r) = crc8 (map Z.odd r) (map Z.odd ds).
Proof.
  revert r. induction ds as [|d ds IH]; intros r H; [reflexivity|].
  cbn [fold_left map]. unfold crc8 in *. cbn [fold_left]. rewrite IH by (now apply zstep_length).
  now rewrite zstep_crc.
Qed.
Lemma odd_b2z b : Z.odd (b2z b) = b.
Proof. destruct b; reflexivity. Qed.
Lemma map_odd_b2z l : map Z.odd (map b2z l) = l.
Proof. rewrite map_map. rewrite <- (map_id l) at 2. apply map_ext. apply odd_b2z. Qed.

(** ** size of the coefficients: the float computation is exact *)
Definition bounded (M : Z) (l : list Z) : Prop := Forall (fun x => - M <= x <= M) l.
(** all the arrays met during the division *)
Fixpoint polydiv_arrays (iters : nat) (r v : list Z) : list (list Z) :=
  match iters with
  | O => [r]
  | S i => r :: match r with
                | [] => []
                | d :: _ => let r' := sub_prefix r (map (Z.mul d) v) in polydiv_arrays i (tl r') v
                end
  end.
Lemma sub_prefix_bounded M d r : bounded M r -> - M <= d <= M ->
  bounded (2 * M) (sub_prefix r (map (Z.mul d) HCS_G)).
Proof.
  intros Hr Hd. assert (0 <= M) by lia.
  assert (HG : Forall (fun v => v = 0 \/ v = 1) HCS_G) by (unfold HCS_G; repeat constructor; auto).
  revert r Hr. generalize dependent HCS_G. intros G HG. induction HG as [|v G Hv HG IH]; intros r Hr.
  - destruct r; cbn [map sub_prefix]; unfold bounded in *; eapply Forall_impl; try exact Hr; cbv beta; intros; lia.
  - destruct r as [|x r]; [constructor|]. inversion Hr; subst. cbn [map sub_prefix]. constructor.
    + destruct Hv; subst v; lia.
    + now apply IH.
Qed.
Lemma polydiv_arrays_bounded n : forall r M, 0 <= M -> bounded M r ->
  Forall (bounded (2 ^ Z.of_nat n * M)) (polydiv_arrays n r HCS_G).
Proof.
  induction n as [|n IH]; intros r M HM Hr.
  - constructor; [|constructor]. now rewrite Z.mul_1_l.
  - assert (Hp : 2 ^ Z.of_nat (S n) = 2 * 2 ^ Z.of_nat n)
      by (rewrite Nat2Z.inj_succ, Z.pow_succ_r by lia; reflexivity).
    assert (0 < 2 ^ Z.of_nat n) by (apply Z.pow_pos_nonneg; lia).
    cbn [polydiv_arrays]. constructor.
    + unfold bounded in *. eapply Forall_impl; [|exact Hr]. cbv beta; intros; nia.
    + destruct r as [|d r]; [constructor|]. rewrite Hp. replace (2 * 2 ^ Z.of_nat n * M) with (2 ^ Z.of_nat n * (2 * M)) by lia.
      apply IH; [lia|].
      assert (Hd : - M <= d <= M) by (inversion Hr; assumption).
      pose proof (sub_prefix_bounded M d (d :: r) Hr Hd) as Hb.
      destruct (sub_prefix (d :: r) (map (Z.mul d) HCS_G)); [constructor|]. inversion Hb; assumption.
Qed.
