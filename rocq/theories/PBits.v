(** * Proofs about bits.py *)
From Verif Require Import Py MBits PList SBits.
#[global] Arguments lsb_bits : simpl never.
#[global] Arguments msb_bits : simpl never.
#[global] Arguments binary_repr : simpl never.
#[global] Arguments octet_bits : simpl never.

Lemma map_seq_S {A} (f : nat -> A) n : map f (seq 0 (S n)) = f 0%nat :: map (fun j => f (S j)) (seq 0 n).
Proof. cbn [seq map]. f_equal. rewrite <- seq_shift, map_map. reflexivity. Qed.

Lemma lsb_bits_length w z : length (lsb_bits w z) = w.
Proof. unfold lsb_bits. now rewrite map_length, seq_length. Qed.
Lemma msb_bits_length w z : length (msb_bits w z) = w.
Proof. unfold msb_bits. now rewrite map_length, seq_length. Qed.

Lemma lsb_bits_S w z : lsb_bits (S w) z = Z.odd z :: lsb_bits w (Z.div2 z).
Proof.
  unfold lsb_bits. rewrite map_seq_S. change (Z.testbit z (Z.of_nat 0)) with (Z.odd z). f_equal.
  apply map_ext. intro j. rewrite Z.div2_spec, Z.shiftr_spec by lia. f_equal. lia.
Qed.

Lemma rev_msb w z : rev (msb_bits w z) = lsb_bits w z.
Proof.
  apply nth_ext with false false.
  { now rewrite rev_length, msb_bits_length, lsb_bits_length. }
  rewrite rev_length, msb_bits_length. intros n Hn.
  rewrite rev_nth by now rewrite msb_bits_length. rewrite msb_bits_length.
  unfold msb_bits, lsb_bits.
  rewrite !nth_map_seq by lia. f_equal. lia.
Qed.
Lemma rev_lsb w z : rev (lsb_bits w z) = msb_bits w z.
Proof. now rewrite <- rev_msb, rev_involutive. Qed.

Lemma lsb_value_lsb_bits w z : lsb_value (lsb_bits w z) = z mod 2 ^ Z.of_nat w.
Proof.
  revert z. induction w as [|w IH]; intro z.
  - simpl. now rewrite Z.mod_1_r.
  - rewrite lsb_bits_S. cbn [lsb_value]. rewrite IH, Z.div2_div.
    replace (Z.of_nat (S w)) with (1 + Z.of_nat w) by lia.
    rewrite Z.pow_add_r by lia. rewrite Z.rem_mul_r by lia. change (2^1) with 2.
    rewrite Zodd_mod. pose proof (Z.mod_pos_bound z 2 ltac:(lia)).
    destruct (Zeq_bool (z mod 2) 1) eqn:E.
    + apply Zeq_bool_eq in E. lia.
    + apply Zeq_bool_neq in E. lia.
Qed.
Lemma msb_value_msb_bits w z : 0 <= z < 2 ^ Z.of_nat w -> msb_value (msb_bits w z) = z.
Proof. intro H. unfold msb_value. rewrite rev_msb, lsb_value_lsb_bits. now apply Z.mod_small. Qed.

Lemma lsb_value_bound l : 0 <= lsb_value l < 2 ^ Z.of_nat (length l).
Proof.
  induction l as [|b l IH]; [simpl; lia|]. cbn [lsb_value length].
  replace (Z.of_nat (S (length l))) with (1 + Z.of_nat (length l)) by lia.
  rewrite Z.pow_add_r by lia. change (2^1) with 2. destruct b; lia.
Qed.
Lemma lsb_bits_value l : lsb_bits (length l) (lsb_value l) = l.
Proof.
  induction l as [|b l IH]; [reflexivity|]. cbn [length]. rewrite lsb_bits_S. cbn [lsb_value].
  f_equal.
  - rewrite Z.odd_add_mul_2. destruct b; reflexivity.
  - etransitivity; [|exact IH]. f_equal. rewrite Z.div2_div.
    destruct b; Z.to_euclidean_division_equations; lia.
Qed.
Lemma lsb_value_inj a b : length a = length b -> lsb_value a = lsb_value b -> a = b.
Proof. intros Hl Hv. rewrite <- (lsb_bits_value a), <- (lsb_bits_value b). congruence. Qed.
Lemma lsb_bits_inj w x y :
  0 <= x < 2 ^ Z.of_nat w -> 0 <= y < 2 ^ Z.of_nat w -> lsb_bits w x = lsb_bits w y -> x = y.
Proof.
  intros Hx Hy H. apply (f_equal lsb_value) in H. rewrite !lsb_value_lsb_bits in H.
  rewrite !Z.mod_small in H by assumption. exact H.
Qed.
Lemma msb_bits_inj w x y :
  0 <= x < 2 ^ Z.of_nat w -> 0 <= y < 2 ^ Z.of_nat w -> msb_bits w x = msb_bits w y -> x = y.
Proof.
  intros Hx Hy H. apply (f_equal (@rev bool)) in H. rewrite !rev_msb in H. now apply lsb_bits_inj in H.
Qed.

(** ** binary_repr *)
Lemma lsb_bits_0 w : lsb_bits w 0 = repeat false w.
Proof.
  induction w as [|w IH]; [reflexivity|]. rewrite lsb_bits_S. simpl Z.div2. rewrite IH. reflexivity.
Qed.
Lemma lsb_bits_pos p w :
  (length (pos_digits p) <= w)%nat ->
  lsb_bits w (Zpos p) = pos_digits p ++ repeat false (w - length (pos_digits p)).
Proof.
  revert w. induction p as [p IH|p IH|]; intros w H; simpl in H; (destruct w as [|w]; [lia|]);
    rewrite lsb_bits_S; simpl Z.div2; simpl Z.odd; simpl pos_digits.
  - rewrite IH by lia. reflexivity.
  - rewrite IH by lia. reflexivity.
  - rewrite lsb_bits_0. simpl. now rewrite Nat.sub_0_r.
Qed.
Lemma pos_digits_bounds p :
  2 ^ (Z.of_nat (length (pos_digits p)) - 1) <= Zpos p < 2 ^ Z.of_nat (length (pos_digits p)).
Proof.
  induction p as [p IH|p IH|]; simpl pos_digits; cbn [length]; [| |simpl; lia].
  - assert (Hl : (1 <= length (pos_digits p))%nat) by (destruct p; simpl; lia).
    replace (Z.of_nat (S (length (pos_digits p))) - 1) with (Z.succ (Z.of_nat (length (pos_digits p)) - 1)) by lia.
    replace (Z.of_nat (S (length (pos_digits p)))) with (Z.succ (Z.of_nat (length (pos_digits p)))) by lia.
    rewrite !Z.pow_succ_r by lia. rewrite Pos2Z.inj_xI. lia.
  - assert (Hl : (1 <= length (pos_digits p))%nat) by (destruct p; simpl; lia).
    replace (Z.of_nat (S (length (pos_digits p))) - 1) with (Z.succ (Z.of_nat (length (pos_digits p)) - 1)) by lia.
    replace (Z.of_nat (S (length (pos_digits p)))) with (Z.succ (Z.of_nat (length (pos_digits p)))) by lia.
    rewrite !Z.pow_succ_r by lia. rewrite (Pos2Z.inj_xO p). lia.
Qed.
Lemma pos_digits_len_le p w : Zpos p < 2 ^ Z.of_nat w -> (length (pos_digits p) <= w)%nat.
Proof.
  intro H. destruct (Nat.le_gt_cases (length (pos_digits p)) w) as [|Hgt]; [assumption|].
  pose proof (pos_digits_bounds p) as [Hb _].
  assert (2 ^ Z.of_nat w <= 2 ^ (Z.of_nat (length (pos_digits p)) - 1)) by (apply Z.pow_le_mono_r; lia).
  lia.
Qed.
Lemma pos_digits_len_ge p w : 2 ^ Z.of_nat w <= Zpos p -> (w < length (pos_digits p))%nat.
Proof.
  intro H. destruct (Nat.le_gt_cases (length (pos_digits p)) w) as [Hle|Hgt]; [|assumption].
  pose proof (pos_digits_bounds p) as [_ Hb].
  assert (2 ^ Z.of_nat (length (pos_digits p)) <= 2 ^ Z.of_nat w) by (apply Z.pow_le_mono_r; lia).
  lia.
Qed.

Lemma rev_repeat {A} (x : A) n : rev (repeat x n) = repeat x n.
Proof.
  induction n as [|n IH]; [reflexivity|]. simpl. rewrite IH.
  rewrite <- repeat_cons. reflexivity.
Qed.

Lemma binary_repr_pos p w :
  binary_repr (Zpos p) w = repeat false (w - length (rev (pos_digits p))) ++ rev (pos_digits p).
Proof. reflexivity. Qed.
Lemma binary_repr_zero w : binary_repr 0 w = repeat false (Nat.max w 1).
Proof. reflexivity. Qed.

Lemma binary_repr_msb z w :
  (0 < w)%nat -> 0 <= z < 2 ^ Z.of_nat w -> binary_repr z w = msb_bits w z.
Proof.
  intros Hw Hz. destruct z as [|p|p]; [| |lia].
  - rewrite binary_repr_zero, <- rev_lsb, lsb_bits_0, rev_repeat. f_equal. lia.
  - rewrite binary_repr_pos, <- rev_lsb, lsb_bits_pos by (apply pos_digits_len_le; lia).
    rewrite rev_app_distr, rev_repeat, rev_length. reflexivity.
Qed.
Lemma binary_repr_long z w : (0 < w)%nat -> 2 ^ Z.of_nat w <= z -> (w < length (binary_repr z w))%nat.
Proof.
  intros Hw Hz.
  assert (0 < 2 ^ Z.of_nat w) by (apply Z.pow_pos_nonneg; lia).
  destruct z as [|p|p]; [lia| |lia].
  rewrite binary_repr_pos, app_length, rev_length. pose proof (pos_digits_len_ge p w Hz). lia.
Qed.

Lemma uintarr_like z w :
  (0 < w)%nat -> 0 <= z < 2 ^ Z.of_nat w ->
  (length (binary_repr z 0) <= w)%nat /\
  repeat false (w - length (binary_repr z 0)) ++ binary_repr z 0 = msb_bits w z.
Proof.
  intros Hw Hz. rewrite <- binary_repr_msb by assumption.
  destruct z as [|p|p]; [| |lia].
  - rewrite !binary_repr_zero, repeat_length. split; [lia|]. rewrite <- repeat_app. f_equal. lia.
  - rewrite !binary_repr_pos. cbn [Nat.sub repeat app].
    pose proof (pos_digits_len_le p w ltac:(lia)). rewrite rev_length. split; [assumption|reflexivity].
Qed.

(** ** to_binary_array *)
Lemma byte_z_range b : is_octet (byte_z b).
Proof. unfold is_octet. destruct b; vm_compute; split; discriminate. Qed.

Definition octets_ok (l : list Z) : bool := forallb (fun x => (0 <=? x) && (x <=? 255)) l.
Lemma octets_ok_Forall l : octets_ok l = true <-> Forall is_octet l.
Proof.
  unfold octets_ok. rewrite forallb_forall, Forall_forall. unfold is_octet.
  split; intros H x Hx; specialize (H x Hx).
  - apply andb_prop in H as [H1 H2]. lia.
  - apply andb_true_intro. split; [apply Z.leb_le|apply Z.leb_le]; lia.
Qed.
Lemma range_test l :
  existsb (fun x => x <? 0) l || existsb (fun x => 255 <? x) l = negb (octets_ok l).
Proof.
  induction l as [|x l IH]; [reflexivity|]. unfold octets_ok in *. simpl.
  rewrite negb_andb, <- IH.
  destruct (Z.ltb_spec x 0), (Z.ltb_spec 255 x), (Z.leb_spec 0 x), (Z.leb_spec x 255); try lia; simpl;
    destruct (existsb (fun x0 => x0 <? 0) l), (existsb (fun x0 => 255 <? x0) l); reflexivity.
Qed.

Lemma octet_bits_model xs : Forall is_octet xs -> flat_map (fun x => rev (binary_repr x 8)) xs = octet_bits xs.
Proof.
  unfold octet_bits. induction 1 as [|x xs Hx H IH]; [reflexivity|].
  cbn [flat_map]. rewrite IH. f_equal. rewrite binary_repr_msb by (unfold is_octet in Hx; simpl; lia).
  apply rev_msb.
Qed.

(** the meaning of an argument as an array of octets *)
Definition octet_view (a : arg) : option (nat * list Z) :=
  match a with
  | AList nd xs | AArr nd xs => Some (nd, map Qtrunc xs)
  | ABytes bs | ABytearray bs => Some (1%nat, map byte_z bs)
  | AStr _ | AOther => None
  end.

Lemma to_binary_array_ok a xs :
  octet_view a = Some (1%nat, xs) -> xs <> [] -> Forall is_octet xs ->
  to_binary_array a = Ok (octet_bits xs).
Proof.
  intros Hv Hne Hoct.
  assert (Ha : to_int_array a = Ok (1%nat, xs)).
  { destruct a; simpl in *; inversion Hv; reflexivity. }
  unfold to_binary_array. rewrite Ha. simpl rbind. destruct xs as [|x r]; [congruence|].
  rewrite range_test. rewrite (proj2 (octets_ok_Forall _) Hoct). simpl negb. cbv iota.
  rewrite octet_bits_model by assumption. reflexivity.
Qed.

Lemma Qtrunc_inject z : Qtrunc (inject_Z z) = z.
Proof.
  unfold Qtrunc. destruct (Qle_bool 0 (inject_Z z)); [apply Qfloor_Z|apply Qceiling_Z].
Qed.

Lemma to_binary_array_err a :
  (forall bits, to_binary_array a <> Ok bits) -> to_binary_array a = Err TypeError \/ to_binary_array a = Err ValueError.
Proof.
  unfold to_binary_array. intro H. destruct a; simpl in *; auto.
  all: repeat match goal with
    | |- context [match ?x with [] => _ | _ => _ end] => destruct x eqn:?
    | |- context [if ?b then _ else _] => destruct b eqn:?
    end; auto; exfalso; eapply H; reflexivity.
Qed.

Lemma octet_bits_length xs : length (octet_bits xs) = (8 * length xs)%nat.
Proof.
  unfold octet_bits. induction xs as [|x xs IH]; [reflexivity|].
  cbn [flat_map]. rewrite app_length, lsb_bits_length, IH. simpl. lia.
Qed.
Lemma app_inj_len {A} (a b c d : list A) : length a = length c -> a ++ b = c ++ d -> a = c /\ b = d.
Proof.
  revert c. induction a as [|x a IH]; destruct c as [|y c]; simpl; intros Hl H; try lia; auto.
  inversion H; subst. destruct (IH c) as [-> ->]; auto; lia.
Qed.
Lemma octet_bits_inj xs ys :
  Forall is_octet xs -> Forall is_octet ys -> octet_bits xs = octet_bits ys -> xs = ys.
Proof.
  intro Hx. revert ys. induction Hx as [|x xs Hx Hxs IH]; intros ys Hy H; destruct ys as [|y ys]; auto.
  - apply (f_equal (@length bool)) in H. rewrite !octet_bits_length in H. simpl in H. lia.
  - apply (f_equal (@length bool)) in H. rewrite !octet_bits_length in H. simpl in H. lia.
  - unfold octet_bits in H. simpl in H.
    change (flat_map (lsb_bits 8) xs) with (octet_bits xs) in H.
    change (flat_map (lsb_bits 8) ys) with (octet_bits ys) in H.
    inversion Hy; subst.
    assert (E : lsb_bits 8 x ++ octet_bits xs = lsb_bits 8 y ++ octet_bits ys) by exact H.
    apply app_inj_len in E as [E1 E2]; [|now rewrite !lsb_bits_length].
    f_equal; [|apply IH; assumption].
    apply lsb_bits_inj in E1; [assumption| |]; unfold is_octet in *; simpl; lia.
Qed.

(** ** check_binary_array *)
Lemma Qtrunc_01 q : (0 <= q <= 1)%Q -> Qtrunc q = if Qeq_bool q 1 then 1 else 0.
Proof.
  intros [H0 H1]. unfold Qtrunc. rewrite (proj2 (Qle_bool_iff 0 q) H0).
  destruct (Qeq_bool q 1) eqn:E.
  - apply Qeq_bool_iff in E. rewrite E. reflexivity.
  - assert (Hlt : (q < 1)%Q).
    { apply Qle_lt_or_eq in H1 as [|Heq]; [assumption|].
      apply Qeq_bool_iff in Heq. congruence. }
    assert (0 <= Qfloor q)%Z by (change 0 with (Qfloor 0); now apply Qfloor_resp_le).
    assert (inject_Z (Qfloor q) < 1)%Q by (eapply Qle_lt_trans; [apply Qfloor_le|assumption]).
    change 1%Q with (inject_Z 1) in H2. rewrite <- Zlt_Qlt in H2. lia.
Qed.

Definition in_unit (q : Q) : Prop := (0 <= q <= 1)%Q.
Lemma unit_test xs :
  existsb (fun x => Qltb x 0) xs || existsb (fun x => Qltb 1 x) xs = false <-> Forall in_unit xs.
Proof.
  rewrite orb_false_iff. rewrite Forall_forall. split.
  - intros [H1 H2] x Hx. unfold in_unit. split; apply Qle_bool_iff.
    + destruct (Qle_bool 0 x) eqn:E; auto. exfalso. rewrite <- not_true_iff_false in H1. apply H1.
      apply existsb_exists. exists x. split; auto. unfold Qltb. now rewrite E.
    + destruct (Qle_bool x 1) eqn:E; auto. exfalso. rewrite <- not_true_iff_false in H2. apply H2.
      apply existsb_exists. exists x. split; auto. unfold Qltb. now rewrite E.
  - intro H. split; apply not_true_iff_false; intro E; apply existsb_exists in E as (x & Hx & E);
      specialize (H x Hx); destruct H as [H1 H2]; unfold Qltb in E; apply negb_true_iff in E.
    + apply Qle_bool_iff in H1. congruence.
    + apply Qle_bool_iff in H2. congruence.
Qed.

Lemma check_binary_ok a xs :
  a = AList 1 xs \/ a = AArr 1 xs -> xs <> [] -> Forall in_unit xs ->
  check_binary_array a = Ok (map (fun q => Qeq_bool q 1) xs).
Proof.
  intros Ha Hne Hu. pose proof (proj2 (unit_test xs) Hu) as Ht.
  assert (Hm : map (fun x => z2b (Qtrunc x)) xs = map (fun q => Qeq_bool q 1) xs).
  { apply map_ext_in. intros q Hq. rewrite Forall_forall in Hu. rewrite Qtrunc_01 by (apply Hu; assumption).
    destruct (Qeq_bool q 1); reflexivity. }
  destruct Ha as [-> | ->]; unfold check_binary_array; simpl Nat.eqb; simpl negb; cbv iota;
    destruct xs as [|x r]; try congruence; rewrite Ht, Hm; reflexivity.
Qed.
Lemma check_binary_bits_arg l : l <> [] -> check_binary_array (bits_arg l) = Ok l.
Proof.
  intro Hl. unfold bits_arg. rewrite (check_binary_ok _ (map (fun b => inject_Z (b2z b)) l)); auto.
  - f_equal. rewrite map_map. rewrite <- (map_id l) at 2. apply map_ext. intros []; reflexivity.
  - destruct l; simpl; congruence.
  - apply Forall_forall. intros q Hq. apply in_map_iff in Hq as (b & <- & _). destruct b; split; discriminate.
Qed.
Lemma check_binary_inv a bits :
  check_binary_array a = Ok bits ->
  exists xs, (a = AList 1 xs \/ a = AArr 1 xs) /\ xs <> [] /\ Forall in_unit xs /\
             bits = map (fun q => Qeq_bool q 1) xs.
Proof.
  intro H. assert (Hxs : exists xs, (a = AList 1 xs \/ a = AArr 1 xs) /\ xs <> [] /\ Forall in_unit xs).
  { unfold check_binary_array in H. destruct a as [nd xs|nd xs| | | |]; try discriminate;
      (destruct (Nat.eqb_spec nd 1); [subst|discriminate]); cbn [negb] in H;
      destruct xs as [|x r]; try discriminate;
      (destruct (existsb (fun x => Qltb x 0) (x :: r) || existsb (fun x => Qltb 1 x) (x :: r)) eqn:E;
        [discriminate|]);
      exists (x :: r); repeat split; auto; try discriminate; now apply unit_test. }
  destruct Hxs as (xs & Ha & Hne & Hu). exists xs. repeat split; auto.
  rewrite (check_binary_ok a xs) in H by assumption. congruence.
Qed.
Lemma check_binary_err a :
  (forall bits, check_binary_array a <> Ok bits) ->
  check_binary_array a = Err TypeError \/ check_binary_array a = Err ValueError.
Proof.
  unfold check_binary_array. intro H. destruct a; simpl in *; auto;
  repeat match goal with
    | |- context [match ?x with [] => _ | _ => _ end] => destruct x eqn:?
    | |- context [if ?b then _ else _] => destruct b eqn:?
    end; auto; exfalso; eapply H; reflexivity.
Qed.
