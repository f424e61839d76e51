(** * Constellations and frequency spreading *)
From Verif Require Import Py PList SBits MModul MOfdm SOfdm PBits.

Lemma stride_app {A} i n (a l : list A) x : (0 < n)%nat -> length a = n -> nth_error a i = Some x ->
  stride i n (a ++ l) = x :: stride i n l.
Proof.
  intros Hn Ha Hx. unfold stride. rewrite chunks_app by assumption. cbn [map concat].
  assert (E : firstn 1 (skipn i a) = [x]).
  { apply nth_error_split in Hx as (l1 & l2 & -> & <-).
    rewrite skipn_app, skipn_all, Nat.sub_diag. reflexivity. }
  rewrite E. reflexivity.
Qed.
Lemma stride_nil {A} i n : @stride A i n [] = [].
Proof. reflexivity. Qed.

Lemma group_size_pos m : (0 < group_size m)%nat.
Proof. destruct m; simpl; lia. Qed.

Lemma convert_spec m col : Nat.modulo (length col) (group_size m) = 0%nat ->
  convert_column m col = Ok (map (point m) (chunks (group_size m) col)).
Proof.
  intro H. destruct m; unfold convert_column.
  - unfold bpsk_column. f_equal. clear H. induction col as [|b col IH]; [reflexivity|].
    change (b :: col) with ([b] ++ col). rewrite chunks_app by (simpl; auto; lia). cbn [map app]. rewrite IH. reflexivity.
  - unfold qpsk_column. cbn [group_size] in *. rewrite H. rewrite Nat.eqb_refl. cbn [negb]. f_equal.
    revert col H. apply block_ind; [lia|reflexivity|].
    intros a l Ha IH. destruct a as [|a0 [|a1 [|]]]; try discriminate Ha.
    rewrite chunks_app by (auto; lia).
    rewrite (stride_app 0 2 [a0; a1] l a0), (stride_app 1 2 [a0; a1] l a1) by (auto; lia).
    cbn [map2 map]. rewrite IH. reflexivity.
  - unfold qam16_column. cbn [group_size] in *. rewrite H. rewrite Nat.eqb_refl. cbn [negb]. f_equal.
    revert col H. apply block_ind; [lia|reflexivity|].
    intros a l Ha IH. destruct a as [|a0 [|a1 [|a2 [|a3 [|]]]]]; try discriminate Ha.
    rewrite chunks_app by (auto; lia).
    rewrite (stride_app 0 4 [a0; a1; a2; a3] l a0), (stride_app 1 4 [a0; a1; a2; a3] l a1),
      (stride_app 2 4 [a0; a1; a2; a3] l a2), (stride_app 3 4 [a0; a1; a2; a3] l a3) by (auto; lia).
    cbn [map2 map]. rewrite IH. destruct a0, a1, a2, a3; reflexivity.
Qed.
Lemma convert_err m col : Nat.modulo (length col) (group_size m) <> 0%nat ->
  convert_column m col = Err AssertionError \/ convert_column m col = Err ValueError.
Proof.
  intro H. destruct m; unfold convert_column, qpsk_column, qam16_column; cbn [group_size] in *.
  - rewrite Nat.mod_1_r in H. congruence.
  - apply Nat.eqb_neq in H. rewrite H. auto.
  - apply Nat.eqb_neq in H. rewrite H. auto.
Qed.

Fixpoint bits_lists (n : nat) : list (list bool) :=
  match n with O => [[]] | S m => flat_map (fun l => [true :: l; false :: l]) (bits_lists m) end.
Lemma bits_lists_in l : In l (bits_lists (length l)).
Proof. induction l as [|b l IH]; [left; reflexivity|]. cbn [length bits_lists]. apply in_flat_map. exists l. split; [assumption|]. destruct b; simpl; auto. Qed.

Definition bl_eqb (a b : list bool) : bool := if list_eq_dec Bool.bool_dec a b then true else false.
Lemma bl_eqb_eq a b : bl_eqb a b = true -> a = b.
Proof. unfold bl_eqb. destruct (list_eq_dec _ a b); congruence. Qed.

Definition constellation_sweep (m : modulation) : bool :=
  forallb (fun g => forallb (fun h =>
     bl_eqb g h || ((4 <=? dist2 (point m g) (point m h))
        && (negb (dist2 (point m g) (point m h) =? 4) || Nat.eqb (distance g h) 1))) (bits_lists (group_size m)))
     (bits_lists (group_size m)).
Lemma constellation_ok m : constellation_sweep m = true.
Proof. destruct m; vm_compute; reflexivity. Qed.
Lemma constellation m g h : length g = group_size m -> length h = group_size m -> g <> h ->
  4 <= dist2 (point m g) (point m h) /\ (dist2 (point m g) (point m h) = 4 -> distance g h = 1%nat).
Proof.
  intros Hg Hh Hne. pose proof (constellation_ok m) as H. unfold constellation_sweep in H.
  rewrite forallb_forall in H. specialize (H g). rewrite <- Hg in H at 1. specialize (H (bits_lists_in g)).
  rewrite forallb_forall in H. specialize (H h). rewrite <- Hh in H at 1. specialize (H (bits_lists_in h)).
  apply orb_true_iff in H as [H|H]; [apply bl_eqb_eq in H; congruence|].
  apply andb_true_iff in H as [H1 H2]. apply Z.leb_le in H1. split; [assumption|].
  intro E. apply orb_true_iff in H2 as [H2|H2]; [rewrite E in H2; discriminate|]. now apply Nat.eqb_eq in H2.
Qed.
Lemma dist2_refl a : dist2 a a = 0.
Proof. unfold dist2. rewrite !Z.sub_diag. reflexivity. Qed.
Lemma point_inj m g h : length g = group_size m -> length h = group_size m -> point m g = point m h -> g = h.
Proof.
  intros Hg Hh E. destruct (list_eq_dec Bool.bool_dec g h) as [|Hne]; [assumption|].
  destruct (constellation m g h Hg Hh Hne) as [H _]. rewrite E, dist2_refl in H. lia.
Qed.

(** ** spreading *)
Lemma gmul_ipow g n : gmul g (ipow n) = turn n g.
Proof.
  unfold gmul, ipow, turn. pose proof (Z.mod_pos_bound n 4 ltac:(lia)) as H.
  destruct g as [x y]. assert (n mod 4 = 0 \/ n mod 4 = 1 \/ n mod 4 = 2 \/ n mod 4 = 3) as E by lia.
  destruct E as [E|[E|[E|E]]]; rewrite E; cbn [fst snd]; f_equal; lia.
Qed.
Lemma rotate_spec e col : rotate e col = map (fun i => turn (e (Z.of_nat i + 1)) (nth i col (0, 0))) (seq 0 (length col)).
Proof.
  unfold rotate. apply list_eq_nth with (d := ((0, 0) : gauss)).
  - rewrite map2_length, map_length, !seq_length. lia.
  - intros i Hi. rewrite map2_length, seq_length in Hi. rewrite Nat.min_id in Hi.
    rewrite (map2_nth _ _ _ _ 0%nat ((0, 0) : gauss)) by (rewrite ?seq_length; lia).
    rewrite nth_map_seq by lia. rewrite seq_nth by lia. rewrite gmul_ipow. f_equal. f_equal. lia.
Qed.
Lemma rotate_length e col : length (rotate e col) = length col.
Proof. rewrite rotate_spec, map_length, seq_length. reflexivity. Qed.
Lemma turn_turn a b g : turn a (turn b g) = turn (a + b) g.
Proof.
  unfold turn. rewrite Z.add_mod by lia.
  pose proof (Z.mod_pos_bound a 4 ltac:(lia)) as Ha. pose proof (Z.mod_pos_bound b 4 ltac:(lia)) as Hb.
  set (x := a mod 4) in *. set (y := b mod 4) in *. destruct g as [u v].
  assert (x = 0 \/ x = 1 \/ x = 2 \/ x = 3) as Hx by lia. assert (y = 0 \/ y = 1 \/ y = 2 \/ y = 3) as Hy by lia.
  destruct Hx as [E|[E|[E|E]]]; destruct Hy as [F|[F|[F|F]]]; rewrite E, F; cbn; f_equal; lia.
Qed.
Lemma turn_0 g : turn 0 g = g.
Proof. reflexivity. Qed.
Lemma turn_power n g : power (turn n g) = power g.
Proof.
  unfold turn, power. destruct g as [u v]. pose proof (Z.mod_pos_bound n 4 ltac:(lia)) as H.
  assert (n mod 4 = 0 \/ n mod 4 = 1 \/ n mod 4 = 2 \/ n mod 4 = 3) as E by lia.
  destruct E as [E|[E|[E|E]]]; rewrite E; cbn [fst snd]; lia.
Qed.

Lemma spread_length sf data : length (spread sf data) = (sf * length data)%nat.
Proof.
  unfold spread. rewrite (flat_map_concat_map), (concat_length_const (length data)).
  - rewrite map_length, seq_length. lia.
  - rewrite Forall_forall. intros x Hx. apply in_map_iff in Hx as (j & <- & _). now rewrite map_length, seq_length.
Qed.
Lemma frequency_spread_ok (sf : nat) col : sf = 1%nat \/ sf = 2%nat \/ sf = 4%nat ->
  frequency_spread (Z.of_nat sf) col = Ok (spread sf col).
Proof.
  assert (E0 : forall c : list gauss, c = map (fun k => nth k c (0, 0)) (seq 0 (length c))).
  { intro c. apply list_eq_nth with ((0, 0) : gauss); [now rewrite map_length, seq_length|]. intros i Hi. now rewrite nth_map_seq. }
  intros [E|[E|E]]; subst sf; unfold frequency_spread, spread; cbn [Z.of_nat Pos.of_succ_nat Pos.succ Z.eqb Pos.eqb seq flat_map]; f_equal.
  - rewrite app_nil_r. exact (E0 col).
  - rewrite !rotate_spec. f_equal.
    + apply map_ext. intro k. f_equal. unfold spread_phase. cbn [Z.eqb Pos.eqb Z.of_nat Pos.of_succ_nat Pos.succ]. lia.
    + rewrite app_nil_r. exact (E0 col).
  - rewrite !rotate_spec. f_equal; [|f_equal; [|f_equal]].
    + apply map_ext. intro k. f_equal. unfold spread_phase. cbn [Z.eqb Pos.eqb Z.of_nat Pos.of_succ_nat Pos.succ]. lia.
    + apply map_ext. intro k. f_equal. unfold spread_phase. cbn [Z.eqb Pos.eqb Z.of_nat Pos.of_succ_nat Pos.succ]. lia.
    + exact (E0 col).
    + rewrite app_nil_r. apply map_ext. intro k. f_equal. unfold spread_phase. cbn [Z.eqb Pos.eqb Z.of_nat Pos.of_succ_nat Pos.succ]. lia.
Qed.
Lemma spread_nth sf data j k : (j < sf)%nat -> (k < length data)%nat ->
  nth (j * length data + k) (spread sf data) (0, 0)
  = turn (spread_phase (Z.of_nat sf) (Z.of_nat j) (Z.of_nat k)) (nth k data (0, 0)).
Proof.
  intros Hj Hk. unfold spread.
  set (F := fun j : nat => map (fun k => turn (spread_phase (Z.of_nat sf) (Z.of_nat j) (Z.of_nat k)) (nth k data (0, 0))) (seq 0 (length data))).
  assert (G : forall n a, (j < n)%nat -> nth (j * length data + k) (flat_map F (seq a n)) (0, 0) = nth k (F (a + j)%nat) (0, 0)).
  { clear Hj. induction j as [|j IH]; intros n a Hj; (destruct n as [|n]; [lia|]); cbn [seq flat_map].
    - rewrite app_nth1 by (unfold F; rewrite map_length, seq_length; lia). now rewrite Nat.add_0_r.
    - assert (EF : length (F a) = length data) by (unfold F; now rewrite map_length, seq_length).
      rewrite app_nth2 by lia. rewrite EF.
      replace (S j * length data + k - length data)%nat with (j * length data + k)%nat by lia.
      rewrite IH by lia. f_equal. f_equal. lia. }
  rewrite G by assumption. unfold F. rewrite nth_map_seq by assumption. reflexivity.
Qed.
Lemma turn_inv n a b : turn n a = turn n b -> a = b.
Proof.
  intro H. rewrite <- (turn_0 a), <- (turn_0 b). replace 0 with (- n + n) by lia.
  rewrite <- !turn_turn, H. reflexivity.
Qed.
Lemma spread_inj sf a b : (0 < sf)%nat -> length a = length b -> spread sf a = spread sf b -> a = b.
Proof.
  intros Hsf Hl E. apply list_eq_nth with ((0, 0) : gauss); [assumption|]. intros k Hk.
  apply (turn_inv (spread_phase (Z.of_nat sf) 0 (Z.of_nat k))).
  pose proof (spread_nth sf a 0 k Hsf Hk) as Ha. pose proof (spread_nth sf b 0 k Hsf ltac:(lia)) as Hb.
  cbn [Nat.mul Nat.add] in Ha, Hb. change (Z.of_nat 0) with 0 in *. congruence.
Qed.
Lemma map_point_inj m a b : Forall (fun g => length g = group_size m) a -> Forall (fun g => length g = group_size m) b ->
  map (point m) a = map (point m) b -> a = b.
Proof.
  revert b. induction a as [|x a IH]; intros [|y b] Ha Hb E; try discriminate; [reflexivity|].
  cbn [map] in E. injection E as E1 E2. inversion Ha; inversion Hb; subst. f_equal; [now apply (point_inj m)|now apply IH].
Qed.
