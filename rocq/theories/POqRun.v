(** * Proofs about mr_o_qpsk_modulator.py: interleaver, header, MDSSS, whole frames *)
From Verif Require Import Py MBits MFields MModul MOfdm Tables MRate MOqpsk PList SBits PBits SRate PConv PRate SCrc PPoly PFields SOqpsk POqpsk.

(** ** interleaver *)
Definition q_pos (psdu : bool) (n k : nat) : nat :=
  let i := q_il_index psdu (Z.of_nat k) in Z.to_nat (if i <? 0 then Z.of_nat n + i else i).
Lemma q_index_bounds (psdu : bool) nb k : (0 < nb)%nat -> (k < (if psdu then 126 else 60) * nb)%nat ->
  - ((if psdu then 18 else 10) * (Z.of_nat nb - 1)) <= q_il_index psdu (Z.of_nat k) <= (if psdu then 125 else 59).
Proof. intros Hn Hk. unfold q_il_index. destruct psdu; cbv zeta; [change (126 / 7) with 18|change (60 / 6) with 10]; Z.div_mod_to_equations; nia. Qed.
Lemma q_interleaver_run (psdu : bool) x nb : (0 < nb)%nat -> length x = ((if psdu then 126 else 60) * nb)%nat ->
  q_interleaver x psdu = Ok (map (fun k => nth (q_pos psdu (length x) k) x false) (seq 0 (length x))).
Proof.
  intros Hn Hx. unfold q_interleaver. rewrite (mapM_ext _ (fun k => Ok (nth (q_pos psdu (length x) k) x false))).
  - apply mapM_map. reflexivity.
  - intros k Hk. apply in_seq in Hk. pose proof (q_index_bounds psdu nb k Hn ltac:(lia)) as B.
    unfold np_index, q_pos, zlen. set (i := q_il_index psdu (Z.of_nat k)) in *.
    destruct (i <? 0) eqn:E; [apply Z.ltb_lt in E|apply Z.ltb_ge in E].
    + rewrite (proj2 (Z.leb_gt 0 i)) by lia. cbn [andb].
      rewrite (proj2 (Z.leb_le _ _)) by (destruct psdu; lia). reflexivity.
    + rewrite (proj2 (Z.leb_le _ _)) by lia. rewrite (proj2 (Z.ltb_lt _ _)) by (destruct psdu; lia). reflexivity.
Qed.
Lemma q_pos_bound (psdu : bool) nb k : (0 < nb)%nat -> let n := ((if psdu then 126 else 60) * nb)%nat in (k < n)%nat -> (q_pos psdu n k < n)%nat.
Proof.
  intros Hn n Hk. pose proof (q_index_bounds psdu nb k Hn Hk) as B. unfold q_pos. set (i := q_il_index psdu (Z.of_nat k)) in *.
  destruct (i <? 0) eqn:E; [apply Z.ltb_lt in E|apply Z.ltb_ge in E]; unfold n; destruct psdu; lia.
Qed.
Definition hit (psdu : bool) (n j : nat) : bool := existsb (fun k => Nat.eqb (q_pos psdu n k) j) (seq 0 n).
Lemma one_block_hit (psdu : bool) : let n := (if psdu then 126 else 60)%nat in forall j, (j < n)%nat -> exists k, (k < n)%nat /\ q_pos psdu n k = j.
Proof.
  intros n j Hj. assert (C : forallb (hit psdu n) (seq 0 n) = true) by (destruct psdu; vm_compute; reflexivity).
  rewrite forallb_forall in C. specialize (C j ltac:(apply in_seq; lia)). apply existsb_exists in C as (k & Hk & E).
  apply in_seq in Hk. apply Nat.eqb_eq in E. exists k. split; [lia|assumption].
Qed.
Lemma one_block_inj (psdu : bool) : let n := (if psdu then 126 else 60)%nat in forall k l, (k < n)%nat -> (l < n)%nat -> q_pos psdu n k = q_pos psdu n l -> k = l.
Proof.
  intros n k l Hk Hl E.
  assert (C : forallb (fun k => forallb (fun l => Nat.eqb k l || negb (Nat.eqb (q_pos psdu n k) (q_pos psdu n l))) (seq 0 n)) (seq 0 n) = true)
    by (destruct psdu; vm_compute; reflexivity).
  rewrite forallb_forall in C. specialize (C k ltac:(apply in_seq; lia)). rewrite forallb_forall in C. specialize (C l ltac:(apply in_seq; lia)).
  rewrite E, Nat.eqb_refl in C. cbn [negb] in C. rewrite orb_false_r in C. now apply Nat.eqb_eq.
Qed.
Lemma one_block_determines (psdu : bool) x y : let n := (if psdu then 126 else 60)%nat in length x = n -> length y = n ->
  q_interleaver x psdu = q_interleaver y psdu -> x = y.
Proof.
  intros n Hx Hy E. rewrite (q_interleaver_run psdu x 1), (q_interleaver_run psdu y 1) in E by (unfold n in *; lia).
  injection E as E. apply list_eq_nth with false; [congruence|]. intros j Hj. rewrite Hx in Hj.
  destruct (one_block_hit psdu j Hj) as (k & Hk & Ek). fold n in Hk, Ek.
  apply (f_equal (fun l => nth k l false)) in E. rewrite !nth_map_seq in E by lia. rewrite Hx, Hy, Ek in E. exact E.
Qed.
(** with two blocks or more the middle part of the coded bits is never read *)
Lemma unread nb x y : (0 < nb)%nat -> length x = (126 * nb)%nat -> length y = (126 * nb)%nat ->
  (forall j, (j < 126 \/ 108 * nb + 18 <= j)%nat -> nth j x false = nth j y false) ->
  q_interleaver x true = q_interleaver y true.
Proof.
  intros Hn Hx Hy E. rewrite (q_interleaver_run true x nb), (q_interleaver_run true y nb) by assumption. rewrite Hx, Hy. f_equal.
  apply map_ext_in. intros k Hk. apply in_seq in Hk. apply E. pose proof (q_index_bounds true nb k Hn (proj2 Hk)) as B.
  unfold q_pos. set (i := q_il_index true (Z.of_nat k)) in *. destruct (i <? 0) eqn:F; [apply Z.ltb_lt in F|apply Z.ltb_ge in F]; lia.
Qed.
Lemma code_12_nth s x n : (n < length x)%nat ->
  nth (2 * n) (code_12 s x) false = xor_taps s x n taps_133 /\ nth (2 * n + 1) (code_12 s x) false = xor_taps s x n taps_171.
Proof.
  intro Hn. unfold code_12.
  assert (G : forall (f g : nat -> bool) l m, (m < length l)%nat ->
     nth (2 * m) (flat_map (fun i => [f i; g i]) l) false = f (nth m l O) /\ nth (2 * m + 1) (flat_map (fun i => [f i; g i]) l) false = g (nth m l O)).
  { intros f g l. induction l as [|a l IH]; intros m Hm; [simpl in Hm; lia|]. cbn [flat_map app]. destruct m as [|m]; [split; reflexivity|].
    replace (2 * S m)%nat with (S (S (2 * m))) by lia. cbn [nth Nat.add]. apply IH. simpl in Hm. lia. }
  destruct (G (fun n => xor_taps s x n taps_133) (fun n => xor_taps s x n taps_171) (seq 0 (length x)) n) as [G1 G2]; [rewrite seq_length; lia|].
  rewrite seq_nth in G1, G2 by assumption. split; assumption.
Qed.
Lemma xor_taps_agree s x y n ts : Forall (fun t => (t <= 6)%nat) ts -> (forall j, (j <= n)%nat -> (n <= j + 6)%nat -> nth j x false = nth j y false) ->
  xor_taps s x n ts = xor_taps s y n ts.
Proof.
  intros F H. unfold xor_taps. induction F as [|t ts Ht F IH]; [reflexivity|]. cbn [fold_right]. rewrite IH. f_equal. unfold tap.
  destruct (Nat.leb_spec t n); [apply H; lia|reflexivity].
Qed.
Lemma lost_bits x y nb : (0 < nb)%nat -> length x = (63 * nb)%nat -> length y = (63 * nb)%nat ->
  (forall j, (j < 63 \/ 54 * nb + 3 <= j)%nat -> nth j x false = nth j y false) ->
  q_interleaver (code_12 0 x) true = q_interleaver (code_12 0 y) true.
Proof.
  intros Hn Hx Hy E. apply (unread nb); [assumption|rewrite code_12_length; lia|rewrite code_12_length; lia|].
  intros j Hj. destruct (le_lt_dec (126 * nb) j).
  - rewrite !nth_overflow by (rewrite code_12_length; lia). reflexivity.
  - assert (A : forall ts, Forall (fun t => (t <= 6)%nat) ts -> xor_taps 0 x (j / 2) ts = xor_taps 0 y (j / 2) ts).
    { intros ts Ht. apply xor_taps_agree; [assumption|]. intros i H1 H2. apply E.
      pose proof (Nat.div_mod j 2). pose proof (Nat.mod_upper_bound j 2). lia. }
    pose proof (Nat.div_mod j 2 ltac:(lia)) as D. pose proof (Nat.mod_upper_bound j 2 ltac:(lia)) as U.
    destruct (code_12_nth 0 x (j / 2)) as [X1 X2]; [lia|]. destruct (code_12_nth 0 y (j / 2)) as [Y1 Y2]; [lia|].
    destruct (Nat.eq_dec (j mod 2) 0) as [Z0|Z0].
    + replace j with (2 * (j / 2))%nat by lia. rewrite X1, Y1. apply A. unfold taps_133. repeat constructor; lia.
    + replace j with (2 * (j / 2) + 1)%nat by lia. rewrite X2, Y2. apply A. unfold taps_171. repeat constructor; lia.
Qed.

(** ** header, on either platform *)
Definition hdr_fields (sm : bool) (rm len : Z) : list bool := [sm] ++ msb_bits 2 rm ++ [false; false] ++ msb_bits 11 len.
Definition hdr_check (p : platform) (h : list bool) : list bool := let R := q_HCS p h in map z2b (repeat 0 (8 - length R) ++ R).
Definition hdr (p : platform) (sm : bool) (rm len : Z) : list bool := let h := hdr_fields sm rm len in h ++ hdr_check p h.
Lemma poly1d_bits h : Forall (fun x => x = 0 \/ x = 1) (poly1d (map b2z h)).
Proof.
  unfold poly1d. destruct (trim_front_decomp (map b2z h)) as [k E].
  assert (F : Forall (fun x => x = 0 \/ x = 1) (map b2z h)).
  { apply Forall_forall. intros x Hx. apply in_map_iff in Hx as (b & <- & _). destruct b; auto. }
  rewrite E in F. apply Forall_app in F as [_ F]. destruct (trim_front (map b2z h)); [constructor; auto|assumption].
Qed.
Lemma q_HCS_length p h : h <> [] -> (1 <= length (q_HCS p h) <= 8)%nat.
Proof.
  intro Hne. destruct (q_HCS_spec h Hne) as [W _]. cbv zeta in W.
  replace (length (q_HCS p h)) with (length (q_HCS Wrapping h)); [exact W|]. unfold q_HCS. rewrite !map_length.
  do 2 f_equal. apply map_ext_in. intros x Hx. change q_x8 with (1 :: repeat 0 8) in Hx. rewrite polymul_xn in Hx.
  assert (B : x = 0 \/ x = 1).
  { apply in_app_or in Hx as [Hx|Hx]; [pose proof (poly1d_bits h) as F; rewrite Forall_forall in F; auto|apply repeat_spec in Hx; auto]. }
  destruct B as [-> | ->]; destruct p; reflexivity.
Qed.
Lemma hdr_check_length p h : h <> [] -> length (hdr_check p h) = 8%nat.
Proof. intro H. pose proof (q_HCS_length p h H). unfold hdr_check. rewrite map_length, app_length, repeat_length. lia. Qed.
Lemma hdr_fields_length sm rm len : length (hdr_fields sm rm len) = 16%nat.
Proof. unfold hdr_fields. rewrite !app_length, !msb_bits_length. reflexivity. Qed.
Lemma hdr_length p sm rm len : length (hdr p sm rm len) = 24%nat.
Proof. unfold hdr. cbv zeta. rewrite app_length, hdr_fields_length, hdr_check_length; [reflexivity|discriminate]. Qed.
Lemma q_PHR_hdr p s len : 0 <= q_RM s <= 3 -> 0 <= len <= 2047 -> q_PHR p s len = Ok (hdr p (negb (q_SM s =? 0)) (q_RM s) len).
Proof.
  intros Hr Hl. unfold q_PHR, to_bin.
  rewrite binary_repr_msb by (simpl; lia). rewrite (binary_repr_msb len) by (simpl; lia).
  assert (E2 : length (msb_bits 2 (q_RM s)) = 2%nat) by apply msb_bits_length.
  assert (E11 : length (msb_bits 11 len) = 11%nat) by apply msb_bits_length.
  set (b := negb (q_SM s =? 0)). unfold hdr. cbv zeta. pose proof (hdr_fields_length b (q_RM s) len) as Hh. unfold hdr_fields in *.
  set (R := msb_bits 2 (q_RM s)) in *. set (L := msb_bits 11 len) in *.
  change (set_nth 0 b (repeat false 24)) with ([b] ++ repeat false 2 ++ (repeat false 2 ++ repeat false 11 ++ repeat false 8)).
  rewrite (assign_slice_mid [b] (repeat false 2) R) by (rewrite ?E2; reflexivity). cbn [rbind].
  rewrite (app_assoc R), (app_assoc [b]).
  rewrite (assign_slice_mid ([b] ++ R ++ repeat false 2) (repeat false 11) L)
    by (rewrite ?app_length, ?E2, ?E11; reflexivity). cbn [rbind].
  set (h := [b] ++ R ++ [false; false] ++ L) in *.
  assert (Eh : ([b] ++ R ++ repeat false 2) ++ L ++ repeat false 8 = h ++ repeat false 8).
  { unfold h. rewrite <- !app_assoc. reflexivity. }
  rewrite Eh.
  replace (firstn 16 (h ++ repeat false 8)) with h.
  2:{ rewrite firstn_app, Hh, Nat.sub_diag, app_nil_r. rewrite <- Hh. symmetry. apply firstn_all. }
  assert (Hn : h <> []) by (unfold h; discriminate).
  pose proof (q_HCS_length p h Hn) as H1. pose proof (hdr_check_length p h Hn) as H2. unfold hdr_check in H2 |- *. cbv zeta in H2 |- *.
  assert (E : Nat.ltb 8 (length (q_HCS p h)) = false) by (apply Nat.ltb_ge; lia). rewrite E.
  rewrite <- (app_nil_r (repeat false 8)).
  rewrite (assign_slice_mid h (repeat false 8)); [now rewrite app_nil_r| | |].
  - now rewrite Hh.
  - rewrite H2. reflexivity.
  - rewrite H2. reflexivity.
Qed.
Lemma hdr_inj p sm rm len sm' rm' len' : 0 <= rm <= 3 -> 0 <= rm' <= 3 -> 0 <= len <= 2047 -> 0 <= len' <= 2047 ->
  hdr p sm rm len = hdr p sm' rm' len' -> sm = sm' /\ rm = rm' /\ len = len'.
Proof.
  intros H1 H2 H3 H4 E. unfold hdr in E. cbv zeta in E. apply app_inj_len in E as [E _]; [|now rewrite !hdr_fields_length].
  unfold hdr_fields in E. apply (app_inj_len [sm] _ [sm']) in E as [E1 E]; [|reflexivity].
  apply app_inj_len in E as [E2 E]; [|now rewrite !msb_bits_length]. apply app_inj_len in E as [_ E]; [|reflexivity].
  split; [now injection E1|]. split; eapply msb_bits_inj; try eassumption; simpl; lia.
Qed.

(** ** MDSSS: the covering code, whatever the message *)
Lemma nth_repeat_any {A} (x : A) n i : nth i (repeat x n) x = x.
Proof. revert i. induction n as [|n IH]; intros [|i]; try reflexivity. apply IH. Qed.
Lemma insert_p_length m : length (insert_p m) = (length m + length m / 8)%nat.
Proof.
  unfold insert_p. set (n8 := (8 * (length m / 8))%nat).
  assert (H8 : (n8 <= length m)%nat) by (unfold n8; pose proof (Nat.div_mod (length m) 8); lia).
  rewrite app_length, skipn_length.
  assert (L8 : length (firstn n8 m) = n8) by (rewrite firstn_length; lia).
  assert (M8 : Nat.modulo (length (firstn n8 m)) 8 = 0%nat) by (rewrite L8; unfold n8; rewrite Nat.mul_comm; apply Nat.mod_mul; lia).
  rewrite flat_map_concat_map, (concat_length_const 9).
  - rewrite map_length, chunks_length by (auto; lia). rewrite L8. unfold n8 at 1. rewrite Nat.mul_comm, (Nat.mul_comm 8), Nat.div_mul by lia. lia.
  - apply Forall_forall. intros c Hc. apply in_map_iff in Hc as (d & <- & Hd). rewrite app_length.
    pose proof (chunks_length_all 8 (firstn n8 m) ltac:(lia) M8) as F. rewrite Forall_forall in F. rewrite (F _ Hd). reflexivity.
Qed.
Lemma hadamard_size k : length (hadamard k) = (2 ^ k)%nat /\ Forall (fun r => length r = (2 ^ k)%nat) (hadamard k).
Proof.
  induction k as [|k [IH1 IH2]]; [split; [reflexivity|repeat constructor]|]. cbn [hadamard]. split.
  - rewrite app_length, !map_length, IH1. simpl. lia.
  - apply Forall_app. rewrite Forall_forall in IH2. split; apply Forall_forall; intros r Hr; apply in_map_iff in Hr as (x & <- & Hx);
      rewrite app_length, ?map_length, (IH2 _ Hx); simpl; lia.
Qed.
Lemma hadamard_cw_length k i : (2 <= k)%nat -> 0 <= i < 8 -> length (hadamard_cw (hadamard k) i) = (2 ^ k)%nat.
Proof.
  intros Hk Hi. destruct (hadamard_size k) as [L F]. rewrite Forall_forall in F.
  assert (4 <= 2 ^ k)%nat by (change 4%nat with (2 ^ 2)%nat; apply Nat.pow_le_mono_r; lia).
  unfold hadamard_cw. destruct (Z.ltb_spec i 4); [|rewrite map_length]; apply F, nth_In; lia.
Qed.
Lemma to_int3 g : length g = 3%nat -> exists i, to_int g true = Ok i /\ 0 <= i < 8.
Proof. destruct g as [|[] [|[] [|[] [|]]]]; try discriminate; intros _; eexists; (split; [reflexivity|vm_compute; split; congruence]). Qed.
Lemma hadamard_row_run k bs : (2 <= k)%nat ->
  if Nat.eqb (Nat.modulo (length bs) 3) 0 then exists r, hadamard_row (2 ^ Z.of_nat k) bs = Ok r /\ length r = (2 ^ k * (length bs / 3))%nat
  else hadamard_row (2 ^ Z.of_nat k) bs = Err ValueError.
Proof.
  intro Hk. unfold hadamard_row. destruct (Nat.eqb _ 0) eqn:E.
  - apply Nat.eqb_eq in E. rewrite reshape_rows_ok by assumption. cbn [rbind].
    pose proof (chunks_length_all 3 bs ltac:(lia) E) as F. pose proof (chunks_length 3 bs ltac:(lia) E) as Lc.
    assert (M : forall gs, Forall (fun g => length g = 3%nat) gs -> exists is, mapM (fun g => to_int g true) gs = Ok is /\ length is = length gs /\ Forall (fun i => 0 <= i < 8) is).
    { induction 1 as [|g gs Hg _ (is & I1 & I2 & I3)]; [exists []; repeat split; constructor|].
      destruct (to_int3 g Hg) as (i & Hi & Bi). exists (i :: is). cbn [mapM]. rewrite Hi. cbn [rbind]. rewrite I1. cbn [rbind length].
      repeat split; [lia|constructor; assumption]. }
    destruct (M _ F) as (is & I1 & I2 & I3). rewrite I1. cbn [rbind]. eexists. split; [reflexivity|].
    unfold hadamard_matrix. rewrite Z.log2_pow2, Nat2Z.id by lia.
    rewrite (concat_length_const (2 ^ k)).
    + rewrite map_length, I2, Lc. reflexivity.
    + apply Forall_forall. intros c Hc. apply in_map_iff in Hc as (i & <- & Hi). rewrite Forall_forall in I3. apply hadamard_cw_length; auto.
  - apply Nat.eqb_neq in E. rewrite reshape_rows_err by assumption. reflexivity.
Qed.
Definition mdsss_size (l : nat) : nat := let m := (l + l mod 8)%nat in (m + m / 8)%nat.
Definition cover (n : Z) : list bool := match COVERING_CODE n with Ok c => c | Err _ => [] end.
Lemma MDSSS_run t n : t <> [] -> In n [4; 8; 16; 32] ->
  MDSSS t (4 * n) = if Nat.eqb (Nat.modulo (mdsss_size (length t)) 9) 0 then Ok (cover n) else Err ValueError.
Proof.
  intros Ht Hn. unfold MDSSS. rewrite Z.mul_comm, Z.div_mul by lia. unfold TPC. cbv zeta.
  set (mp := insert_p (t ++ repeat false (Nat.modulo (length t) 8))).
  assert (Lmp : length mp = mdsss_size (length t)) by (unfold mp, mdsss_size; now rewrite insert_p_length, app_length, repeat_length).
  rewrite <- Lmp.
  assert (Hp : (0 < length mp)%nat) by (rewrite Lmp; unfold mdsss_size; destruct t; [congruence|cbn [length]; lia]).
  assert (Hk : exists k, (2 <= k)%nat /\ n = 2 ^ Z.of_nat k).
  { destruct Hn as [<-|[<-|[<-|[<-|[]]]]]; [exists 2%nat|exists 3%nat|exists 4%nat|exists 5%nat]; (split; [lia|reflexivity]). }
  destruct Hk as (k & Hk & En).
  destruct (Nat.eq_dec (Nat.modulo (length mp) 3) 0) as [E3|E3].
  2:{ rewrite reshape_rows_err by assumption. cbn [rbind].
      replace (Nat.eqb (Nat.modulo (length mp) 9) 0) with false; [reflexivity|]. symmetry. apply Nat.eqb_neq. intro E9. apply E3.
      apply Nat.mod_divide in E9 as [q Eq]; [|lia]. rewrite Eq. replace (q * 9)%nat with (q * 3 * 3)%nat by lia. apply Nat.mod_mul. lia. }
  rewrite reshape_rows_ok by assumption. cbn [rbind]. pose proof (chunks_length 3 mp ltac:(lia) E3) as Lc.
  unfold hadamard_encoder. cbn [mapM].
  assert (Lr : forall i, length (map (fun c => nth i c false) (chunks 3 mp)) = (length mp / 3)%nat) by (intro; now rewrite map_length).
  pose proof (hadamard_row_run k (map (fun c => nth 0 c false) (chunks 3 mp)) Hk) as R0.
  pose proof (hadamard_row_run k (map (fun c => nth 1 c false) (chunks 3 mp)) Hk) as R1.
  pose proof (hadamard_row_run k (map (fun c => nth 2 c false) (chunks 3 mp)) Hk) as R2.
  rewrite Lr, <- En in R0, R1, R2.
  assert (E9 : Nat.eqb (Nat.modulo (length mp) 9) 0 = Nat.eqb (Nat.modulo (length mp / 3) 3) 0).
  { pose proof (Nat.div_mod (length mp) 3 ltac:(lia)) as D. set (q := (length mp / 3)%nat) in *. rewrite E3, Nat.add_0_r in D. rewrite D.
    change 9%nat with (3 * 3)%nat. rewrite Nat.mul_mod_distr_l by lia. destruct (Nat.modulo q 3); reflexivity. }
  rewrite E9. destruct (Nat.eqb (Nat.modulo (length mp / 3) 3) 0) eqn:Eb.
  2:{ rewrite R0. reflexivity. }
  destruct R0 as (r0 & R0 & L0), R1 as (r1 & R1 & L1), R2 as (r2 & R2 & L2). rewrite R0. cbn [rbind]. rewrite R1. cbn [rbind]. rewrite R2. cbn [rbind].
  unfold spreading_multiplexing.
  assert (Ls : length (nth 0 (SPC_encoder [r0; r1; r2]) []) = length r0).
  { unfold SPC_encoder. cbn [nth]. rewrite app_length, map_length, firstn_length, repeat_length. pose proof (Nat.div_mod (length r0) 4). lia. }
  rewrite Ls.
  assert (H4 : (4 <= length r0)%nat).
  { rewrite L0. apply Nat.eqb_eq in Eb. pose proof (Nat.div_mod (length mp) 3 ltac:(lia)) as D. rewrite E3 in D.
    pose proof (Nat.div_mod (length mp / 3) 3 ltac:(lia)) as D'. rewrite Eb in D'.
    assert (4 <= 2 ^ k)%nat by (change 4%nat with (2 ^ 2)%nat; apply Nat.pow_le_mono_r; lia).
    assert (1 <= length mp / 3 / 3)%nat by lia. nia. }
  assert (M : mapM (fun i => do j <- np_index (Z.of_nat (4 * length r0)) ((Z.of_nat i mod 4 + Z.of_nat i / n * 4) mod 256);
                        Ok (nth j (repeat false (4 * length r0)) false)) (seq 0 (Z.to_nat (4 * n))) = Ok (repeat false (Z.to_nat (4 * n)))).
  { rewrite (mapM_ext _ (fun _ => Ok false)).
    - rewrite (mapM_map _ (fun _ => false)) by reflexivity. f_equal. generalize (Z.to_nat (4 * n)). intro w. generalize 0%nat.
      induction w as [|w IH]; intro v; [reflexivity|]. cbn [seq map repeat]. now rewrite IH.
    - intros i Hi. apply in_seq in Hi.
      assert (B : 0 <= (Z.of_nat i mod 4 + Z.of_nat i / n * 4) mod 256 <= 15).
      { assert (0 < n) by (destruct Hn as [<-|[<-|[<-|[<-|[]]]]]; lia).
        assert (0 <= Z.of_nat i / n < 4) by (split; [apply Z.div_pos; lia|apply Z.div_lt_upper_bound; lia]).
        pose proof (Z.mod_pos_bound (Z.of_nat i) 4). rewrite Z.mod_small; lia. }
      unfold np_index. rewrite (proj2 (Z.leb_le _ _)) by lia. rewrite (proj2 (Z.ltb_lt _ _)) by lia. cbn [andb rbind]. f_equal.
      apply nth_repeat_any. }
  cbv zeta. unfold cover. destruct (COVERING_CODE n) as [c|e] eqn:Ec; [|exfalso; destruct Hn as [<-|[<-|[<-|[<-|[]]]]]; discriminate Ec].
  cbn [rbind]. rewrite M. cbn [rbind]. rewrite repeat_length.
  assert (Lcov : length c = Z.to_nat (4 * n)) by (destruct Hn as [<-|[<-|[<-|[<-|[]]]]]; vm_compute in Ec; injection Ec as <-; reflexivity).
  rewrite Lcov, Nat.eqb_refl. f_equal. rewrite <- Lcov. clear. induction c as [|b c IH]; [reflexivity|]. cbn [length repeat map2]. rewrite IH. f_equal.
  apply xorb_false_l.
Qed.

(** ** a call as a function of the construction parameters *)
Definition params (s : oqpsk) : Z * Z * Frequency_band * Z := (q_sps s, q_SM s, q_band s, q_RM s).
Definition psdu_pure (band : Frequency_band) (RM SM_ : Z) (bits : list bool) : res (list bool) :=
  do t <- (if ((0 <=? RM) && (RM <=? 1)) || (SM_ =? 0) then q_interleaver (q_FEC bits true) true else Ok bits);
  if SM_ =? 0 then
    do use_bde <- (do d <- bget PSDU_BDE_DSSS band; zdict d RM);
    do sp <- (do d <- bget PSDU_SPREADING_DSSS band; zdict d RM);
    let x := if (use_bde : bool) then BDE t false 0 else t in
    match sp with Some spreading => DSSS_spread x spreading | None => Ok x end
  else
    do sf <- (do d <- bget PSDU_SPREADING_FACTOR_MDSSS band;
              match d with Some d' => zdict d' RM | None => if (-13 <=? RM) && (RM <=? 12) then Err TypeError else Err IndexError end);
    MDSSS t sf.
Ltac osimp := cbv beta iota zeta delta [sbind sget sattr slift smod sret setattr getattr params assoc String.eqb Ascii.eqb Bool.eqb q_sps q_SM q_band q_RM q_mem fst snd].
Definition kept (s s' : oqpsk) : Prop :=
  assoc String.eqb "_cSHR"%string (q_mem s') = assoc String.eqb "_cSHR"%string (q_mem s)
  /\ assoc String.eqb "_cPHR"%string (q_mem s') = assoc String.eqb "_cPHR"%string (q_mem s).
Lemma psdu_master bits s : (params (fst (q_psdu bits s)) = params s /\ kept s (fst (q_psdu bits s)))
  /\ snd (q_psdu bits s) = psdu_pure (q_band s) (q_RM s) (q_SM s) bits.
Proof.
  destruct s as [sps sm band rm mem]. unfold q_psdu, psdu_pure, kept. osimp.
  destruct (((0 <=? rm) && (rm <=? 1)) || (sm =? 0)); cbn [rbind].
  - destruct (q_interleaver (q_FEC bits true) true) as [t|e]; cbn [rbind]; [|repeat split; reflexivity].
    destruct (sm =? 0).
    + destruct (rbind (bget PSDU_BDE_DSSS band) (fun d => zdict d rm)) as [u|e]; cbn [rbind]; [|repeat split; reflexivity].
      destruct (rbind (bget PSDU_SPREADING_DSSS band) (fun d => zdict d rm)) as [[sp|]|e]; cbn [rbind]; repeat split; reflexivity.
    + destruct (rbind (bget PSDU_SPREADING_FACTOR_MDSSS band) _) as [sf|e]; cbn [rbind]; repeat split; reflexivity.
  - destruct (sm =? 0).
    + destruct (rbind (bget PSDU_BDE_DSSS band) (fun d => zdict d rm)) as [u|e]; cbn [rbind]; [|repeat split; reflexivity].
      destruct (rbind (bget PSDU_SPREADING_DSSS band) (fun d => zdict d rm)) as [[sp|]|e]; cbn [rbind]; repeat split; reflexivity.
    + destruct (rbind (bget PSDU_SPREADING_FACTOR_MDSSS band) _) as [sf|e]; cbn [rbind]; repeat split; reflexivity.
Qed.
Definition bare (pr : Z * Z * Frequency_band * Z) : oqpsk :=
  let '(sps, sm, band, rm) := pr in {| q_sps := sps; q_SM := sm; q_band := band; q_RM := rm; q_mem := [] |}.
Definition shr_pure (band : Frequency_band) : res (list bool * list bool) :=
  do n <- bget PREAMPLE_LENGTH band;
  let b := BDE (repeat false (Z.to_nat n) ++ from_bitstring OQPSK_SFD) false 0 in
  do sp <- bget SHR_SPREADING band; do c <- DSSS_spread b sp; Ok (b, c).
Definition phr_pure (band : Frequency_band) (ref : bool) (phr : list bool) : res (list bool) :=
  do i <- q_interleaver (q_FEC phr false) false;
  do sp <- bget PHR_SPREADING band; DSSS_spread (BDE i ref 0) sp.
Definition chips_pure (p : platform) (pr : Z * Z * Frequency_band * Z) (bits : list bool) : res (list bool * Z) :=
  let s := bare pr in
  do bc <- shr_pure (q_band s);
  do phr <- q_PHR p s (zlen bits / 8);
  do c2 <- phr_pure (q_band s) (last (fst bc) false) phr;
  do c3 <- psdu_pure (q_band s) (q_RM s) (q_SM s) bits;
  do c3' <- insert_pilots (q_band s) c3;
  do rate <- q_chip_rate s;
  if q_sps s <=? 0 then Err ValueError else Ok (snd bc ++ c2 ++ c3', rate * q_sps s).
Lemma bits_master p a s : params (fst (q_bitsToChips p a s)) = params s
  /\ snd (q_bitsToChips p a s) = do bits <- check_binary_array a; chips_pure p (params s) bits.
Proof.
  unfold q_bitsToChips, chips_pure, shr_pure, phr_pure, q_SHR. destruct (check_binary_array a) as [bits|e]; [|split; reflexivity].
  cbn [rbind]. destruct s as [sps sm band rm mem]. 
  osimp. cbn [bare q_band q_RM q_SM q_sps].
  destruct (bget PREAMPLE_LENGTH band) as [n|e]; cbn [rbind]; [|split; reflexivity].
  set (b := BDE _ false 0).
  destruct (bget SHR_SPREADING band) as [sp|e]; cbn [rbind]; [|split; reflexivity].
  destruct (DSSS_spread b sp) as [c1|e]; cbn [rbind fst snd]; [|split; reflexivity].
  match goal with |- context [q_PHR p ?x (zlen bits / 8)] => change (q_PHR p x (zlen bits / 8)) with (q_PHR p (bare (sps, sm, band, rm)) (zlen bits / 8)) end.
  cbn [bare].
  destruct (q_PHR p _ (zlen bits / 8)) as [phr|e]; cbn [rbind]; [|split; reflexivity].
  destruct (q_interleaver (q_FEC phr false) false) as [i|e]; cbn [rbind]; [|split; reflexivity].
  destruct (bget PHR_SPREADING band) as [sp2|e]; cbn [rbind]; [|split; reflexivity].
  destruct (DSSS_spread (BDE i (last b false) 0) sp2) as [c2|e]; cbn [rbind]; [|split; reflexivity].
  match goal with |- context [q_psdu bits ?x] => pose proof (psdu_master bits x) as [P1 P2]; destruct (q_psdu bits x) as [s' [c3|e]] end;
    cbn [fst snd] in P1, P2; destruct P1 as [P1 [K1 K2]]; cbv [params q_sps q_SM q_band q_RM] in P1; cbn [q_sps q_SM q_band q_RM] in P2; rewrite <- P2; cbn [rbind].
  2:{ split; [|reflexivity]. destruct s'. exact P1. }
  destruct (insert_pilots band c3) as [c3'|e]; cbn [rbind].
  2:{ split; [|reflexivity]. destruct s'. exact P1. }
  destruct s' as [sps' sm' band' rm' mem']. injection P1 as -> -> -> ->. cbn [q_mem] in K1, K2. unfold assoc in K1, K2.
  cbv beta iota zeta delta [String.eqb Ascii.eqb Bool.eqb] in K1, K2. osimp. rewrite K1, K2. cbn [fst snd].
  match goal with |- context [q_chip_rate ?x] => change (q_chip_rate x) with (q_chip_rate (bare (sps, sm, band, rm))) end. cbn [bare].
  destruct (q_chip_rate _) as [rate|e]; cbn [rbind]; [|split; reflexivity].
  destruct (sps <=? 0); split; reflexivity.
Qed.

(** ** the frames of the supported configurations *)
Definition get_or {A} (d : A) (r : res A) : A := match r with Ok a => a | Err _ => d end.
Definition sp_shr (b : Frequency_band) : list string := get_or [] (bget SHR_SPREADING b).
Definition sp_phr (b : Frequency_band) : list string := get_or [] (bget PHR_SPREADING b).
Definition sp_psdu (b : Frequency_band) (rm : Z) : option (list string) := get_or None (do d <- bget PSDU_SPREADING_DSSS b; zdict d rm).
Definition bde_psdu (b : Frequency_band) (rm : Z) : bool := get_or false (do d <- bget PSDU_BDE_DSSS b; zdict d rm).
Definition md_psdu (b : Frequency_band) (rm : Z) : Z :=
  get_or 0 (do d <- bget PSDU_SPREADING_FACTOR_MDSSS b; match d with Some d' => zdict d' rm | None => Err TypeError end) / 4.
Definition rate_of (b : Frequency_band) (rm sm : Z) : Z := get_or 0 (q_chip_rate (bare (1, sm, b, rm))).
Definition shr_bits (b : Frequency_band) : list bool :=
  BDE (repeat false (Z.to_nat (get_or 0 (bget PREAMPLE_LENGTH b))) ++ from_bitstring OQPSK_SFD) false 0.
Definition shr_chips (b : Frequency_band) : list bool := spread (sp_shr b) (shr_bits b).
Definition ilv (psdu : bool) (x : list bool) : list bool := map (fun k => nth (q_pos psdu (length x) k) x false) (seq 0 (length x)).
Definition phr_diff (p : platform) (b : Frequency_band) (sm : bool) (rm len : Z) : list bool :=
  BDE (ilv false (phr_code (hdr p sm rm len))) (last (shr_bits b) false) 0.
Definition phr_chips (p : platform) (b : Frequency_band) (sm : bool) (rm len : Z) : list bool := spread (sp_phr b) (phr_diff p b sm rm len).
Definition dsss_bits (b : Frequency_band) (rm len : Z) (bits : list bool) : list bool :=
  let t := ilv true (psdu_code len bits) in if bde_psdu b rm then BDE t false 0 else t.
Definition psdu_chips (b : Frequency_band) (rm sm len : Z) (bits : list bool) : list bool :=
  if sm =? 0 then match sp_psdu b rm with Some sp => spread sp (dsss_bits b rm len bits) | None => dsss_bits b rm len bits end
  else cover (md_psdu b rm).
Definition pilot_of (b : Frequency_band) : list bool := from_bitstring (get_or EmptyString (bget PILOT_SEQUENCES b)).
Definition with_pilots (b : Frequency_band) (c : list bool) : list bool := flat_map (fun x => pilot_of b ++ x) (chunks (pilot_spacing b) c).
(** configurations that need an even number of blocks *)
Definition four_bits (b : Frequency_band) (rm : Z) : bool := match sp_psdu b rm with Some sp => Nat.eqb (spread_bits sp) 4 | None => false end.
Definition pairs_only (b : Frequency_band) (rm sm : Z) : bool := if sm =? 0 then four_bits b rm else rm <=? 1.

Ltac each_rm H := let E := fresh in assert (E : (0 <= _ <= 3)) by exact H; clear E;
  match type of H with 0 <= ?r <= 3 => let E := fresh in assert (E : r = 0 \/ r = 1 \/ r = 2 \/ r = 3) by lia; clear H; destruct E as [->|[->|[->| ->]]] end.
Lemma shr_ok b : shr_pure b = Ok (shr_bits b, shr_chips b).
Proof. destruct b; vm_compute; reflexivity. Qed.
Lemma shr_length_pos b : length (shr_chips b) = (length (shr_bits b) * spread_chips (sp_shr b))%nat.
Proof. destruct b; vm_compute; reflexivity. Qed.
Lemma sp_phr_in b : bget PHR_SPREADING b = Ok (sp_phr b) /\ In (sp_phr b) all_spreads /\ spread_bits (sp_phr b) = 1%nat.
Proof. destruct b; (split; [reflexivity|]); (split; [cbn; tauto|reflexivity]). Qed.
Lemma ilv_length psdu x : length (ilv psdu x) = length x.
Proof. unfold ilv. now rewrite map_length, seq_length. Qed.
Lemma phr_code_length p sm rm len : length (phr_code (hdr p sm rm len)) = 60%nat.
Proof. unfold phr_code. rewrite code_12_length, app_length, hdr_length. reflexivity. Qed.
Lemma phr_ok p b sm rm len : phr_pure b (last (shr_bits b) false) (hdr p sm rm len) = Ok (phr_chips p b sm rm len).
Proof.
  unfold phr_pure. rewrite q_FEC_phr. rewrite (q_interleaver_run false _ 1) by (try lia; rewrite phr_code_length; reflexivity). cbn [rbind].
  destruct (sp_phr_in b) as (E & Hi & H1). rewrite E. cbn [rbind]. rewrite spread_ok by assumption. unfold phr_chips, spread. rewrite H1, Nat.mod_1_r. reflexivity.
Qed.
Lemma phr_chips_length p b sm rm len : length (phr_chips p b sm rm len) = (60 * spread_chips (sp_phr b))%nat.
Proof.
  destruct (sp_phr_in b) as (E & Hi & H1). unfold phr_chips. rewrite spread_length; [|assumption|now rewrite H1, Nat.mod_1_r].
  unfold phr_diff. rewrite H1, Nat.div_1_r, BDE_length, ilv_length, phr_code_length. reflexivity.
Qed.
Lemma sp_psdu_ok b rm : 0 <= rm <= 3 -> (do d <- bget PSDU_SPREADING_DSSS b; zdict d rm) = Ok (sp_psdu b rm)
  /\ (do d <- bget PSDU_BDE_DSSS b; zdict d rm) = Ok (bde_psdu b rm)
  /\ forall sp, sp_psdu b rm = Some sp -> In sp all_spreads /\ (spread_bits sp = 1%nat \/ spread_bits sp = 4%nat).
Proof.
  intro H. each_rm H; destruct b; (split; [reflexivity|]); (split; [reflexivity|]); intros sp E; vm_compute in E;
    first [discriminate E | injection E as <-; split; [cbn; tauto|vm_compute; tauto]].
Qed.
Lemma md_psdu_ok b rm : 0 <= rm <= 3 -> mdsss_band b = true ->
  (do d <- bget PSDU_SPREADING_FACTOR_MDSSS b;
   match d with Some d' => zdict d' rm | None => if (-13 <=? rm) && (rm <=? 12) then Err TypeError else Err IndexError end) = Ok (4 * md_psdu b rm)
  /\ In (md_psdu b rm) [4; 8; 16; 32].
Proof. intros H E. each_rm H; destruct b; try discriminate E; (split; [reflexivity|vm_compute; tauto]). Qed.
Lemma rate_ok b rm sm sps : oq_supported b rm sm -> q_chip_rate (bare (sps, sm, b, rm)) = Ok (rate_of b rm sm).
Proof. intros [H [->|[-> E]]]; each_rm H; destruct b; try discriminate E; reflexivity. Qed.
Lemma psdu_ok b rm sm bits len : oq_supported b rm sm -> zlen bits = 8 * len -> 1 <= len ->
  psdu_pure b rm sm bits = if pairs_only b rm sm && Z.odd (psdu_blocks len) then Err ValueError else Ok (psdu_chips b rm sm len bits).
Proof.
  intros Hs Hl H1. assert (Hd : zlen bits / 8 = len) by (rewrite Hl, Z.mul_comm; apply Z.div_mul; lia).
  assert (Hb : length bits = Z.to_nat (8 * len)) by (unfold zlen in Hl; lia).
  pose proof (psdu_blocks_spec len ltac:(lia)) as [_ Hp]. set (nb := Z.to_nat (psdu_blocks len)).
  assert (Lc : length (psdu_code len bits) = (126 * nb)%nat) by (rewrite psdu_code_length by (auto; lia); unfold nb; lia).
  assert (Ei : q_interleaver (q_FEC bits true) true = Ok (ilv true (psdu_code len bits))).
  { rewrite q_FEC_psdu, Hd. apply (q_interleaver_run true _ nb); [unfold nb; lia|exact Lc]. }
  assert (Ho : Z.odd (psdu_blocks len) = negb (Nat.eqb (Nat.modulo (126 * nb) 4) 0)).
  { replace (psdu_blocks len) with (Z.of_nat nb) by (unfold nb; lia). 
    clear. rewrite (Nat.div_mod nb 2) by lia. set (q := (nb / 2)%nat). pose proof (Nat.mod_upper_bound nb 2 ltac:(lia)) as U.
    set (r := Nat.modulo nb 2) in *. assert (r = 0 \/ r = 1)%nat as [-> | ->] by lia.
    - replace (126 * (2 * q + 0))%nat with (63 * q * 4)%nat by lia. rewrite Nat.mod_mul by lia. cbn [Nat.eqb negb].
      rewrite Nat.add_0_r, Nat2Z.inj_mul, Z.odd_mul. reflexivity.
    - replace (126 * (2 * q + 1))%nat with (2 + (63 * q + 31) * 4)%nat by lia. rewrite Nat.mod_add by lia. 
      rewrite Nat2Z.inj_add, Nat2Z.inj_mul, Z.odd_add, Z.odd_mul. reflexivity. }
  unfold psdu_pure, psdu_chips, pairs_only. destruct Hs as [Hr [->|[-> Hm]]].
  - rewrite orb_true_r, Ei. cbn [rbind]. change (0 =? 0) with true. cbv iota.
    destruct (sp_psdu_ok b rm Hr) as (E1 & E2 & E3). rewrite E1, E2. cbn [rbind]. unfold four_bits, dsss_bits. cbv zeta.
    destruct (sp_psdu b rm) as [sp|] eqn:Esp; [|reflexivity]. destruct (E3 sp eq_refl) as [Hi Hk]. rewrite spread_ok by assumption.
    set (x := if bde_psdu b rm then _ else _).
    assert (Lx : length x = (126 * nb)%nat) by (unfold x; destruct (bde_psdu b rm); rewrite ?BDE_length, ilv_length; exact Lc).
    rewrite Lx. destruct Hk as [Hk|Hk]; rewrite Hk.
    + rewrite Nat.mod_1_r. cbn [Nat.eqb andb]. unfold spread. now rewrite Hk.
    + cbn [Nat.eqb andb]. rewrite Ho. unfold spread. rewrite Hk. destruct (Nat.eqb (Nat.modulo (126 * nb) 4) 0); reflexivity.
  - change (1 =? 0) with false. cbv iota. rewrite orb_false_r. destruct (md_psdu_ok b rm Hr Hm) as [E1 E2].
    rewrite (proj2 (Z.leb_le 0 rm)) by lia. cbn [andb]. destruct (rm <=? 1).
    + rewrite Ei. cbn [rbind]. rewrite E1. cbn [rbind andb].
      rewrite MDSSS_run; [|intro E; apply (f_equal (@length bool)) in E; rewrite ilv_length, Lc in E; unfold nb in E; simpl length in E; lia|assumption].
      rewrite ilv_length, Lc, Ho. replace (Nat.eqb (Nat.modulo (mdsss_size (126 * nb)) 9) 0) with (Nat.eqb (Nat.modulo (126 * nb) 4) 0); [destruct (Nat.eqb _ 0); reflexivity|].
      clear. unfold mdsss_size. cbv zeta. rewrite (Nat.div_mod nb 4) by lia. set (q := (nb / 4)%nat). pose proof (Nat.mod_upper_bound nb 4 ltac:(lia)) as U.
      set (r := Nat.modulo nb 4) in *. assert (r = 0 \/ r = 1 \/ r = 2 \/ r = 3)%nat as [->|[->|[->| ->]]] by lia.
      * replace (126 * (4 * q + 0))%nat with (63 * q * 8)%nat by lia. rewrite Nat.mod_mul by lia. rewrite Nat.add_0_r.
        rewrite Nat.div_mul by lia. replace (63 * q * 8 + 63 * q)%nat with (63 * q * 9)%nat by lia. rewrite Nat.mod_mul by lia.
        replace (63 * q * 8)%nat with (63 * q * 2 * 4)%nat by lia. rewrite Nat.mod_mul by lia. reflexivity.
      * replace (126 * (4 * q + 1))%nat with (6 + (63 * q + 15) * 8)%nat by lia. rewrite Nat.mod_add by lia. rewrite (Nat.mod_small 6 8) by lia.
        replace (6 + (63 * q + 15) * 8 + 6)%nat with (4 + (63 * q + 16) * 8)%nat by lia. rewrite Nat.div_add by lia. change (4 / 8)%nat with 0%nat.
        replace (4 + (63 * q + 16) * 8 + (0 + (63 * q + 16)))%nat with (4 + (63 * q + 16) * 9)%nat by lia. rewrite Nat.mod_add by lia.
        replace (6 + (63 * q + 15) * 8)%nat with (2 + ((63 * q + 15) * 2 + 1) * 4)%nat by lia. rewrite Nat.mod_add by lia. reflexivity.
      * replace (126 * (4 * q + 2))%nat with (4 + (63 * q + 31) * 8)%nat by lia. rewrite Nat.mod_add by lia. rewrite (Nat.mod_small 4 8) by lia.
        replace (4 + (63 * q + 31) * 8 + 4)%nat with ((63 * q + 32) * 8)%nat by lia. rewrite Nat.div_mul by lia.
        replace ((63 * q + 32) * 8 + (63 * q + 32))%nat with ((63 * q + 32) * 9)%nat by lia. rewrite Nat.mod_mul by lia.
        replace (4 + (63 * q + 31) * 8)%nat with (((63 * q + 31) * 2 + 1) * 4)%nat by lia. rewrite Nat.mod_mul by lia. reflexivity.
      * replace (126 * (4 * q + 3))%nat with (2 + (63 * q + 47) * 8)%nat by lia. rewrite Nat.mod_add by lia. rewrite (Nat.mod_small 2 8) by lia.
        replace (2 + (63 * q + 47) * 8 + 2)%nat with (4 + (63 * q + 47) * 8)%nat by lia. rewrite Nat.div_add by lia. change (4 / 8)%nat with 0%nat.
        replace (4 + (63 * q + 47) * 8 + (0 + (63 * q + 47)))%nat with (4 + (63 * q + 47) * 9)%nat by lia. rewrite Nat.mod_add by lia.
        replace (2 + (63 * q + 47) * 8)%nat with (2 + ((63 * q + 47) * 2) * 4)%nat by lia. rewrite Nat.mod_add by lia. reflexivity.
    + cbn [rbind]. rewrite E1. cbn [rbind andb]. rewrite MDSSS_run; [|intro E; rewrite E in Hl; unfold zlen in Hl; cbn [length] in Hl; lia|assumption].
      assert (length bits = (Z.to_nat len * 8)%nat) as -> by lia. unfold mdsss_size. cbv zeta. rewrite Nat.mod_mul, Nat.add_0_r, Nat.div_mul by lia.
      replace (Z.to_nat len * 8 + Z.to_nat len)%nat with (Z.to_nat len * 9)%nat by lia. rewrite Nat.mod_mul by lia. reflexivity.
Qed.
Lemma spacing_ok b : exists z, bget PILOT_SPACING b = Ok z /\ Z.to_nat z = pilot_spacing b.
Proof. destruct b; (eexists; split; [reflexivity|vm_compute; reflexivity]). Qed.
Lemma pilot_seq_ok b : exists w, bget PILOT_SEQUENCES b = Ok w.
Proof. destruct b; (eexists; reflexivity). Qed.
Lemma pilots_ok b c : insert_pilots b c = Ok (with_pilots b c).
Proof.
  unfold insert_pilots, with_pilots, pilot_of. destruct (spacing_ok b) as (z & -> & Ez). destruct (pilot_seq_ok b) as (w & ->).
  cbn [rbind get_or]. now rewrite Ez.
Qed.
Lemma chips_ok p sps sm b rm bits len : oq_supported b rm sm -> 0 < sps -> zlen bits = 8 * len -> 1 <= len <= 2047 ->
  chips_pure p (sps, sm, b, rm) bits =
  if pairs_only b rm sm && Z.odd (psdu_blocks len) then Err ValueError
  else Ok (shr_chips b ++ phr_chips p b (negb (sm =? 0)) rm len ++ with_pilots b (psdu_chips b rm sm len bits), rate_of b rm sm * sps).
Proof.
  intros Hs Hp Hl H1. unfold chips_pure. cbn [bare q_band q_RM q_SM q_sps]. cbv zeta. rewrite shr_ok. cbn [rbind fst snd].
  assert (Hd : zlen bits / 8 = len) by (rewrite Hl, Z.mul_comm; apply Z.div_mul; lia). rewrite Hd.
  rewrite q_PHR_hdr; [|cbn [q_RM]; apply Hs|lia]. cbn [rbind q_SM q_RM]. rewrite phr_ok. cbn [rbind].
  rewrite (psdu_ok b rm sm bits len) by (auto; lia). destruct (pairs_only b rm sm && Z.odd (psdu_blocks len)); [reflexivity|]. cbn [rbind].
  rewrite pilots_ok. cbn [rbind]. pose proof (rate_ok b rm sm sps Hs) as Er. unfold bare in Er. rewrite Er. cbn [rbind].
  rewrite (proj2 (Z.leb_gt sps 0)) by lia. reflexivity.
Qed.
