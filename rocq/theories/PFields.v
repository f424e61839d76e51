(** * Header construction: HCS, PHR layout, error detection *)
From Verif Require Import Py MBits MFields PList SBits PBits SCrc PPoly MOqpsk Tables.

(** ** linearity of the CRC *)
Lemma xor_bits_length a b : length a = length b -> length (xor_bits a b) = length a.
Proof. revert b. induction a; destruct b; simpl; intros; try lia; auto. Qed.
Lemma crc_step_length r b : length r = 8%nat -> length (crc_step r b) = 8%nat.
Proof. intro H. destruct (list8 r H) as (?&?&?&?&?&?&?&?&->). unfold crc_step. cbn [hd]. destruct (xorb _ _); reflexivity. Qed.
Lemma crc8_length r d : length r = 8%nat -> length (crc8 r d) = 8%nat.
Proof. revert r. induction d; intros r H; [assumption|]. unfold crc8 in *. cbn [fold_left]. apply IHd. now apply crc_step_length. Qed.
Lemma crc_step_linear r s b c : length r = 8%nat -> length s = 8%nat ->
  crc_step (xor_bits r s) (xorb b c) = xor_bits (crc_step r b) (crc_step s c).
Proof.
  intros Hr Hs. destruct (list8 r Hr) as (r0&r1&r2&r3&r4&r5&r6&r7&->). destruct (list8 s Hs) as (s0&s1&s2&s3&s4&s5&s6&s7&->).
  unfold crc_step, crc_taps. cbn [hd tl app xor_bits].
  destruct r0, s0, b, c; cbn [xorb xor_bits]; rewrite ?xorb_false_r, ?xorb_true_r;
    repeat (f_equal; try (repeat match goal with x : bool |- _ => destruct x; try reflexivity end)).
Qed.
Lemma crc8_linear d e r s : length r = 8%nat -> length s = 8%nat -> length d = length e ->
  crc8 (xor_bits r s) (xor_bits d e) = xor_bits (crc8 r d) (crc8 s e).
Proof.
  revert e r s. induction d as [|x d IH]; intros [|y e] r s Hr Hs Hl; simpl in Hl; try lia; [reflexivity|].
  unfold crc8 in *. cbn [xor_bits fold_left]. rewrite crc_step_linear by assumption.
  apply IH; try (now apply crc_step_length). lia.
Qed.
Lemma xor_bits_0_r a : xor_bits a (repeat false (length a)) = a.
Proof. induction a; [reflexivity|]. cbn [length repeat xor_bits]. now rewrite IHa, xorb_false_r. Qed.
Lemma xor_bits_0_l a : xor_bits (repeat false (length a)) a = a.
Proof. induction a; [reflexivity|]. cbn [length repeat xor_bits]. now rewrite IHa, xorb_false_l. Qed.
Lemma xor_bits_assoc a b c : xor_bits (xor_bits a b) c = xor_bits a (xor_bits b c).
Proof. revert b c. induction a; destruct b, c; cbn [xor_bits]; auto. f_equal; [apply xorb_assoc|auto]. Qed.
Lemma xor_bits_comm a b : xor_bits a b = xor_bits b a.
Proof. revert b. induction a; destruct b; cbn [xor_bits]; auto. f_equal; [apply xorb_comm|auto]. Qed.
Lemma xor_bits_self a : xor_bits a a = repeat false (length a).
Proof. induction a; [reflexivity|]. cbn [length repeat xor_bits]. now rewrite IHa, xorb_nilpotent. Qed.

(** ** the OFDM HCS *)
Lemma HCS_A :
  let c := polymul (poly1d (1 :: repeat 0 22)) (poly1d (repeat 1 8)) in
  mod2 (poly1d (polydiv_rem c (poly1d HCS_G))) = map b2z (crc8 (repeat true 8) (repeat false 22)).
Proof. vm_compute. reflexivity. Qed.

Lemma mod2_odd l : mod2 l = map b2z (map Z.odd l).
Proof. unfold mod2. rewrite map_map. apply map_ext. intro x. rewrite Zmod_odd. destruct (Z.odd x); reflexivity. Qed.
Lemma ralign_map_odd n l : map Z.odd (ralign n l) = repeat false (n - length l) ++ map Z.odd l.
Proof. unfold ralign. rewrite map_app. f_equal. generalize (n - length l)%nat. induction n0; [reflexivity|]. cbn [repeat map]. now rewrite IHn0. Qed.

Lemma HCS_spec h : length h = 22%nat -> HCS_calculation h = map b2z (crc8_ofdm h).
Proof.
  intro Hh. unfold HCS_calculation. rewrite HCS_A.
  change (poly1d (1 :: repeat 0 8)) with (1 :: repeat 0 8). change (poly1d HCS_G) with HCS_G.
  rewrite polymul_xn, poly1d_idem.
  assert (Hne : map b2z h <> []) by (destruct h; simpl in *; congruence).
  pose proof (rem_ralign (map b2z h) Hne) as (E1 & E2 & E3). cbv zeta in *.
  set (R := polydiv_rem (poly1d (map b2z h) ++ repeat 0 8) HCS_G) in *. rewrite E1.
  assert (E4 : repeat false (8 - length R) ++ map Z.odd R = crc8 (repeat false 8) h).
  { rewrite <- ralign_map_odd, E3, fold_crc by reflexivity. rewrite map_odd_b2z. reflexivity. }
  unfold crc8_ofdm.
  replace h with (xor_bits (repeat false 22) h) at 1 by (rewrite <- Hh; apply xor_bits_0_l).
  replace (repeat true 8) with (xor_bits (repeat true 8) (repeat false 8)) at 2 by reflexivity.
  rewrite crc8_linear by (auto; reflexivity). rewrite <- E4.
  set (A := crc8 (repeat true 8) (repeat false 22)).
  assert (HA : length A = 8%nat) by (apply crc8_length; reflexivity).
  unfold polyadd. rewrite mod2_odd, !map_length, HA. rewrite Nat.max_l by lia. rewrite Nat.sub_diag. cbn [repeat app].
  replace (repeat 0 (8 - length R)) with (map b2z (repeat false (8 - length R)))
    by (generalize (8 - length R)%nat; induction n; [reflexivity|cbn [repeat map]; now rewrite IHn]).
  rewrite <- map_app. generalize (repeat false (8 - length R) ++ map Z.odd R). generalize A. clear.
  induction A as [|a A IH]; intros [|b B]; try reflexivity.
  cbn [map map2 xor_bits]. f_equal; [destruct a, b; reflexivity|apply IH].
Qed.

(** ** the O-QPSK HCS on a platform where the cast wraps *)
Lemma u8_wrap x : u8cast Wrapping x mod 2 = b2z (Z.odd x).
Proof.
  unfold u8cast. replace ((x mod 256) mod 2) with (x mod 2).
  - rewrite Zmod_odd. destruct (Z.odd x); reflexivity.
  - rewrite (Z.mod_eq x 256) by lia. replace (x - 256 * (x / 256)) with (x + (- 128 * (x / 256)) * 2) by lia.
    now rewrite Z_mod_plus_full.
Qed.
Lemma q_HCS_spec h : h <> [] ->
  let R := q_HCS Wrapping h in
  (1 <= length R <= 8)%nat /\ map z2b (repeat 0 (8 - length R) ++ R) = crc8_oqpsk h.
Proof.
  intros Hne R. subst R. unfold q_HCS.
  change q_x8 with (1 :: repeat 0 8). change q_G8 with HCS_G. rewrite polymul_xn.
  assert (Hm : map b2z h <> []) by (destruct h; simpl; congruence).
  rewrite !(map_ext _ _ u8_wrap).
  replace (map (fun x => b2z (Z.odd x)) (poly1d (map b2z h) ++ repeat 0 8)) with (poly1d (map b2z h) ++ repeat 0 8).
  2:{ rewrite map_app. f_equal.
      assert (F : Forall (fun x => x = 0 \/ x = 1) (poly1d (map b2z h))).
      { unfold poly1d. destruct (trim_front_decomp (map b2z h)) as [k E].
        assert (F : Forall (fun x => x = 0 \/ x = 1) (map b2z h)).
        { apply Forall_forall. intros x Hx. apply in_map_iff in Hx as (b & <- & _). destruct b; auto. }
        rewrite E in F. apply Forall_app in F as [_ F]. destruct (trim_front (map b2z h)); [constructor; auto|assumption]. }
      induction F as [|x l Hx F IH]; [reflexivity|]. cbn [map]. rewrite <- IH. destruct Hx; subst; reflexivity. }
  pose proof (rem_ralign (map b2z h) Hm) as (E1 & E2 & E3). cbv zeta in *.
  set (R := polydiv_rem (poly1d (map b2z h) ++ repeat 0 8) HCS_G) in *.
  rewrite map_length. split; [exact E2|]. rewrite map_app, map_map.
  rewrite (map_ext (fun x => z2b (b2z (Z.odd x))) Z.odd) by (intro; apply z2b_b2z).
  replace (map z2b (repeat 0 (8 - length R))) with (repeat false (8 - length R)).
  - rewrite <- ralign_map_odd, E3, fold_crc by reflexivity. rewrite map_odd_b2z. reflexivity.
  - generalize (8 - length R)%nat. induction n; [reflexivity|]. cbn [repeat map]. now rewrite <- IHn.
Qed.

(** ** PHR of MR-OFDM *)
Definition phr_layout (rate len scr : Z) (n : nat) : list bool :=
  let h := msb_bits 5 rate ++ [false] ++ msb_bits 11 len ++ [false; false] ++ msb_bits 2 scr ++ [false] in
  h ++ crc8_ofdm h ++ repeat false (n - 30).

Lemma uintarr_ok z w : (0 < w)%nat -> 0 <= z < 2 ^ Z.of_nat w -> uintarr z w = Ok (msb_bits w z).
Proof.
  intros Hw Hz. unfold uintarr. destruct (uintarr_like z w Hw Hz) as [H1 H2].
  assert (E : Nat.ltb w (length (binary_repr z 0)) = false) by (apply Nat.ltb_ge; lia). rewrite E. now rewrite H2.
Qed.
Lemma uintarr_err z w : (0 < w)%nat -> 2 ^ Z.of_nat w <= z -> uintarr z w = Err ValueError.
Proof.
  intros Hw Hz. unfold uintarr.
  assert (0 < 2 ^ Z.of_nat w) by (apply Z.pow_pos_nonneg; lia).
  destruct z as [|p|p]; try lia.
  assert (E : (w < length (binary_repr (Z.pos p) 0))%nat).
  { rewrite binary_repr_pos. cbn [Nat.sub repeat app]. rewrite rev_length. now apply pos_digits_len_ge. }
  apply Nat.ltb_lt in E. rewrite E. reflexivity.
Qed.
Lemma assign_slice_mid {A} (a m vs c : list A) lo hi :
  lo = length a -> length m = length vs -> hi = (lo + length vs)%nat ->
  assign_slice lo hi vs (a ++ m ++ c) = Ok (a ++ vs ++ c).
Proof.
  intros -> Hm ->. unfold assign_slice.
  rewrite !app_length. rewrite Nat.min_l by lia.
  replace (length a + length vs - length a)%nat with (length vs) by lia. rewrite Nat.eqb_refl.
  now rewrite set_slice_at.
Qed.
Lemma assign_slice_pre {A} (m vs c : list A) hi :
  length m = length vs -> hi = length vs -> assign_slice 0 hi vs (m ++ c) = Ok (vs ++ c).
Proof. intros. apply (assign_slice_mid [] m vs c 0 hi); auto. Qed.
Lemma crc8_ofdm_length h : length (crc8_ofdm h) = 8%nat.
Proof. unfold crc8_ofdm. rewrite map_length. apply crc8_length. reflexivity. Qed.

Lemma phr_value_ok rate len scr n : 0 <= rate <= 6 -> 1 <= len <= 2047 -> 0 <= scr <= 3 -> (30 <= n)%nat ->
  (do p <- phr_new rate len scr n; phr_value p) = Ok (phr_layout rate len scr n).
Proof.
  intros Hr Hl Hs Hn. unfold phr_new.
  replace ((0 <=? rate) && (rate <=? 6)) with true by (symmetry; apply andb_true_iff; split; apply Z.leb_le; lia).
  replace ((1 <=? len) && (len <=? 2 ^ 11)) with true by (symmetry; apply andb_true_iff; split; apply Z.leb_le; lia).
  replace ((0 <=? scr) && (scr <=? 3)) with true by (symmetry; apply andb_true_iff; split; apply Z.leb_le; lia).
  cbn [negb rbind]. unfold phr_value. cbn [phr_bits phr_rate phr_len phr_scr].
  rewrite uintarr_ok by (simpl; lia). cbn [rbind].
  rewrite (uintarr_ok len) by (simpl; lia). rewrite (uintarr_ok scr) by (simpl; lia). cbn [rbind].
  replace n with (5 + (1 + (11 + (2 + (2 + (1 + (8 + (n - 30))))))))%nat at 1 by lia.
  rewrite !repeat_app.
  assert (E5 : length (msb_bits 5 rate) = 5%nat) by apply msb_bits_length.
  assert (E11 : length (msb_bits 11 len) = 11%nat) by apply msb_bits_length.
  assert (E2 : length (msb_bits 2 scr) = 2%nat) by apply msb_bits_length.
  unfold phr_layout.
  set (R := msb_bits 5 rate) in *. set (L := msb_bits 11 len) in *. set (S := msb_bits 2 scr) in *.
  rewrite (assign_slice_pre (repeat false 5) R) by (rewrite ?E5; reflexivity). cbn [rbind].
  rewrite (app_assoc R (repeat false 1)).
  rewrite (assign_slice_mid (R ++ repeat false 1) (repeat false 11) L)
    by (rewrite ?app_length, ?E5, ?E11; reflexivity). cbn [rbind].
  rewrite <- (app_assoc R). rewrite (app_assoc L), (app_assoc (repeat false 1)), (app_assoc R).
  rewrite (assign_slice_mid (R ++ repeat false 1 ++ L ++ repeat false 2) (repeat false 2) S)
    by (rewrite ?app_length, ?E5, ?E11, ?E2; reflexivity). cbn [rbind].
  set (h := R ++ [false] ++ L ++ [false; false] ++ S ++ [false]).
  assert (Eh : (R ++ repeat false 1 ++ L ++ repeat false 2) ++ S ++ repeat false 1 ++ repeat false 8 ++ repeat false (n - 30)
               = h ++ repeat false 8 ++ repeat false (n - 30)).
  { unfold h. rewrite <- !app_assoc. reflexivity. }
  rewrite Eh. assert (Hh : length h = 22%nat) by (unfold h; rewrite !app_length, E5, E11, E2; reflexivity).
  replace (firstn 22 (h ++ repeat false 8 ++ repeat false (n - 30))) with h.
  2:{ rewrite firstn_app, Hh, Nat.sub_diag, app_nil_r. rewrite <- Hh. symmetry. apply firstn_all. }
  rewrite HCS_spec by assumption. rewrite map_z2b_b2z.
  rewrite (assign_slice_mid h (repeat false 8)) by (rewrite ?crc8_ofdm_length; auto). reflexivity.
Qed.
Lemma phr_value_err rate len scr n : 0 <= rate <= 6 -> 0 <= scr <= 3 -> (30 <= n)%nat -> ~ (1 <= len <= 2047) ->
  (do p <- phr_new rate len scr n; phr_value p) = Err ValueError.
Proof.
  intros Hr Hs Hn Hl. unfold phr_new.
  replace ((0 <=? rate) && (rate <=? 6)) with true by (symmetry; apply andb_true_iff; split; apply Z.leb_le; lia).
  destruct ((1 <=? len) && (len <=? 2 ^ 11)) eqn:E; [|reflexivity].
  replace ((0 <=? scr) && (scr <=? 3)) with true by (symmetry; apply andb_true_iff; split; apply Z.leb_le; lia).
  cbn [negb rbind]. unfold phr_value. cbn [phr_bits phr_rate phr_len phr_scr].
  rewrite uintarr_ok by (simpl; lia). cbn [rbind].
  replace n with (5 + (n - 5))%nat by lia. rewrite repeat_app.
  rewrite (assign_slice_pre (repeat false 5)) by (rewrite ?msb_bits_length; reflexivity). cbn [rbind].
  apply andb_true_iff in E as [E1 E2]. apply Z.leb_le in E1, E2.
  rewrite uintarr_err by (simpl; lia). reflexivity.
Qed.

(** ** error detection *)
Definition lin (n : nat) (e : list bool) : list bool := xor_bits (crc8 (repeat false 8) (firstn n e)) (skipn n e).
Definition zero8 (l : list bool) : bool := forallb negb l.
Definition err_at (n i : nat) : list bool := repeat false i ++ [true] ++ repeat false (n - i - 1).

Lemma xor_bits_app a b c d : length a = length c -> xor_bits (a ++ b) (c ++ d) = xor_bits a c ++ xor_bits b d.
Proof. revert c. induction a; destruct c; simpl; intros; try lia; auto. f_equal. auto. Qed.
Lemma xor_bits_firstn n a b : firstn n (xor_bits a b) = xor_bits (firstn n a) (firstn n b).
Proof. revert a b. induction n; intros [|x a] [|y b]; cbn [firstn xor_bits]; auto. f_equal; auto. Qed.
Lemma xor_bits_skipn n a b : length a = length b -> skipn n (xor_bits a b) = xor_bits (skipn n a) (skipn n b).
Proof. revert a b. induction n; intros [|x a] [|y b] H; simpl in H; try lia; cbn [skipn xor_bits]; auto. Qed.

Lemma lin_xor n a b : length a = (n + 8)%nat -> length b = (n + 8)%nat ->
  lin n (xor_bits a b) = xor_bits (lin n a) (lin n b).
Proof.
  intros Ha Hb. unfold lin. rewrite xor_bits_firstn, xor_bits_skipn by congruence.
  change (repeat false 8) with (xor_bits (repeat false 8) (repeat false 8)) at 1.
  rewrite crc8_linear by (rewrite ?firstn_length; auto; lia).
  rewrite !xor_bits_assoc. f_equal. rewrite <- !xor_bits_assoc. f_equal. apply xor_bits_comm.
Qed.
(** an error accepted by the receiver has zero syndrome *)
Lemma accepted_lin crc n w e :
  (crc = crc8_ofdm \/ crc = crc8_oqpsk) ->
  length w = (n + 8)%nat -> length e = (n + 8)%nat -> word_ok crc n w -> word_ok crc n (xor_bits w e) ->
  lin n e = repeat false 8.
Proof.
  intros Hc Hw He H1 H2. unfold word_ok in *.
  rewrite xor_bits_firstn, xor_bits_skipn in H2 by congruence. rewrite H1 in H2.
  assert (Hl : length (firstn n w) = length (firstn n e)) by (rewrite !firstn_length; lia).
  assert (Hs : length (skipn n e) = 8%nat) by (rewrite skipn_length; lia).
  assert (Lin : exists K, length K = 8%nat /\
            crc (firstn n w) = xor_bits K (crc8 (repeat false 8) (firstn n w)) /\
            crc (xor_bits (firstn n w) (firstn n e)) =
              xor_bits K (xor_bits (crc8 (repeat false 8) (firstn n w)) (crc8 (repeat false 8) (firstn n e)))).
  { assert (Hx : forall x, length x = length (firstn n w) ->
       crc8_ofdm x = xor_bits (map negb (crc8 (repeat true 8) (repeat false (length (firstn n w))))) (crc8 (repeat false 8) x)).
    { intros x Hx. unfold crc8_ofdm. rewrite <- Hx.
      replace x with (xor_bits (repeat false (length x)) x) at 1 by apply xor_bits_0_l.
      change (repeat true 8) with (xor_bits (repeat true 8) (repeat false 8)) at 1.
      rewrite crc8_linear by (rewrite ?repeat_length; auto; reflexivity).
      generalize (crc8 (repeat true 8) (repeat false (length x))). generalize (crc8 (repeat false 8) x). clear.
      intros b a. revert b. induction a as [|u a IHa]; intros [|v b]; cbn [xor_bits map]; auto. f_equal; [destruct u, v; reflexivity|apply IHa]. }
    destruct Hc as [-> | ->].
    - exists (map negb (crc8 (repeat true 8) (repeat false (length (firstn n w))))). split; [rewrite map_length; apply crc8_length; reflexivity|].
      split; [now apply Hx|]. rewrite Hx by (now apply xor_bits_length). f_equal.
      change (repeat false 8) with (xor_bits (repeat false 8) (repeat false 8)) at 1. now rewrite crc8_linear by auto.
    - exists (repeat false 8). split; [reflexivity|]. unfold crc8_oqpsk.
      assert (Z8 : forall x, length x = 8%nat -> xor_bits (repeat false 8) x = x) by (intros x Hx8; rewrite <- Hx8; apply xor_bits_0_l).
      rewrite !Z8 by (rewrite ?xor_bits_length; rewrite !crc8_length; reflexivity). split; [reflexivity|].
      change (repeat false 8) with (xor_bits (repeat false 8) (repeat false 8)) at 1. now rewrite crc8_linear by auto. }
  destruct Lin as (K & HK & E1 & E2). rewrite E1, E2 in H2.
  unfold lin. set (P := crc8 (repeat false 8) (firstn n w)) in *. set (Q := crc8 (repeat false 8) (firstn n e)) in *.
  set (T := skipn n e) in *.
  assert (HP : length P = 8%nat) by (apply crc8_length; reflexivity).
  assert (HQ : length Q = 8%nat) by (apply crc8_length; reflexivity).
  rewrite <- (xor_bits_assoc K P Q) in H2.
  assert (HKP : length (xor_bits K P) = 8%nat) by (rewrite xor_bits_length; congruence).
  revert H2 HKP HQ Hs. generalize (xor_bits K P). generalize T Q. clear. intros T Q S H HS HQ HT.
  assert (E : xor_bits S (xor_bits S T) = xor_bits S (xor_bits S Q)) by now rewrite H.
  rewrite <- !xor_bits_assoc, xor_bits_self, HS in E. rewrite <- HT in E at 1. rewrite xor_bits_0_l in E.
  rewrite <- HQ in E at 1. rewrite xor_bits_0_l in E. subst T. rewrite xor_bits_self, HQ. reflexivity.
Qed.

Lemma err_at_length n i : (i < n)%nat -> length (err_at n i) = n.
Proof. intro H. unfold err_at. rewrite !app_length, !repeat_length. cbn [length]. lia. Qed.
Lemma weight_cases e : weight e = 0%nat \/
  exists i, (i < length e)%nat /\ exists e', length e' = length e /\ weight e = S (weight e') /\
            e = xor_bits (err_at (length e) i) e'.
Proof.
  induction e as [|b e IH]; [left; reflexivity|]. destruct b.
  - right. exists 0%nat. split; [simpl; lia|]. exists (false :: e). split; [reflexivity|]. split; [reflexivity|].
    unfold err_at. cbn [length repeat app]. replace (S (length e) - 0 - 1)%nat with (length e) by lia.
    cbn [xor_bits xorb]. now rewrite xor_bits_0_l.
  - destruct IH as [E|(i & Hi & e' & He' & Hw & E)]; [left; exact E|].
    right. exists (S i). split; [simpl; lia|]. exists (false :: e'). split; [simpl; lia|]. split; [exact Hw|].
    unfold err_at in *. cbn [length repeat app]. replace (S (length e) - S i - 1)%nat with (length e - i - 1)%nat by lia.
    cbn [app] in E. change (false :: e = xorb false false :: xor_bits (repeat false i ++ true :: repeat false (length e - i - 1)) e').
    now rewrite <- E.
Qed.
Lemma weight0 e : weight e = 0%nat -> e = repeat false (length e).
Proof. induction e as [|b e IH]; [reflexivity|]. destruct b; cbn [weight length repeat]; intro H; [lia|]. f_equal. apply IH. lia. Qed.

Definition pos_ok (n : nat) (k : nat) : bool :=
  let s := seq 0 (n + 8) in
  let S := map (fun i => lin n (err_at (n + 8) i)) s in
  match k with
  | 1%nat => forallb (fun a => negb (zero8 a)) S
  | 2%nat => forallb (fun i => forallb (fun j => Nat.eqb i j || negb (zero8 (xor_bits (nth i S []) (nth j S [])))) s) s
  | _ => true
  end.
Lemma parity_xor a b : length a = length b ->
  Nat.odd (weight (xor_bits a b)) = xorb (Nat.odd (weight a)) (Nat.odd (weight b)).
Proof.
  revert b. induction a as [|x a IH]; destruct b as [|y b]; intro H; simpl in H; try lia; [reflexivity|].
  cbn [xor_bits weight]. rewrite !Nat.odd_add. rewrite IH by lia. destruct x, y; cbn [xorb];
  change (Nat.odd 1) with true; change (Nat.odd 0) with false;
  destruct (Nat.odd (weight a)), (Nat.odd (weight b)); reflexivity.
Qed.
Lemma parity_step r b : length r = 8%nat -> Nat.odd (weight (crc_step r b)) = xorb (Nat.odd (weight r)) b.
Proof.
  intro H. destruct (list8 r H) as (r0&r1&r2&r3&r4&r5&r6&r7&->).
  destruct r0, r1, r2, r3, r4, r5, r6, r7, b; reflexivity.
Qed.
Lemma parity_crc d r : length r = 8%nat ->
  Nat.odd (weight (crc8 r d)) = xorb (Nat.odd (weight r)) (Nat.odd (weight d)).
Proof.
  revert r. induction d as [|b d IH]; intros r H; [now rewrite xorb_false_r|].
  unfold crc8 in *. cbn [fold_left]. rewrite IH by (now apply crc_step_length). rewrite parity_step by assumption.
  cbn [weight]. rewrite Nat.odd_add. destruct b; [change (Nat.odd 1) with true|change (Nat.odd 0) with false];
  destruct (Nat.odd (weight r)), (Nat.odd (weight d)); reflexivity.
Qed.
Lemma weight_app a b : weight (a ++ b) = (weight a + weight b)%nat.
Proof. induction a; simpl; lia. Qed.
Lemma parity_lin n e : length e = (n + 8)%nat -> Nat.odd (weight (lin n e)) = Nat.odd (weight e).
Proof.
  intro H. unfold lin. rewrite parity_xor by (rewrite crc8_length, skipn_length by reflexivity; lia).
  rewrite parity_crc by reflexivity. rewrite <- (firstn_skipn n e) at 3. rewrite weight_app, Nat.odd_add.
  change (Nat.odd (weight (repeat false 8))) with false. now rewrite xorb_false_l.
Qed.
Lemma zero8_true l : zero8 l = true -> l = repeat false (length l).
Proof. induction l as [|b l IH]; [reflexivity|]. cbn [zero8 forallb]. destruct b; [discriminate|]. cbn [length repeat]. intro. f_equal. now apply IH. Qed.
Lemma zero8_repeat n : zero8 (repeat false n) = true.
Proof. induction n; [reflexivity|assumption]. Qed.

Definition pair_sweep (n : nat) : bool :=
  let s := seq 0 (n + 8) in
  forallb (fun i => let a := lin n (err_at (n + 8) i) in
     forallb (fun j => Nat.eqb i j || negb (zero8 (xor_bits a (lin n (err_at (n + 8) j))))) s) s.
Fixpoint all_bits (n : nat) : list (list bool) :=
  match n with O => [[]] | S m => flat_map (fun l => [true :: l; false :: l]) (all_bits m) end.
Lemma all_bits_in l : In l (all_bits (length l)).
Proof. induction l as [|b l IH]; [left; reflexivity|]. cbn [length all_bits]. apply in_flat_map. exists l. split; [assumption|]. destruct b; simpl; auto. Qed.
Definition burst_sweep (n : nat) : bool :=
  forallb (fun i => forallb (fun b => negb (existsb id b) || negb (zero8 (lin n (repeat false i ++ b ++ repeat false (n + 8 - i - 8)))))
     (all_bits 8)) (seq 0 (S n)).

Lemma sweeps_22 : pair_sweep 22 = true /\ burst_sweep 22 = true.
Proof. split; vm_compute; reflexivity. Qed.
Lemma sweeps_16 : pair_sweep 16 = true /\ burst_sweep 16 = true.
Proof. split; vm_compute; reflexivity. Qed.

Lemma lin_length n e : length e = (n + 8)%nat -> length (lin n e) = 8%nat.
Proof. intro H. unfold lin. rewrite xor_bits_length; rewrite ?crc8_length, ?skipn_length by reflexivity; lia. Qed.

Lemma burst_widen n i b : (length b <= 8)%nat -> (i + length b <= n + 8)%nat -> In true b ->
  exists i' b', length b' = 8%nat /\ (i' <= n)%nat /\ In true b' /\
    repeat false i ++ b ++ repeat false (n + 8 - i - length b) = repeat false i' ++ b' ++ repeat false (n + 8 - i' - 8).
Proof.
  intros Hb Hi Ht. destruct (le_lt_dec i n) as [Hin|Hin].
  - exists i. exists (b ++ repeat false (8 - length b)). split; [rewrite app_length, repeat_length; lia|].
    split; [assumption|]. split; [apply in_or_app; auto|].
    rewrite <- !app_assoc. f_equal. f_equal. rewrite <- repeat_app. f_equal. lia.
  - exists n. exists (repeat false (i - n) ++ b ++ repeat false (n + 8 - i - length b)).
    split; [rewrite !app_length, !repeat_length; lia|]. split; [lia|].
    split; [apply in_or_app; right; apply in_or_app; auto|].
    rewrite !app_assoc. rewrite <- repeat_app. replace (n + (i - n))%nat with i by lia.
    replace (n + 8 - n - 8)%nat with 0%nat by lia. rewrite <- !app_assoc. now rewrite app_nil_r.
Qed.

Lemma detect n e : (n = 22%nat \/ n = 16%nat) -> detectable (n + 8) e -> lin n e <> repeat false 8.
Proof.
  intros Hn [Hl H] E.
  assert (Hodd : Nat.odd (weight e) = false).
  { rewrite <- (parity_lin n e) by assumption. rewrite E. reflexivity. }
  assert (Hp : pair_sweep n = true) by (destruct Hn; subst n; [apply sweeps_22|apply sweeps_16]).
  assert (Hb : burst_sweep n = true) by (destruct Hn; subst n; [apply sweeps_22|apply sweeps_16]).
  destruct H as [Hw|[Hw|Hw]].
  - assert (W2 : weight e = 2%nat).
    { destruct Hw. assert (weight e = 1 \/ weight e = 2 \/ weight e = 3)%nat as [W|[W|W]] by lia;
      [rewrite W in Hodd; discriminate|assumption|rewrite W in Hodd; discriminate]. }
    destruct (weight_cases e) as [W|(i & Hi & e1 & Hl1 & W1 & E1)]; [lia|].
    destruct (weight_cases e1) as [W|(j & Hj & e2 & Hl2 & W3 & E2)]; [lia|].
    assert (W0 : weight e2 = 0%nat) by lia. apply weight0 in W0. rewrite Hl2, Hl1, Hl in W0.
    assert (Ee : e = xor_bits (err_at (n + 8) i) (err_at (n + 8) j)).
    { rewrite E1, E2, Hl1, Hl, W0. rewrite <- (err_at_length (n + 8) j) at 3 by lia. now rewrite xor_bits_0_r. }
    rewrite Ee, lin_xor in E by (apply err_at_length; lia).
    unfold pair_sweep in Hp. rewrite forallb_forall in Hp.
    specialize (Hp i).
    assert (Hi' : In i (seq 0 (n + 8))) by (apply in_seq; lia). specialize (Hp Hi').
    cbv zeta in Hp. rewrite forallb_forall in Hp. specialize (Hp j). rewrite E in Hp.
    assert (Hj' : In j (seq 0 (n + 8))) by (apply in_seq; lia). specialize (Hp Hj').
    rewrite zero8_repeat in Hp. rewrite orb_false_r in Hp. apply Nat.eqb_eq in Hp. subst j.
    rewrite Ee, xor_bits_self in W2. revert W2. clear. generalize (length (err_at (n + 8) i)).
    induction n0; simpl; lia.
  - congruence.
  - destruct Hw as (i & b & Hbl & Ht & Ee & Hi).
    destruct (burst_widen n i b Hbl Hi Ht) as (i' & b' & Hb' & Hi' & Ht' & Eq).
    rewrite Ee, Eq in E. unfold burst_sweep in Hb. rewrite forallb_forall in Hb.
    assert (Hin : In i' (seq 0 (S n))) by (apply in_seq; lia). specialize (Hb i' Hin).
    rewrite forallb_forall in Hb. specialize (Hb b'). rewrite <- Hb' in Hb at 1. specialize (Hb (all_bits_in b')).
    rewrite E, zero8_repeat, orb_false_r in Hb. apply negb_true_iff in Hb.
    assert (existsb id b' = true) by (apply existsb_exists; exists true; auto). congruence.
Qed.
