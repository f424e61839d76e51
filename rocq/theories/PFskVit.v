(** * Proofs: the MR-FSK Viterbi decoder *)
From Coq Require Import Reals Lra.
From Coquelicot Require Import Complex.
From Coq Require Import Permutation.
From Verif Require Import Py PList SBits MBits PBits MPn9 SPn9 PPn9 MFsk PConv PFskFec SFsk PFsk PFskGap SGap SFskRx SFskVit.

Lemma same_reg_eq m n : same_reg m n = true <-> m = n.
Proof. destruct m as [[[] []] []], n as [[[] []] []]; cbn; split; intro H; congruence. Qed.
Lemma all_regs_in m : In m all_regs.
Proof. destruct m as [[[] []] []]; cbn; tauto. Qed.
Lemma cheapest_in l v : cheapest l = Some v -> In v l /\ forall w, In w l -> (v_cost v <= v_cost w)%R.
Proof.
  revert v. induction l as [|u l IH]; intros v E; [discriminate|]. cbn [cheapest] in E. destruct (cheapest l) as [w|] eqn:B.
  - destruct (IH w eq_refl) as [I M]. destruct (Rlt_dec (v_cost w) (v_cost u)) as [L|L]; injection E as <-.
    + split; [now right|]. intros x [<-|Hx]; [lra|auto].
    + split; [now left|]. intros x [<-|Hx]; [lra|]. specialize (M x Hx). lra.
  - injection E as <-. split; [now left|]. destruct l; [|cbn [cheapest] in B; destruct (cheapest l); [destruct (Rlt_dec _ _)|]; discriminate]. intros x [<-|[]]. lra.
Qed.
Lemma cheapest_none l : cheapest l = None -> l = [].
Proof. destruct l as [|v l]; [reflexivity|]. cbn [cheapest]. destruct (cheapest l); [destruct (Rlt_dec _ _)|]; discriminate. Qed.
Lemma kept_sub l v : In v (kept l) -> In v l.
Proof.
  unfold kept. intro H. apply in_flat_map in H as (m & _ & H). destruct (cheapest _) as [w|] eqn:B; [|destruct H]. destruct H as [<-|[]]. apply cheapest_in in B as [B _]. now apply filter_In in B.
Qed.
Lemma kept_best l v : In v l -> exists w, In w (kept l) /\ v_reg w = v_reg v /\ (v_cost w <= v_cost v)%R.
Proof.
  intro Hv. assert (I : In v (filter (fun w => same_reg (v_reg w) (v_reg v)) l)) by (apply filter_In; split; [assumption|now apply same_reg_eq]).
  destruct (cheapest (filter (fun w => same_reg (v_reg w) (v_reg v)) l)) as [w|] eqn:B; [|apply cheapest_none in B; rewrite B in I; destruct I].
  exists w. destruct (cheapest_in _ _ B) as [Iw M]. split; [|split; [|now apply M]].
  - unfold kept. apply in_flat_map. exists (v_reg v). split; [apply all_regs_in|]. rewrite B. now left.
  - apply filter_In in Iw as [_ Iw]. now apply same_reg_eq.
Qed.
Lemma fsk_trellis_upper scheme cost known : forall i l x v, In v l -> follows scheme (v_reg v) known x ->
  exists w, In w (fsk_trellis scheme known cost i l) /\ (v_cost w <= v_cost v + spent scheme cost i (v_reg v) x)%R.
Proof.
  induction known as [|c known IH]; intros i l x v Hv Hx; destruct x as [|b x]; try destruct Hx.
  - exists v. cbn [fsk_trellis spent]. split; [assumption|lra].
  - rename H into Hb. rename H0 into Hf. cbn [fsk_trellis].
    assert (I : In (lengthened scheme (cost i) v b) (flat_map (fun v => map (lengthened scheme (cost i) v) (candidates scheme (v_reg v) c)) l)).
    { apply in_flat_map. exists v. split; [assumption|]. now apply in_map. }
    destruct (kept_best _ _ I) as (w & Iw & Er & Ec). destruct (IH (S i) _ x w Iw) as (z & Iz & Ez); [rewrite Er; exact Hf|].
    exists z. split; [assumption|]. rewrite Er in Ez. cbn [lengthened v_reg v_cost spent] in *. lra.
Qed.
Lemma fsk_trellis_lower scheme cost known : forall i l w, In w (fsk_trellis scheme known cost i l) ->
  exists v x, In v l /\ follows scheme (v_reg v) known x /\ v_bits w = rev x ++ v_bits v /\ v_cost w = (v_cost v + spent scheme cost i (v_reg v) x)%R.
Proof.
  induction known as [|c known IH]; intros i l w Hw.
  - exists w, []. cbn [spent rev app follows]. repeat split; [assumption|lra].
  - cbn [fsk_trellis] in Hw. destruct (IH _ _ _ Hw) as (v' & x & Iv & Hf & Eb & Ec). apply kept_sub in Iv. apply in_flat_map in Iv as (v & Iv & Iv'). apply in_map_iff in Iv' as (b & <- & Hb).
    exists v, (b :: x). cbn [follows spent rev lengthened v_bits v_cost v_reg] in *. repeat split; auto; [|lra]. rewrite Eb. now rewrite <- app_assoc.
Qed.
Lemma follows_exists scheme known : forall m, exists x, follows scheme m known x.
Proof.
  induction known as [|c known IH]; intro m; [exists []; exact I|]. assert (E : exists b, In b (candidates scheme m c)) by (destruct c; cbn [candidates]; eexists; left; reflexivity).
  destruct E as [b Hb]. destruct (IH (reg_next scheme m b)) as [x Hx]. exists (b :: x). now split.
Qed.
Theorem fsk_viterbi_best scheme known cost : follows scheme (false, false, false) known (fsk_viterbi scheme known cost)
  /\ forall x, follows scheme (false, false, false) known x ->
     (spent scheme cost 0 (false, false, false) (fsk_viterbi scheme known cost) <= spent scheme cost 0 (false, false, false) x)%R.
Proof.
  unfold fsk_viterbi. set (v0 := {| v_reg := (false, false, false); v_cost := 0; v_bits := [] |}).
  destruct (follows_exists scheme known (false, false, false)) as [x0 H0]. destruct (fsk_trellis_upper scheme cost known 0 [v0] x0 v0 (or_introl eq_refl) H0) as (u & Iu & _).
  destruct (cheapest (fsk_trellis scheme known cost 0 [v0])) as [w|] eqn:B; [|apply cheapest_none in B; rewrite B in Iu; destruct Iu].
  destruct (cheapest_in _ _ B) as [Iw Mw]. destruct (fsk_trellis_lower scheme cost known 0 [v0] w Iw) as (v & x & Iv & Hf & Eb & Ec). destruct Iv as [<-|[]].
  cbn [v_bits v0 v_reg v_cost] in *. rewrite app_nil_r in Eb. rewrite Eb, rev_involutive. split; [assumption|]. intros y Hy.
  destruct (fsk_trellis_upper scheme cost known 0 [v0] y v0 (or_introl eq_refl) Hy) as (z & Iz & Ez). specialize (Mw z Iz). cbn [v0 v_cost v_reg] in Ez. lra.
Qed.
Theorem fsk_viterbi_found scheme known cost x : follows scheme (false, false, false) known x ->
  (forall y, follows scheme (false, false, false) known y -> y <> x -> (spent scheme cost 0 (false, false, false) x < spent scheme cost 0 (false, false, false) y)%R) ->
  fsk_viterbi scheme known cost = x.
Proof.
  intros Hx H. destruct (fsk_viterbi_best scheme known cost) as [F M]. specialize (M x Hx).
  destruct (list_eq_dec bool_dec (fsk_viterbi scheme known cost) x) as [E|N]; [assumption|]. specialize (H _ F N). lra.
Qed.

(** ** sums *)
Definition tot (f : nat -> R) (l : list nat) : R := fold_right Rplus 0%R (map f l).
Lemma tot_perm f l l' : Permutation l l' -> tot f l = tot f l'.
Proof. unfold tot. induction 1; cbn [map fold_right]; lra. Qed.
Lemma tot_ext f g l : (forall i, In i l -> f i = g i) -> tot f l = tot g l.
Proof. intro H. unfold tot. f_equal. apply map_ext_in. exact H. Qed.
Lemma tot_map f g l : tot f (map g l) = tot (fun i => f (g i)) l.
Proof. unfold tot. now rewrite map_map. Qed.
Lemma tot_app f a b : tot f (a ++ b) = (tot f a + tot f b)%R.
Proof. unfold tot. induction a as [|x a IH]; cbn [app map fold_right]; lra. Qed.
Lemma seq_from a n : seq a n = map (fun i => a + i)%nat (seq 0 n).
Proof. revert a. induction n as [|n IH]; intro a; [reflexivity|]. cbn [seq map]. f_equal; [lia|]. rewrite (IH (S a)), (IH 1%nat), map_map. apply map_ext. intro. lia. Qed.

(** ** the code *)
Definition reg_of (s : Z) : reg := (Z.testbit s 2, Z.testbit s 1, Z.testbit s 0).
Lemma reg_step scheme s b : scheme = 0 \/ scheme = 1 -> 0 <= s < 8 ->
  reg_next scheme (reg_of s) b = reg_of (fst (fstep scheme s b)) /\ reg_out scheme (reg_of s) b = snd (fstep scheme s b).
Proof.
  intros [-> | ->] Hs; assert (Hs' : s = 0 \/ s = 1 \/ s = 2 \/ s = 3 \/ s = 4 \/ s = 5 \/ s = 6 \/ s = 7) by lia;
    destruct Hs' as [->|[->|[->|[->|[->|[->|[->| ->]]]]]]]; destruct b; split; reflexivity.
Qed.
Lemma spent_enc scheme c x : scheme = 0 \/ scheme = 1 -> forall i s, 0 <= s < 8 ->
  spent scheme c i (reg_of s) x = tot (fun j => c (i + j)%nat (nth (2 * j) (enc (fstep scheme) s x) false) (nth (2 * j + 1) (enc (fstep scheme) s x) false)) (seq 0 (length x)).
Proof.
  intro Hc. induction x as [|b x IH]; intros i s Hs; [reflexivity|]. destruct (reg_step scheme s b Hc Hs) as [E1 E2]. cbn [spent length seq]. rewrite E1, E2, IH by (apply f_range; assumption).
  rewrite enc_cons. unfold tot at 2. cbn [map fold_right]. f_equal; [f_equal; [lia|reflexivity..]|]. fold (tot (fun j => c (i + j)%nat (nth (2 * j) (fst (snd (fstep scheme s b)) :: snd (snd (fstep scheme s b)) :: enc (fstep scheme) (fst (fstep scheme s b)) x) false)
     (nth (2 * j + 1) (fst (snd (fstep scheme s b)) :: snd (snd (fstep scheme s b)) :: enc (fstep scheme) (fst (fstep scheme s b)) x) false)) (seq 1 (length x))).
  rewrite (seq_from 1), tot_map. apply tot_ext. intros j _. replace (2 * (1 + j))%nat with (S (S (2 * j))) by lia. replace (S (S (2 * j)) + 1)%nat with (S (S (2 * j + 1))) by lia. cbn [nth]. f_equal. lia.
Qed.

(** ** order of the bits on air *)
Lemma source_pair_inv t : (t < 16)%nat -> (source_pair t < 16)%nat /\ source_pair (source_pair t) = t.
Proof. intro H. do 16 (destruct t as [|t]; [split; [vm_compute; lia|reflexivity]|]). lia. Qed.
Lemma sent_at_inv il i : sent_at il (sent_at il i) = i.
Proof.
  unfold sent_at. destruct il; [|reflexivity]. pose proof (Nat.mod_upper_bound i 16 ltac:(lia)) as M. destruct (source_pair_inv _ M) as [S1 S2].
  set (t := source_pair (i mod 16)) in *. replace (16 * (i / 16) + t)%nat with (t + (i / 16) * 16)%nat by lia. rewrite Nat.mod_add, Nat.div_add by lia. rewrite (Nat.div_small t), (Nat.mod_small t) by lia.
  rewrite S2. pose proof (Nat.div_mod i 16 ltac:(lia)). lia.
Qed.
Lemma sent_at_range il i n : (il = true -> Nat.modulo n 16 = 0%nat) -> (i < n)%nat -> (sent_at il i < n)%nat.
Proof.
  unfold sent_at. destruct il; [|auto]. intros M H. specialize (M eq_refl). pose proof (Nat.mod_upper_bound i 16 ltac:(lia)) as Mi. destruct (source_pair_inv _ Mi) as [S1 _].
  pose proof (Nat.div_mod n 16 ltac:(lia)). pose proof (Nat.div_mod i 16 ltac:(lia)). nia.
Qed.
Lemma involution_perm (f : nat -> nat) n : (forall i, f (f i) = i) -> (forall i, (i < n)%nat -> (f i < n)%nat) -> Permutation (seq 0 n) (map f (seq 0 n)).
Proof.
  intros Hi Hr. apply NoDup_Permutation; [apply seq_NoDup| |].
  - apply FinFun.Injective_map_NoDup; [|apply seq_NoDup]. intros x y E. rewrite <- (Hi x), <- (Hi y). now f_equal.
  - intro i. rewrite in_map_iff. split.
    + intro H. apply in_seq in H. exists (f i). split; [apply Hi|]. apply in_seq. specialize (Hr i). lia.
    + intros (j & <- & H). apply in_seq in H. apply in_seq. specialize (Hr j). lia.
Qed.
Definition bit_at (il : bool) (j : nat) : nat := (2 * sent_at il (j / 2) + Nat.modulo j 2)%nat.
Lemma bit_at_pair il k : bit_at il (2 * k) = (2 * sent_at il k)%nat /\ bit_at il (2 * k + 1) = (2 * sent_at il k + 1)%nat.
Proof.
  unfold bit_at. split.
  - rewrite (Nat.mul_comm 2 k), Nat.div_mul, Nat.mod_mul by lia. lia.
  - rewrite (Nat.add_comm (2 * k)), (Nat.mul_comm 2 k), Nat.div_add, Nat.mod_add by lia. cbn [Nat.div Nat.divmod fst Nat.modulo]. reflexivity.
Qed.
Lemma pair_or j : (exists k, j = 2 * k \/ j = 2 * k + 1)%nat.
Proof. exists (j / 2)%nat. pose proof (Nat.div_mod j 2 ltac:(lia)). pose proof (Nat.mod_upper_bound j 2 ltac:(lia)). lia. Qed.
Lemma bit_at_inv il j : bit_at il (bit_at il j) = j.
Proof.
  destruct (pair_or j) as [k [-> | ->]]; destruct (bit_at_pair il k) as [E1 E2]; rewrite ?E1, ?E2; destruct (bit_at_pair il (sent_at il k)) as [F1 F2]; rewrite ?F1, ?F2, sent_at_inv; reflexivity.
Qed.
Lemma bit_at_range il j n : (il = true -> Nat.modulo n 16 = 0%nat) -> (j < 2 * n)%nat -> (bit_at il j < 2 * n)%nat.
Proof.
  intros M H. destruct (pair_or j) as [k [-> | ->]]; destruct (bit_at_pair il k) as [E1 E2]; rewrite ?E1, ?E2; pose proof (sent_at_range il k n M ltac:(lia)); lia.
Qed.
(** what goes on air for the coded bits e *)
Definition air_bit (il white : bool) (e : list bool) (j : nat) : bool := xorb (nth (bit_at il j) e false) (white_bit white j).
Definition air (il white : bool) (e : list bool) : list bool := map (air_bit il white e) (seq 0 (length e)).
Lemma air_length il white e : length (air il white e) = length e.
Proof. unfold air. now rewrite map_length, seq_length. Qed.
Lemma air_distance il white e e' n : length e = (2 * n)%nat -> length e' = (2 * n)%nat -> (il = true -> Nat.modulo n 16 = 0%nat) ->
  distance (air il white e) (air il white e') = distance e e'.
Proof.
  intros L L' M. unfold air. rewrite L, L', distance_maps, (distance_count e e'), L, L', Nat.min_id.
  set (p := fun i => xorb (nth i e false) (nth i e' false)).
  assert (FM : forall l, length (filter p (map (bit_at il) l)) = length (filter (fun i => p (bit_at il i)) l)).
  { induction l as [|i l IH]; [reflexivity|]. cbn [map filter]. destruct (p (bit_at il i)); cbn [length]; now rewrite IH. }
  rewrite (filter_perm_length p _ _ (involution_perm (bit_at il) (2 * n) (bit_at_inv il) (fun j H => bit_at_range il j n M H))), FM.
  apply filter_ext_in_length. intros i _. unfold air_bit, p. destruct (nth _ e false), (nth _ e' false), (white_bit white i); reflexivity.
Qed.
(** ** total cost of what goes on air *)
Definition total (cost : nat -> bool -> bool -> R) (a : list bool) : R := tot (fun k => cost k (nth (2 * k) a false) (nth (2 * k + 1) a false)) (seq 0 (length a / 2)).
Lemma zero_reg : (false, false, false) = reg_of 0. Proof. reflexivity. Qed.
Lemma spent_air scheme il white cost x : scheme = 0 \/ scheme = 1 -> (il = true -> Nat.modulo (length x) 16 = 0%nat) ->
  spent scheme (coded_cost il white cost) 0 (false, false, false) x = total cost (air il white (enc (fstep scheme) 0 x)).
Proof.
  intros Hc M. rewrite zero_reg, spent_enc by (assumption || lia). set (e := enc (fstep scheme) 0 x). assert (Le : length e = (2 * length x)%nat) by (unfold e; apply enc_length). set (n := length x) in *.
  unfold total. rewrite air_length, Le, Nat.mul_comm, Nat.div_mul by lia.
  rewrite (tot_perm _ _ _ (involution_perm (sent_at il) n (sent_at_inv il) (fun j H => sent_at_range il j n M H))), tot_map. apply tot_ext. intros k Hk. apply in_seq in Hk.
  cbn [Nat.add]. unfold coded_cost. rewrite sent_at_inv. unfold air. rewrite !nth_map_seq by (rewrite Le; lia). unfold air_bit. destruct (bit_at_pair il k) as [E1 E2]. now rewrite E1, E2.
Qed.
(** the values received are good enough: everything at distance 6 or more costs more *)
Definition separates (cost : nat -> bool -> bool -> R) (a : list bool) : Prop :=
  forall b, length b = length a -> (6 <= distance a b)%nat -> (total cost a < total cost b)%R.
Lemma air_prefix il white e m : (il = true -> Nat.modulo m 16 = 0%nat) -> (2 * m <= length e)%nat -> air il white (firstn (2 * m) e) = firstn (2 * m) (air il white e).
Proof.
  intros M H. unfold air. rewrite firstn_map, firstn_length, Nat.min_l by assumption.
  replace (firstn (2 * m) (seq 0 (length e))) with (seq 0 (2 * m)).
  2:{ replace (length e) with (2 * m + (length e - 2 * m))%nat by lia. rewrite seq_app, firstn_app, seq_length, Nat.sub_diag, firstn_O, app_nil_r. symmetry. apply firstn_all2. rewrite seq_length. lia. }
  apply map_ext_in. intros j Hj. apply in_seq in Hj. unfold air_bit. pose proof (bit_at_range il j m M ltac:(lia)). now rewrite nth_firstn by lia.
Qed.
(** ** the body of a frame *)
Lemma air_body s bits : valid_fsk s -> k_fec s = true -> carries s bits ->
  f_white s (body s bits) = air (k_il s) (k_white s) (enc (fstep (k_scheme s)) 0 (f_input (k_scheme s) (hdr s bits ++ bits))).
Proof.
  intros V F Ca. pose proof (body_length s bits Ca) as BL. unfold body in *. rewrite F in *. cbv zeta in *.
  set (e := enc _ _ _) in *. assert (Fs : f_start s = 32%nat) by (unfold f_start; now rewrite F).
  assert (LE : length e = (2 * (16 + length bits + 3 + (if Z.even (zlen bits / 8) then 13 else 5)))%nat).
  { unfold e. rewrite PFsk.coded_length, app_length, f_pad_length. unfold hdr. rewrite fsk_header_length, Nat2Z.inj_add. change (Z.of_nat 16) with (2 * 8). rewrite Z.add_comm, Z.div_add, Z.even_add by lia.
    change (Z.even 2) with true. unfold zlen. destruct (Z.even (Z.of_nat (length bits) / 8)); cbn [Bool.eqb]; lia. }
  assert (B32 : k_il s = true -> Nat.modulo (length e) 32 = 0%nat).
  { intro I. unfold e. apply coded_blocks. rewrite hdr_app_mod. now apply Ca. }
  apply list_eq_nth with false.
  { rewrite f_white_length by (rewrite BL, Fs; lia). rewrite air_length. destruct (k_il s) eqn:I; [apply f_interleave_length; auto|reflexivity]. }
  rewrite f_white_length by (rewrite BL, Fs; lia). rewrite BL. intros j Hj. unfold air. rewrite nth_map_seq by lia.
  set (a := if k_il s then f_interleave e else e) in *.
  assert (A : nth j a false = nth (bit_at (k_il s) j) e false).
  { unfold a. destruct (k_il s) eqn:I.
    - specialize (B32 eq_refl). assert (J : (j mod 32 < 32)%nat) by (apply Nat.mod_upper_bound; lia). pose proof (Nat.div_mod j 32 ltac:(lia)) as D.
      rewrite D at 1. rewrite (f_interleave_nth e B32 (j / 32) (j mod 32)) by lia. f_equal. rewrite <- source_pair_il by assumption. unfold bit_at, sent_at.
      rewrite Nat.div_div by lia. replace (2 * 16)%nat with 32%nat by reflexivity.
      assert (Q : ((j / 2) mod 16 = (j mod 32) / 2)%nat).
      { clear. pose proof (Nat.div_mod j 32 ltac:(lia)) as D. pose proof (Nat.mod_upper_bound j 32 ltac:(lia)). rewrite D at 1. replace (32 * (j / 32) + j mod 32)%nat with (j mod 32 + (16 * (j / 32)) * 2)%nat by lia.
        rewrite Nat.div_add by lia. rewrite (Nat.mul_comm 16), Nat.mod_add by lia. apply Nat.mod_small. apply Nat.div_lt_upper_bound; lia. }
      assert (Q2 : (j mod 2 = (j mod 32) mod 2)%nat).
      { clear. pose proof (Nat.div_mod j 32 ltac:(lia)) as D. rewrite D at 1. replace (32 * (j / 32) + j mod 32)%nat with (j mod 32 + (16 * (j / 32)) * 2)%nat by lia. apply Nat.mod_add. lia. }
      rewrite Q, Q2. lia.
    - unfold bit_at, sent_at. f_equal. apply Nat.div_mod. lia. }
  unfold air_bit. rewrite <- A. unfold f_white, white_bit. rewrite Fs. destruct (k_white s); [|now rewrite xorb_false_r].
  assert (La : length a = (2 * (16 + length bits + 3 + (if Z.even (zlen bits / 8) then 13 else 5)))%nat) by exact BL.
  destruct (Nat.ltb_spec j 32).
  - rewrite app_nth1 by (rewrite firstn_length; lia). rewrite nth_firstn by lia. now rewrite xorb_false_r.
  - rewrite app_nth2 by (rewrite firstn_length; lia). rewrite firstn_length, Nat.min_l by lia. rewrite scrambler_nth by (rewrite skipn_length; lia). rewrite nth_skipn. do 2 f_equal. lia.
Qed.
(** ** inputs allowed *)
Lemma follows_app scheme k1 : scheme = 0 \/ scheme = 1 -> forall k2 s x, 0 <= s < 8 ->
  follows scheme (reg_of s) (k1 ++ k2) x <-> exists x1 x2, x = x1 ++ x2 /\ follows scheme (reg_of s) k1 x1 /\ follows scheme (reg_of (fin (fstep scheme) s x1)) k2 x2.
Proof.
  intro Hc. induction k1 as [|c k1 IH]; intros k2 s x Hs; cbn [app].
  - split; [intro H; exists [], x; now split|]. intros (x1 & x2 & -> & H1 & H2). destruct x1; [exact H2|destruct H1].
  - split.
    + destruct x as [|b x]; [intros []|]. intros [Hb H]. rewrite (proj1 (reg_step scheme s b Hc Hs)) in H. apply IH in H; [|apply f_range; assumption]. destruct H as (x1 & x2 & -> & H1 & H2).
      exists (b :: x1), x2. split; [reflexivity|]. split; [|exact H2]. split; [assumption|]. now rewrite (proj1 (reg_step scheme s b Hc Hs)).
    + intros (x1 & x2 & -> & H1 & H2). destruct x1 as [|b x1]; [destruct H1|]. destruct H1 as [Hb H1]. cbn [app follows]. split; [assumption|]. rewrite (proj1 (reg_step scheme s b Hc Hs)) in *.
      apply IH; [apply f_range; assumption|]. exists x1, x2. now split.
Qed.
Lemma follows_free scheme n : forall m x, follows scheme m (repeat Free n) x <-> length x = n.
Proof.
  induction n as [|n IH]; intros m [|b x]; cbn [repeat follows length]; split; intro H; try tauto; try discriminate.
  - destruct H as [_ H]. apply IH in H. lia.
  - split; [destruct b; cbn; tauto|]. apply IH. lia.
Qed.
Lemma follows_known scheme h : forall m x, follows scheme m (map Known h) x <-> x = h.
Proof.
  induction h as [|c h IH]; intros m [|b x]; cbn [map follows]; split; intro H; try tauto; try discriminate.
  - destruct H as [[-> |[]] H]. apply IH in H. now subst.
  - injection H as -> ->. split; [now left|]. now apply IH.
Qed.
Lemma follows_flush scheme s x : scheme = 0 \/ scheme = 1 -> 0 <= s < 8 -> follows scheme (reg_of s) (repeat Flush 3) x <-> x = f_tail scheme s.
Proof.
  intros Hc Hs. assert (E : exists a b c, f_tail scheme s = [a; b; c] /\ forall x, follows scheme (reg_of s) (repeat Flush 3) x <-> x = [a; b; c]).
  { assert (G : forall m (a b c : bool), (candidates scheme m Flush = [a]) -> candidates scheme (reg_next scheme m a) Flush = [b] -> candidates scheme (reg_next scheme (reg_next scheme m a) b) Flush = [c] ->
      forall x, follows scheme m (repeat Flush 3) x <-> x = [a; b; c]).
    { intros m a b c E1 E2 E3 y. cbn [repeat]. split.
      - destruct y as [|y0 [|y1 [|y2 [|y3 y]]]]; cbn [follows]; try tauto. intros (H0 & H1 & H2 & _). rewrite E1 in H0. destruct H0 as [<-|[]]. rewrite E2 in H1. destruct H1 as [<-|[]]. rewrite E3 in H2. destruct H2 as [<-|[]]. reflexivity.
      - intros ->. cbn [follows]. rewrite E1, E2, E3. repeat split; now left. }
    destruct Hc as [-> | ->]; assert (Hs' : s = 0 \/ s = 1 \/ s = 2 \/ s = 3 \/ s = 4 \/ s = 5 \/ s = 6 \/ s = 7) by lia;
      destruct Hs' as [->|[->|[->|[->|[->|[->|[->| ->]]]]]]]; do 3 eexists; (split; [reflexivity|]); apply G; reflexivity. }
  destruct E as (a & b & c & -> & E). apply E.
Qed.
Lemma follows_frame scheme h n octets x : scheme = 0 \/ scheme = 1 -> length h = 16%nat -> 0 <= octets -> n = Z.to_nat (8 * octets) ->
  follows scheme (false, false, false) (map Known h ++ repeat Free n ++ repeat Flush 3 ++ map Known (fec_padding octets)) x <->
  exists p, length p = n /\ x = f_input scheme (h ++ p).
Proof.
  intros Hc Lh Ho Hn. rewrite zero_reg.
  assert (PAD : forall p, length p = n -> f_pad (length (h ++ p)) = fec_padding octets).
  { intros p Lp. unfold f_pad, fec_padding. rewrite app_length, Lh, Lp, Hn, Nat2Z.inj_add, Z2Nat.id by lia. change (Z.of_nat 16) with (2 * 8). rewrite (Z.mul_comm 8), <- Z.mul_add_distr_r, Z.div_mul, Z.even_add by lia.
    change (Z.even 2) with true. destruct (Z.even octets); reflexivity. }
  assert (RG : forall s y, 0 <= s < 8 -> 0 <= fin (fstep scheme) s y < 8).
  { intros s y. revert s. induction y as [|b y IH]; intros s Hs; [assumption|]. cbn [fin]. apply IH, f_range, Hs. }
  assert (FA : forall y1 y2 s, fin (fstep scheme) s (y1 ++ y2) = fin (fstep scheme) (fin (fstep scheme) s y1) y2).
  { induction y1 as [|b y1 IH]; intros y2 s; [reflexivity|]. cbn [app fin]. apply IH. }
  split.
  - intro H. apply follows_app in H; [|assumption|lia]. destruct H as (x1 & x2 & -> & H1 & H2). apply follows_known in H1. subst x1.
    apply follows_app in H2; [|assumption|apply RG; lia]. destruct H2 as (p & x3 & -> & H2 & H3). apply follows_free in H2.
    apply follows_app in H3; [|assumption|apply RG, RG; lia]. destruct H3 as (t & q & -> & H3 & H4). apply follows_flush in H3; [|assumption|apply RG, RG; lia]. apply follows_known in H4. subst q t.
    exists p. split; [assumption|]. unfold f_input. rewrite PAD, FA by assumption. now rewrite <- app_assoc.
  - intros (p & Lp & ->). unfold f_input. rewrite PAD, FA by assumption. rewrite <- app_assoc.
    apply follows_app; [assumption|lia|]. exists h. eexists. split; [reflexivity|]. split; [now apply follows_known|].
    apply follows_app; [assumption|apply RG; lia|]. exists p. eexists. split; [reflexivity|]. split; [now apply follows_free|].
    apply follows_app; [assumption|apply RG, RG; lia|]. do 2 eexists. split; [reflexivity|]. split; [|now apply follows_known]. apply follows_flush; [assumption|apply RG, RG; lia|reflexivity].
Qed.

(** ** the receiver *)
Lemma input_size s zs : zs <> [] -> let x := f_input (k_scheme s) (hdr s (octet_bits zs) ++ octet_bits zs) in
  (32 <= length x)%nat /\ Nat.modulo (length x) 16 = 0%nat.
Proof.
  intros Nz x. assert (LH : length (hdr s (octet_bits zs)) = 16%nat) by (apply fsk_header_length). assert (Lb : length (octet_bits zs) = (8 * length zs)%nat) by apply octet_bits_length.
  assert (Z1 : (1 <= length zs)%nat) by (destruct zs; [congruence|cbn; lia]).
  assert (Lx : length x = (length (hdr s (octet_bits zs) ++ octet_bits zs) + 3 + length (f_pad (length (hdr s (octet_bits zs) ++ octet_bits zs))))%nat) by apply f_input_length.
  split; [rewrite Lx, app_length, LH, f_pad_length; destruct (Z.even _); lia|].
  assert (Le : length (enc (fstep (k_scheme s)) 0 x) = (2 * length x)%nat) by apply enc_length.
  assert (Nat.modulo (length (enc (fstep (k_scheme s)) 0 x)) 32 = 0%nat) by (apply coded_blocks; rewrite hdr_app_mod, octet_bits_length; now rewrite Nat.mul_comm, Nat.mod_mul by lia).
  rewrite Le in *. pose proof (Nat.div_mod (2 * length x) 32 ltac:(lia)) as D. assert (length x = (2 * length x / 32) * 16)%nat as -> by lia. apply Nat.mod_mul. lia.
Qed.
(** the receiver is right when every other header costs more over 32 pairs, and every other payload costs more *)
Theorem corrector_general s zs cost : valid_fsk s -> k_fec s = true -> zs <> [] -> (length zs <= 2047)%nat ->
  (let x := f_input (k_scheme s) (hdr s (octet_bits zs) ++ octet_bits zs) in
   let sent y := air (k_il s) (k_white s) (enc (fstep (k_scheme s)) 0 y) in
   (forall v, length v = 32%nat -> (exists i, (i < 16)%nat /\ nth i (firstn 32 x) false <> nth i v false) -> (total cost (sent (firstn 32 x)) < total cost (sent v))%R)
   /\ (forall p, length p = length (octet_bits zs) -> p <> octet_bits zs -> (total cost (sent x) < total cost (sent (f_input (k_scheme s) (hdr s (octet_bits zs) ++ p))))%R)) ->
  fsk_corrector (k_il s) (k_white s) (k_scheme s) cost = {| rx_fcs := k_fcs s; rx_white := k_white s; rx_octets := zlen zs; rx_payload := octet_bits zs |}.
Proof.
  intros V F Nz Lz [S1 S2]. pose proof V as (_ & _ & _ & _ & Hc & Hf). destruct (input_size s zs Nz) as [L32 M16]. cbv zeta in L32, M16.
  set (sch := k_scheme s) in *. set (bits := octet_bits zs) in *. set (H := hdr s bits) in *. set (x := f_input sch (H ++ bits)) in *.
  assert (LH : length H = 16%nat) by (apply fsk_header_length). assert (Lb : length bits = (8 * length zs)%nat) by apply octet_bits_length.
  (* header *)
  set (x32 := firstn 32 x) in *. assert (L32' : length x32 = 32%nat) by (unfold x32; rewrite firstn_length; lia).
  set (v := fsk_viterbi sch (repeat Free 32) (coded_cost (k_il s) (k_white s) cost)).
  destruct (fsk_viterbi_best sch (repeat Free 32) (coded_cost (k_il s) (k_white s) cost)) as [FV BV]. fold v in FV, BV. apply follows_free in FV.
  specialize (BV x32 ltac:(now apply follows_free)).
  rewrite !spent_air in BV by (try assumption; intros; rewrite ?FV, ?L32'; reflexivity).
  assert (Hh : firstn 16 v = H).
  { destruct (list_eq_dec bool_dec (firstn 16 v) H) as [Q|Q]; [assumption|exfalso].
    destruct (nth_differ (firstn 16 v) H ltac:(rewrite firstn_length; lia) Q) as (i & Hi & Ni). rewrite firstn_length, FV in Hi.
    assert (D : (total cost (air (k_il s) (k_white s) (enc (fstep sch) 0 x32)) < total cost (air (k_il s) (k_white s) (enc (fstep sch) 0 v)))%R); [|lra].
    apply S1; [assumption|]. exists i. split; [lia|]. rewrite nth_firstn in Ni by lia. unfold x32. rewrite nth_firstn by lia. unfold x, f_input. rewrite <- app_assoc, app_nth1 by lia. congruence. }
  unfold fsk_corrector. cbv zeta. fold sch. fold v. rewrite Hh.
  assert (EO : msb_value (skipn 5 H) = zlen zs).
  { unfold H, hdr, bits. rewrite zlen_octets. apply msb_value_hdr. unfold zlen. lia. }
  rewrite EO. assert (E3 : (if nth 3 H false then 1 else 0) = k_fcs s) by (unfold H, hdr, fsk_header; cbn [app nth]; destruct Hf as [-> | ->]; reflexivity). rewrite E3.
  assert (E4 : nth 4 H false = k_white s) by reflexivity. rewrite E4. f_equal.
  (* payload *)
  assert (Ln : Z.to_nat (8 * zlen zs) = length bits) by (rewrite Lb; unfold zlen; lia).
  rewrite (fsk_viterbi_found sch _ _ x).
  - unfold x, f_input. rewrite <- app_assoc. rewrite skipn_exact by assumption. rewrite firstn_exact by congruence. reflexivity.
  - apply follows_frame; auto; [unfold zlen; lia|]. exists bits. split; [congruence|reflexivity].
  - intros y Hy Ny. apply follows_frame in Hy; auto; [|unfold zlen; lia]. destruct Hy as (p & Lp & ->). rewrite Ln in Lp.
    assert (Lxy : length (f_input sch (H ++ p)) = length x) by (unfold x; rewrite !f_input_length, !app_length, Lp; reflexivity).
    rewrite !spent_air by (try assumption; rewrite ?Lxy; intros; assumption). apply S2; [assumption|]. intro Q. apply Ny. unfold x. now rewrite Q.
Qed.
Theorem corrector_core s zs cost : valid_fsk s -> k_fec s = true -> zs <> [] -> (length zs <= 2047)%nat ->
  (let a := f_white s (body s (octet_bits zs)) in separates cost (firstn 64 a) /\ separates cost a) ->
  fsk_corrector (k_il s) (k_white s) (k_scheme s) cost = {| rx_fcs := k_fcs s; rx_white := k_white s; rx_octets := zlen zs; rx_payload := octet_bits zs |}.
Proof.
  intros V F Nz Lz [S1 S2]. pose proof (octets_carried s zs Lz) as Ca. rewrite air_body in S1, S2 by assumption.
  apply corrector_general; auto. cbv zeta. destruct (input_size s zs Nz) as [L32 M16]. cbv zeta in L32, M16.
  set (sch := k_scheme s) in *. set (bits := octet_bits zs) in *. set (H := hdr s bits) in *. set (x := f_input sch (H ++ bits)) in *. set (e := enc (fstep sch) 0 x) in *.
  assert (Le : length e = (2 * length x)%nat) by apply enc_length. split.
  - intros v Lv Ex. assert (E32 : enc (fstep sch) 0 (firstn 32 x) = firstn (2 * 32) e) by (unfold e; symmetry; apply enc_firstn).
    assert (L32' : length (firstn 32 x) = 32%nat) by (rewrite firstn_length; lia).
    pose proof (early_difference sch (firstn 32 x) v ltac:(congruence) Ex ltac:(lia)) as D.
    rewrite <- (air_distance (k_il s) (k_white s) _ _ 32) in D by (try rewrite enc_length; try lia; intros; reflexivity).
    rewrite E32, air_prefix in D |- * by (try (intros; reflexivity); lia). change (2 * 32)%nat with 64%nat in *.
    apply S1; [|exact D]. rewrite air_length, enc_length, firstn_length, air_length. lia.
  - intros p Lp Np.
    assert (Lxy : length (f_input sch (H ++ p)) = length x) by (unfold x; rewrite !f_input_length, !app_length, Lp; reflexivity). apply S2.
    + rewrite !air_length, Le, enc_length, Lxy. reflexivity.
    + rewrite (air_distance (k_il s) (k_white s) _ _ (length x)); [|exact Le|rewrite enc_length, Lxy; reflexivity|intros; assumption].
      unfold e, x. apply f_distance; [rewrite !app_length, Lp; reflexivity|]. intro Q. apply Np. apply app_inv_head in Q. congruence.
Qed.
