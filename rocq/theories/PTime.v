(** * Proofs about the time domain *)
From Coq Require Import Reals Lra.
From Coquelicot Require Import Complex.
From Verif Require Import Py PList MModul MOfdm Tables MMrOfdm MTime SOfdm STime.

Local Open Scope C_scope.
Local Notation c0 := (RtoC 0).
Local Notation c1 := (RtoC 1).

(** ** finite sums *)
Lemma csum_Csum f n : csum f n = Csum f n.
Proof. induction n as [|n IH]; [reflexivity|]. cbn [csum Csum]. now rewrite IH. Qed.
Lemma Csum_ext f g n : (forall i, (i < n)%nat -> f i = g i) -> Csum f n = Csum g n.
Proof. induction n as [|n IH]; intro H; [reflexivity|]. cbn [Csum]. rewrite IH by (intros; apply H; lia). now rewrite H by lia. Qed.
Lemma Csum_plus f g n : Csum (fun i => f i + g i) n = Csum f n + Csum g n.
Proof. induction n as [|n IH]; cbn [Csum]; [ring|]. rewrite IH. ring. Qed.
Lemma Csum_scal c f n : Csum (fun i => c * f i) n = c * Csum f n.
Proof. induction n as [|n IH]; cbn [Csum]; [ring|]. rewrite IH. ring. Qed.
Lemma Csum_zero n : Csum (fun _ => c0) n = c0.
Proof. induction n as [|n IH]; cbn [Csum]; [reflexivity|]. rewrite IH. ring. Qed.
Lemma Csum_swap (F : nat -> nat -> C) n m : Csum (fun i => Csum (fun j => F i j) m) n = Csum (fun j => Csum (fun i => F i j) n) m.
Proof.
  induction n as [|n IH]; cbn [Csum]; [now rewrite Csum_zero|]. rewrite IH, <- Csum_plus. reflexivity.
Qed.
Lemma Csum_single f n k : (k < n)%nat -> (forall i, (i < n)%nat -> i <> k -> f i = c0) -> Csum f n = f k.
Proof.
  induction n as [|n IH]; intros Hk H; [lia|]. cbn [Csum]. destruct (Nat.eq_dec k n) as [->|E].
  - rewrite (Csum_ext f (fun _ => c0)) by (intros; apply H; lia). rewrite Csum_zero. ring.
  - rewrite IH by (auto; try lia; intros; apply H; lia). rewrite (H n) by lia. ring.
Qed.
Lemma Csum_conj f n : Cconj (Csum f n) = Csum (fun i => Cconj (f i)) n.
Proof. induction n as [|n IH]; cbn [Csum]; [apply injective_projections; cbn; ring|]. rewrite <- IH. apply injective_projections; cbn; ring. Qed.

(** ** roots of unity *)
Lemma cis_add x y : cis (x + y) = cis x * cis y.
Proof. unfold cis, Cmult. cbn [fst snd]. rewrite cos_plus, sin_plus. f_equal; ring. Qed.
Lemma cis_0 : cis 0 = c1.
Proof. unfold cis. rewrite cos_0, sin_0. reflexivity. Qed.
Lemma cis_2PI_Z (z : Z) : cis (2 * PI * IZR z) = c1.
Proof.
  assert (N : forall n, cis (2 * PI * INR n) = c1).
  { intro n. induction n as [|n IH]; [cbn [INR]; rewrite Rmult_0_r; apply cis_0|]. rewrite S_INR.
    replace (2 * PI * (INR n + 1))%R with (2 * PI * INR n + 2 * PI)%R by ring. rewrite cis_add, IH.
    unfold cis. rewrite cos_2PI, sin_2PI. apply injective_projections; cbn; ring. }
  assert (I : forall x, cis x = c1 -> cis (- x) = c1).
  { intros x H. unfold cis in *. rewrite cos_neg, sin_neg. injection H as -> ->. unfold RtoC. f_equal. ring. }
  destruct z as [|p|p].
  - rewrite Rmult_0_r. apply cis_0.
  - replace (IZR (Zpos p)) with (INR (Pos.to_nat p)) by (rewrite INR_IZR_INZ, positive_nat_Z; reflexivity). apply N.
  - change (Zneg p) with (- Zpos p)%Z. rewrite opp_IZR, Ropp_mult_distr_r_reverse. apply I.
    replace (IZR (Zpos p)) with (INR (Pos.to_nat p)) by (rewrite INR_IZR_INZ, positive_nat_Z; reflexivity). apply N.
Qed.
Lemma cis_one x : cis x = c1 -> exists m : Z, x = (2 * PI * IZR m)%R.
Proof.
  unfold cis, RtoC. intro H. injection H as H _. replace x with (2 * (x / 2))%R in H by field. rewrite cos_2a_sin in H.
  assert (S0 : sin (x / 2) = 0%R) by (apply Rsqr_0_uniq; unfold Rsqr; lra).
  apply sin_eq_0_0 in S0 as [m Hm]. exists m. lra.
Qed.
(** geometric sum: (w - 1) * sum w^n = w^N - 1 *)
Lemma geometric x n : (cis x - c1) * Csum (fun i => cis (x * INR i)) n = cis (x * INR n) - c1.
Proof.
  induction n as [|n IH]; cbn [Csum].
  - cbn [INR]. rewrite Rmult_0_r, cis_0. ring.
  - rewrite S_INR. replace (x * (INR n + 1))%R with (x + x * INR n)%R by ring. rewrite cis_add.
    replace ((cis x - c1) * (Csum (fun i => cis (x * INR i)) n + cis (x * INR n)))
      with ((cis x - c1) * Csum (fun i => cis (x * INR i)) n + (cis x - c1) * cis (x * INR n)) by ring.
    rewrite IH. ring.
Qed.
Lemma orthogonality (N : nat) (d : Z) : (0 < N)%nat ->
  Csum (fun n => cis (2 * PI * (IZR d * INR n / INR N))) N = if (d mod Z.of_nat N =? 0)%Z then RtoC (INR N) else c0.
Proof.
  intro HN. assert (HR : INR N <> 0%R) by (apply not_0_INR; lia).
  set (x := (2 * PI * (IZR d / INR N))%R).
  rewrite (Csum_ext _ (fun n => cis (x * INR n))) by (intros i _; f_equal; unfold x; field; assumption).
  destruct (Z.eqb_spec (d mod Z.of_nat N) 0) as [E|E].
  - apply Z.mod_divide in E as [q Hq]; [|lia].
    rewrite (Csum_ext _ (fun _ => c1)).
    + clear. induction N as [|N IH]; [reflexivity|]. cbn [Csum]. rewrite IH, S_INR. apply injective_projections; cbn; ring.
    + intros i _. replace (x * INR i)%R with (2 * PI * IZR (q * Z.of_nat i))%R; [apply cis_2PI_Z|].
      unfold x. rewrite Hq, !mult_IZR, <- !INR_IZR_INZ. field. assumption.
  - assert (W : cis x - c1 <> c0).
    { intro H. assert (H1 : cis x = c1) by (replace (cis x) with (cis x - c1 + c1) by ring; rewrite H; ring).
      apply cis_one in H1 as [m Hm]. apply E. apply Z.mod_divide; [lia|]. exists m. apply eq_IZR. rewrite mult_IZR, <- INR_IZR_INZ.
      unfold x in Hm. pose proof PI_RGT_0. assert (HQ : (IZR d / INR N = IZR m)%R) by (apply Rmult_eq_reg_l with (2 * PI)%R; lra).
      rewrite <- HQ. field. assumption. }
    pose proof (geometric x N) as G. replace (x * INR N)%R with (2 * PI * IZR d)%R in G by (unfold x; field; assumption).
    rewrite cis_2PI_Z in G. replace (c1 - c1) with (RtoC 0) in G by ring.
    set (S := Csum _ N) in *. replace S with (/ (cis x - c1) * ((cis x - c1) * S)); [rewrite G; ring|]. field. assumption.
Qed.

(** ** the IFFT of a symbol and its inverse *)
Lemma cis_unit x : unit_at x = cis x.
Proof. reflexivity. Qed.
Lemma cis_conj x : Cconj (cis x) = cis (- x).
Proof. unfold cis, Cconj. cbn [fst snd]. now rewrite cos_neg, sin_neg. Qed.
Lemma ifft_length X : length (ifft_ortho X) = length X.
Proof. unfold ifft_ortho. now rewrite map_length, seq_length. Qed.
Lemma ifftshift_length {A} (l : list A) : length (ifftshift l) = length l.
Proof. unfold ifftshift. rewrite app_length, skipn_length, firstn_length. pose proof (Nat.div_le_upper_bound (length l) 2 (length l) ltac:(lia) ltac:(lia)). lia. Qed.
Lemma o_ifft_length X : length (o_ifft X) = length X.
Proof. unfold o_ifft. now rewrite ifft_length, ifftshift_length. Qed.
Lemma ifft_nth X n : (n < length X)%nat ->
  nth n (ifft_ortho X) c0 = / RtoC (sqrt (INR (length X))) * Csum (fun k => nth k X c0 * cis (2 * PI * (INR k * INR n / INR (length X)))) (length X).
Proof. intro H. unfold ifft_ortho. now rewrite nth_map_seq. Qed.
Lemma sqrt_N_sq N : (0 < N)%nat -> RtoC (sqrt (INR N)) * RtoC (sqrt (INR N)) = RtoC (INR N) /\ RtoC (sqrt (INR N)) <> c0.
Proof.
  intro H. assert (P : (0 < INR N)%R) by (apply lt_0_INR; lia). split.
  - rewrite <- RtoC_mult, sqrt_sqrt by lra. reflexivity.
  - intro E. apply RtoC_inj in E. pose proof (sqrt_lt_R0 _ P). lra.
Qed.
Lemma analyse_eq s f : analyse s f = / RtoC (sqrt (INR (length s))) * Csum (fun n => nth n s c0 * cis (- (2 * PI * (IZR f * INR n / INR (length s))))) (length s).
Proof. reflexivity. Qed.
(** analysing the IFFT at frequency f gives coefficient f mod N *)
Lemma analyse_ifft X f : (0 < length X)%nat -> analyse (ifft_ortho X) f = nth (Z.to_nat (f mod Z.of_nat (length X))) X c0.
Proof.
  intro HN. unfold analyse. rewrite ifft_length. set (N := length X) in *. rewrite csum_Csum.
  destruct (sqrt_N_sq N HN) as [Q Q0]. assert (HR : INR N <> 0%R) by (apply not_0_INR; lia). assert (HC : RtoC (INR N) <> c0) by (intro E; apply HR, RtoC_inj, E).
  rewrite (Csum_ext _ (fun n => Csum (fun k => / RtoC (sqrt (INR N)) * nth k X c0 * cis (2 * PI * (IZR (Z.of_nat k - f) * INR n / INR N))) N)).
  - rewrite Csum_swap. rewrite (Csum_ext _ (fun k => / RtoC (sqrt (INR N)) * nth k X c0 * (if (((Z.of_nat k - f) mod Z.of_nat N) =? 0)%Z then RtoC (INR N) else c0))).
    + set (r := Z.to_nat (f mod Z.of_nat N)). assert (Hr : (r < N)%nat) by (unfold r; pose proof (Z.mod_pos_bound f (Z.of_nat N)); lia).
      rewrite (Csum_single _ N r Hr).
      * replace (((Z.of_nat r - f) mod Z.of_nat N) =? 0)%Z with true; [rewrite <- Q; field; assumption|].
        symmetry. apply Z.eqb_eq. unfold r. rewrite Z2Nat.id by (apply Z.mod_pos_bound; lia).
        rewrite Zminus_mod_idemp_l, Z.sub_diag. apply Z.mod_0_l. lia.
      * intros k Hk Hne. replace (((Z.of_nat k - f) mod Z.of_nat N) =? 0)%Z with false; [ring|]. symmetry. apply Z.eqb_neq. intro E. apply Hne.
        unfold r. apply Z.mod_divide in E as [q Hq]; [|lia]. replace f with (Z.of_nat k + (- q) * Z.of_nat N)%Z by lia.
        rewrite Z.mod_add, Z.mod_small by lia. now rewrite Nat2Z.id.
    + intros k Hk. rewrite Csum_scal, orthogonality by assumption. reflexivity.
  - intros n Hn. rewrite ifft_nth by assumption. fold N. rewrite cis_unit.
    match goal with |- ?i * ?S * ?c = _ => replace (i * S * c) with (i * c * S) by ring end. rewrite <- Csum_scal.
    apply Csum_ext. intros k Hk.
    replace (2 * PI * (IZR (Z.of_nat k - f) * INR n / INR N))%R with (2 * PI * (INR k * INR n / INR N) + - (2 * PI * (IZR f * INR n / INR N)))%R.
    + rewrite cis_add. ring.
    + rewrite minus_IZR, <- INR_IZR_INZ. field. assumption.
Qed.
Lemma ifftshift_nth {A} (l : list A) r (d : A) h : length l = (2 * h)%nat -> (r < 2 * h)%nat ->
  nth (Z.to_nat ((Z.of_nat r - Z.of_nat h) mod Z.of_nat (2 * h))) (ifftshift l) d = nth r l d.
Proof.
  intros Hl Hr. unfold ifftshift. rewrite Hl. replace (2 * h / 2)%nat with h by (rewrite Nat.mul_comm, Nat.div_mul; lia).
  destruct (le_lt_dec h r) as [G|G].
  - rewrite Z.mod_small by lia. rewrite app_nth1 by (rewrite skipn_length, Hl; lia). rewrite nth_skipn. f_equal. lia.
  - replace (Z.of_nat r - Z.of_nat h)%Z with (Z.of_nat r + Z.of_nat h + (-1) * Z.of_nat (2 * h))%Z by lia. rewrite Z.mod_add, Z.mod_small by lia.
    rewrite app_nth2 by (rewrite skipn_length, Hl; lia). rewrite skipn_length, Hl. rewrite nth_firstn by lia. f_equal. lia.
Qed.
Lemma analyse_o_ifft col r h : length col = (2 * h)%nat -> (r < 2 * h)%nat ->
  analyse (o_ifft col) (Z.of_nat r - Z.of_nat h) = nth r col c0.
Proof.
  intros Hl Hr. unfold o_ifft. rewrite analyse_ifft by (rewrite ifftshift_length; lia). rewrite ifftshift_length, Hl. now apply ifftshift_nth.
Qed.
(** ** energy *)
Lemma Cmod_sq z : RtoC (Cmod z ^ 2) = z * Cconj z.
Proof.
  unfold Cmod. rewrite <- Rsqr_pow2, Rsqr_sqrt.
  - apply injective_projections; cbn; ring.
  - apply Rplus_le_le_0_compat; apply pow2_ge_0.
Qed.
Lemma energy_Csum l : RtoC (energy l) = Csum (fun i => nth i l c0 * Cconj (nth i l c0)) (length l).
Proof.
  induction l as [|z l IH]; [reflexivity|]. cbn [energy length]. rewrite RtoC_plus, IH, Cmod_sq.
  set (g := fun i => nth i l c0 * Cconj (nth i l c0)).
  assert (G : forall (f : nat -> C) n, Csum f (S n) = f 0%nat + Csum (fun i => f (S i)) n).
  { intros f n. induction n as [|n IHn]; [cbn [Csum]; ring|]. change (Csum f (S (S n))) with (Csum f (S n) + f (S n)). rewrite IHn. cbn [Csum]. ring. }
  rewrite G. cbn [nth]. reflexivity.
Qed.
Lemma Cconj_mult a b : Cconj (a * b) = Cconj a * Cconj b.
Proof. apply injective_projections; cbn; ring. Qed.
Lemma Cconj_real x : Cconj (RtoC x) = RtoC x.
Proof. apply injective_projections; cbn; ring. Qed.
Lemma ifft_energy X : energy (ifft_ortho X) = energy X.
Proof.
  destruct X as [|x0 X0]; [reflexivity|]. set (X := x0 :: X0). assert (HN : (0 < length X)%nat) by (cbn; lia). clearbody X.
  apply RtoC_inj. rewrite !energy_Csum, ifft_length. set (N := length X) in *.
  destruct (sqrt_N_sq N HN) as [Q Q0].
  assert (HI : / RtoC (sqrt (INR N)) = RtoC (/ sqrt (INR N))).
  { rewrite RtoC_inv; [reflexivity|]. intro E. apply Q0. now rewrite E. }
  rewrite (Csum_ext _ (fun n => Csum (fun k => nth n (ifft_ortho X) c0 * (/ RtoC (sqrt (INR N)) * (Cconj (nth k X c0) * cis (- (2 * PI * (INR k * INR n / INR N)))))) N)).
  - rewrite Csum_swap. apply Csum_ext. intros k Hk. pose proof (analyse_ifft X (Z.of_nat k) HN) as A. fold N in A.
    rewrite Z.mod_small, Nat2Z.id in A by lia. set (y := Cconj (nth k X c0)). rewrite <- A, analyse_eq, ifft_length. fold N. rewrite <- INR_IZR_INZ.
    match goal with |- _ = ?i * ?S * y => replace (i * S * y) with (y * i * S) by ring end. rewrite <- Csum_scal. apply Csum_ext. intros n Hn.
    ring.
  - intros n Hn. rewrite Csum_scal. f_equal. rewrite ifft_nth by assumption. fold N. rewrite Cconj_mult, HI, Cconj_real, <- HI.
    rewrite Csum_conj, <- Csum_scal. apply Csum_ext. intros k Hk. rewrite Cconj_mult, cis_conj. reflexivity.
Qed.
Lemma energy_app a b : energy (a ++ b) = (energy a + energy b)%R.
Proof. induction a as [|x a IH]; cbn [energy app]; [ring|]. rewrite IH. ring. Qed.
Lemma o_ifft_energy X : energy (o_ifft X) = energy X.
Proof. unfold o_ifft. rewrite ifft_energy. unfold ifftshift. rewrite energy_app. rewrite <- (firstn_skipn (length X / 2) X) at 5. rewrite energy_app. ring. Qed.

(** ** cyclic prefix of a quarter *)
Lemma Qtrunc_quarter q : (0 <= q)%Z -> Qtrunc (inject_Z (4 * q) * (1 # 4)) = q.
Proof.
  intro H. unfold Qtrunc. replace (Qle_bool 0 (inject_Z (4 * q) * (1 # 4))) with true.
  - unfold Qfloor, inject_Z, Qmult. cbn [Qnum Qden]. rewrite Z.mul_1_r. change (Zpos (1 * 4)) with 4%Z. now rewrite Z.mul_comm, Z.div_mul.
  - symmetry. apply Qle_bool_iff. unfold Qle, inject_Z, Qmult. cbn [Qnum Qden]. lia.
Qed.
Lemma quarter_prefix s q : length s = (4 * q)%nat -> (0 < q)%nat -> o_cyclic_prefix (1 # 4) s = tail_of q s ++ s.
Proof.
  intros Hl Hq. unfold o_cyclic_prefix. replace (negb (Qle_bool (1 # 4) 0)) with true by reflexivity.
  unfold zlen at 1. rewrite Hl. replace (Z.of_nat (4 * q)) with (4 * Z.of_nat q)%Z by lia. rewrite Qtrunc_quarter by lia.
  unfold take_last, tail_of, py_bound. replace (- Z.of_nat q <? 0)%Z with true by (symmetry; apply Z.ltb_lt; lia).
  do 2 f_equal. unfold zlen. lia.
Qed.

(** ** every symbol has N tones *)
Definition full_symbols (N : Z) (l : list (list tone)) : Prop := Forall (fun s => length s = Z.to_nat N) l.
Lemma put_data_length h avail : forall data col, length (put_data h avail data col) = length col.
Proof. induction avail as [|a r IH]; intros [|d data] col; cbn [put_data]; try reflexivity. rewrite IH. apply set_nth_length. Qed.
Lemma insert_data_length N avail data col y : insert_data N avail data col = Ok y -> length y = length col.
Proof.
  unfold insert_data. destruct (Nat.eqb _ _); [intro E; injection E as <-; apply put_data_length|].
  destruct data as [|d [|]]; try discriminate. intro E. injection E as <-. apply put_data_length.
Qed.
Lemma place_pilots_length N pv pset : forall pn pvi avail col pn' pvi' avail' col',
  place_pilots N pv pset pn pvi avail col = (pn', pvi', Ok (avail', col')) -> length col' = length col.
Proof.
  induction pset as [|i rest IH]; intros pn pvi avail col pn' pvi' avail' col'; cbn [place_pilots].
  - intro E. injection E as _ _ _ <-. reflexivity.
  - destruct (next_pilot pv pn pvi) as [[pn1 pvi1] [p|e]]; [|discriminate]. destruct (np_index N (i + N / 2)) as [row|e]; [|discriminate].
    destruct (py_remove i avail) as [avail1|e]; [|discriminate]. intro E. apply IH in E. rewrite E. apply set_nth_length.
Qed.
Lemma add_pilots_loop_length c sets pv glob : forall msg st pvi st' syms,
  add_pilots_loop c sets pv glob st pvi msg = (st', Ok syms) -> full_symbols (o_N c) syms.
Proof.
  induction msg as [|data rest IH]; intros st pvi st' syms; cbn [add_pilots_loop].
  - intro E. injection E as _ <-. constructor.
  - destruct (np_index (zlen sets) (o_col st)) as [ci|e]; [|discriminate].
    destruct (place_pilots _ _ _ _ _ _ _) as [[pn1 pvi1] [[avail col]|e]] eqn:EP; [|discriminate].
    destruct (insert_data _ _ _ _) as [sm|e] eqn:EI; [|discriminate].
    destruct (add_pilots_loop _ _ _ _ _ _ rest) as [st2 rr] eqn:ER. destruct rr as [syms2|e]; [|discriminate]. cbn [rbind].
    intro E. injection E as _ <-. constructor; [|eapply IH, ER]. apply insert_data_length in EI. apply place_pilots_length in EP.
    now rewrite EI, EP, repeat_length.
Qed.
Lemma mapM_insert_length N glob msg : forall syms, mapM (fun d => insert_data N glob d (repeat TZero (Z.to_nat N))) msg = Ok syms -> full_symbols N syms.
Proof.
  induction msg as [|d msg IH]; intro syms; cbn [mapM].
  - intro E. injection E as <-. constructor.
  - destruct (insert_data _ _ _ _) as [y|e] eqn:EI; [|discriminate]. cbn [rbind]. destruct (mapM _ msg) as [ys|e]; [|discriminate]. cbn [rbind].
    intro E. injection E as <-. constructor; [|now apply IH]. apply insert_data_length in EI. now rewrite EI, repeat_length.
Qed.
Lemma ofdm_symbols_length c st bits pad st' syms : ofdm_symbols c st bits pad = (st', Ok syms) -> full_symbols (o_N c) syms.
Proof.
  unfold ofdm_symbols. destruct (split_length c <=? 0)%Z; [discriminate|]. destruct (negb _ && negb pad); [discriminate|].
  match goal with |- context [match ?x with Ok _ => _ | Err _ => _ end] => destruct x as [spread|e] end; [|discriminate].
  unfold add_pilots_and_padding. destruct (channels_global c) as [glob|e]; [|discriminate].
  destruct (o_pilots c) as [[sets pv]|].
  - destruct (0 <? n_pilots c)%Z; [apply add_pilots_loop_length|]. intro E. injection E as _ E. now apply mapM_insert_length in E.
  - intro E. injection E as _ E. now apply mapM_insert_length in E.
Qed.
