(** * OFDM symbol assembly *)
From Coq Require Import Permutation.
From Verif Require Import Py PList SBits MModul MOfdm MPn9 SPn9 PPn9 SOfdm PModul PBits.

(** ** lists of frequencies *)
Lemma memb_In x l : memb x l = true <-> In x l.
Proof.
  unfold memb. rewrite existsb_exists. split.
  - intros (y & Hy & E). apply Z.eqb_eq in E. now subst.
  - intro H. exists x. split; [assumption|apply Z.eqb_refl].
Qed.
Lemma memb_false x l : memb x l = false <-> ~ In x l.
Proof. rewrite <- memb_In. destruct (memb x l); split; congruence. Qed.

Lemma freqs_length N : length (freqs N) = Z.to_nat N.
Proof. unfold freqs. now rewrite map_length, seq_length. Qed.
Lemma freqs_nth N i d : (i < Z.to_nat N)%nat -> nth i (freqs N) d = Z.of_nat i - N / 2.
Proof. intro H. unfold freqs. now rewrite nth_map_seq. Qed.
Lemma freqs_In N f : In f (freqs N) <-> 0 <= f + N / 2 < N.
Proof.
  unfold freqs. rewrite in_map_iff. split.
  - intros (i & <- & Hi). apply in_seq in Hi. lia.
  - intro H. exists (Z.to_nat (f + N / 2)). rewrite in_seq. lia.
Qed.
Lemma NoDup_map_inj {A B} (f : A -> B) l : (forall x y, In x l -> In y l -> f x = f y -> x = y) -> NoDup l -> NoDup (map f l).
Proof.
  intros Hinj H. induction H as [|x l Hx H IH]; [constructor|]. cbn [map]. constructor.
  - rewrite in_map_iff. intros (y & E & Hy). apply Hx. replace x with y; [assumption|].
    apply Hinj; simpl; auto.
  - apply IH. intros. apply Hinj; simpl; auto.
Qed.
Lemma freqs_NoDup N : NoDup (freqs N).
Proof. unfold freqs. apply NoDup_map_inj; [intros; lia|apply seq_NoDup]. Qed.

Lemma freqs_split N f : In f (freqs N) ->
  exists a b, freqs N = a ++ f :: b /\ (forall x, In x a -> x < f) /\ (forall x, In x b -> f < x).
Proof.
  intro H. apply freqs_In in H. set (k := Z.to_nat (f + N / 2)).
  exists (map (fun i => Z.of_nat i - N / 2) (seq 0 k)).
  exists (map (fun i => Z.of_nat i - N / 2) (seq (S k) (Z.to_nat N - S k))).
  assert (Hk : (k < Z.to_nat N)%nat) by lia. split; [|split].
  - unfold freqs. replace (Z.to_nat N) with (k + S (Z.to_nat N - S k))%nat at 1 by lia.
    rewrite seq_app, map_app. rewrite Nat.add_0_l. cbn [seq map]. f_equal. f_equal. lia.
  - intros x Hx. apply in_map_iff in Hx as (i & <- & Hi). apply in_seq in Hi. lia.
  - intros x Hx. apply in_map_iff in Hx as (i & <- & Hi). apply in_seq in Hi. lia.
Qed.
Lemma filter_none {A} (P : A -> bool) l : (forall x, In x l -> P x = false) -> filter P l = [].
Proof. induction l as [|x l IH]; intro H; [reflexivity|]. cbn [filter]. rewrite H by (simpl; auto). apply IH. intros. apply H. simpl; auto. Qed.
Lemma filter_ext_in' {A} (P Q : A -> bool) l : (forall x, In x l -> P x = Q x) -> filter P l = filter Q l.
Proof. induction l as [|x l IH]; intro H; [reflexivity|]. cbn [filter]. rewrite H by (simpl; auto). rewrite IH by (intros; apply H; simpl; auto). reflexivity. Qed.

Lemma filter_rank N (P : Z -> bool) f : In f (freqs N) -> P f = true ->
  nth (length (filter (fun g : Z => (g <? f) && P g) (freqs N))) (filter P (freqs N)) 0 = f
  /\ (length (filter (fun g : Z => (g <? f)%Z && P g) (freqs N)) < length (filter P (freqs N)))%nat.
Proof.
  intros Hf HP. destruct (freqs_split N f Hf) as (a & b & E & Ha & Hb). rewrite E.
  rewrite !filter_app. cbn [filter]. rewrite Z.ltb_irrefl. cbn [andb]. rewrite HP.
  rewrite (filter_none (fun g : Z => (g <? f) && P g) b).
  2:{ intros x Hx. specialize (Hb x Hx). assert (E2 : (x <? f) = false) by (apply Z.ltb_ge; lia). now rewrite E2. }
  rewrite (filter_ext_in' (fun g : Z => (g <? f) && P g) P a).
  2:{ intros x Hx. specialize (Ha x Hx). assert (E2 : (x <? f) = true) by (apply Z.ltb_lt; lia). now rewrite E2. }
  rewrite app_nil_r. split.
  - rewrite app_nth2 by lia. now rewrite Nat.sub_diag.
  - rewrite app_length. cbn [length]. lia.
Qed.
Lemma position_nth f l : In f l -> (position f l < length l)%nat /\ nth (position f l) l 0 = f.
Proof.
  induction l as [|x l IH]; intro H; [destruct H|]. cbn [position length].
  destruct (Z.eqb_spec x f); [split; [lia|assumption]|]. destruct H as [H|H]; [congruence|].
  destruct (IH H). split; [lia|assumption].
Qed.

(** ** available channels *)
Lemma py_remove_filter x l : NoDup l -> In x l -> py_remove x l = Ok (filter (fun y => negb (y =? x)) l).
Proof.
  intros Hd Hi. induction Hd as [|y l Hy Hd IH]; [destruct Hi|]. cbn [py_remove filter].
  destruct (Z.eqb_spec y x) as [->|Hne].
  - cbn [negb]. f_equal. symmetry.
    clear -Hy. induction l as [|z l IH]; [reflexivity|]. cbn [filter].
    destruct (Z.eqb_spec z x) as [->|]; [exfalso; apply Hy; simpl; auto|]. cbn [negb]. f_equal. apply IH. simpl in Hy. tauto.
  - cbn [negb]. destruct Hi as [Hi|Hi]; [congruence|]. rewrite (IH Hi). reflexivity.
Qed.
Lemma filter_skip {A} (P : A -> bool) a b : (forall x, In x a -> P x = false) -> (forall x, In x b -> P x = true) ->
  filter P (a ++ b) = b.
Proof.
  intros Ha Hb. rewrite filter_app, filter_none by assumption. cbn [app].
  induction b as [|x b IH]; [reflexivity|]. cbn [filter]. rewrite Hb by (simpl; auto). f_equal. apply IH. intros. apply Hb. simpl; auto.
Qed.
Lemma filter_keep {A} (P : A -> bool) a b : (forall x, In x a -> P x = true) -> (forall x, In x b -> P x = false) ->
  filter P (a ++ b) = a.
Proof.
  intros Ha Hb. rewrite filter_app, (filter_none P b) by assumption. rewrite app_nil_r.
  induction a as [|x a IH]; [reflexivity|]. cbn [filter]. rewrite Ha by (simpl; auto). f_equal. apply IH. intros. apply Ha. simpl; auto.
Qed.
Lemma filter_filter {A} (P Q : A -> bool) l : filter P (filter Q l) = filter (fun x => Q x && P x) l.
Proof. induction l as [|x l IH]; [reflexivity|]. cbn [filter]. destruct (Q x); cbn [andb filter]; rewrite IH; reflexivity. Qed.

Record band_ok (N pl pr : Z) : Prop := {
  bo_even : N = 2 * (N / 2);
  bo_pos : 0 < N / 2;
  bo_pl : 0 <= pl <= N / 2;
  bo_pr : 0 <= pr < N / 2
}.
Definition usable (N pl pr : Z) : list Z := filter (fun f => negb (guard_or_dc N pl pr f)) (freqs N).

Lemma channels_spec c : band_ok (o_N c) (o_pl c) (o_pr c) -> channels_global c = Ok (usable (o_N c) (o_pl c) (o_pr c)).
Proof.
  intros [He Hp Hpl Hpr]. unfold channels_global. set (N := o_N c) in *. set (pl := o_pl c) in *. set (pr := o_pr c) in *.
  assert (Hs : (- N) / 2 = - (N / 2)).
  { set (h := N / 2) in *. rewrite He. replace (- (2 * h)) with (- h * 2) by lia. now rewrite Z.div_mul by lia. }
  rewrite Hs.
  replace (map (fun i => Z.of_nat i + - (N / 2)) (seq 0 (Z.to_nat N))) with (freqs N)
    by (unfold freqs; apply map_ext; intro; lia).
  set (h := N / 2) in *.
  assert (E1 : (if 0 <? pl then skipn (Z.to_nat pl) (freqs N) else freqs N)
               = filter (fun f => negb (f <? - h + pl)) (freqs N)).
  { assert (G : skipn (Z.to_nat pl) (freqs N) = filter (fun f => negb (f <? - h + pl)) (freqs N)).
    { unfold freqs at 2. replace (Z.to_nat N) with (Z.to_nat pl + (Z.to_nat N - Z.to_nat pl))%nat by lia.
      rewrite seq_app, map_app. rewrite filter_skip.
      - unfold freqs. replace (Z.to_nat N) with (Z.to_nat pl + (Z.to_nat N - Z.to_nat pl))%nat at 1 by lia.
        rewrite seq_app, map_app. rewrite skipn_app, map_length, seq_length, Nat.sub_diag.
        rewrite skipn_all2 by (rewrite map_length, seq_length; lia). reflexivity.
      - intros x Hx. apply in_map_iff in Hx as (i & <- & Hi). apply in_seq in Hi. apply negb_false_iff, Z.ltb_lt. fold h. lia.
      - intros x Hx. apply in_map_iff in Hx as (i & <- & Hi). apply in_seq in Hi. apply negb_true_iff, Z.ltb_ge. fold h. lia. }
    destruct (Z.ltb_spec 0 pl); [exact G|]. rewrite <- G. replace pl with 0 by lia. reflexivity. }
  rewrite E1. clear E1.
  set (l1 := filter (fun f => negb (f <? - h + pl)) (freqs N)).
  assert (E2 : (if 0 <? pr then firstn (length l1 - Z.to_nat pr) l1 else l1)
               = filter (fun f => negb (h - pr <=? f)) l1).
  { assert (G : firstn (length l1 - Z.to_nat pr) l1 = filter (fun f => negb (h - pr <=? f)) l1).
    { assert (El : l1 = map (fun i => Z.of_nat i - h + pl) (seq 0 (Z.to_nat (N - pl)))).
      { unfold l1, freqs. replace (Z.to_nat N) with (Z.to_nat pl + (Z.to_nat (N - pl)))%nat by lia.
        rewrite seq_app, map_app. rewrite filter_skip.
        - rewrite Nat.add_0_l. apply list_eq_nth with 0; [rewrite !map_length, !seq_length; reflexivity|].
          intros i Hi. rewrite map_length, seq_length in Hi. rewrite (nth_map _ _ _ 0%nat) by (rewrite seq_length; lia).
          rewrite seq_nth by lia. rewrite nth_map_seq by lia. fold h. lia.
        - intros x Hx. apply in_map_iff in Hx as (i & <- & Hi). apply in_seq in Hi. apply negb_false_iff, Z.ltb_lt. fold h. lia.
        - intros x Hx. apply in_map_iff in Hx as (i & <- & Hi). apply in_seq in Hi. apply negb_true_iff, Z.ltb_ge. fold h. lia. }
      rewrite El. rewrite map_length, seq_length.
      set (m := (Z.to_nat (N - pl) - Z.to_nat pr)%nat).
      replace (Z.to_nat (N - pl)) with (m + Z.to_nat pr)%nat by lia. rewrite seq_app, map_app.
      rewrite filter_keep.
      - rewrite firstn_app, map_length, seq_length, Nat.sub_diag, app_nil_r.
        rewrite firstn_all2 by (rewrite map_length, seq_length; lia). reflexivity.
      - intros x Hx. apply in_map_iff in Hx as (i & <- & Hi). apply in_seq in Hi. apply negb_true_iff, Z.leb_gt. lia.
      - intros x Hx. apply in_map_iff in Hx as (i & <- & Hi). apply in_seq in Hi. apply negb_false_iff, Z.leb_le. lia. }
    destruct (Z.ltb_spec 0 pr); [exact G|]. rewrite <- G. replace pr with 0 by lia.
    rewrite Nat.sub_0_r. symmetry. apply firstn_all. }
  rewrite E2. clear E2. unfold l1. rewrite filter_filter.
  rewrite py_remove_filter.
  - rewrite filter_filter. f_equal. unfold usable. apply filter_ext. intro f. unfold guard_or_dc. fold h.
    destruct (f =? 0), (f <? - h + pl), (h - pr <=? f); reflexivity.
  - apply NoDup_filter. apply freqs_NoDup.
  - apply filter_In. split; [apply freqs_In; fold h; lia|].
    apply andb_true_iff. split; apply negb_true_iff; [apply Z.ltb_ge|apply Z.leb_gt]; lia.
Qed.

(** ** one symbol *)
Definition pset_ok (N pl pr : Z) (pset : list Z) : Prop :=
  NoDup pset /\ Forall (fun f => In f (usable N pl pr)) pset.
Lemma usable_In N pl pr f : In f (usable N pl pr) <-> (0 <= f + N / 2 < N) /\ guard_or_dc N pl pr f = false.
Proof. unfold usable. rewrite filter_In, freqs_In, negb_true_iff. reflexivity. Qed.

Definition row (N f : Z) : nat := Z.to_nat (f + N / 2).

(** values drawn for [n] pilots *)
Fixpoint draw (pv : pilot_values) (pn : pn9) (pvi : nat) (n : nat) : pn9 * nat * res (list (Q * Q)) :=
  match n with
  | O => (pn, pvi, Ok [])
  | S m => let '(pn1, pvi1, rp) := next_pilot pv pn pvi in
           match rp with
           | Err e => (pn1, pvi1, Err e)
           | Ok p => let '(pn2, pvi2, rs) := draw pv pn1 pvi1 m in (pn2, pvi2, do ps <- rs; Ok (p :: ps))
           end
  end.
Lemma draw_ok_length pv pn pvi n pn' pvi' ps : draw pv pn pvi n = (pn', pvi', Ok ps) -> length ps = n.
Proof.
  revert pn pvi pn' pvi' ps. induction n as [|n IH]; intros pn pvi pn' pvi' ps H; cbn [draw] in H; [inversion H; reflexivity|].
  destruct (next_pilot pv pn pvi) as [[pn1 pvi1] [p|e]]; [|discriminate].
  destruct (draw pv pn1 pvi1 n) as [[pn2 pvi2] [qs|e]] eqn:E; [|discriminate].
  cbn [rbind] in H. inversion H; subst. cbn [length]. f_equal. eapply IH; eauto.
Qed.

Lemma place_pilots_ok N pv pset : 0 <= N / 2 -> N = 2 * (N / 2) -> forall pn pvi pn' pvi' ps avail col,
  draw pv pn pvi (length pset) = (pn', pvi', Ok ps) ->
  NoDup avail -> NoDup pset -> Forall (fun f => In f avail /\ 0 <= f + N / 2 < N) pset ->
  place_pilots N pv pset pn pvi avail col
  = (pn', pvi', Ok (filter (fun f => negb (memb f pset)) avail, scatter (map (row N) pset) (map TPilot ps) col)).
Proof.
  intros Hh He. induction pset as [|f pset IH]; intros pn pvi pn' pvi' ps avail col H Ha Hp Hf.
  - cbn [length draw] in H. inversion H; subst. cbn [place_pilots map scatter].
    assert (E : filter (fun f => negb (memb f [])) avail = avail) by (clear; induction avail as [|x l IH]; [reflexivity|]; cbn [filter]; change (negb (memb x [])) with true; cbv iota; f_equal; exact IH).
    rewrite E. reflexivity.
  - cbn [length draw] in H. cbn [place_pilots].
    destruct (next_pilot pv pn pvi) as [[pn1 pvi1] [p|e]]; [|discriminate].
    destruct (draw pv pn1 pvi1 (length pset)) as [[pn2 pvi2] [qs|e]] eqn:E; [|discriminate].
    cbn [rbind] in H. inversion H; subst. clear H.
    inversion Hf as [|? ? [Hin Hr] Hf']; subst. inversion Hp as [|? ? Hnin Hp']; subst.
    unfold np_index. replace ((0 <=? f + N / 2) && (f + N / 2 <? N)) with true
      by (symmetry; apply andb_true_iff; split; [apply Z.leb_le|apply Z.ltb_lt]; lia).
    rewrite py_remove_filter by assumption.
    rewrite (IH pn1 pvi1 pn' pvi' qs) with (1 := E); try assumption.
    + f_equal. f_equal. f_equal.
      * rewrite filter_filter. apply filter_ext. intro x. cbn [memb existsb].
        rewrite negb_orb. unfold memb. reflexivity.
    + now apply NoDup_filter.
    + rewrite Forall_forall in Hf' |- *. intros x Hx. destruct (Hf' x Hx) as [Hx1 Hx2]. split; [|assumption].
      apply filter_In. split; [assumption|]. apply negb_true_iff, Z.eqb_neq. intro; subst. contradiction.
Qed.

Lemma put_data_scatter h avail data col :
  put_data h avail data col = scatter (map (fun a => Z.to_nat (a + h)) avail) (map TData data) col.
Proof.
  revert data col. induction avail as [|a avail IH]; intros [|d data] col; try reflexivity.
  cbn [put_data map scatter]. apply IH.
Qed.
Lemma row_inj N a b : 0 <= a + N / 2 -> 0 <= b + N / 2 -> row N a = row N b -> a = b.
Proof. unfold row. lia. Qed.

Lemma symbol_layout N pl pr pset pvals data :
  band_ok N pl pr -> pset_ok N pl pr pset -> length pvals = length pset ->
  let avail := filter (fun f => negb (memb f pset)) (usable N pl pr) in
  length data = length avail ->
  put_data (N / 2) avail data (scatter (map (row N) pset) (map TPilot pvals) (repeat TZero (Z.to_nat N)))
  = layout N pl pr pset pvals data.
Proof.
  intros Hb [Hnd Hps] Hl avail Hd. destruct Hb as [He Hp Hpl Hpr].
  rewrite put_data_scatter. fold (row N).
  assert (Hav : forall f, In f avail <-> In f (usable N pl pr) /\ memb f pset = false).
  { intro f. unfold avail. rewrite filter_In, negb_true_iff. reflexivity. }
  assert (Ndav : NoDup avail) by (repeat apply NoDup_filter; apply freqs_NoDup).
  assert (Rng : forall f, In f (usable N pl pr) -> 0 <= f + N / 2 < N) by (intros f Hf; now apply usable_In in Hf).
  assert (Hps' : forall f, In f pset -> In f (usable N pl pr)) by (intros f Hf; rewrite Forall_forall in Hps; auto).
  assert (NdA : NoDup (map (row N) avail)).
  { apply NoDup_map_inj; [|assumption]. intros x y Hx Hy. apply Hav in Hx as [Hx _]. apply Hav in Hy as [Hy _].
    apply Rng in Hx, Hy. apply row_inj; lia. }
  assert (NdP : NoDup (map (row N) pset)).
  { apply NoDup_map_inj; [|assumption]. intros x y Hx Hy. apply Hps', Rng in Hx. apply Hps', Rng in Hy. apply row_inj; lia. }
  apply list_eq_nth with TZero.
  { rewrite !scatter_length, repeat_length. unfold layout. now rewrite map_length, freqs_length. }
  intros i Hi. rewrite !scatter_length, repeat_length in Hi.
  unfold layout. rewrite (nth_map _ _ _ 0) by (now rewrite freqs_length). rewrite freqs_nth by assumption.
  set (f := Z.of_nat i - N / 2). assert (Ei : i = row N f) by (unfold row, f; lia).
  unfold layout_tone. destruct (memb f pset) eqn:Em.
  - apply memb_In in Em. rewrite scatter_notin.
    + destruct (position_nth f pset Em) as [P1 P2].
      replace i with (nth (position f pset) (map (row N) pset) 0%nat)
        by (rewrite (nth_map _ _ _ 0) by assumption; now rewrite P2, Ei).
      rewrite scatter_nth; try assumption.
      * rewrite (nth_map _ _ _ (0%Q, 0%Q)) by lia. reflexivity.
      * now rewrite !map_length.
      * intros j Hj. rewrite repeat_length. apply in_map_iff in Hj as (g & <- & Hg). apply Hps', Rng in Hg. unfold row. lia.
      * now rewrite map_length.
    + intro Hin. apply in_map_iff in Hin as (g & Eg & Hg). apply Hav in Hg as [Hg1 Hg2].
      assert (g = f) by (apply (row_inj N); [apply Rng in Hg1; lia|apply Hps', Rng in Em; lia|congruence]).
      subst g. apply memb_false in Hg2. contradiction.
  - destruct (guard_or_dc N pl pr f) eqn:Eg.
    + rewrite !scatter_notin.
      * apply nth_repeat.
      * intro Hin. apply in_map_iff in Hin as (g & E & Hg). pose proof (Rng g (Hps' g Hg)).
        assert (g = f) by (apply (row_inj N); [lia|unfold f; lia|congruence]). subst g. apply memb_false in Em. contradiction.
      * intro Hin. apply in_map_iff in Hin as (g & E & Hg). apply Hav in Hg as [Hg1 Hg2].
        assert (g = f) by (apply (row_inj N); [apply Rng in Hg1; lia|unfold f; lia|congruence]). subst g.
        apply usable_In in Hg1 as [_ Hg1]. congruence.
    + assert (Hf : In f (freqs N)) by (apply freqs_In; unfold f; lia).
      assert (HP : is_data N pl pr pset f = true) by (unfold is_data; now rewrite Em, Eg).
      destruct (filter_rank N (is_data N pl pr pset) f Hf HP) as [R1 R2]. fold (rank N pl pr pset f) in R1, R2.
      assert (Eav : filter (is_data N pl pr pset) (freqs N) = avail).
      { unfold avail, usable. rewrite filter_filter. apply filter_ext. intro x. unfold is_data. apply andb_comm. }
      rewrite Eav in R1, R2.
      replace i with (nth (rank N pl pr pset f) (map (row N) avail) 0%nat)
        by (rewrite (nth_map _ _ _ 0) by assumption; now rewrite R1, Ei).
      rewrite scatter_nth; try assumption.
      * rewrite (nth_map _ _ _ ((0, 0) : gauss)) by lia. reflexivity.
      * now rewrite !map_length.
      * intros j Hj. rewrite scatter_length, repeat_length. apply in_map_iff in Hj as (g & <- & Hg). apply Hav in Hg as [Hg _].
        apply Rng in Hg. unfold row. lia.
      * now rewrite map_length.
Qed.

(** number of data tones *)
Definition n_data (N pl pr : Z) (pset : list Z) : nat := length (filter (is_data N pl pr pset) (freqs N)).
Lemma avail_length N pl pr pset : length (filter (fun f => negb (memb f pset)) (usable N pl pr)) = n_data N pl pr pset.
Proof.
  unfold n_data, usable. rewrite filter_filter. f_equal. apply filter_ext. intro x. unfold is_data. apply andb_comm.
Qed.

(** ** PN9 pilots *)
Definition pn_pilot (v : Z) (k : nat) : Q * Q := (inject_Z (level (pn9_bit v k)), 0%Q).
Lemma draw_pn9 n : forall pn pvi,
  draw PvPn9 pn pvi n = ({| pn_seed := pn_seed pn; pn_value := pn_iter n (pn_value pn) |}, pvi,
                         Ok (map (pn_pilot (pn_value pn)) (seq 0 n))).
Proof.
  induction n as [|n IH]; intros pn pvi; [destruct pn; reflexivity|].
  cbn [draw next_pilot]. unfold pn9_next. rewrite IH. cbn [pn_seed pn_value rbind].
  rewrite <- pn_iter_S'. f_equal. f_equal. cbn [seq map]. f_equal.
  - unfold pn_pilot. f_equal. f_equal. unfold pn9_bit. rewrite pn9_output_iter.
    change (pn_iter 1 (pn_value pn)) with (pn9_step (pn_value pn)). rewrite !out_testbit. destruct (Z.testbit _ 8); reflexivity.
  - rewrite <- seq_shift, map_map. apply map_ext. intro k. unfold pn_pilot, pn9_bit. rewrite !pn9_output_iter.
    now rewrite (pn_iter_S' (S k) (pn_value pn)).
Qed.
Lemma draw_array vs n k : (k + n = length vs)%nat -> (0 < n)%nat -> forall pn,
  draw (PvArray vs) pn k n = (pn, 0%nat, Ok (skipn k vs)).
Proof.
  revert k. induction n as [|n IH]; intros k Hk Hn pn; [lia|].
  cbn [draw next_pilot]. destruct (nth_error vs k) as [v|] eqn:E; [|apply nth_error_None in E; lia].
  assert (Es : skipn k vs = v :: skipn (S k) vs).
  { clear -E. revert vs E. induction k as [|k IHk]; intros [|x vs] E; try discriminate E.
    - inversion E. reflexivity.
    - cbn [nth_error] in E. cbn [skipn]. now apply IHk. }
  rewrite Es. destruct (Nat.leb_spec (length vs) (S k)) as [Hle|Hgt].
  - assert (n = 0%nat) by lia. subst n. cbn [draw rbind]. rewrite skipn_all2 by lia. reflexivity.
  - rewrite IH by lia. reflexivity.
Qed.

(** ** sequences of symbols, PN9 pilots *)
Definition sets_ok (N pl pr : Z) (P nd : nat) (sets : list (list Z)) : Prop :=
  Forall (fun s => pset_ok N pl pr s /\ length s = P /\ n_data N pl pr s = nd) sets.

(** n-th symbol of a run started with pilot set [col] and PN9 register [v] *)
Definition nth_symbol (N pl pr : Z) (sets : list (list Z)) (P : nat) (col : Z) (v : Z) (msg : list (list gauss)) (n : nat) : list tone :=
  layout N pl pr (nth (Z.to_nat ((col + Z.of_nat n) mod zlen sets)) sets [])
         (map (fun j => pn_pilot v (n * P + j)%nat) (seq 0 P)) (nth n msg []).

Lemma pn_pilot_shift v n k : pn_pilot (pn_iter n v) k = pn_pilot v (n + k)%nat.
Proof.
  unfold pn_pilot, pn9_bit. rewrite !pn9_output_iter. rewrite <- pn_iter_add. replace (S k + n)%nat with (S (n + k)) by lia. reflexivity.
Qed.

Lemma loop_pn9 c sets P nd :
  band_ok (o_N c) (o_pl c) (o_pr c) -> sets_ok (o_N c) (o_pl c) (o_pr c) P nd sets -> sets <> [] ->
  forall msg st pvi, 0 <= o_col st < zlen sets -> Forall (fun d => length d = nd) msg ->
  add_pilots_loop c sets PvPn9 (usable (o_N c) (o_pl c) (o_pr c)) st pvi msg
  = ({| o_col := (o_col st + zlen msg) mod zlen sets;
        o_pn9 := {| pn_seed := pn_seed (o_pn9 st); pn_value := pn_iter (length msg * P) (pn_value (o_pn9 st)) |} |},
     Ok (map (nth_symbol (o_N c) (o_pl c) (o_pr c) sets P (o_col st) (pn_value (o_pn9 st)) msg) (seq 0 (length msg)))).
Proof.
  intros Hb Hs Hne. induction msg as [|d msg IH]; intros st pvi Hc Hm.
  - cbn [add_pilots_loop length seq map]. unfold zlen at 1. cbn [length]. rewrite Z.add_0_r, Z.mod_small by assumption.
    destruct st as [col [s v]]. reflexivity.
  - cbn [add_pilots_loop]. unfold np_index.
    replace ((0 <=? o_col st) && (o_col st <? zlen sets)) with true
      by (symmetry; apply andb_true_iff; split; [apply Z.leb_le|apply Z.ltb_lt]; lia).
    set (ci := Z.to_nat (o_col st)). assert (Hci : (ci < length sets)%nat) by (unfold zlen in Hc; lia).
    assert (Hset := Hs). unfold sets_ok in Hset. rewrite Forall_forall in Hset.
    specialize (Hset (nth ci sets []) (nth_In sets [] Hci)). destruct Hset as (Hps & HP & Hnd).
    pose proof (draw_pn9 (length (nth ci sets [])) (o_pn9 st) pvi) as Hd.
    assert (Hd0 : length d = nd) by (now inversion Hm).
    assert (Hm' : Forall (fun d => length d = nd) msg) by (now inversion Hm). clear Hm.
    pose proof (bo_pos _ _ _ Hb) as Hh. pose proof (bo_even _ _ _ Hb) as He.
    rewrite (place_pilots_ok (o_N c) PvPn9 (nth ci sets []) ltac:(lia) He _ _ _ _ _ _ _ Hd).
    + unfold insert_data. rewrite avail_length, Hnd, Hd0, Nat.eqb_refl.
      rewrite symbol_layout; try assumption.
      2:{ now rewrite map_length, seq_length. }
      2:{ now rewrite avail_length, Hnd. }
      set (st1 := {| o_col := if zlen sets <=? o_col st + 1 then 0 else o_col st + 1; o_pn9 := _ |}).
      assert (E1 : o_col st1 = (o_col st + 1) mod zlen sets).
      { unfold st1. cbn [o_col]. destruct (Z.leb_spec (zlen sets) (o_col st + 1)).
        - replace (o_col st + 1) with (zlen sets) by lia. rewrite Z.mod_same by lia. reflexivity.
        - rewrite Z.mod_small by lia. reflexivity. }
      rewrite IH; [|rewrite E1; apply Z.mod_pos_bound; lia|assumption].
      cbn [rbind]. f_equal.
      * f_equal; [rewrite E1, Zplus_mod_idemp_l; f_equal; unfold zlen; cbn [length]; lia|].
        unfold st1. cbn [o_pn9 pn_seed pn_value]. f_equal. rewrite HP, <- pn_iter_add. f_equal. cbn [length]. lia.
      * f_equal. cbn [length]. rewrite map_seq_S. f_equal.
        -- unfold nth_symbol. rewrite Z.add_0_r, Z.mod_small by assumption. cbn [nth]. rewrite HP. reflexivity.
        -- apply map_ext. intro n. unfold nth_symbol. rewrite E1, Zplus_mod_idemp_l.
           replace (o_col st + 1 + Z.of_nat n) with (o_col st + Z.of_nat (S n)) by lia. cbn [nth].
           f_equal. apply map_ext. intro j. unfold st1. cbn [o_pn9 pn_value]. rewrite HP, pn_pilot_shift. f_equal. lia.
    + apply NoDup_filter, freqs_NoDup.
    + apply Hps.
    + destruct Hps as [_ Hps]. rewrite Forall_forall in Hps |- *. intros f Hf. split; [now apply Hps|].
      specialize (Hps f Hf). apply usable_In in Hps. apply Hps.
Qed.

(** ** fixed pilot values *)
Definition nth_symbol_fixed (N pl pr : Z) (sets : list (list Z)) (vs : list (Q * Q)) (col : Z) (msg : list (list gauss)) (n : nat) : list tone :=
  layout N pl pr (nth (Z.to_nat ((col + Z.of_nat n) mod zlen sets)) sets []) vs (nth n msg []).
Lemma loop_array c sets vs nd :
  band_ok (o_N c) (o_pl c) (o_pr c) -> sets_ok (o_N c) (o_pl c) (o_pr c) (length vs) nd sets -> sets <> [] -> vs <> [] ->
  forall msg st, 0 <= o_col st < zlen sets -> Forall (fun d => length d = nd) msg ->
  add_pilots_loop c sets (PvArray vs) (usable (o_N c) (o_pl c) (o_pr c)) st 0 msg
  = ({| o_col := (o_col st + zlen msg) mod zlen sets; o_pn9 := o_pn9 st |},
     Ok (map (nth_symbol_fixed (o_N c) (o_pl c) (o_pr c) sets vs (o_col st) msg) (seq 0 (length msg)))).
Proof.
  intros Hb Hs Hne Hvs. assert (Hvl : (0 < length vs)%nat) by (destruct vs; [congruence|cbn [length]; lia]).
  induction msg as [|d msg IH]; intros st Hc Hm.
  - cbn [add_pilots_loop length seq map]. unfold zlen at 1. cbn [length]. rewrite Z.add_0_r, Z.mod_small by assumption.
    destruct st as [col p]. reflexivity.
  - cbn [add_pilots_loop]. unfold np_index.
    replace ((0 <=? o_col st) && (o_col st <? zlen sets)) with true
      by (symmetry; apply andb_true_iff; split; [apply Z.leb_le|apply Z.ltb_lt]; lia).
    set (ci := Z.to_nat (o_col st)). assert (Hci : (ci < length sets)%nat) by (unfold zlen in Hc; lia).
    assert (Hset := Hs). unfold sets_ok in Hset. rewrite Forall_forall in Hset.
    specialize (Hset (nth ci sets []) (nth_In sets [] Hci)). destruct Hset as (Hps & HP & Hnd).
    assert (Hd : draw (PvArray vs) (o_pn9 st) 0 (length (nth ci sets [])) = (o_pn9 st, 0%nat, Ok vs)).
    { rewrite (draw_array vs) by lia. reflexivity. }
    assert (Hd0 : length d = nd) by (now inversion Hm).
    assert (Hm' : Forall (fun d => length d = nd) msg) by (now inversion Hm). clear Hm.
    pose proof (bo_pos _ _ _ Hb) as Hh. pose proof (bo_even _ _ _ Hb) as He.
    rewrite (place_pilots_ok (o_N c) (PvArray vs) (nth ci sets []) ltac:(lia) He _ _ _ _ _ _ _ Hd).
    + unfold insert_data. rewrite avail_length, Hnd, Hd0, Nat.eqb_refl.
      rewrite symbol_layout; try assumption.
      2:{ now rewrite HP. }
      2:{ now rewrite avail_length, Hnd. }
      set (st1 := {| o_col := if zlen sets <=? o_col st + 1 then 0 else o_col st + 1; o_pn9 := _ |}).
      assert (E1 : o_col st1 = (o_col st + 1) mod zlen sets).
      { unfold st1. cbn [o_col]. destruct (Z.leb_spec (zlen sets) (o_col st + 1)).
        - replace (o_col st + 1) with (zlen sets) by lia. rewrite Z.mod_same by lia. reflexivity.
        - rewrite Z.mod_small by lia. reflexivity. }
      rewrite IH; [|rewrite E1; apply Z.mod_pos_bound; lia|assumption].
      cbn [rbind]. f_equal.
      * f_equal. rewrite E1, Zplus_mod_idemp_l; f_equal; unfold zlen; cbn [length]; lia.
      * f_equal. cbn [length]. rewrite map_seq_S. f_equal.
        -- unfold nth_symbol_fixed. rewrite Z.add_0_r, Z.mod_small by assumption. reflexivity.
        -- apply map_ext. intro n. unfold nth_symbol_fixed. rewrite E1, Zplus_mod_idemp_l.
           replace (o_col st + 1 + Z.of_nat n) with (o_col st + Z.of_nat (S n)) by lia. reflexivity.
    + apply NoDup_filter, freqs_NoDup.
    + apply Hps.
    + destruct Hps as [_ Hps]. rewrite Forall_forall in Hps |- *. intros f Hf. split; [now apply Hps|].
      specialize (Hps f Hf). apply usable_In in Hps. apply Hps.
Qed.

(** ** no pilots *)
Lemma no_pilots_symbol c d : band_ok (o_N c) (o_pl c) (o_pr c) -> length d = n_data (o_N c) (o_pl c) (o_pr c) [] ->
  insert_data (o_N c) (usable (o_N c) (o_pl c) (o_pr c)) d (repeat TZero (Z.to_nat (o_N c)))
  = Ok (layout (o_N c) (o_pl c) (o_pr c) [] [] d).
Proof.
  intros Hb Hd. assert (Ea : filter (fun f => negb (memb f [])) (usable (o_N c) (o_pl c) (o_pr c)) = usable (o_N c) (o_pl c) (o_pr c)).
  { generalize (usable (o_N c) (o_pl c) (o_pr c)). intro l. clear. induction l as [|x l IH]; [reflexivity|]. cbn [filter]; change (negb (memb x [])) with true; cbv iota; f_equal; exact IH. }
  unfold insert_data. rewrite Hd, <- avail_length, Ea, Nat.eqb_refl. f_equal.
  pose proof (symbol_layout (o_N c) (o_pl c) (o_pr c) [] [] d Hb) as H. cbn [map scatter] in H.
  rewrite Ea in H. apply H; [split; constructor|reflexivity|]. now rewrite <- Ea, avail_length.
Qed.

(** ** number of data tones *)
Lemma filter_length_split {A} (P : A -> bool) l : (length (filter P l) + length (filter (fun x => negb (P x)) l))%nat = length l.
Proof. induction l as [|x l IH]; [reflexivity|]. cbn [filter length]. destruct (P x); cbn [negb length]; lia. Qed.
Lemma filter_memb_length pset avail : NoDup pset -> NoDup avail -> Forall (fun f => In f avail) pset ->
  (length (filter (fun f => negb (memb f pset)) avail) + length pset = length avail)%nat.
Proof.
  intros Hp Ha Hi. rewrite <- (filter_length_split (fun f => memb f pset) avail).
  assert (E : length (filter (fun f => memb f pset) avail) = length pset).
  { apply Permutation_length. apply NoDup_Permutation; [now apply NoDup_filter|assumption|].
    intro x. rewrite filter_In, memb_In. rewrite Forall_forall in Hi. split; [tauto|]. intro Hx. split; auto. }
  lia.
Qed.
Lemma usable_length N pl pr : band_ok N pl pr -> Z.of_nat (length (usable N pl pr)) = N - pl - pr - 1.
Proof.
  intros [He Hp Hpl Hpr]. set (h := N / 2) in *.
  set (m := Z.to_nat (N - pl - pr)).
  assert (E : usable N pl pr = filter (fun f => negb (memb f [0])) (map (fun i => Z.of_nat i - h) (seq (Z.to_nat pl) m))).
  { unfold usable, freqs. replace (Z.to_nat N) with (Z.to_nat pl + (m + Z.to_nat pr))%nat by lia.
    rewrite !seq_app, !map_app, !filter_app. rewrite (filter_none _ (map _ (seq 0 (Z.to_nat pl)))).
    2:{ intros x Hx. apply in_map_iff in Hx as (i & <- & Hi). apply in_seq in Hi. unfold guard_or_dc. fold h.
        apply negb_false_iff. replace (Z.of_nat i - h <? - h + pl) with true by (symmetry; apply Z.ltb_lt; lia).
        rewrite orb_true_r. reflexivity. }
    rewrite (filter_none _ (map _ (seq (0 + Z.to_nat pl + m) (Z.to_nat pr)))).
    2:{ intros x Hx. apply in_map_iff in Hx as (i & <- & Hi). apply in_seq in Hi. unfold guard_or_dc. fold h.
        apply negb_false_iff. replace (h - pr <=? Z.of_nat i - h) with true by (symmetry; apply Z.leb_le; lia).
        rewrite orb_true_r. reflexivity. }
    rewrite app_nil_r, Nat.add_0_l. cbn [app]. apply filter_ext_in'. intros x Hx. apply in_map_iff in Hx as (i & <- & Hi).
    apply in_seq in Hi. unfold guard_or_dc, memb. fold h. cbn [existsb].
    replace (Z.of_nat i - h <? - h + pl) with false by (symmetry; apply Z.ltb_ge; lia).
    replace (h - pr <=? Z.of_nat i - h) with false by (symmetry; apply Z.leb_gt; lia). rewrite !orb_false_r. reflexivity. }
  rewrite E.
  pose proof (filter_memb_length [0] (map (fun i => Z.of_nat i - h) (seq (Z.to_nat pl) m))) as H.
  rewrite map_length, seq_length in H. cbn [length] in H. unfold m in *.
  match type of H with _ -> _ -> _ -> ?C => assert C end.
  { apply H.
    - repeat constructor. simpl. tauto.
    - apply NoDup_map_inj; [intros; lia|apply seq_NoDup].
    - constructor; [|constructor]. apply in_map_iff. exists (Z.to_nat h). split; [lia|]. apply in_seq. lia. }
  lia.
Qed.
Lemma n_data_formula N pl pr pset : band_ok N pl pr -> pset_ok N pl pr pset ->
  Z.of_nat (n_data N pl pr pset) = N - zlen pset - pl - pr - 1.
Proof.
  intros Hb [Hd Hi]. rewrite <- avail_length.
  assert (NoDup (usable N pl pr)) by (apply NoDup_filter, freqs_NoDup).
  pose proof (filter_memb_length pset (usable N pl pr) Hd H Hi). pose proof (usable_length N pl pr Hb). unfold zlen. lia.
Qed.

(** ** reading a symbol back *)
Lemma tone_at_layout N pl pr pset pv data f : 0 <= f + N / 2 < N ->
  tone_at N (layout N pl pr pset pv data) f = layout_tone N pl pr pset pv data f.
Proof.
  intro H. unfold tone_at, layout. rewrite (nth_map _ _ _ 0) by (rewrite freqs_length; lia).
  rewrite freqs_nth by lia. f_equal. lia.
Qed.
Lemma rank_nth N pl pr pset k : (k < n_data N pl pr pset)%nat ->
  rank N pl pr pset (nth k (filter (is_data N pl pr pset) (freqs N)) 0) = k.
Proof.
  intro Hk. unfold rank, n_data in *. set (P := is_data N pl pr pset) in *.
  set (f := nth k (filter P (freqs N)) 0).
  assert (Hf : In f (filter P (freqs N))) by (apply nth_In; assumption).
  apply filter_In in Hf as [Hf HP]. destruct (filter_rank N P f Hf HP) as [R1 R2].
  assert (Nd : NoDup (filter P (freqs N))) by (apply NoDup_filter, freqs_NoDup).
  rewrite (NoDup_nth _ 0) in Nd. apply Nd; try assumption.
Qed.
Lemma read_data_layout N pl pr pset pv data : length data = n_data N pl pr pset ->
  read_data N pl pr pset (layout N pl pr pset pv data) = data.
Proof.
  intro Hd. unfold read_data. apply list_eq_nth with ((0, 0) : gauss).
  - rewrite map_length. unfold n_data in Hd. lia.
  - intros k Hk. rewrite map_length in Hk. fold (n_data N pl pr pset) in Hk.
    rewrite (nth_map _ _ _ 0) by (exact Hk). set (f := nth k (filter (is_data N pl pr pset) (freqs N)) 0).
    assert (Hf : In f (filter (is_data N pl pr pset) (freqs N))) by (apply nth_In; exact Hk).
    apply filter_In in Hf as [Hf HP]. apply freqs_In in Hf. rewrite tone_at_layout by assumption.
    unfold layout_tone. unfold is_data in HP. apply andb_true_iff in HP as [H1 H2]. apply negb_true_iff in H1, H2. rewrite H1, H2.
    cbn [tone_data]. f_equal. now apply rank_nth.
Qed.
Lemma position_of_nth l j : NoDup l -> (j < length l)%nat -> position (nth j l 0) l = j.
Proof.
  intros Hd Hj. destruct (position_nth (nth j l 0) l (nth_In l 0 Hj)) as [H1 H2].
  rewrite (NoDup_nth _ 0) in Hd. now apply Hd.
Qed.
Lemma read_pilots_layout N pl pr pset pv data : band_ok N pl pr -> pset_ok N pl pr pset -> length pv = length pset ->
  read_pilots N pset (layout N pl pr pset pv data) = map TPilot pv.
Proof.
  intros Hb [Hd Hi] Hl. unfold read_pilots. apply list_eq_nth with TZero; [now rewrite !map_length|].
  intros j Hj. rewrite map_length in Hj. rewrite (nth_map _ _ _ 0) by assumption.
  assert (Hin : In (nth j pset 0) pset) by (now apply nth_In).
  rewrite Forall_forall in Hi. specialize (Hi _ Hin). apply usable_In in Hi as [Hr _].
  rewrite tone_at_layout by assumption. unfold layout_tone.
  apply memb_In in Hin. rewrite Hin. rewrite position_of_nth by assumption.
  rewrite (nth_map _ _ _ (0%Q, 0%Q)) by lia. reflexivity.
Qed.

(** ** messages *)
Definition valid_sf (sf : Z) : Prop := sf = 1 \/ sf = 2 \/ sf = 4.
Lemma mod_mult a b : (b <> 0)%nat -> Nat.modulo (a * b) b = 0%nat.
Proof. intro. now apply Nat.mod_mul. Qed.
Lemma symbol_data_length m sf q blk : length blk = (q * group_size m)%nat ->
  length (symbol_data m sf blk) = (sf * q)%nat.
Proof.
  intro H. unfold symbol_data. pose proof (group_size_pos m). rewrite spread_length, map_length, chunks_length, H; try lia.
  - now rewrite Nat.div_mul by lia.
  - rewrite H. apply mod_mult. lia.
Qed.
Lemma map_spec_cols m sf q cols : sf = 1%nat \/ sf = 2%nat \/ sf = 4%nat ->
  Forall (fun b => length b = (q * group_size m)%nat) cols ->
  (do mapped <- mapM (convert_column m) cols; mapM (frequency_spread (Z.of_nat sf)) mapped)
  = Ok (map (symbol_data m sf) cols).
Proof.
  intros Hsf Hc. pose proof (group_size_pos m).
  rewrite (mapM_map (convert_column m) (fun b => map (point m) (chunks (group_size m) b))).
  - cbn [rbind]. rewrite (mapM_map _ (spread sf)) by (intros; now apply frequency_spread_ok).
    rewrite map_map. reflexivity.
  - intros b Hb. rewrite Forall_forall in Hc. rewrite convert_spec; [reflexivity|]. rewrite (Hc b Hb). apply mod_mult. lia.
Qed.
Lemma bps_group m : bits_per_symbol m = Z.of_nat (group_size m).
Proof. destruct m; reflexivity. Qed.

(** [q]: data points per symbol before spreading *)
Record good_cfg (c : ofdm_cfg) (sf q : nat) : Prop := {
  gc_band : band_ok (o_N c) (o_pl c) (o_pr c);
  gc_sf : o_sf c = Z.of_nat sf;
  gc_sf1 : sf = 1%nat \/ sf = 2%nat \/ sf = 4%nat;
  gc_q : o_N c - n_pilots c - o_pl c - o_pr c - 1 = Z.of_nat (sf * q);
  gc_q0 : (0 < q)%nat
}.
Lemma split_good c sf q : good_cfg c sf q -> split_length c = Z.of_nat (q * group_size (o_mod c)).
Proof.
  intros [_ Hs Hs1 Hq _]. unfold split_length. rewrite Hq, Hs, bps_group. rewrite <- Nat2Z.inj_mul.
  assert (0 < sf)%nat by lia. replace (sf * q * group_size (o_mod c))%nat with (q * group_size (o_mod c) * sf)%nat by lia.
  rewrite Nat2Z.inj_mul. rewrite Z.quot_mul by lia. lia.
Qed.
(** everything but the pilots *)
Lemma ofdm_symbols_good c sf q st bits : good_cfg c sf q ->
  Nat.modulo (length bits) (q * group_size (o_mod c)) = 0%nat ->
  ofdm_symbols c st bits false
  = add_pilots_and_padding c st (map (symbol_data (o_mod c) sf) (chunks (q * group_size (o_mod c)) bits)).
Proof.
  intros Hg Hm. unfold ofdm_symbols. rewrite (split_good c sf q Hg).
  pose proof (group_size_pos (o_mod c)) as Hgs. pose proof (gc_q0 _ _ _ Hg) as Hq0.
  set (sl := (q * group_size (o_mod c))%nat) in *. assert (Hsl : (0 < sl)%nat) by (unfold sl; nia).
  replace (Z.of_nat sl <=? 0) with false by (symmetry; apply Z.leb_gt; lia).
  unfold zlen. rewrite <- Nat2Z.inj_mod, Hm. cbn [Z.of_nat Z.eqb negb andb]. rewrite Nat2Z.id.
  rewrite reshape_rows_ok by assumption. cbn [rbind]. rewrite (gc_sf _ _ _ Hg).
  pose proof (map_spec_cols (o_mod c) sf q (chunks sl bits) (gc_sf1 _ _ _ Hg) (chunks_length_all sl bits Hsl Hm)) as E.
  rewrite E. reflexivity.
Qed.
Lemma symbol_data_all c sf q bits : good_cfg c sf q -> Nat.modulo (length bits) (q * group_size (o_mod c)) = 0%nat ->
  Forall (fun d => length d = (sf * q)%nat) (map (symbol_data (o_mod c) sf) (chunks (q * group_size (o_mod c)) bits)).
Proof.
  intros Hg Hm. pose proof (group_size_pos (o_mod c)) as Hgs. pose proof (gc_q0 _ _ _ Hg) as Hq0.
  pose proof (chunks_length_all (q * group_size (o_mod c)) bits ltac:(nia) Hm) as H.
  rewrite Forall_forall in *. intros d Hd. apply in_map_iff in Hd as (b & <- & Hb). apply symbol_data_length. now apply H.
Qed.

(** ** whole calls *)
Lemma good_nd c sf q pset : good_cfg c sf q -> pset_ok (o_N c) (o_pl c) (o_pr c) pset -> zlen pset = n_pilots c ->
  n_data (o_N c) (o_pl c) (o_pr c) pset = (sf * q)%nat.
Proof.
  intros Hg Hp Hl. pose proof (n_data_formula _ _ _ _ (gc_band _ _ _ Hg) Hp) as H. rewrite Hl, (gc_q _ _ _ Hg) in H. lia.
Qed.
Lemma symbols_pn9 c sf q sets st bits : good_cfg c sf q ->
  o_pilots c = Some (sets, PvPn9) -> 0 < n_pilots c ->
  Forall (fun s => pset_ok (o_N c) (o_pl c) (o_pr c) s /\ zlen s = n_pilots c) sets ->
  0 <= o_col st < zlen sets ->
  Nat.modulo (length bits) (q * group_size (o_mod c)) = 0%nat ->
  let msg := map (symbol_data (o_mod c) sf) (chunks (q * group_size (o_mod c)) bits) in
  let P := Z.to_nat (n_pilots c) in
  ofdm_symbols c st bits false
  = ({| o_col := (o_col st + zlen msg) mod zlen sets;
        o_pn9 := {| pn_seed := pn_seed (o_pn9 st); pn_value := pn_iter (length msg * P) (pn_value (o_pn9 st)) |} |},
     Ok (map (nth_symbol (o_N c) (o_pl c) (o_pr c) sets P (o_col st) (pn_value (o_pn9 st)) msg) (seq 0 (length msg)))).
Proof.
  intros Hg Hp Hn Hs Hc Hm msg P. rewrite (ofdm_symbols_good c sf q) by assumption. fold msg.
  unfold add_pilots_and_padding. rewrite channels_spec by apply (gc_band _ _ _ Hg). rewrite Hp.
  replace (0 <? n_pilots c) with true by (symmetry; now apply Z.ltb_lt).
  apply loop_pn9 with (nd := (sf * q)%nat).
  - apply (gc_band _ _ _ Hg).
  - unfold sets_ok. rewrite Forall_forall in *. intros s Hin. destruct (Hs s Hin) as [H1 H2]. split; [assumption|].
    split; [unfold zlen in *; unfold P; lia|]. now apply good_nd.
  - intro; subst. unfold zlen in Hc. cbn in Hc. lia.
  - assumption.
  - now apply symbol_data_all.
Qed.
Lemma symbols_array c sf q sets vs st bits : good_cfg c sf q ->
  o_pilots c = Some (sets, PvArray vs) -> 0 < n_pilots c -> zlen vs = n_pilots c ->
  Forall (fun s => pset_ok (o_N c) (o_pl c) (o_pr c) s /\ zlen s = n_pilots c) sets ->
  0 <= o_col st < zlen sets ->
  Nat.modulo (length bits) (q * group_size (o_mod c)) = 0%nat ->
  let msg := map (symbol_data (o_mod c) sf) (chunks (q * group_size (o_mod c)) bits) in
  ofdm_symbols c st bits false
  = ({| o_col := (o_col st + zlen msg) mod zlen sets; o_pn9 := o_pn9 st |},
     Ok (map (nth_symbol_fixed (o_N c) (o_pl c) (o_pr c) sets vs (o_col st) msg) (seq 0 (length msg)))).
Proof.
  intros Hg Hp Hn Hv Hs Hc Hm msg. rewrite (ofdm_symbols_good c sf q) by assumption. fold msg.
  unfold add_pilots_and_padding. rewrite channels_spec by apply (gc_band _ _ _ Hg). rewrite Hp.
  replace (0 <? n_pilots c) with true by (symmetry; now apply Z.ltb_lt).
  apply loop_array with (nd := (sf * q)%nat).
  - apply (gc_band _ _ _ Hg).
  - unfold sets_ok. rewrite Forall_forall in *. intros s Hin. destruct (Hs s Hin) as [H1 H2]. split; [assumption|].
    split; [unfold zlen in *; lia|]. now apply good_nd.
  - intro; subst. unfold zlen in Hc. cbn in Hc. lia.
  - intro; subst. unfold zlen in Hv. cbn in Hv. lia.
  - assumption.
  - now apply symbol_data_all.
Qed.
Lemma symbols_no_pilots c sf q st bits : good_cfg c sf q -> o_pilots c = None ->
  Nat.modulo (length bits) (q * group_size (o_mod c)) = 0%nat ->
  let msg := map (symbol_data (o_mod c) sf) (chunks (q * group_size (o_mod c)) bits) in
  ofdm_symbols c st bits false = (st, Ok (map (layout (o_N c) (o_pl c) (o_pr c) [] []) msg)).
Proof.
  intros Hg Hp Hm msg. rewrite (ofdm_symbols_good c sf q) by assumption. fold msg.
  unfold add_pilots_and_padding. rewrite channels_spec by apply (gc_band _ _ _ Hg). rewrite Hp. f_equal.
  apply mapM_map. intros d Hd. apply no_pilots_symbol; [apply (gc_band _ _ _ Hg)|].
  pose proof (symbol_data_all c sf q bits Hg Hm) as H. rewrite Forall_forall in H. rewrite (H d Hd).
  symmetry. apply good_nd; [assumption|split; constructor|]. unfold n_pilots. rewrite Hp. reflexivity.
Qed.

(** ** feeding in pieces *)
Lemma place_draw N pv pset : forall pn pvi avail col pn' pvi' r,
  place_pilots N pv pset pn pvi avail col = (pn', pvi', Ok r) ->
  exists ps, draw pv pn pvi (length pset) = (pn', pvi', Ok ps).
Proof.
  induction pset as [|i pset IH]; intros pn pvi avail col pn' pvi' r H; cbn [place_pilots] in H; cbn [length draw].
  - inversion H; subst. eauto.
  - destruct (next_pilot pv pn pvi) as [[pn1 pvi1] [p|e]]; [|discriminate].
    destruct (np_index N (i + N / 2)); [|discriminate]. destruct (py_remove i avail); [|discriminate].
    destruct (IH _ _ _ _ _ _ _ H) as [ps Hp]. rewrite Hp. cbn [rbind]. eauto.
Qed.
(** the pilot value index is back at its start after each symbol *)
Definition pv_fits (pv : pilot_values) (P : nat) : Prop :=
  match pv with PvPn9 => True | PvArray vs => length vs = P /\ (0 < P)%nat end.
Lemma draw_pvi pv P pn pn' pvi' ps : pv_fits pv P -> draw pv pn 0 P = (pn', pvi', Ok ps) -> pvi' = 0%nat.
Proof.
  destruct pv as [|vs]; cbn [pv_fits]; intros Hf H.
  - rewrite draw_pn9 in H. congruence.
  - destruct Hf as [H1 H2]. rewrite draw_array in H by lia. congruence.
Qed.
Lemma loop_app c sets pv glob P : pv_fits pv P -> Forall (fun s : list Z => length s = P) sets ->
  forall a b st, add_pilots_loop c sets pv glob st 0 (a ++ b)
  = let '(st1, ra) := add_pilots_loop c sets pv glob st 0 a in
    match ra with
    | Err e => (st1, Err e)
    | Ok ya => let '(st2, rb) := add_pilots_loop c sets pv glob st1 0 b in (st2, do yb <- rb; Ok (ya ++ yb))
    end.
Proof.
  intros Hf Hs. induction a as [|d a IH]; intros b st.
  - cbn [app add_pilots_loop]. destruct (add_pilots_loop c sets pv glob st 0 b) as [st2 [yb|e]]; reflexivity.
  - cbn [app add_pilots_loop]. destruct (np_index (zlen sets) (o_col st)) as [ci|e] eqn:Ei; [|reflexivity].
    destruct (place_pilots (o_N c) pv (nth ci sets []) (o_pn9 st) 0 glob (repeat TZero (Z.to_nat (o_N c)))) as [[pn1 pvi1] [[avail col]|e]] eqn:Ep; [|reflexivity].
    destruct (insert_data (o_N c) avail d col) as [sym|e]; [|reflexivity].
    assert (Hci : (ci < length sets)%nat).
    { unfold np_index, zlen in Ei. destruct ((0 <=? o_col st) && (o_col st <? Z.of_nat (length sets))) eqn:E1.
      - apply andb_true_iff in E1 as [E1 E2]. apply Z.leb_le in E1. apply Z.ltb_lt in E2. injection Ei as <-. lia.
      - destruct ((- Z.of_nat (length sets) <=? o_col st) && (o_col st <? 0)) eqn:E2; [|discriminate].
        apply andb_true_iff in E2 as [E2 E3]. apply Z.leb_le in E2. apply Z.ltb_lt in E3. injection Ei as <-. lia. }
    destruct (place_draw _ _ _ _ _ _ _ _ _ _ Ep) as [ps Hps].
    rewrite Forall_forall in Hs. rewrite (Hs (nth ci sets []) (nth_In sets [] Hci)) in Hps.
    apply draw_pvi in Hps; [|assumption]. subst pvi1. rewrite IH.
    destruct (add_pilots_loop c sets pv glob {| o_col := _; o_pn9 := pn1 |} 0 a) as [st1 [ya|e]]; [|reflexivity].
    cbn [rbind]. destruct (add_pilots_loop c sets pv glob st1 0 b) as [st2 [yb|e]]; reflexivity.
Qed.

(** pilots sets form a matrix and there are as many values as pilots *)
Definition matrix (c : ofdm_cfg) : Prop :=
  match o_pilots c with
  | None => True
  | Some (sets, pv) => Forall (fun s : list Z => length s = length (hd [] sets)) sets
                       /\ match pv with PvPn9 => True | PvArray vs => length vs = length (hd [] sets) end
  end.
Lemma add_pilots_app c st a b : matrix c -> forall st2 y,
  add_pilots_and_padding c st (a ++ b) = (st2, Ok y) <->
  exists st1 ya yb, add_pilots_and_padding c st a = (st1, Ok ya) /\ add_pilots_and_padding c st1 b = (st2, Ok yb) /\ y = ya ++ yb.
Proof.
  intros Hm st2 y. unfold add_pilots_and_padding. destruct (channels_global c) as [glob|e].
  2:{ split; [discriminate|]. intros (st1 & ya & yb & H & _). discriminate. }
  assert (NoPil : forall F : list gauss -> res (list tone),
    (st, mapM F (a ++ b)) = (st2, Ok y) <->
    exists st1 ya yb, (st, mapM F a) = (st1, Ok ya) /\ (st1, mapM F b) = (st2, Ok yb) /\ y = ya ++ yb).
  { intro F. rewrite mapM_app. split.
    - destruct (mapM F a) as [ya|]; cbn [rbind]; [|discriminate]. destruct (mapM F b) as [yb|]; cbn [rbind]; [|discriminate].
      intro H. inversion H; subst. exists st2, ya, yb. auto.
    - intros (st1 & ya & yb & H1 & H2 & ->). inversion H1 as [[E1 E1']]. inversion H2 as [[E2 E2']]. subst st1.
      rewrite E1', E2'. reflexivity. }
  unfold matrix in Hm. unfold n_pilots. destruct (o_pilots c) as [[sets pv]|]; [|apply NoPil].
  destruct Hm as [H1 H2].
  destruct (0 <? match sets with [] => 0 | s :: _ => zlen s end) eqn:En; [|destruct sets; apply NoPil].
  assert (Hpos : (0 < length (hd [] sets))%nat).
  { apply Z.ltb_lt in En. destruct sets as [|s sets]; [lia|]. cbn [hd]. unfold zlen in En. lia. }
  assert (Hfit : pv_fits pv (length (hd [] sets))) by (destruct pv; cbn [pv_fits]; auto).
  pose proof (loop_app c sets pv glob (length (hd [] sets)) Hfit H1 a b st) as E.
  assert (Go : add_pilots_loop c sets pv glob st 0 (a ++ b) = (st2, Ok y) <->
    exists st1 ya yb, add_pilots_loop c sets pv glob st 0 a = (st1, Ok ya) /\ add_pilots_loop c sets pv glob st1 0 b = (st2, Ok yb) /\ y = ya ++ yb).
  { rewrite E. split.
    - destruct (add_pilots_loop c sets pv glob st 0 a) as [st1 [ya|e]]; [|discriminate].
      destruct (add_pilots_loop c sets pv glob st1 0 b) as [st3 [yb|e]] eqn:Eb; [|discriminate].
      cbn [rbind]. intro H. inversion H; subst. exists st1, ya, yb. auto.
    - intros (st1 & ya & yb & Ha & Hb & ->). rewrite Ha, Hb. reflexivity. }
  destruct sets as [|s0 sets]; [discriminate|]. exact Go.
Qed.
Lemma chunks_app_mod {A} n (a b : list A) : (0 < n)%nat -> Nat.modulo (length a) n = 0%nat -> chunks n (a ++ b) = chunks n a ++ chunks n b.
Proof.
  intros Hn. revert a. apply (block_ind n); [assumption|reflexivity|].
  intros x l Hx IH. rewrite <- app_assoc. rewrite (chunks_app n x (l ++ b)), (chunks_app n x l) by assumption. cbn [app]. f_equal. exact IH.
Qed.
Lemma mod_add_0 a b n : (0 < n)%nat -> Nat.modulo a n = 0%nat -> Nat.modulo (a + b) n = Nat.modulo b n.
Proof. intros Hn Ha. rewrite Nat.add_mod by lia. rewrite Ha, Nat.add_0_l. apply Nat.mod_mod. lia. Qed.
Lemma ofdm_symbols_whole c st bits : 0 < split_length c -> zlen bits mod split_length c = 0 ->
  ofdm_symbols c st bits false =
  match (do mapped <- mapM (convert_column (o_mod c)) (chunks (Z.to_nat (split_length c)) bits);
         mapM (frequency_spread (o_sf c)) mapped) with
  | Err e => (st, Err e) | Ok spread => add_pilots_and_padding c st spread end.
Proof.
  intros Hs Hm. unfold ofdm_symbols. replace (split_length c <=? 0) with false by (symmetry; apply Z.leb_gt; lia).
  rewrite Hm. cbn [Z.eqb negb andb]. rewrite reshape_rows_ok; [reflexivity|].
  unfold zlen in Hm. rewrite <- (Z2Nat.id (split_length c)) in Hm by lia. rewrite <- Nat2Z.inj_mod in Hm. lia.
Qed.
Lemma feed_app c st a b : matrix c -> 0 < split_length c -> zlen a mod split_length c = 0 -> zlen b mod split_length c = 0 ->
  forall st2 y, ofdm_symbols c st (a ++ b) false = (st2, Ok y) <->
  exists st1 ya yb, ofdm_symbols c st a false = (st1, Ok ya) /\ ofdm_symbols c st1 b false = (st2, Ok yb) /\ y = ya ++ yb.
Proof.
  intros Hm Hs Ha Hb st2 y.
  assert (Hab : zlen (a ++ b) mod split_length c = 0).
  { rewrite zlen_app, Z.add_mod, Ha, Hb by lia. reflexivity. }
  rewrite (ofdm_symbols_whole c st (a ++ b)) by assumption. rewrite (ofdm_symbols_whole c st a) by assumption.
  setoid_rewrite (fun s => ofdm_symbols_whole c s b Hs Hb).
  rewrite chunks_app_mod.
  2:{ lia. }
  2:{ unfold zlen in Ha. rewrite <- (Z2Nat.id (split_length c)) in Ha by lia. rewrite <- Nat2Z.inj_mod in Ha. lia. }
  rewrite mapM_app.
  destruct (mapM (convert_column (o_mod c)) (chunks (Z.to_nat (split_length c)) a)) as [ma|e]; cbn [rbind].
  2:{ split; [discriminate|]. intros (? & ? & ? & H & _). discriminate. }
  destruct (mapM (convert_column (o_mod c)) (chunks (Z.to_nat (split_length c)) b)) as [mb|e]; cbn [rbind].
  2:{ split; [discriminate|]. intros (? & ? & ? & _ & H & _). discriminate. }
  rewrite mapM_app.
  destruct (mapM (frequency_spread (o_sf c)) ma) as [sa|e]; cbn [rbind].
  2:{ split; [discriminate|]. intros (? & ? & ? & H & _). discriminate. }
  destruct (mapM (frequency_spread (o_sf c)) mb) as [sb|e]; cbn [rbind].
  2:{ split; [discriminate|]. intros (? & ? & ? & _ & H & _). discriminate. }
  now apply add_pilots_app.
Qed.
Lemma ofdm_new_inv N mn pl pr sf pi pv ips seed c st : ofdm_new N mn pl pr sf pi pv ips seed = Ok (c, st) ->
  is_pow2 N = true /\ valid_sf sf /\ o_N c = N /\ o_pl c = pl /\ o_pr c = pr /\ o_sf c = sf
  /\ get_modulator mn = Ok (o_mod c)
  /\ o_pilots c = match pi, pv with Some s, Some v => Some (s, v) | _, _ => None end
  /\ match pi, pv with Some s, Some (PvArray vs) => length vs = length (hd [] s) | _, _ => True end
  /\ st = {| o_col := ips; o_pn9 := pn9_new seed |}.
Proof.
  unfold ofdm_new. destruct (is_pow2 N); cbn [negb]; [|discriminate].
  assert (Hsf : negb ((sf =? 1) || (sf =? 2) || (sf =? 4)) = false -> valid_sf sf).
  { intro H. apply negb_false_iff in H. unfold valid_sf.
    destruct (Z.eqb_spec sf 1); [auto|]. destruct (Z.eqb_spec sf 2); [auto|]. destruct (Z.eqb_spec sf 4); [auto|discriminate]. }
  destruct pi as [sets|], pv as [v|]; try discriminate.
  - destruct (negb ((sf =? 1) || (sf =? 2) || (sf =? 4))); [discriminate|].
    destruct (negb (forallb ordered sets)); [discriminate|].
    destruct v as [|vs]; cbn [rbind].
    + destruct (get_modulator mn) as [m|]; [|discriminate]. cbn [rbind]. intro H. inversion H; subst. cbn. tauto.
    + destruct (Nat.eqb_spec (length vs) (length (hd [] sets))); [|discriminate]. cbn [rbind].
      destruct (get_modulator mn) as [m|]; [|discriminate]. cbn [rbind]. intro H. inversion H; subst. cbn. auto 20.
  - destruct (negb ((sf =? 1) || (sf =? 2) || (sf =? 4))); [discriminate|]. cbn [rbind].
    destruct (get_modulator mn) as [m|]; [|discriminate]. cbn [rbind]. intro H. inversion H; subst. cbn. auto 20.
Qed.
Lemma pow2_even N : is_pow2 N = true -> 1 < N -> N = 2 * (N / 2) /\ 0 < N / 2.
Proof.
  unfold is_pow2. intros H H1. apply andb_true_iff in H as [_ H]. apply Z.eqb_eq in H.
  assert (0 < Z.log2 N) by (apply Z.log2_pos; lia).
  assert (E : N = 2 ^ (Z.log2 N - 1) * 2).
  { rewrite <- H at 1. replace (Z.log2 N) with ((Z.log2 N - 1) + 1) at 1 by lia. rewrite Z.pow_add_r by lia. reflexivity. }
  assert (N / 2 = 2 ^ (Z.log2 N - 1)) by (rewrite E at 1; now rewrite Z.div_mul by lia).
  assert (0 < 2 ^ (Z.log2 N - 1)) by (apply Z.pow_pos_nonneg; lia). lia.
Qed.
