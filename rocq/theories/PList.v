(** * Generic lemmas about the list substrate *)
From Verif Require Import Py.

Lemma rbind_ok {A B} (r : res A) (f : A -> res B) b :
  rbind r f = Ok b -> exists a, r = Ok a /\ f a = Ok b.
Proof. destruct r; simpl; [eauto | discriminate]. Qed.

Lemma zlen_app {A} (a b : list A) : zlen (a ++ b) = zlen a + zlen b.
Proof. unfold zlen. rewrite app_length. lia. Qed.
Lemma zlen_nonneg {A} (l : list A) : 0 <= zlen l.
Proof. unfold zlen. lia. Qed.
Lemma zlen_map {A B} (f : A -> B) l : zlen (map f l) = zlen l.
Proof. unfold zlen. now rewrite map_length. Qed.
Lemma zlen_repeat {A} (x : A) n : zlen (repeat x n) = Z.of_nat n.
Proof. unfold zlen. now rewrite repeat_length. Qed.
#[global] Hint Rewrite @zlen_app @zlen_map @zlen_repeat : zlen.

(** ** chunks *)
Lemma chunks_aux_fuel {A} n (f1 f2 : nat) (l : list A) :
  (0 < n)%nat -> (length l <= f1)%nat -> (length l <= f2)%nat -> chunks_aux f1 n l = chunks_aux f2 n l.
Proof.
  intro Hn. revert f2 l. induction f1 as [|f1 IH]; intros f2 l H1 H2.
  - destruct l; simpl in *; [destruct f2; reflexivity | lia].
  - destruct l as [|a l]; [destruct f2; reflexivity|].
    destruct f2 as [|f2]; [simpl in H2; lia|].
    cbn [chunks_aux]. f_equal. destruct n; [lia|]. cbn [skipn length] in *.
    apply IH; rewrite skipn_length; lia.
Qed.

Lemma chunks_nil {A} n : @chunks A n [] = [].
Proof. reflexivity. Qed.

Lemma chunks_app {A} n (a l : list A) :
  (0 < n)%nat -> length a = n -> chunks n (a ++ l) = a :: chunks n l.
Proof.
  intros Hn Ha. unfold chunks. rewrite app_length.
  destruct (length a + length l)%nat as [|f] eqn:E; [lia|].
  cbn [chunks_aux].
  destruct (a ++ l) as [|x r] eqn:Ex.
  { apply (f_equal (@length A)) in Ex. rewrite app_length in Ex. simpl in Ex. lia. }
  rewrite <- Ex. subst n.
  rewrite firstn_app, Nat.sub_diag, firstn_O, app_nil_r, firstn_all.
  rewrite skipn_app, Nat.sub_diag, skipn_all. simpl.
  f_equal. apply chunks_aux_fuel; lia.
Qed.

Lemma chunks_short {A} n (l : list A) :
  (0 < n)%nat -> l <> [] -> (length l <= n)%nat -> chunks n l = [l].
Proof.
  intros Hn Hl Hlen. unfold chunks. destruct l as [|x r]; [congruence|].
  cbn [length chunks_aux]. rewrite firstn_all2 by exact Hlen. rewrite skipn_all2 by exact Hlen.
  destruct (length r); reflexivity.
Qed.

Lemma chunks_cons {A} n (l : list A) :
  (0 < n)%nat -> l <> [] -> chunks n l = firstn n l :: chunks n (skipn n l).
Proof.
  intros Hn Hl. unfold chunks. destruct l as [|x r]; [congruence|].
  cbn [length chunks_aux]. f_equal. apply chunks_aux_fuel; [assumption| |lia].
  destruct n; [lia|]. cbn [skipn]. rewrite skipn_length. lia.
Qed.

Lemma concat_chunks {A} n (l : list A) : (0 < n)%nat -> concat (chunks n l) = l.
Proof.
  intro Hn. remember (length l) as m eqn:Hm. revert l Hm.
  induction m as [m IH] using lt_wf_ind. intros l Hm.
  destruct l as [|x r]; [reflexivity|].
  rewrite chunks_cons by (auto; discriminate). cbn [concat].
  rewrite (IH (length (skipn n (x :: r)))); [apply firstn_skipn| |reflexivity].
  rewrite skipn_length. cbn [length] in *. lia.
Qed.

(** Induction by blocks of n elements *)
Lemma block_ind {A} (n : nat) (P : list A -> Prop) :
  (0 < n)%nat -> P [] -> (forall a l, length a = n -> P l -> P (a ++ l)) ->
  forall l, Nat.modulo (length l) n = 0%nat -> P l.
Proof.
  intros Hn H0 HS l. remember (length l) as m eqn:Hm. revert l Hm.
  induction m as [m IH] using lt_wf_ind. intros l Hm Hmod.
  destruct l as [|x r]; [assumption|].
  assert (Hle : (n <= m)%nat).
  { destruct (Nat.le_gt_cases n m); auto. rewrite Nat.mod_small in Hmod by lia. simpl in Hm. lia. }
  rewrite <- (firstn_skipn n (x :: r)). apply HS.
  - rewrite firstn_length. lia.
  - apply (IH (m - n)%nat); [lia| rewrite skipn_length; lia |].
    rewrite <- Hmod. replace m with ((m - n) + 1 * n)%nat at 2 by lia.
    now rewrite Nat.mod_add by lia.
Qed.

Lemma reshape_rows_ok {A} n (l : list A) :
  Nat.modulo (length l) n = 0%nat -> reshape_rows n l = Ok (chunks n l).
Proof. intro H. unfold reshape_rows. now rewrite H. Qed.
Lemma reshape_rows_err {A} n (l : list A) :
  Nat.modulo (length l) n <> 0%nat -> reshape_rows n l = Err ValueError.
Proof. intro H. unfold reshape_rows. apply Nat.eqb_neq in H. now rewrite H. Qed.

Lemma chunks_length_all {A} n (l : list A) :
  (0 < n)%nat -> Nat.modulo (length l) n = 0%nat -> Forall (fun c => length c = n) (chunks n l).
Proof.
  intros Hn. revert l. apply (block_ind n); [assumption|constructor|].
  intros a l Ha IH. rewrite chunks_app by assumption. constructor; assumption.
Qed.

Lemma chunks_length {A} n (l : list A) :
  (0 < n)%nat -> Nat.modulo (length l) n = 0%nat -> length (chunks n l) = (length l / n)%nat.
Proof.
  intros Hn. revert l. apply (block_ind n); [assumption| |].
  - simpl. rewrite Nat.div_0_l by lia. reflexivity.
  - intros a l Ha IH. rewrite chunks_app by assumption. cbn [length]. rewrite IH, app_length, Ha.
    replace (n + length l)%nat with (length l + 1 * n)%nat by lia. rewrite Nat.div_add by lia. lia.
Qed.

Lemma chunks_concat {A} n (ls : list (list A)) :
  (0 < n)%nat -> Forall (fun c => length c = n) ls -> chunks n (concat ls) = ls.
Proof.
  intros Hn H. induction H as [|c ls Hc H IH]; [reflexivity|].
  cbn [concat]. rewrite chunks_app by assumption. now rewrite IH.
Qed.

(** ** map2 *)
Lemma map2_length {A B C} (f : A -> B -> C) a b : length (map2 f a b) = Nat.min (length a) (length b).
Proof. revert b. induction a; destruct b; simpl; auto. Qed.
Lemma map2_nth_error {A B C} (f : A -> B -> C) a b i :
  nth_error (map2 f a b) i =
  match nth_error a i, nth_error b i with Some x, Some y => Some (f x y) | _, _ => None end.
Proof.
  revert b i. induction a as [|x a IH]; destruct b as [|y b]; destruct i; simpl; auto.
  destruct (nth_error a i); reflexivity.
Qed.
Lemma map2_nth {A B C} (f : A -> B -> C) a b i da db dc :
  (i < length a)%nat -> (i < length b)%nat -> nth i (map2 f a b) dc = f (nth i a da) (nth i b db).
Proof.
  revert b i. induction a as [|x a IH]; destruct b as [|y b]; destruct i; simpl; intros; try lia; auto.
  apply IH; lia.
Qed.
Lemma map2_app {A B C} (f : A -> B -> C) a1 a2 b1 b2 :
  length a1 = length b1 -> map2 f (a1 ++ a2) (b1 ++ b2) = map2 f a1 b1 ++ map2 f a2 b2.
Proof. revert b1. induction a1; destruct b1; simpl; intros; try lia; auto. f_equal. auto. Qed.
Lemma map2_firstn {A B C} (f : A -> B -> C) n a b :
  firstn n (map2 f a b) = map2 f (firstn n a) (firstn n b).
Proof.
  revert a b. induction n; [reflexivity|]. intros [|x a] [|y b]; simpl; auto. f_equal. auto.
Qed.

(** ** set_nth / set_slice / scatter *)
Lemma set_nth_length {A} i (v : A) l : length (set_nth i v l) = length l.
Proof. revert i. induction l; destruct i; simpl; auto. Qed.
Lemma nth_set_nth {A} i j (v d : A) l :
  nth j (set_nth i v l) d = if (Nat.eqb i j && Nat.ltb i (length l))%bool then v else nth j l d.
Proof.
  revert i j. induction l as [|x l IH]; intros i j.
  - simpl (length _). replace (Nat.ltb i 0) with false by (symmetry; apply Nat.ltb_ge; lia).
    rewrite andb_false_r. destruct i, j; reflexivity.
  - destruct i, j; simpl; auto. rewrite IH. reflexivity.
Qed.
Lemma nth_error_set_nth {A} i j (v : A) l :
  nth_error (set_nth i v l) j =
  if (Nat.eqb i j && Nat.ltb i (length l))%bool then Some v else nth_error l j.
Proof.
  revert i j. induction l as [|x l IH]; intros i j.
  - simpl (length _). replace (Nat.ltb i 0) with false by (symmetry; apply Nat.ltb_ge; lia).
    rewrite andb_false_r. destruct i, j; reflexivity.
  - destruct i, j; simpl; auto. rewrite IH. reflexivity.
Qed.
Lemma set_slice_length {A} lo (vs : list A) l : length (set_slice lo vs l) = length l.
Proof. revert lo l. induction vs; simpl; intros; auto. rewrite IHvs. apply set_nth_length. Qed.
Lemma set_nth_app_r {A} (a : list A) i v b :
  set_nth (length a + i) v (a ++ b) = a ++ set_nth i v b.
Proof. induction a; simpl; auto. now rewrite IHa. Qed.
Lemma set_slice_app_r {A} (a vs b : list A) i :
  set_slice (length a + i) vs (a ++ b) = a ++ set_slice i vs b.
Proof.
  revert i b. induction vs as [|v vs IH]; intros i b; simpl; [reflexivity|].
  rewrite set_nth_app_r. rewrite <- IH. f_equal. lia.
Qed.
(** writing a whole prefix *)
Lemma set_slice_prefix {A} (vs l : list A) :
  (length vs <= length l)%nat -> set_slice 0 vs l = vs ++ skipn (length vs) l.
Proof.
  revert l. induction vs as [|v vs IH]; intros l H; [reflexivity|].
  destruct l as [|x l]; [simpl in H; lia|]. simpl set_slice.
  change (set_slice 1 vs (v :: l)) with (set_slice (length [v] + 0) vs ([v] ++ l)).
  rewrite set_slice_app_r. simpl. rewrite IH by (simpl in H; lia). reflexivity.
Qed.
Lemma set_slice_at {A} (a m vs c : list A) :
  length m = length vs -> set_slice (length a) vs (a ++ m ++ c) = a ++ vs ++ c.
Proof.
  intro H. replace (length a) with (length a + 0)%nat by lia. rewrite set_slice_app_r.
  f_equal. rewrite set_slice_prefix by (rewrite app_length; lia). f_equal.
  rewrite <- H, skipn_app, skipn_all, Nat.sub_diag. reflexivity.
Qed.

Lemma scatter_length {A} idx (vals out : list A) : length (scatter idx vals out) = length out.
Proof. revert vals out. induction idx; destruct vals; simpl; intros; auto. rewrite IHidx. apply set_nth_length. Qed.

Lemma scatter_notin {A} idx (vals out : list A) j d :
  ~ In j idx -> nth j (scatter idx vals out) d = nth j out d.
Proof.
  revert vals out. induction idx as [|i idx IH]; destruct vals as [|v vals]; simpl; intros out H; auto.
  rewrite IH by tauto. rewrite nth_set_nth.
  destruct (Nat.eqb_spec i j); [subst; tauto|]. reflexivity.
Qed.

(** NoDup in-range indices: value k lands at position idx[k] *)
Lemma scatter_nth {A} idx (vals out : list A) k d :
  NoDup idx -> length vals = length idx -> (forall i, In i idx -> (i < length out)%nat) ->
  (k < length idx)%nat -> nth (nth k idx 0%nat) (scatter idx vals out) d = nth k vals d.
Proof.
  revert vals out k. induction idx as [|i idx IH]; intros vals out k Hnd Hl Hr Hk; [simpl in Hk; lia|].
  destruct vals as [|v vals]; [simpl in Hl; lia|]. inversion Hnd; subst.
  destruct k as [|k]; simpl.
  - rewrite scatter_notin by assumption. rewrite nth_set_nth, Nat.eqb_refl.
    assert (Hi : (i < length out)%nat) by (apply Hr; now left).
    apply Nat.ltb_lt in Hi. rewrite Hi. reflexivity.
  - apply IH; auto; simpl in *; try lia. intros j Hj. rewrite set_nth_length. apply Hr. now right.
Qed.

(** ** mapM *)
Lemma mapM_ok_length {A B} (f : A -> res B) l l' : mapM f l = Ok l' -> length l' = length l.
Proof.
  revert l'. induction l as [|x l IH]; simpl; intros l' H.
  - inversion H; reflexivity.
  - apply rbind_ok in H as (y & Hy & H). apply rbind_ok in H as (ys & Hys & H).
    inversion H; subst. simpl. f_equal. auto.
Qed.
Lemma mapM_app {A B} (f : A -> res B) a b :
  mapM f (a ++ b) = do x <- mapM f a; do y <- mapM f b; Ok (x ++ y).
Proof.
  induction a as [|x a IH]; simpl.
  - destruct (mapM f b); reflexivity.
  - destruct (f x); simpl; [|reflexivity]. rewrite IH.
    destruct (mapM f a); simpl; [|reflexivity]. destruct (mapM f b); reflexivity.
Qed.
Lemma mapM_map {A B} (f : A -> res B) (g : A -> B) l :
  (forall x, In x l -> f x = Ok (g x)) -> mapM f l = Ok (map g l).
Proof.
  induction l as [|x l IH]; intro H; simpl; [reflexivity|].
  rewrite H by now left. simpl. rewrite IH by (intros; apply H; now right). reflexivity.
Qed.
Lemma mapM_ext {A B} (f g : A -> res B) l :
  (forall x, In x l -> f x = g x) -> mapM f l = mapM g l.
Proof.
  induction l as [|x l IH]; intro H; simpl; [reflexivity|].
  rewrite H by now left. rewrite IH by (intros; apply H; now right). reflexivity.
Qed.

(** ** bits *)
Lemma z2b_b2z b : z2b (b2z b) = b.
Proof. destruct b; reflexivity. Qed.
Lemma map_z2b_b2z l : map z2b (map b2z l) = l.
Proof. rewrite map_map. rewrite <- (map_id l) at 2. apply map_ext. apply z2b_b2z. Qed.

Lemma list_eq_nth_error {A} (a b : list A) : (forall i, nth_error a i = nth_error b i) -> a = b.
Proof.
  revert b. induction a as [|x a IH]; intros [|y b] H; auto.
  - specialize (H 0%nat). discriminate.
  - specialize (H 0%nat). discriminate.
  - pose proof (H 0%nat) as H0. simpl in H0. inversion H0; subst. f_equal. apply IH.
    intro i. exact (H (S i)).
Qed.
Lemma list_eq_nth {A} (a b : list A) d :
  length a = length b -> (forall i, (i < length a)%nat -> nth i a d = nth i b d) -> a = b.
Proof. intros. apply nth_ext with d d; auto. Qed.

Lemma NoDup_nodupb {A} (eqb : A -> A -> bool) (l : list A) :
  (forall x y, eqb x y = true <-> x = y) ->
  (fix nd l := match l with [] => true | x :: r => negb (existsb (eqb x) r) && nd r end) l = true -> NoDup l.
Proof.
  intro Heq. induction l as [|x l IH]; intro H; [constructor|].
  apply andb_prop in H as [H1 H2]. constructor; [|auto].
  intro Hin. apply negb_true_iff in H1. rewrite <- Bool.not_true_iff_false in H1. apply H1.
  apply existsb_exists. exists x. split; [assumption|]. now apply Heq.
Qed.

Lemma nth_map_seq {A} (f : nat -> A) n i d : (i < n)%nat -> nth i (map f (seq 0 n)) d = f i.
Proof.
  intro H. rewrite nth_indep with (d' := f 0%nat) by (rewrite map_length, seq_length; lia).
  rewrite map_nth, seq_nth by assumption. reflexivity.
Qed.
Lemma nth_map {A B} (f : A -> B) l i d d' : (i < length l)%nat -> nth i (map f l) d' = f (nth i l d).
Proof.
  intro H. rewrite nth_indep with (d' := f d) by (rewrite map_length; lia). apply map_nth.
Qed.
Lemma concat_length_const {A} (n : nat) (ls : list (list A)) :
  Forall (fun l => length l = n) ls -> length (concat ls) = (n * length ls)%nat.
Proof. induction 1 as [|l ls Hl H IH]; [simpl; lia|]. cbn [concat length]. rewrite app_length, IH, Hl. lia. Qed.

(** block j of a list made of whole blocks *)
Lemma chunks_as_map {A} n (l : list A) : (0 < n)%nat -> Nat.modulo (length l) n = 0%nat ->
  chunks n l = map (fun j => firstn n (skipn (j * n) l)) (seq 0 (length l / n)).
Proof.
  intros Hn. revert l. apply block_ind; [assumption|rewrite Nat.div_small by (simpl; lia); reflexivity|].
  intros a l Ha IH. rewrite chunks_app by (auto; lia). rewrite app_length, Ha.
  replace (n + length l)%nat with (length l + 1 * n)%nat by lia. rewrite Nat.div_add by lia.
  rewrite Nat.add_1_r. cbn [seq map]. rewrite Nat.mul_0_l, skipn_O.
  rewrite firstn_app, Ha, Nat.sub_diag, firstn_O, app_nil_r, (firstn_all2 a) by lia. f_equal.
  rewrite IH, <- seq_shift, map_map. apply map_ext. intro j.
  cbn [Nat.mul]. rewrite skipn_app, Ha. rewrite (skipn_all2 a) by lia.
  replace (n + j * n - n)%nat with (j * n)%nat by lia. reflexivity.
Qed.
Lemma flat_map_repeat_nth {A} (f : nat -> A) n k i d : (i < n * k)%nat ->
  nth i (flat_map (fun x => repeat x k) (map f (seq 0 n))) d = f (i / k)%nat.
Proof.
  intro H. assert (Hk : (0 < k)%nat) by lia. revert f i H. induction n as [|n IH]; intros f i H; [lia|].
  cbn [seq map flat_map]. destruct (Nat.lt_ge_cases i k) as [L|L].
  - rewrite app_nth1 by now rewrite repeat_length. rewrite (Nat.div_small i k L).
    clear -L. revert i L. induction k; intros i L; [lia|]. destruct i; [reflexivity|]. cbn [repeat nth]. apply IHk. lia.
  - rewrite app_nth2 by now rewrite repeat_length. rewrite repeat_length, <- seq_shift, map_map.
    rewrite IH by lia. f_equal.
    replace i with ((i - k) + 1 * k)%nat at 2 by lia. rewrite Nat.div_add by lia. lia.
Qed.
Lemma flat_map_repeat_length {A} (l : list A) k : length (flat_map (fun x => repeat x k) l) = (length l * k)%nat.
Proof. induction l; simpl; [reflexivity|]. rewrite app_length, repeat_length, IHl. lia. Qed.
Lemma nth_skipn {A} n i (l : list A) d : nth i (skipn n l) d = nth (n + i) l d.
Proof. revert n. induction l; intros [|n]; simpl; auto. destruct i; reflexivity. Qed.
Lemma nth_firstn {A} n i (l : list A) d : (i < n)%nat -> nth i (firstn n l) d = nth i l d.
Proof. revert n i. induction l; intros [|n] i H; simpl; try lia; [destruct i; reflexivity|]. destruct i; [reflexivity|]. apply IHl. lia. Qed.
Lemma flat_map_ext_in' {A B} (f g : A -> list B) l : (forall a, In a l -> f a = g a) -> flat_map f l = flat_map g l.
Proof. induction l; simpl; intro H; [reflexivity|]. rewrite H by auto. f_equal. auto. Qed.
