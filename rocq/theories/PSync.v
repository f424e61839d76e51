(** * Finding the start of an MR-FSK frame *)
From Coq Require Import Reals.
From Verif Require Import Py MBits Tables MFsk SBits SEntry SPn9 SFsk PList PBits PConv PFskGap SFskRx.

(** bit at distance d from the end of the preamble (d = 1: the last one) *)
Definition pre (fsk4 : bool) (d : nat) : bool := if fsk4 then negb (Nat.modulo d 4 =? 0)%nat else negb (Nat.modulo d 2 =? 0)%nat.
Definition tail_pre (fsk4 : bool) (k : nat) : list bool := map (fun i => pre fsk4 (k - i)) (seq 0 k).
Lemma tail_pre_S fsk4 k : tail_pre fsk4 (S k) = pre fsk4 (S k) :: tail_pre fsk4 k.
Proof. unfold tail_pre. cbn [seq map]. rewrite <- seq_shift, map_map. f_equal. Qed.
Lemma tail_pre_length fsk4 k : length (tail_pre fsk4 k) = k.
Proof. unfold tail_pre. now rewrite map_length, seq_length. Qed.
Lemma tail_pre_skip fsk4 j : forall k, (j <= k)%nat -> skipn j (tail_pre fsk4 k) = tail_pre fsk4 (k - j).
Proof. induction j as [|j IH]; intros k Hk; [now rewrite Nat.sub_0_r|]. destruct k; [lia|]. rewrite tail_pre_S. cbn [skipn]. rewrite IH by lia. reflexivity. Qed.
Definition unit_length (fsk4 : bool) : nat := if fsk4 then 16 else 8.
Lemma pre_shift fsk4 c d : pre fsk4 (4 * c + d) = pre fsk4 d.
Proof.
  unfold pre. destruct fsk4.
  - replace (4 * c + d)%nat with (d + c * 4)%nat by lia. now rewrite Nat.mod_add.
  - replace (4 * c + d)%nat with (d + (2 * c) * 2)%nat by lia. now rewrite Nat.mod_add.
Qed.
Lemma tail_pre_split fsk4 m u : tail_pre fsk4 (u + m) = map (fun i => pre fsk4 (u + m - i)) (seq 0 u) ++ tail_pre fsk4 m.
Proof.
  induction u as [|u IH]; [reflexivity|]. cbn [Nat.add]. rewrite tail_pre_S, IH. cbn [seq map app]. rewrite <- seq_shift, map_map. reflexivity.
Qed.
Lemma tail_pre_period fsk4 c u : tail_pre fsk4 (u + 4 * c) = tail_pre fsk4 u ++ tail_pre fsk4 (4 * c).
Proof.
  rewrite tail_pre_split. f_equal. unfold tail_pre. apply map_ext_in. intros i Hi. apply in_seq in Hi. rewrite <- (pre_shift fsk4 c (u - i)). f_equal. lia.
Qed.
Lemma tile_pre fsk4 n : tile n (preamble_unit fsk4) = tail_pre fsk4 (n * unit_length fsk4).
Proof.
  induction n as [|n IH]; [reflexivity|]. unfold tile in *. cbn [repeat concat]. rewrite IH.
  replace (S n * unit_length fsk4)%nat with (unit_length fsk4 + 4 * (n * (unit_length fsk4 / 4)))%nat by (destruct fsk4; [change (unit_length true) with 16%nat; change (16 / 4)%nat with 4%nat|change (unit_length false) with 8%nat; change (8 / 4)%nat with 2%nat]; lia).
  rewrite tail_pre_period. f_equal; [destruct fsk4; reflexivity|f_equal; destruct fsk4; [change (unit_length true) with 16%nat; change (16 / 4)%nat with 4%nat|change (unit_length false) with 8%nat; change (8 / 4)%nat with 2%nat]; lia].
Qed.
Lemma sfd_len fsk4 g c : length (sfd fsk4 g c) = sfd_length fsk4.
Proof. unfold sfd. destruct fsk4, (g =? 0), c; reflexivity. Qed.
(** the window k bits before the delimiter *)
Definition window (fsk4 : bool) (k : nat) (d : Z * bool) : list bool := firstn (sfd_length fsk4) (tail_pre fsk4 k ++ sfd fsk4 (fst d) (snd d)).
Lemma window_far fsk4 k d : (sfd_length fsk4 <= k)%nat -> window fsk4 k d = window fsk4 (sfd_length fsk4 + k mod 4) d.
Proof.
  intro Hk. unfold window. set (w := sfd_length fsk4) in *.
  assert (F : forall k, (w <= k)%nat -> firstn w (tail_pre fsk4 k ++ sfd fsk4 (fst d) (snd d)) = map (fun i => pre fsk4 (k - i)) (seq 0 w)).
  { intros j Hj. rewrite firstn_app, tail_pre_length. replace (w - j)%nat with 0%nat by lia. cbn [firstn]. rewrite app_nil_r.
    replace j with (w + (j - w))%nat at 1 by lia. rewrite tail_pre_split, firstn_app, map_length, seq_length, Nat.sub_diag, firstn_all2 by (rewrite map_length, seq_length; lia).
    cbn [firstn]. rewrite app_nil_r. apply map_ext. intro i. f_equal. lia. }
  rewrite !F by lia. apply map_ext_in. intros i Hi. apply in_seq in Hi.
  pose proof (Nat.div_mod k 4 ltac:(lia)) as D.
  assert (W : (w = 4 * (w / 4))%nat) by (unfold w; destruct fsk4; reflexivity).
  assert (L : (w / 4 <= k / 4)%nat) by (apply Nat.div_le_mono; lia).
  rewrite <- (pre_shift fsk4 (k / 4 - w / 4) (w + k mod 4 - i)). f_equal. lia.
Qed.
Definition windows_ok (fsk4 : bool) : bool :=
  forallb (fun k => if (k =? 0)%nat then true else if negb (Nat.modulo k (symbol_bits fsk4) =? 0)%nat then true else
    forallb (fun d => forallb (fun d' => Nat.leb 5 (distance (window fsk4 k d) (sfd fsk4 (fst d') (snd d')))) delimiters) delimiters) (seq 0 (sfd_length fsk4 + 4)).
Lemma window_distance fsk4 k d d' : In d delimiters -> In d' delimiters -> (0 < k)%nat -> Nat.modulo k (symbol_bits fsk4) = 0%nat ->
  (5 <= distance (window fsk4 k d) (sfd fsk4 (fst d') (snd d')))%nat.
Proof.
  intros Hd Hd' Hk Hm.
  assert (A : forall k, (k < sfd_length fsk4 + 4)%nat -> (0 < k)%nat -> Nat.modulo k (symbol_bits fsk4) = 0%nat -> (5 <= distance (window fsk4 k d) (sfd fsk4 (fst d') (snd d')))%nat).
  { clear k Hk Hm. intros k H1 H2 H3. assert (W : windows_ok fsk4 = true) by (destruct fsk4; vm_compute; reflexivity).
    unfold windows_ok in W. rewrite forallb_forall in W. specialize (W k ltac:(apply in_seq; lia)). cbv beta in W.
    rewrite H3 in W. destruct (Nat.eqb_spec k 0); [lia|]. cbn [Nat.eqb negb] in W. rewrite forallb_forall in W. specialize (W d Hd).
    rewrite forallb_forall in W. specialize (W d' Hd'). now apply Nat.leb_le. }
  destruct (Nat.lt_ge_cases k (sfd_length fsk4)) as [L|L]; [apply A; auto; lia|]. rewrite window_far by assumption. apply A.
  - pose proof (Nat.mod_upper_bound k 4 ltac:(lia)). lia.
  - destruct fsk4; cbn; lia.
  - destruct fsk4; cbn [symbol_bits sfd_length] in *; [|apply Nat.mod_1_r]. 
    rewrite (Nat.div_mod k 4 ltac:(lia)) in Hm. replace (4 * (k / 4) + k mod 4)%nat with (k mod 4 + (2 * (k / 4)) * 2)%nat in Hm by lia. rewrite Nat.mod_add in Hm by lia.
    replace (32 + k mod 4)%nat with (k mod 4 + 16 * 2)%nat by lia. now rewrite Nat.mod_add by lia.
Qed.
Lemma delimiter_distance fsk4 d d' : In d delimiters -> In d' delimiters -> d <> d' -> (4 <= distance (sfd fsk4 (fst d) (snd d)) (sfd fsk4 (fst d') (snd d')))%nat.
Proof.
  intros [<-|[<-|[<-|[<-|[]]]]] [<-|[<-|[<-|[<-|[]]]]] N; try (now destruct N); destruct fsk4; vm_compute; lia.
Qed.
Lemma distance_at_triangle a b r : length r = length a -> (distance a b <= distance r a + distance r b)%nat.
Proof. intro E. apply distance_triangle. lia. Qed.
Lemma skipn_twice {A} a b (l : list A) : skipn a (skipn b l) = skipn (a + b) l.
Proof. revert l. induction b as [|b IH]; intro l; [now rewrite Nat.add_0_r|]. rewrite Nat.add_succ_r. destruct l as [|x l]; [now rewrite !skipn_nil|]. cbn [skipn]. apply IH. Qed.
Lemma find_none_in {A} (p : A -> bool) l : (forall x, In x l -> p x = false) -> find p l = None.
Proof. induction l as [|x l IH]; intro H; [reflexivity|]. cbn [find]. rewrite (H x) by now left. apply IH. intros y Hy. apply H. now right. Qed.
Lemma find_unique {A} (p : A -> bool) l x : In x l -> p x = true -> (forall y, In y l -> y <> x -> p y = false) -> (forall y : A, {y = x} + {y <> x}) -> find p l = Some x.
Proof.
  intros Hx Px H D. induction l as [|y l IH]; [destruct Hx|]. cbn [find]. destruct (D y) as [->|N]; [now rewrite Px|].
  rewrite (H y) by (auto; now left). apply IH; [destruct Hx; [now destruct N|assumption]|]. intros z Hz. apply H. now right.
Qed.
(** hunting: [r] is received, k bits before the delimiter, each window with at most one wrong bit *)
Lemma hunt_found fsk4 d : In d delimiters -> forall k n r, (k < n)%nat -> Nat.modulo k (symbol_bits fsk4) = 0%nat ->
  (k + sfd_length fsk4 <= length r)%nat ->
  (forall i, (i <= k)%nat -> (distance (firstn (sfd_length fsk4) (skipn i r)) (window fsk4 (k - i) d) <= 1)%nat) ->
  hunt n fsk4 1 r = Some (fst d, snd d, skipn k r).
Proof.
  intro Hd. set (w := sfd_length fsk4). intro k. induction k as [k IH] using (well_founded_induction Wf_nat.lt_wf). intros n r Hn Hk Hl Hw.
  destruct n as [|n]; [lia|]. cbn [hunt]. fold w. destruct (Nat.ltb_spec (length r) w); [lia|].
  pose proof (Hw 0%nat ltac:(lia)) as H0. cbn [skipn] in H0. rewrite Nat.sub_0_r in H0.
  assert (LW : forall j, length (window fsk4 j d) = w) by (intro j; unfold window; rewrite firstn_length, app_length, tail_pre_length, sfd_len; fold w; lia).
  assert (LR : length (firstn w r) = w) by (rewrite firstn_length; lia).
  destruct (Nat.eq_dec k 0) as [->|N].
  - assert (E : window fsk4 0 d = sfd fsk4 (fst d) (snd d)) by (unfold window; cbn [tail_pre seq map app]; apply firstn_all2; now rewrite sfd_len).
    rewrite E in H0. cbn [skipn]. unfold delimiter_here. rewrite (find_unique _ delimiters d); [destruct d; reflexivity|assumption| | |].
    + now apply Nat.leb_le.
    + intros y Hy Ny. apply Nat.leb_gt. pose proof (delimiter_distance fsk4 d y Hd Hy ltac:(congruence)) as D.
      pose proof (distance_at_triangle (sfd fsk4 (fst d) (snd d)) (sfd fsk4 (fst y) (snd y)) (firstn w r) ltac:(rewrite sfd_len; exact LR)) as T. fold w. lia.
    + intro y. destruct y as [y1 y2], d as [d1 d2]. destruct (Z.eq_dec y1 d1), (Bool.bool_dec y2 d2); [left|right|right|right]; congruence.
  - unfold delimiter_here. rewrite find_none_in.
    + assert (S0 : (0 < symbol_bits fsk4 <= k)%nat).
      { split; [destruct fsk4; cbn; lia|]. destruct fsk4; cbn [symbol_bits] in *; [|lia]. destruct k as [|[|k]]; [lia|discriminate|lia]. }
      rewrite (IH (k - symbol_bits fsk4)%nat); try lia.
      * rewrite skipn_twice. repeat f_equal. lia.
      * destruct fsk4; cbn [symbol_bits] in *; [|apply Nat.mod_1_r]. replace k with (k - 2 + 1 * 2)%nat in Hk by lia. now rewrite Nat.mod_add in Hk by lia.
      * rewrite skipn_length. lia.
      * intros i Hi. rewrite skipn_twice. replace (k - symbol_bits fsk4 - i)%nat with (k - (i + symbol_bits fsk4))%nat by lia. apply Hw. lia.
    + intros y Hy. apply Nat.leb_gt. pose proof (window_distance fsk4 k d y Hd Hy ltac:(lia) Hk) as D.
      pose proof (distance_at_triangle (window fsk4 k d) (sfd fsk4 (fst y) (snd y)) (firstn w r) ltac:(rewrite LW; exact LR)) as T. fold w. lia.
Qed.
