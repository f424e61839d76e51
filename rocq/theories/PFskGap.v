(** * Hamming distance between MR-FSK frames *)
From Coq Require Import Permutation.
From Verif Require Import Py MBits MPn9 Tables MFsk SBits SEntry SPn9 SFsk PList PBits PEntry PPn9 PConv PRate PFskFec PFsk.

Lemma distance_maps {A} (f g : A -> bool) l : distance (map f l) (map g l) = length (filter (fun i => xorb (f i) (g i)) l).
Proof.
  unfold distance. induction l as [|a l IH]; [reflexivity|]. cbn [map xor_bits weight filter]. rewrite IH. destruct (xorb (f a) (g a)); reflexivity.
Qed.
Lemma filter_perm_length {A} (p : A -> bool) l l' : Permutation l l' -> length (filter p l) = length (filter p l').
Proof. induction 1; cbn [filter]; try destruct (p x); try destruct (p y); cbn [length]; congruence. Qed.
Lemma filter_ext_in_length {A} (p q : A -> bool) l : (forall i, In i l -> p i = q i) -> length (filter p l) = length (filter q l).
Proof. intro H. induction l as [|a l IH]; [reflexivity|]. cbn [filter]. rewrite (H a) by now left. specialize (IH (fun i Hi => H i (or_intror Hi))). destruct (q a); cbn [length]; congruence. Qed.
Lemma distance_count a b : distance a b = length (filter (fun i => xorb (nth i a false) (nth i b false)) (seq 0 (Nat.min (length a) (length b)))).
Proof.
  unfold distance. revert b. induction a as [|x a IH]; intro b; [reflexivity|]. destruct b as [|y b]; [reflexivity|].
  cbn [xor_bits weight length Nat.min seq filter]. rewrite IH. rewrite <- seq_shift. change (nth 0 (x :: a) false) with x. change (nth 0 (y :: b) false) with y.
  assert (E : forall l, length (filter (fun i => xorb (nth i (x :: a) false) (nth i (y :: b) false)) (map S l)) = length (filter (fun i => xorb (nth i a false) (nth i b false)) l)).
  { induction l as [|i l IHl]; [reflexivity|]. cbn [map filter]. change (nth (S i) (x :: a) false) with (nth i a false). change (nth (S i) (y :: b) false) with (nth i b false). destruct (xorb (nth i a false) (nth i b false)); cbn [length]; now rewrite IHl. }
  destruct (xorb x y); cbn [length]; rewrite E; reflexivity.
Qed.
Lemma distance_sym a b : distance a b = distance b a.
Proof. rewrite !distance_count, Nat.min_comm. apply filter_ext_in_length. intros. apply xorb_comm. Qed.
Lemma distance_whiten a b : distance (whiten a) (whiten b) = distance a b.
Proof.
  rewrite !distance_count. unfold whiten at 3 4. rewrite !map_length, !seq_length. apply filter_ext_in_length. intros i Hi. apply in_seq in Hi.
  unfold whiten. rewrite !nth_map_seq by lia. destruct (nth i a false), (nth i b false), (pn9_bit 511 i); reflexivity.
Qed.
(** bits the two words both have *)
Lemma distance_firstn_both n a b : (n <= length a)%nat -> (n <= length b)%nat -> (distance (firstn n a) (firstn n b) <= distance a b)%nat.
Proof.
  intros Hx Hy. rewrite <- (firstn_skipn n a) at 2. rewrite <- (firstn_skipn n b) at 2. rewrite distance_app by (rewrite !firstn_length; lia). lia.
Qed.
Lemma distance_triangle a b r : (Nat.min (length a) (length b) <= length r)%nat -> (distance a b <= distance r a + distance r b)%nat.
Proof.
  revert b r. induction a as [|x a IH]; intros b r H; [cbn; lia|]. destruct b as [|y b]; [cbn; lia|]. destruct r as [|z r]; [cbn in H; lia|].
  cbn [length Nat.min] in H. specialize (IH b r ltac:(lia)). unfold distance in *. cbn [xor_bits weight]. destruct x, y, z; cbn [xorb]; lia.
Qed.

(** interleaving *)
Lemma il_block_distance a b : length a = 32%nat -> length b = 32%nat -> distance (il_block a) (il_block b) = distance a b.
Proof.
  intros Ha Hb. rewrite !il_block_perm by assumption. rewrite distance_maps, distance_count, Ha, Hb. cbn [Nat.min].
  transitivity (length (filter (fun j => xorb (nth j a false) (nth j b false)) (map il_pos (seq 0 32)))).
  - induction (seq 0 32) as [|i l IH]; [reflexivity|]. cbn [map filter]. destruct (xorb _ _); cbn [length]; now rewrite IH.
  - apply filter_perm_length. apply NoDup_Permutation_bis.
    + assert (N : NoDup (map il_pos (seq 0 32))); [|exact N]. vm_compute. repeat (constructor; [cbn; lia|]). constructor.
    + rewrite map_length. lia.
    + intros i Hi. apply in_map_iff in Hi as (j & <- & Hj). apply in_seq in Hj. apply in_seq. pose proof (il_pos_range j). lia.
Qed.
Lemma interleave_distance a : Nat.modulo (length a) 32 = 0%nat -> forall b, Nat.modulo (length b) 32 = 0%nat ->
  distance (f_interleave a) (f_interleave b) = distance a b.
Proof.
  revert a. apply (block_ind 32 (fun a => forall b, Nat.modulo (length b) 32 = 0%nat -> distance (f_interleave a) (f_interleave b) = distance a b)); [lia|reflexivity|].
  intros a l Ha IH b Hb. destruct (Nat.lt_ge_cases (length b) 32) as [S|S].
  - rewrite Nat.mod_small in Hb by lia. destruct b; [|discriminate]. rewrite distance_sym, (distance_sym (a ++ l)). reflexivity.
  - rewrite <- (firstn_skipn 32 b). assert (Lb : length (firstn 32 b) = 32%nat) by (rewrite firstn_length; lia).
    assert (Mb : Nat.modulo (length (skipn 32 b)) 32 = 0%nat).
    { rewrite skipn_length. replace (length b) with ((length b - 32) + 1 * 32)%nat in Hb by lia. now rewrite Nat.mod_add in Hb by lia. }
    rewrite !f_interleave_app by assumption. rewrite !distance_app by (rewrite ?il_block_length; congruence).
    rewrite il_block_distance by assumption. now rewrite IH.
Qed.

(** least weight of the code words of [m] further steps, from each of the 8 states of the difference machine *)
Fixpoint least (scheme : Z) (m : nat) : list nat :=
  match m with
  | O => repeat 0%nat 8
  | S m' => let t := least scheme m' in
      map (fun s => let w b := (weight [fst (snd (fstepL scheme s b)); snd (snd (fstepL scheme s b))] + nth (Z.to_nat (fst (fstepL scheme s b))) t 0)%nat in
                    Nat.min (w false) (w true)) (states 8)
  end.
Lemma least_nth scheme m s : 0 <= s < 8 -> nth (Z.to_nat s) (least scheme (S m)) 0%nat =
  let w b := (weight [fst (snd (fstepL scheme s b)); snd (snd (fstepL scheme s b))] + nth (Z.to_nat (fst (fstepL scheme s b))) (least scheme m) 0)%nat in Nat.min (w false) (w true).
Proof.
  intro H. cbn [least]. rewrite (nth_map _ _ _ 0) by (unfold states; rewrite map_length, seq_length; lia).
  assert (E : nth (Z.to_nat s) (states 8) 0 = s).
  { unfold states. change 0 with (Z.of_nat 0) at 1. rewrite map_nth, seq_nth by lia. lia. }
  rewrite E. reflexivity.
Qed.
Lemma least_ok scheme : forall x m s, 0 <= s < 8 -> (m <= length x)%nat -> (nth (Z.to_nat s) (least scheme m) 0 <= weight (enc (fstepL scheme) s x))%nat.
Proof.
  induction x as [|b x IH]; intros m s Hs Hm.
  - assert (m = 0)%nat as -> by (cbn in Hm; lia). cbn [least]. rewrite nth_repeat. lia.
  - destruct m as [|m]; [cbn [least]; rewrite nth_repeat; lia|]. rewrite least_nth by assumption. cbv zeta. rewrite enc_cons.
    specialize (IH m (fst (fstepL scheme s b)) (f_rangeL scheme s b Hs) ltac:(cbn in Hm; lia)). cbn [weight] in *.
    destruct b; [etransitivity; [apply Nat.le_min_r|]|etransitivity; [apply Nat.le_min_l|]]; lia.
Qed.
Lemma early_difference scheme x y : length x = length y -> (exists i, (i < 16)%nat /\ nth i x false <> nth i y false) -> (32 <= length x)%nat ->
  (6 <= distance (enc (fstep scheme) 0 x) (enc (fstep scheme) 0 y))%nat.
Proof.
  intros L (i & Hi & N) H. unfold distance.
  destruct (enc_diff (fstep scheme) (fstepL scheme) 8 (f_range scheme) (f_diff scheme) 0 0 x y) as [E _]; [lia|lia|assumption|].
  rewrite E. change (Z.lxor 0 0) with 0.
  assert (K : exists k r, xor_bits x y = repeat false k ++ true :: r /\ (16 <= length r)%nat).
  { destruct (xor_bits_neq x y L ltac:(intros ->; congruence)) as (k & r & Q). exists k, r. split; [assumption|].
    assert (LL : length (xor_bits x y) = length x) by (rewrite xor_bits_length; lia).
    assert (Kl : (k <= i)%nat).
    { destruct (Nat.le_gt_cases k i); [assumption|]. exfalso. apply N.
      assert (X : nth i (xor_bits x y) false = xorb (nth i x false) (nth i y false)).
      { clear - L. revert y L i. induction x as [|a x IH]; destruct y as [|b y]; intros L i; try discriminate L; [destruct i; reflexivity|]. destruct i; [reflexivity|]. cbn [xor_bits nth]. apply IH. now injection L. }
      rewrite Q, app_nth1, nth_repeat in X by (rewrite repeat_length; lia). destruct (nth i x false), (nth i y false); auto; discriminate X. }
    rewrite Q, app_length, repeat_length in LL. cbn [length] in LL. lia. }
  destruct K as (k & r & Q & Lr). rewrite Q. clear - Lr.
  assert (Z0 : fstepL scheme 0 false = (0, (false, false))) by (rewrite fstepL_norm; destruct (norm_01 scheme) as [-> | ->]; reflexivity).
  induction k as [|k IH].
  - cbn [repeat app]. rewrite enc_cons. cbn [weight].
    pose proof (least_ok scheme r 16 (fst (fstepL scheme 0 true)) (f_rangeL scheme 0 true ltac:(lia)) Lr) as W.
    assert (V : (6 <= weight [fst (snd (fstepL scheme 0 true)); snd (snd (fstepL scheme 0 true))] + nth (Z.to_nat (fst (fstepL scheme 0 true))) (least scheme 16) 0)%nat).
    { assert (Ln : least scheme 16 = least (norm_scheme scheme) 16).
      { generalize 16%nat. induction n as [|n IHn]; [reflexivity|]. cbn [least]. rewrite IHn. apply map_ext. intro s. now rewrite !(fstepL_norm scheme). }
      rewrite Ln, (fstepL_norm scheme). destruct (norm_01 scheme) as [-> | ->]; vm_compute; repeat constructor. }
    cbn [weight] in V. lia.
  - cbn [repeat app]. rewrite enc_cons, Z0. cbn [fst snd weight]. exact IH.
Qed.
Lemma enc_firstn step : forall n s x, firstn (2 * n) (enc step s x) = enc step s (firstn n x).
Proof.
  induction n as [|n IH]; intros s x; [reflexivity|]. destruct x as [|b x]; [reflexivity|].
  replace (2 * S n)%nat with (S (S (2 * n))) by lia. cbn [firstn]. rewrite !enc_cons. cbn [firstn]. now rewrite IH.
Qed.
Lemma early_difference_any scheme x y : (exists i, (i < 16)%nat /\ nth i x false <> nth i y false) -> (32 <= length x)%nat -> (32 <= length y)%nat ->
  (6 <= distance (enc (fstep scheme) 0 x) (enc (fstep scheme) 0 y))%nat.
Proof.
  intros (i & Hi & N) Lx Ly.
  etransitivity; [|apply (distance_firstn_both (2 * 32)); rewrite enc_length; lia]. rewrite !enc_firstn.
  apply early_difference; rewrite ?firstn_length; try lia. exists i. split; [assumption|].
  rewrite <- (firstn_skipn 32 x), <- (firstn_skipn 32 y), !app_nth1 in N by (rewrite firstn_length; lia). exact N.
Qed.
Lemma nth_differ (a b : list bool) : length a = length b -> a <> b -> exists i, (i < length a)%nat /\ nth i a false <> nth i b false.
Proof.
  revert b. induction a as [|x a IH]; destruct b as [|y b]; intros L N; try discriminate L; [congruence|].
  destruct (bool_dec x y) as [->|D].
  - destruct (IH b ltac:(now injection L) ltac:(congruence)) as (i & Hi & Ni). exists (S i). cbn [length nth]. split; [lia|exact Ni].
  - exists 0%nat. cbn [length nth]. split; [lia|exact D].
Qed.
Lemma body_distance s t ba bb : k_fec s = true -> k_fec t = true -> k_scheme s = k_scheme t -> k_il s = k_il t ->
  carries s ba -> carries t bb -> (8 <= length ba)%nat -> (8 <= length bb)%nat -> (hdr s ba ++ ba) <> (hdr t bb ++ bb) ->
  (hdr s ba = hdr t bb -> length ba = length bb) ->
  (6 <= distance (body s ba) (body t bb))%nat.
Proof.
  intros Fs Ft Es Ei Ca Cb La Lb N Hh. unfold body. rewrite Fs, Ft. cbv zeta.
  assert (D : (6 <= distance (enc (fstep (k_scheme s)) 0 (f_input (k_scheme s) (hdr s ba ++ ba))) (enc (fstep (k_scheme t)) 0 (f_input (k_scheme t) (hdr t bb ++ bb))))%nat).
  { rewrite <- Es. assert (Hs : length (hdr s ba) = 16%nat) by (unfold hdr; apply fsk_header_length). assert (Ht : length (hdr t bb) = 16%nat) by (unfold hdr; apply fsk_header_length).
    destruct (list_eq_dec bool_dec (hdr s ba) (hdr t bb)) as [E|E].
    - apply f_distance; [rewrite !app_length; specialize (Hh E); lia|exact N].
    - destruct (nth_differ (hdr s ba) (hdr t bb) ltac:(lia) E) as (i & Hi & Ni). apply early_difference_any.
      + exists i. split; [lia|]. unfold f_input. rewrite <- !app_assoc, !app_nth1 by lia. exact Ni.
      + rewrite f_input_length, app_length, f_pad_length. destruct (Z.even _); lia.
      + rewrite f_input_length, app_length, f_pad_length. destruct (Z.even _); lia. }
  rewrite <- Ei. destruct (k_il s) eqn:I; [|exact D]. destruct Ca as [_ Ca]. destruct Cb as [_ Cb].
  rewrite interleave_distance; [exact D| |]; apply coded_blocks; rewrite hdr_app_mod; [apply Ca; auto|apply Cb; congruence].
Qed.
Lemma white_distance s t a b : k_white s = k_white t -> k_fec s = k_fec t -> k_il s = k_il t -> (f_start s <= length a)%nat -> (f_start s <= length b)%nat ->
  distance (f_white s a) (f_white t b) = distance a b.
Proof.
  intros W F I La Lb. assert (S : f_start t = f_start s) by (unfold f_start; now rewrite F). 
  assert (E : distance a b = (distance (firstn (f_start s) a) (firstn (f_start s) b) + distance (skipn (f_start s) a) (skipn (f_start s) b))%nat).
  { rewrite <- distance_app by (rewrite !firstn_length; lia). now rewrite !firstn_skipn. }
  rewrite E. rewrite <- (firstn_skipn (f_start s) a) at 1. rewrite <- (firstn_skipn (f_start s) b) at 1.
  rewrite !f_white_split by (rewrite firstn_length; lia). rewrite <- W.
  rewrite !distance_app by (rewrite !firstn_length; lia). destruct (k_white s); [|reflexivity]. now rewrite distance_whiten.
Qed.
