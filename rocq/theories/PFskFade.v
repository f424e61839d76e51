(** * Proofs: MR-FSK frames with a fade *)
From Coq Require Import Qreals Reals Lra.
From Coquelicot Require Import Complex.
From Verif Require Import Py PList SBits MBits PBits MPn9 MFsk PConv SFsk PFskFec PFsk PFskGap MTime PTime SGap PGap MFskWave SFskGap PFskNoise SFskRx PSync SFskVit PFskVit PFskSoft SFade.
Local Open Scope Z_scope.

(** ** code words that vanish where the receiver can see *)
Definition lost (st len j : nat) : bool := Nat.leb st j && Nat.ltb j (st + len).
Definition quiet (gone : nat -> bool) (il : bool) (i : nat) (u : bool * bool) : bool :=
  (negb (fst u) || gone (2 * sent_at il i)%nat) && (negb (snd u) || gone (2 * sent_at il i + 1)%nat).
Fixpoint silent (scheme : Z) (gone : nat -> bool) (il : bool) (i : nat) (s : Z) (x : list bool) : Prop :=
  match x with
  | [] => True
  | b :: r => quiet gone il i (snd (fstepL scheme s b)) = true /\ silent scheme gone il (S i) (fst (fstepL scheme s b)) r
  end.
Lemma silent_intro scheme gone il : forall x i s,
  (forall j, (j < 2 * length x)%nat -> nth j (enc (fstepL scheme) s x) false = true -> gone (bit_at il (2 * i + j)) = true) -> silent scheme gone il i s x.
Proof.
  induction x as [|b x IH]; intros i s H; [exact I|]. cbn [silent]. rewrite enc_cons in H. split.
  - unfold quiet. destruct (bit_at_pair il i) as [E1 E2].
    pose proof (H 0%nat ltac:(cbn; lia)) as H0. pose proof (H 1%nat ltac:(cbn; lia)) as H1. cbn [nth] in H0, H1. rewrite Nat.add_0_r, E1 in H0. rewrite E2 in H1.
    destruct (fst (snd (fstepL scheme s b))), (snd (snd (fstepL scheme s b))); cbn [negb orb andb]; rewrite ?H0, ?H1 by reflexivity; reflexivity.
  - apply IH. intros j Hj E. specialize (H (S (S j)) ltac:(cbn [length]; lia)). cbn [nth] in H. replace (2 * S i + j)%nat with (2 * i + S (S j))%nat by lia. apply H, E.
Qed.
Lemma silent_app scheme gone il : forall x y i s, silent scheme gone il i s (x ++ y) <-> silent scheme gone il i s x /\ silent scheme gone il (i + length x) (fin (fstepL scheme) s x) y.
Proof.
  induction x as [|b x IH]; intros y i s; cbn [app silent length fin]; [rewrite Nat.add_0_r; tauto|].
  rewrite IH. replace (S i + length x)%nat with (i + S (length x))%nat by lia. tauto.
Qed.
Lemma silent_ext scheme gone gone' il il' : forall x i i' s,
  (forall k, (k < length x)%nat -> gone (2 * sent_at il (i + k))%nat = gone' (2 * sent_at il' (i' + k))%nat /\ gone (2 * sent_at il (i + k) + 1)%nat = gone' (2 * sent_at il' (i' + k) + 1)%nat) ->
  silent scheme gone il i s x -> silent scheme gone' il' i' s x.
Proof.
  induction x as [|b x IH]; intros i i' s H; [auto|]. cbn [silent]. intros [Q S]. split.
  - destruct (H 0%nat ltac:(cbn; lia)) as [H0 H1]. rewrite !Nat.add_0_r in H0, H1. unfold quiet in *. now rewrite <- H0, <- H1.
  - apply (IH (Datatypes.S i)); [|assumption]. intros k Hk. specialize (H (Datatypes.S k) ltac:(cbn [length]; lia)). replace (Datatypes.S i + k)%nat with (i + Datatypes.S k)%nat by lia. replace (Datatypes.S i' + k)%nat with (i' + Datatypes.S k)%nat by lia. exact H.
Qed.
Definition nothing (j : nat) : bool := false.
Lemma step_facts scheme s b : 0 <= s < 8 -> snd (fstepL scheme s b) = (false, false) ->
  (s = 0 -> b = false /\ fst (fstepL scheme s b) = 0) /\ (fst (fstepL scheme s b) = 0 -> s = 0).
Proof.
  intros Hs E.
  assert (K : forallb (fun s => forallb (fun b => let '(t, (u, v)) := fstepL (norm_scheme scheme) s b in
     u || v || ((negb (s =? 0) || (negb b && (t =? 0))) && (negb (t =? 0) || (s =? 0)))) bools) (states 8) = true).
  { destruct (norm_01 scheme) as [-> | ->]; vm_compute; reflexivity. }
  apply (states_forall 8 _) with (s := s) in K; [|assumption]. rewrite forallb_forall in K. specialize (K b ltac:(destruct b; cbn; tauto)). rewrite <- fstepL_norm in K.
  destruct (fstepL scheme s b) as [t [u v]]. cbn [fst snd] in *. injection E as -> ->. cbn [orb] in K. apply andb_prop in K as [K1 K2].
  split; intros ->; [|destruct (s =? 0) eqn:Q; [lia|discriminate]].
  cbn [Z.eqb negb orb] in K1. apply andb_prop in K1 as [K1 K3]. destruct b; [discriminate|]. split; [reflexivity|lia].
Qed.
Lemma quiet_nothing il i u : quiet nothing il i u = true -> u = (false, false).
Proof. unfold quiet, nothing. destruct u as [[] []]; cbn; congruence. Qed.
Lemma quiet_from_zero scheme il : forall x i, silent scheme nothing il i 0 x -> x = repeat false (length x) /\ fin (fstepL scheme) 0 x = 0.
Proof.
  induction x as [|b x IH]; intros i H; [split; reflexivity|]. cbn [silent] in H. destruct H as [Q S]. apply quiet_nothing in Q.
  destruct (step_facts scheme 0 b ltac:(lia) Q) as [F _]. destruct (F eq_refl) as [-> F']. cbn [fin length repeat]. rewrite F' in *. destruct (IH _ S) as [E1 E2]. split; [now f_equal|assumption].
Qed.
Lemma quiet_to_zero scheme il : forall x i s, 0 <= s < 8 -> silent scheme nothing il i s x -> fin (fstepL scheme) s x = 0 -> s = 0.
Proof.
  induction x as [|b x IH]; intros i s Hs H F; [exact F|]. cbn [silent fin] in *. destruct H as [Q S]. apply quiet_nothing in Q.
  apply (step_facts scheme s b Hs Q). apply (IH (Datatypes.S i)); [apply f_rangeL; assumption|assumption|assumption].
Qed.

(** ** states that can be reached silently; the flag tells whether an input bit that counts was 1 *)
Definition flagged : list (Z * bool) := flat_map (fun s => [(s, false); (s, true)]) (states 8).
Definition successors (scheme : Z) (gone : nat -> bool) (il : bool) (mark : nat -> bool) (i : nat) (l : list (Z * bool)) : list (Z * bool) :=
  filter (fun t => existsb (fun p => existsb (fun b => quiet gone il i (snd (fstepL scheme (fst p) b))
       && (fst (fstepL scheme (fst p) b) =? fst t) && Bool.eqb (snd p || (mark i && b)) (snd t)) bools) l) flagged.
Fixpoint reach (scheme : Z) (gone : nat -> bool) (il : bool) (mark : nat -> bool) (i n : nat) (l : list (Z * bool)) : list (Z * bool) :=
  match n with O => l | S n' => reach scheme gone il mark (S i) n' (successors scheme gone il mark i l) end.
Fixpoint marked (mark : nat -> bool) (i : nat) (x : list bool) : bool := match x with [] => false | b :: r => (mark i && b) || marked mark (S i) r end.
Lemma in_flagged s z : 0 <= s < 8 -> In (s, z) flagged.
Proof. intro H. apply in_flat_map. exists s. split; [now apply in_states|]. destruct z; cbn; tauto. Qed.
Lemma reach_ok scheme gone il mark : forall x i s z l, 0 <= s < 8 -> silent scheme gone il i s x -> In (s, z) l ->
  In (fin (fstepL scheme) s x, z || marked mark i x) (reach scheme gone il mark i (length x) l).
Proof.
  induction x as [|b x IH]; intros i s z l Hs H Hi; cbn [fin length reach marked]; [now rewrite orb_false_r|]. cbn [silent] in H. destruct H as [Q S].
  rewrite orb_assoc. apply IH; [apply f_rangeL; assumption|assumption|]. unfold successors. apply filter_In. split; [apply in_flagged, f_rangeL, Hs|].
  apply existsb_exists. exists (s, z). split; [assumption|]. apply existsb_exists. exists b. split; [destruct b; cbn; tauto|]. cbn [fst snd]. rewrite Q, Z.eqb_refl, Bool.eqb_reflx. reflexivity.
Qed.
Definition all_marks (i : nat) : bool := true.
Definition marks16 (i : nat) : bool := Nat.ltb i 16.
Lemma marked_all : forall x i, marked all_marks i x = false -> x = repeat false (length x).
Proof. induction x as [|b x IH]; intros i H; [reflexivity|]. cbn [marked all_marks andb] in H. apply orb_false_iff in H as [-> H]. cbn [length repeat]. f_equal. eapply IH, H. Qed.
Lemma marked_16 : forall x i, marked marks16 i x = false -> forall k, (i + k < 16)%nat -> nth k x false = false.
Proof.
  induction x as [|b x IH]; intros i H k Hk; [destruct k; reflexivity|]. cbn [marked] in H. apply orb_false_iff in H as [H0 H].
  destruct k as [|k]; cbn [nth]; [|apply (IH (S i)); [assumption|lia]]. unfold marks16 in H0. destruct (Nat.ltb_spec i 16); [exact H0|lia].
Qed.

(** fades within two blocks of 16 pairs: no silent loop *)
Fixpoint no_loop (scheme : Z) (gone : nat -> bool) (il : bool) (i n : nat) (l : list (Z * bool)) : bool :=
  forallb (fun t => negb ((fst t =? 0) && snd t)) l
  && match n with O => true | S n' => no_loop scheme gone il (S i) n' (successors scheme gone il all_marks i l) end.
Lemma no_loop_ok scheme gone il : forall n i l, no_loop scheme gone il i n l = true -> forall m, (m <= n)%nat -> ~ In (0, true) (reach scheme gone il all_marks i m l).
Proof.
  induction n as [|n IH]; intros i l H m Hm; cbn [no_loop] in H; apply andb_prop in H as [H0 H].
  - assert (m = 0)%nat as -> by lia. cbn [reach]. intro X. rewrite forallb_forall in H0. now specialize (H0 _ X).
  - destruct m as [|m]; cbn [reach]; [|apply IH; [assumption|lia]]. intro X. rewrite forallb_forall in H0. now specialize (H0 _ X).
Qed.
Definition check_loops (scheme : Z) (il : bool) : bool :=
  forallb (fun o => no_loop scheme (lost o (fade_bits il)) il 0 32 [(0, false)]) (seq 0 32).
Lemma loops_ok scheme il : check_loops (norm_scheme scheme) il = true.
Proof. destruct (norm_01 scheme) as [-> | ->], il; vm_compute; reflexivity. Qed.
(** fades anywhere: no silent change of the first 16 bits in 32 *)
Lemma header_ok scheme il : forallb (fun o => forallb (fun t => negb (snd t)) (reach (norm_scheme scheme) (lost o (fade_bits il)) il marks16 0 32 [(0, false)])) (seq 0 65) = true.
Proof. destruct (norm_01 scheme) as [-> | ->], il; vm_compute; reflexivity. Qed.
Lemma header_use scheme il o t : (o < 65)%nat -> In t (reach (norm_scheme scheme) (lost o (fade_bits il)) il marks16 0 32 [(0, false)]) -> snd t = false.
Proof.
  intros Ho X. pose proof (proj1 (forallb_forall _ _) (header_ok scheme il) o ltac:(apply in_seq; lia)) as K. cbv beta in K.
  pose proof (proj1 (forallb_forall _ _) K t X) as K2. cbv beta in K2. destruct (snd t); [discriminate K2|reflexivity].
Qed.
Lemma silent_norm scheme gone il : forall x i s, silent scheme gone il i s x -> silent (norm_scheme scheme) gone il i s x.
Proof. induction x as [|b x IH]; intros i s; [auto|]. cbn [silent]. rewrite (fstepL_norm scheme). intros [Q S]. split; [assumption|now apply IH]. Qed.
Lemma fin_norm scheme : forall x s, fin (fstepL scheme) s x = fin (fstepL (norm_scheme scheme)) s x.
Proof. induction x as [|b x IH]; intro s; [reflexivity|]. cbn [fin]. now rewrite (fstepL_norm scheme), IH. Qed.

Lemma sent_at_block il q i : sent_at il (16 * q + i) = (16 * q + sent_at il i)%nat.
Proof.
  unfold sent_at. destruct il; [|reflexivity]. replace (16 * q + i)%nat with (i + q * 16)%nat by lia. rewrite Nat.div_add, Nat.mod_add by lia. lia.
Qed.
Lemma sent_at_lt il i q : (i < 16 * q)%nat -> (sent_at il i < 16 * q)%nat.
Proof. apply sent_at_range. intros _. rewrite Nat.mul_comm. apply Nat.mod_mul. lia. Qed.
Lemma sent_at_ge il i q : (16 * q <= i)%nat -> (16 * q <= sent_at il i)%nat.
Proof. intro H. replace i with (16 * q + (i - 16 * q))%nat by lia. rewrite sent_at_block. lia. Qed.
Lemma fade_bits_le il : (fade_bits il <= 16)%nat. Proof. destruct il; cbn; lia. Qed.

Theorem fade_payload scheme il st d : silent scheme (lost st (fade_bits il)) il 0 0 d -> fin (fstepL scheme) 0 d = 0 -> d = repeat false (length d).
Proof.
  intros H F. set (L := fade_bits il) in *. pose proof (fade_bits_le il) as HL. fold L in HL.
  pose proof (Nat.div_mod st 32 ltac:(lia)) as D. pose proof (Nat.mod_upper_bound st 32 ltac:(lia)) as O. set (q := (st / 32)%nat) in *. set (o := Nat.modulo st 32) in *.
  rewrite <- (firstn_skipn (16 * q) d) in H, F. set (x1 := firstn (16 * q) d) in *. set (r := skipn (16 * q) d) in *.
  apply silent_app in H as [H1 H2]. rewrite fin_app in F.
  assert (L1 : length x1 = Nat.min (16 * q) (length d)) by apply firstn_length.
  apply (silent_ext scheme _ nothing il il x1 0 0) in H1.
  2:{ intros k Hk. cbn [Nat.add]. pose proof (sent_at_lt il k q ltac:(lia)). unfold lost, nothing. split; apply andb_false_intro1, Nat.leb_gt; lia. }
  destruct (quiet_from_zero _ _ _ _ H1) as [E1 F1]. rewrite F1 in *. 
  destruct (Nat.le_gt_cases (length d) (16 * q)) as [Small|Big].
  { assert (X : x1 = d) by (unfold x1; now apply firstn_all2). rewrite X in E1. exact E1. }
  replace (0 + length x1)%nat with (16 * q)%nat in H2 by lia.
  apply (silent_ext scheme _ (lost o L) il il r (16 * q) 0) in H2.
  2:{ intros k Hk. cbn [Nat.add]. rewrite sent_at_block. unfold lost. split; f_equal; [apply eq_true_iff_eq; rewrite !Nat.leb_le; lia|apply eq_true_iff_eq; rewrite !Nat.ltb_lt; lia|apply eq_true_iff_eq; rewrite !Nat.leb_le; lia|apply eq_true_iff_eq; rewrite !Nat.ltb_lt; lia]. }
  rewrite <- (firstn_skipn 32 r) in H2, F. set (x2 := firstn 32 r) in *. set (x3 := skipn 32 r) in *. apply silent_app in H2 as [H2 H3]. rewrite fin_app in F.
  assert (L2 : length x2 = Nat.min 32 (length r)) by apply firstn_length.
  assert (R2 : 0 <= fin (fstepL scheme) 0 x2 < 8) by (apply fin_range; [apply f_rangeL|lia]).
  assert (E3 : fin (fstepL scheme) 0 x2 = 0 /\ x3 = repeat false (length x3)).
  { destruct (Nat.le_gt_cases (length r) 32) as [S|B].
    - assert (x3 = []) as X by (apply skipn_all2; assumption). rewrite X in *. cbn [fin] in F. split; [assumption|reflexivity].
    - replace (0 + length x2)%nat with 32%nat in H3 by lia.
      apply (silent_ext scheme _ nothing il il x3 32 32) in H3.
      2:{ intros k Hk. pose proof (sent_at_ge il (32 + k) 2 ltac:(lia)). unfold lost, nothing. split; apply andb_false_intro2, Nat.ltb_ge; lia. }
      pose proof (quiet_to_zero _ _ _ _ _ R2 H3 F) as Z. split; [assumption|]. rewrite Z in H3. exact (proj1 (quiet_from_zero _ _ _ _ H3)). }
  destruct E3 as [Z2 E3].
  assert (E2 : x2 = repeat false (length x2)).
  { apply silent_norm in H2. pose proof (reach_ok _ _ _ all_marks x2 0 0 false [(0, false)] ltac:(lia) H2 (or_introl eq_refl)) as R. rewrite <- fin_norm, Z2 in R. cbn [orb] in R.
    pose proof (loops_ok scheme il) as K. unfold check_loops in K. rewrite forallb_forall in K. specialize (K o ltac:(apply in_seq; lia)). 
    apply (marked_all x2 0). destruct (marked all_marks 0 x2); [|reflexivity]. exfalso. exact (no_loop_ok _ _ _ _ _ _ K (length x2) ltac:(lia) R). }
  rewrite <- (firstn_skipn (16 * q) d). fold x1 r. rewrite <- (firstn_skipn 32 r). fold x2 x3. rewrite !app_length, !repeat_app, <- E1, <- E2, <- E3. reflexivity.
Qed.
Theorem fade_header scheme il st d : length d = 32%nat -> silent scheme (lost st (fade_bits il)) il 0 0 d -> forall i, (i < 16)%nat -> nth i d false = false.
Proof.
  intros Ld H.
  assert (H' : exists o, (o < 65)%nat /\ silent scheme (lost o (fade_bits il)) il 0 0 d).
  { destruct (Nat.le_gt_cases st 64) as [S|B]; [exists st; split; [lia|assumption]|]. exists 64%nat. split; [lia|].
    revert H. apply silent_ext. intros k Hk. cbn [Nat.add]. pose proof (sent_at_lt il k 2 ltac:(lia)). unfold lost.
    split; (transitivity false; [|symmetry]; apply andb_false_intro1, Nat.leb_gt; lia). }
  destruct H' as (o & Ho & S). apply silent_norm in S. pose proof (reach_ok _ _ _ marks16 d 0 0 false [(0, false)] ltac:(lia) S (or_introl eq_refl)) as R. rewrite Ld in R. cbn [orb] in R.
  apply (header_use scheme il o _ Ho) in R. cbn [snd] in R. intros i Hi. apply (marked_16 d 0); [exact R|lia].
Qed.

(** ** from the bits on air *)
Definition seen_apart (st len : nat) (a b : list bool) : Prop := exists j, (j < length a)%nat /\ lost st len j = false /\ nth j a false <> nth j b false.
Lemma seen_or st len a b : length b = length a -> seen_apart st len a b \/ (forall j, (j < length a)%nat -> nth j a false <> nth j b false -> lost st len j = true).
Proof.
  intro Lb. destruct (existsb (fun j => negb (lost st len j) && xorb (nth j a false) (nth j b false)) (seq 0 (length a))) eqn:E.
  - left. apply existsb_exists in E as (j & Hj & E). apply in_seq in Hj. apply andb_prop in E as [E1 E2]. exists j. split; [lia|]. split; [now destruct (lost st len j)|]. intro Q. rewrite Q, xorb_nilpotent in E2. discriminate.
  - right. intros j Hj N. destruct (lost st len j) eqn:Q; [reflexivity|]. exfalso.
    assert (existsb (fun j => negb (lost st len j) && xorb (nth j a false) (nth j b false)) (seq 0 (length a)) = true); [|congruence].
    apply existsb_exists. exists j. split; [apply in_seq; lia|]. rewrite Q. cbn [negb andb]. destruct (nth j a false), (nth j b false); try reflexivity; congruence.
Qed.
Lemma xor_bits_nth : forall x y i, length x = length y -> nth i (xor_bits x y) false = xorb (nth i x false) (nth i y false).
Proof. induction x as [|a x IH]; destruct y as [|b y]; intros i L; try discriminate L; [destruct i; reflexivity|]. destruct i; [reflexivity|]. cbn [xor_bits nth]. apply IH. now injection L. Qed.
Lemma air_silent scheme il white st len x y : length x = length y -> (il = true -> Nat.modulo (length x) 16 = 0%nat) ->
  let sent z := air il white (enc (fstep scheme) 0 z) in
  (forall j, (j < length (sent x))%nat -> nth j (sent x) false <> nth j (sent y) false -> lost st len j = true) ->
  silent scheme (lost st len) il 0 0 (xor_bits x y) /\ fin (fstepL scheme) 0 (xor_bits x y) = Z.lxor (fin (fstep scheme) 0 x) (fin (fstep scheme) 0 y).
Proof.
  intros L M sent H. destruct (enc_diff (fstep scheme) (fstepL scheme) 8 (f_range scheme) (f_diff scheme) 0 0 x y) as [E1 E2]; [lia|lia|assumption|].
  change (Z.lxor 0 0) with 0 in *. split; [|now symmetry]. apply silent_intro. rewrite <- E1. cbn [Nat.add Nat.mul]. intros j Hj.
  assert (Lz : forall z, length (enc (fstep scheme) 0 z) = (2 * length z)%nat) by (intro; apply enc_length).
  rewrite xor_bits_nth by (rewrite !Lz; lia). rewrite xor_bits_length in Hj. intro X.
  assert (Hb : (bit_at il j < 2 * length x)%nat) by (apply bit_at_range; [assumption|lia]).
  apply H; [unfold sent; rewrite air_length, Lz; assumption|]. unfold sent, air. rewrite !nth_map_seq by (rewrite Lz; lia). unfold air_bit. rewrite bit_at_inv. intro Q.
  destruct (nth j (enc _ _ x) false), (nth j (enc _ _ y) false), (white_bit white (bit_at il j)); discriminate.
Qed.
Lemma input_fin scheme h p : fin (fstep scheme) 0 (f_input scheme (h ++ p)) = fin (fstep scheme) 0 (f_pad (length (h ++ p))).
Proof. unfold f_input. rewrite app_assoc, fin_app. f_equal. rewrite fin_app. apply f_tail_flush, fin0_range. Qed.
Lemma xor_bits_zero : forall x y, length x = length y -> xor_bits x y = repeat false (length (xor_bits x y)) -> x = y.
Proof.
  induction x as [|a x IH]; destruct y as [|b y]; intros L H; try discriminate L; [reflexivity|]. cbn [xor_bits length repeat] in H. injection H as H0 H. f_equal; [destruct a, b; auto; discriminate|]. apply IH; [now injection L|assumption].
Qed.

(** the receiver is right when seeing a difference makes the wrong frame cost more *)
Theorem fade_core s zs cost st : valid_fsk s -> k_fec s = true -> zs <> [] -> (length zs <= 2047)%nat ->
  (let A := f_white s (body s (octet_bits zs)) in
   forall m b, (m = 64 \/ m = length A)%nat -> length b = m -> seen_apart st (fade_bits (k_il s)) (firstn m A) b -> (total cost (firstn m A) < total cost b)%R) ->
  fsk_corrector (k_il s) (k_white s) (k_scheme s) cost = {| rx_fcs := k_fcs s; rx_white := k_white s; rx_octets := zlen zs; rx_payload := octet_bits zs |}.
Proof.
  intros V F Nz Lz S. pose proof (octets_carried s zs Lz) as Ca. rewrite air_body in S by assumption.
  apply corrector_general; auto. cbv zeta in *. destruct (input_size s zs Nz) as [L32 M16]. cbv zeta in L32, M16.
  set (sch := k_scheme s) in *. set (bits := octet_bits zs) in *. set (H := hdr s bits) in *. set (x := f_input sch (H ++ bits)) in *. set (e := enc (fstep sch) 0 x) in *.
  assert (Le : length e = (2 * length x)%nat) by apply enc_length. split.
  - intros v Lv (i & Hi & Ni). assert (L32' : length (firstn 32 x) = 32%nat) by (rewrite firstn_length; lia).
    assert (E32 : air (k_il s) (k_white s) (enc (fstep sch) 0 (firstn 32 x)) = firstn 64 (air (k_il s) (k_white s) e)).
    { unfold e. rewrite <- enc_firstn. change 64%nat with (2 * 32)%nat. apply air_prefix; [reflexivity|]. fold e. lia. }
    destruct (seen_or st (fade_bits (k_il s)) (air (k_il s) (k_white s) (enc (fstep sch) 0 (firstn 32 x))) (air (k_il s) (k_white s) (enc (fstep sch) 0 v))) as [Sa|Sn].
    + rewrite !air_length, !enc_length. lia.
    + rewrite E32 in *. apply S; [now left|rewrite air_length, enc_length; lia|exact Sa].
    + exfalso. apply air_silent in Sn as [Si _]; [|congruence|intros _; rewrite L32'; reflexivity].
      apply Ni. pose proof (fade_header sch (k_il s) st (xor_bits (firstn 32 x) v) ltac:(rewrite xor_bits_length; lia) Si i Hi) as Q. rewrite xor_bits_nth in Q by congruence.
      destruct (nth i (firstn 32 x) false), (nth i v false); auto; discriminate.
  - intros p Lp Np.
    assert (Lxy : length x = length (f_input sch (H ++ p))) by (unfold x; rewrite !f_input_length, !app_length, Lp; reflexivity).
    destruct (seen_or st (fade_bits (k_il s)) (air (k_il s) (k_white s) e) (air (k_il s) (k_white s) (enc (fstep sch) 0 (f_input sch (H ++ p))))) as [Sa|Sn].
    + rewrite !air_length, Le, enc_length. lia.
    + pose proof (S _ (air (k_il s) (k_white s) (enc (fstep sch) 0 (f_input sch (H ++ p)))) (or_intror eq_refl)) as S'. rewrite firstn_all in S'. apply S'; [rewrite !air_length, Le, enc_length; lia|exact Sa].
    + exfalso. apply air_silent in Sn as [Si Fi]; [|exact Lxy|intros; assumption].
      assert (Z0 : fin (fstepL sch) 0 (xor_bits x (f_input sch (H ++ p))) = 0) by (rewrite Fi; unfold x; rewrite !input_fin, !app_length, Lp; apply Z.lxor_nilpotent).
      pose proof (fade_payload sch (k_il s) st _ Si Z0) as Q. apply xor_bits_zero in Q; [|exact Lxy]. apply Np. unfold x, f_input in Q.
      apply app_inj_len in Q as [Q _]; [|rewrite !app_length, Lp; reflexivity]. apply app_inv_head in Q. congruence.
Qed.
