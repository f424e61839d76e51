(** * Proofs about the MR-FSK forward error correction and interleaver *)
From Verif Require Import Py MBits MFsk Tables PList SBits PBits PConv PRate.

Definition fstep (scheme : Z) (M : Z) (b : bool) : Z * (bool * bool) :=
  let '(M', (u0, u1)) := M_iter scheme M (b2z b) in (M', (z2b u1, z2b u0)).
(** difference machine of scheme 0: the same without the complement of the outputs *)
Definition fstepL (scheme : Z) (M : Z) (b : bool) : Z * (bool * bool) :=
  let '(M', (u, v)) := fstep scheme M b in
  if scheme =? 0 then (M', (negb u, negb v)) else (M', (u, v)).
Definition potf (s : Z) : nat := nth (Z.to_nat s) [0; 2; 4; 2; 4; 4; 3; 3]%nat 0%nat.

(** schemes 0 (NRNSC) and 1 (RSC): any other value behaves as 1 *)
Lemma scheme_cases scheme : (forall M b, fstep scheme M b = fstep 0 M b) \/ (forall M b, fstep scheme M b = fstep 1 M b).
Proof.
  destruct (Z.eqb_spec scheme 0) as [->|H]; [left; reflexivity|right].
  intros M b. unfold fstep, M_iter. apply Z.eqb_neq in H. rewrite H. reflexivity.
Qed.
Definition norm_scheme (scheme : Z) : Z := if scheme =? 0 then 0 else 1.
Lemma fstep_norm scheme M b : fstep scheme M b = fstep (norm_scheme scheme) M b.
Proof. unfold fstep, M_iter, norm_scheme. destruct (scheme =? 0); reflexivity. Qed.
Lemma fstepL_norm scheme M b : fstepL scheme M b = fstepL (norm_scheme scheme) M b.
Proof. unfold fstepL. rewrite fstep_norm. unfold norm_scheme. destruct (scheme =? 0); reflexivity. Qed.
Lemma norm_01 scheme : norm_scheme scheme = 0 \/ norm_scheme scheme = 1.
Proof. unfold norm_scheme. destruct (scheme =? 0); auto. Qed.

Lemma f_range scheme s b : 0 <= s < 8 -> 0 <= fst (fstep scheme s b) < 8.
Proof.
  rewrite fstep_norm. destruct (norm_01 scheme) as [-> | ->];
    [apply (chk_range_ok (fstep 0) 8)|apply (chk_range_ok (fstep 1) 8)]; vm_compute; reflexivity.
Qed.
Lemma f_rangeL scheme s b : 0 <= s < 8 -> 0 <= fst (fstepL scheme s b) < 8.
Proof.
  rewrite fstepL_norm. destruct (norm_01 scheme) as [-> | ->];
    [apply (chk_range_ok (fstepL 0) 8)|apply (chk_range_ok (fstepL 1) 8)]; vm_compute; reflexivity.
Qed.
Lemma f_diff scheme s t a b : 0 <= s < 8 -> 0 <= t < 8 ->
    fstepL scheme (Z.lxor s t) (xorb a b) =
    (Z.lxor (fst (fstep scheme s a)) (fst (fstep scheme t b)),
     (xorb (fst (snd (fstep scheme s a))) (fst (snd (fstep scheme t b))),
      xorb (snd (snd (fstep scheme s a))) (snd (snd (fstep scheme t b))))).
Proof.
  rewrite fstepL_norm, !(fstep_norm scheme). destruct (norm_01 scheme) as [-> | ->];
    [apply (chk_diff_ok (fstep 0) (fstepL 0) 8)|apply (chk_diff_ok (fstep 1) (fstepL 1) 8)]; vm_compute; reflexivity.
Qed.
Lemma f_pot scheme s b : 0 <= s < 8 ->
   (potf s <= weight [fst (snd (fstepL scheme s b)); snd (snd (fstepL scheme s b))] + potf (fst (fstepL scheme s b)))%nat.
Proof.
  rewrite fstepL_norm. destruct (norm_01 scheme) as [-> | ->];
    [apply (chk_pot_ok (fstepL 0) potf 8)|apply (chk_pot_ok (fstepL 1) potf 8)]; vm_compute; reflexivity.
Qed.
Definition chk_f scheme : bool :=
  forallb (fun s => forallb (fun b =>
    match M_iter scheme s (b2z b) with (M', (u0, u1)) =>
      (u0 =? b2z (z2b u0)) && (u1 =? b2z (z2b u1)) end
    && Bool.eqb (xorb (snd (snd (fstep scheme s b))) (snd (snd (fstep scheme s false)))) b) bools) (states 8).
Lemma f_single scheme s b : 0 <= s < 8 ->
  M_iter scheme s (b2z b) = (fst (fstep scheme s b), (b2z (snd (snd (fstep scheme s b))), b2z (fst (snd (fstep scheme s b)))))
  /\ xorb (snd (snd (fstep scheme s b))) (snd (snd (fstep scheme s false))) = b.
Proof.
  intro Hs.
  assert (Hc : chk_f (norm_scheme scheme) = true) by (destruct (norm_01 scheme) as [-> | ->]; vm_compute; reflexivity).
  pose proof (states_forall 8 _ Hc s Hs) as H1. cbv beta in H1. pose proof (bools_forall _ H1 b) as H2. cbv beta in H2.
  apply andb_prop in H2 as [H2 H3]. apply eqb_prop in H3. rewrite !(fstep_norm scheme). split; [|assumption].
  assert (E : M_iter scheme s (b2z b) = M_iter (norm_scheme scheme) s (b2z b))
    by (unfold M_iter, norm_scheme; destruct (scheme =? 0); reflexivity).
  rewrite E. unfold fstep. destruct (M_iter (norm_scheme scheme) s (b2z b)) as [M' [u0 u1]].
  apply andb_prop in H2 as [Ha Hb]. apply Z.eqb_eq in Ha, Hb. cbn [fst snd]. congruence.
Qed.
Lemma f_inj scheme s a b : 0 <= s < 8 -> snd (fstep scheme s a) = snd (fstep scheme s b) -> a = b.
Proof.
  intros Hs H. destruct (f_single scheme s a Hs) as [_ Ha]. destruct (f_single scheme s b Hs) as [_ Hb].
  rewrite H in Ha. congruence.
Qed.

Lemma fec_loop_spec scheme v x : 0 <= v < 8 ->
  fec_loop scheme v (map b2z x) = (fin (fstep scheme) v x, map b2z (enc (fstep scheme) v x)).
Proof.
  revert v. induction x as [|b x IH]; intros v Hv; [reflexivity|].
  cbn [map fec_loop]. destruct (f_single scheme v b Hv) as [E _]. rewrite E.
  rewrite IH by now apply f_range. rewrite enc_cons. reflexivity.
Qed.

(** tail and padding as bits *)
Definition f_tail (scheme M : Z) : list bool :=
  if scheme =? 0 then [false; false; false]
  else match assoc Z.eqb M RSC_TAIL_BITS with Some t => map z2b t | None => [] end.
Definition f_pad (n : nat) : list bool :=
  if Z.even (Z.of_nat n / 8)
  then [false; true; false; true; true; false; false; false; false; true; false; true; true]
  else [false; true; false; true; true].
Lemma pad_bits_spec n : pad_bits (Z.of_nat n) = map b2z (f_pad n).
Proof.
  unfold pad_bits, f_pad. rewrite Zmod_even. destruct (Z.even (Z.of_nat n / 8)); reflexivity.
Qed.
Lemma f_tail_length scheme M : 0 <= M < 8 -> length (f_tail scheme M) = 3%nat.
Proof.
  intro H. unfold f_tail. destruct (scheme =? 0); [reflexivity|].
  apply Nat.eqb_eq. revert M H. apply (states_forall 8 (fun M => Nat.eqb (length match assoc Z.eqb M RSC_TAIL_BITS with
    | Some t => map z2b t | None => [] end) 3)). vm_compute. reflexivity.
Qed.
Lemma f_tail_flush scheme M : 0 <= M < 8 -> fin (fstep scheme) M (f_tail scheme M) = 0.
Proof.
  intro H.
  assert (E : fin (fstep scheme) M (f_tail scheme M) = fin (fstep (norm_scheme scheme)) M (f_tail (norm_scheme scheme) M)).
  { replace (f_tail scheme M) with (f_tail (norm_scheme scheme) M)
      by (unfold f_tail, norm_scheme; destruct (scheme =? 0); reflexivity).
    generalize (f_tail (norm_scheme scheme) M). intro l. revert M H. induction l as [|b l IH]; intros M H; [reflexivity|].
    cbn [fin]. rewrite fstep_norm. apply IH. now apply f_range. }
  rewrite E. apply Z.eqb_eq. revert M H E.
  destruct (norm_01 scheme) as [-> | ->]; intros M H _; revert M H.
  - apply (states_forall 8 (fun M => fin (fstep 0) M (f_tail 0 M) =? 0)). vm_compute. reflexivity.
  - apply (states_forall 8 (fun M => fin (fstep 1) M (f_tail 1 M) =? 0)). vm_compute. reflexivity.
Qed.
Lemma tail_dict scheme M : 0 <= M < 8 ->
  (if scheme =? 0 then Ok NRNSC_TAIL_BITS else dict_get Z.eqb M RSC_TAIL_BITS) = Ok (map b2z (f_tail scheme M)).
Proof.
  intro H. unfold f_tail, dict_get. destruct (scheme =? 0); [reflexivity|].
  pose proof (states_forall 8 (fun M => match assoc Z.eqb M RSC_TAIL_BITS with
     | Some t => forallb (fun x => x =? b2z (z2b x)) t | None => false end) ltac:(vm_compute; reflexivity) M H) as Hc.
  cbv beta in Hc. destruct (assoc Z.eqb M RSC_TAIL_BITS) as [t|]; [|discriminate].
  f_equal. rewrite map_map. rewrite forallb_forall in Hc. rewrite <- (map_id t) at 1.
  apply map_ext_in. intros x Hx. apply Z.eqb_eq. now apply Hc.
Qed.

(** the whole coded stream is one run of the encoder *)
Definition f_input (scheme : Z) (x : list bool) : list bool :=
  x ++ f_tail scheme (fin (fstep scheme) 0 x) ++ f_pad (length x).
Lemma fin0_range scheme x : 0 <= fin (fstep scheme) 0 x < 8.
Proof. apply fin_range; [apply f_range|lia]. Qed.
Lemma k_FEC_spec scheme x : k_FEC scheme x = Ok (enc (fstep scheme) 0 (f_input scheme x)).
Proof.
  unfold k_FEC. rewrite fec_loop_spec by lia. rewrite tail_dict by apply fin0_range. cbn [rbind].
  rewrite fec_loop_spec by apply fin0_range. unfold zlen. rewrite pad_bits_spec.
  assert (R : 0 <= fin (fstep scheme) (fin (fstep scheme) 0 x) (f_tail scheme (fin (fstep scheme) 0 x)) < 8)
    by (apply fin_range; [apply f_range|apply fin0_range]).
  rewrite fec_loop_spec by exact R.
  f_equal. unfold f_input. rewrite !enc_app. rewrite <- !map_app, map_z2b_b2z. reflexivity.
Qed.
Lemma f_enc_inj scheme s x y : 0 <= s < 8 -> enc (fstep scheme) s x = enc (fstep scheme) s y -> x = y.
Proof. apply (enc_inj (fstep scheme) 8 (f_range scheme) (f_inj scheme)). Qed.

Lemma f_input_length scheme x :
  length (f_input scheme x) = (length x + 3 + length (f_pad (length x)))%nat.
Proof. unfold f_input. rewrite !app_length, f_tail_length by apply fin0_range. lia. Qed.
Lemma f_pad_length n : length (f_pad n) = if Z.even (Z.of_nat n / 8) then 13%nat else 5%nat.
Proof. unfold f_pad. destruct (Z.even _); reflexivity. Qed.

Lemma f_distance scheme x y : length x = length y -> x <> y ->
  (6 <= distance (enc (fstep scheme) 0 (f_input scheme x)) (enc (fstep scheme) 0 (f_input scheme y)))%nat.
Proof.
  intros Hl Hn. unfold f_input. rewrite !app_assoc, !(enc_app _ _ (_ ++ _)).
  assert (F : forall z, fin (fstep scheme) 0 (z ++ f_tail scheme (fin (fstep scheme) 0 z)) = 0)
    by (intro z; rewrite fin_app; apply f_tail_flush, fin0_range).
  rewrite !F, Hl.
  assert (L : length (x ++ f_tail scheme (fin (fstep scheme) 0 x)) = length (y ++ f_tail scheme (fin (fstep scheme) 0 y)))
    by (rewrite !app_length, !f_tail_length by apply fin0_range; lia).
  rewrite distance_app by (rewrite !enc_length; lia).
  enough (6 <= distance (enc (fstep scheme) 0 (x ++ f_tail scheme (fin (fstep scheme) 0 x)))
                        (enc (fstep scheme) 0 (y ++ f_tail scheme (fin (fstep scheme) 0 y))))%nat by lia.
  apply (free_distance (fstep scheme) (fstepL scheme) 8 (f_range scheme) (f_rangeL scheme) (f_diff scheme) potf eq_refl (f_pot scheme)).
  - lia.
  - rewrite fstepL_norm. destruct (norm_01 scheme) as [-> | ->]; reflexivity.
  - rewrite (fstepL_norm scheme). destruct (norm_01 scheme) as [-> | ->]; vm_compute; repeat constructor.
  - exact L.
  - intro E. apply Hn. apply app_inj_len in E; tauto.
  - apply F.
  - apply F.
Qed.

(** decoder: the second output of each pair gives the input *)
Fixpoint f_decode (scheme : Z) (s : Z) (l : list bool) : list bool :=
  match l with
  | _ :: v :: r => let b := xorb v (snd (snd (fstep scheme s false))) in b :: f_decode scheme (fst (fstep scheme s b)) r
  | _ => []
  end.
Lemma f_decode_enc scheme s x : 0 <= s < 8 -> f_decode scheme s (enc (fstep scheme) s x) = x.
Proof.
  revert s. induction x as [|b x IH]; intros s Hs; [reflexivity|]. rewrite enc_cons. cbn [f_decode].
  destruct (f_single scheme s b Hs) as [_ E]. rewrite E. f_equal. apply IH. now apply f_range.
Qed.
Lemma f_decode_prefix scheme s l n : f_decode scheme s (firstn (2 * n) l) = firstn n (f_decode scheme s l).
Proof.
  revert s l. induction n as [|n IH]; intros s l; [reflexivity|].
  replace (2 * S n)%nat with (S (S (2 * n))) by lia.
  destruct l as [|u [|v l]]; [reflexivity|reflexivity|]. cbn [firstn f_decode]. cbv zeta. f_equal. apply IH.
Qed.

(** ** interleaver *)
Definition il_pos (j : nat) : nat := (2 * Z.to_nat (il_t (Z.of_nat (j / 2))) + Nat.modulo j 2)%nat.
Lemma il_block_perm block : length block = 32%nat ->
  il_block block = map (fun j => nth (il_pos j) block false) (seq 0 32).
Proof.
  intro H. do 33 (destruct block as [|? block]; [simpl in H; try lia|]); [|simpl in H; lia].
  vm_compute. reflexivity.
Qed.
Lemma il_pos_range j : (j < 32)%nat -> (il_pos j < 32)%nat.
Proof.
  intro H. assert (E : forallb (fun j => Nat.ltb (il_pos j) 32) (seq 0 32) = true) by (vm_compute; reflexivity).
  rewrite forallb_forall in E. apply Nat.ltb_lt. apply E. apply in_seq. lia.
Qed.
Lemma il_pos_inv j : (j < 32)%nat -> il_pos (il_pos j) = j.
Proof.
  intro H. assert (E : forallb (fun j => Nat.eqb (il_pos (il_pos j)) j) (seq 0 32) = true) by (vm_compute; reflexivity).
  rewrite forallb_forall in E. apply Nat.eqb_eq. apply E. apply in_seq. lia.
Qed.
Lemma il_block_length block : length block = 32%nat -> length (il_block block) = 32%nat.
Proof. intro H. rewrite il_block_perm by assumption. now rewrite map_length, seq_length. Qed.
Lemma il_block_nth block j : length block = 32%nat -> (j < 32)%nat ->
  nth j (il_block block) false = nth (il_pos j) block false.
Proof. intros H Hj. rewrite il_block_perm by assumption. now rewrite nth_map_seq. Qed.
Lemma il_block_inv block : length block = 32%nat -> il_block (il_block block) = block.
Proof.
  intro H. apply list_eq_nth with false; rewrite !il_block_length; auto using il_block_length.
  intros i Hi. rewrite !il_block_nth; auto using il_block_length, il_pos_range. now rewrite il_pos_inv.
Qed.

Definition f_interleave (l : list bool) : list bool := concat (map il_block (chunks 32 l)).
Lemma k_interleaver_ok l : Nat.modulo (length l) 32 = 0%nat -> k_interleaver l = Ok (f_interleave l).
Proof. intro H. unfold k_interleaver. rewrite reshape_rows_ok by assumption. reflexivity. Qed.
Lemma k_interleaver_err l : Nat.modulo (length l) 32 <> 0%nat -> k_interleaver l = Err ValueError.
Proof. intro H. unfold k_interleaver. rewrite reshape_rows_err by assumption. reflexivity. Qed.
Lemma f_interleave_app a l : length a = 32%nat -> f_interleave (a ++ l) = il_block a ++ f_interleave l.
Proof. intro H. unfold f_interleave. rewrite chunks_app by lia. reflexivity. Qed.
Lemma f_interleave_length l : Nat.modulo (length l) 32 = 0%nat -> length (f_interleave l) = length l.
Proof.
  revert l. apply block_ind; [lia|reflexivity|]. intros a l Ha IH.
  rewrite f_interleave_app, !app_length, il_block_length by assumption. lia.
Qed.
Lemma f_interleave_inv l : Nat.modulo (length l) 32 = 0%nat -> f_interleave (f_interleave l) = l.
Proof.
  revert l. apply block_ind; [lia|reflexivity|]. intros a l Ha IH.
  rewrite f_interleave_app by assumption. rewrite f_interleave_app by now apply il_block_length.
  now rewrite il_block_inv, IH.
Qed.
Lemma f_interleave_nth l : Nat.modulo (length l) 32 = 0%nat -> forall b j,
  (32 * b < length l)%nat -> (j < 32)%nat ->
  nth (32 * b + j) (f_interleave l) false = nth (32 * b + il_pos j) l false.
Proof.
  revert l. apply (block_ind 32 (fun l => forall b j, (32 * b < length l)%nat -> (j < 32)%nat ->
     nth (32 * b + j) (f_interleave l) false = nth (32 * b + il_pos j) l false)); [lia| |].
  - intros b j H. simpl in H. lia.
  - intros a l Ha IH b j Hb Hj. rewrite f_interleave_app by assumption. destruct b as [|b].
    + rewrite Nat.mul_0_r, !Nat.add_0_l. pose proof (il_pos_range j Hj).
      rewrite !app_nth1 by (rewrite ?il_block_length; lia). now apply il_block_nth.
    + rewrite app_length in Hb.
      rewrite !app_nth2 by (rewrite ?il_block_length by assumption; lia).
      rewrite il_block_length, Ha by assumption.
      replace (32 * S b + j - 32)%nat with (32 * b + j)%nat by lia.
      replace (32 * S b + il_pos j - 32)%nat with (32 * b + il_pos j)%nat by lia.
      apply IH; lia.
Qed.
