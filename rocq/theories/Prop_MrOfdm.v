(** * C28, C32, C33, C34, C38, C43-C46: MR-OFDM frames (frequency domain) *)
From Verif Require Import Py PList SBits SEntry MBits PBits PEntry MPn9 SPn9 PPn9 MRate SRate PRate MFields PFields SCrc MModul MOfdm Tables SOfdm SMrOfdm PModul POfdm MMrOfdm PStd PMrOfdm PMrRx.

(** ** objects and their call histories *)
(** bytesToIQ / bitsToIQ, frequency domain *)
Definition send (r : request) : SM mr_ofdm (list (list tone) * list (list tone)) :=
  match r with Octets a => m_bytes_symbols a | Bits a => m_bits_symbols a end.
(** object after a list of calls, whatever their results *)
Fixpoint after (h : list request) (s : mr_ofdm) : mr_ofdm :=
  match h with [] => s | r :: h' => after h' (fst (send r s)) end.
(** an object built with these parameters and used in any way *)
Definition used (opt mcs il scr : Z) (s : mr_ofdm) : Prop :=
  exists vm vo vi vs s0 h, mr_ofdm_new vm vo vi vs = Ok s0 /\ int_of vm = mcs /\ int_of vo = opt /\ int_of vi = il /\ int_of vs = scr
    /\ s = after h s0.

(** ** C45 *)
Definition accepted (opt mcs il scr : Z) : Prop := supported opt mcs /\ (il = 0 \/ il = 1) /\ 0 <= scr <= 3.
Definition ints (l : list pyval) : Prop := Forall (fun v => is_int v = true) l.
Definition build (vm vo vi vs : pyval) := mr_ofdm_new vm vo vi vs.

Lemma new_ints vm vo vi vs : ints [vm; vo; vi; vs] ->
  mr_ofdm_new vm vo vi vs = mr_ofdm_new (PInt (int_of vm)) (PInt (int_of vo)) (PInt (int_of vi)) (PInt (int_of vs)).
Proof.
  intro H. unfold ints in H. rewrite Forall_forall in H.
  assert (H1 : is_int vm = true) by (apply H; simpl; auto). assert (H2 : is_int vo = true) by (apply H; simpl; auto).
  assert (H3 : is_int vi = true) by (apply H; simpl; auto). assert (H4 : is_int vs = true) by (apply H; simpl; auto).
  unfold mr_ofdm_new. rewrite H1, H2, H3, H4. reflexivity.
Qed.
Lemma range_spec a b x : (a <=? x) && (x <=? b) = true <-> a <= x <= b.
Proof. rewrite andb_true_iff, !Z.leb_le. tauto. Qed.
Lemma new_inv vm vo vi vs s : mr_ofdm_new vm vo vi vs = Ok s ->
  ints [vm; vo; vi; vs] /\ accepted (int_of vo) (int_of vm) (int_of vi) (int_of vs)
  /\ s = std_obj (int_of vo) (int_of vm) (int_of vi) (int_of vs).
Proof.
  intro H. pose proof H as H0. unfold mr_ofdm_new in H.
  destruct (is_int vm) eqn:E1; [|discriminate H]. cbn [negb] in H.
  destruct ((0 <=? int_of vm) && (int_of vm <=? 7)) eqn:E2; [|discriminate H]. cbn [negb] in H. apply range_spec in E2.
  destruct (is_int vo) eqn:E3; [|discriminate H]. cbn [negb] in H.
  destruct ((1 <=? int_of vo) && (int_of vo <=? 4)) eqn:E4; [|discriminate H]. cbn [negb] in H. apply range_spec in E4.
  assert (Hs : supported (int_of vo) (int_of vm)).
  { set (m := int_of vm) in *. set (o := int_of vo) in *. clearbody m o. clear H0.
    assert (Hm : m = 0 \/ m = 1 \/ m = 2 \/ m = 3 \/ m = 4 \/ m = 5 \/ m = 6 \/ m = 7) by lia.
    assert (Ho : o = 1 \/ o = 2 \/ o = 3 \/ o = 4) by lia. unfold supported.
    destruct Hm as [->|[->|[->|[->|[->|[->|[->| ->]]]]]]]; destruct Ho as [->|[->|[->| ->]]];
      first [discriminate H | lia]. }
  assert (Hrow : exists row, nth_error VALID_MCS_OFDM_COMBINATIONS (Z.to_nat (int_of vm)) = Some row
      /\ nth_error row (Z.to_nat (int_of vo - 1)) = Some true).
  { clear H H0. revert Hs. set (m := int_of vm). set (o := int_of vo). clearbody m o. each; eexists; split; reflexivity. }
  destruct Hrow as (row & R1 & R2). rewrite R1, R2 in H.
  destruct (is_int vi) eqn:E5; [|discriminate H]. cbn [negb] in H.
  destruct ((int_of vi =? 0) || (int_of vi =? 1)) eqn:E6; [|discriminate H]. cbn [negb] in H.
  destruct (is_int vs) eqn:E7; [|discriminate H]. cbn [negb] in H.
  destruct ((0 <=? int_of vs) && (int_of vs <=? 3)) eqn:E8; [|discriminate H]. apply range_spec in E8.
  assert (Hi : int_of vi = 0 \/ int_of vi = 1) by (apply orb_true_iff in E6; rewrite !Z.eqb_eq in E6; exact E6).
  assert (HI : ints [vm; vo; vi; vs]) by (repeat constructor; assumption).
  split; [exact HI|]. split; [split; auto|].
  rewrite (new_ints _ _ _ _ HI), new_std in H0 by assumption. now inversion H0.
Qed.
Theorem C45_accepted vm vo vi vs :
  (exists s, build vm vo vi vs = Ok s) <-> ints [vm; vo; vi; vs] /\ accepted (int_of vo) (int_of vm) (int_of vi) (int_of vs).
Proof.
  split.
  - intros [s H]. apply new_inv in H. tauto.
  - intros [HI (H1 & H2 & H3)]. unfold build. rewrite (new_ints _ _ _ _ HI), new_std by assumption. eauto.
Qed.
Print Assumptions C45_accepted.
Theorem C45_unsupported vm vo vi vs : is_int vm = true -> is_int vo = true -> 0 <= int_of vm <= 6 -> 1 <= int_of vo <= 4 ->
  ~ supported (int_of vo) (int_of vm) -> build vm vo vi vs = Err UnsupportedError.
Proof.
  intros H1 H2 Hm Ho Hn. unfold build, mr_ofdm_new. rewrite H1, H2. cbn [negb].
  set (m := int_of vm) in *. set (o := int_of vo) in *. clearbody m o.
  assert (Em : m = 0 \/ m = 1 \/ m = 2 \/ m = 3 \/ m = 4 \/ m = 5 \/ m = 6) by lia.
  assert (Eo : o = 1 \/ o = 2 \/ o = 3 \/ o = 4) by lia. unfold supported in Hn.
  destruct Em as [->|[->|[->|[->|[->|[->| ->]]]]]]; destruct Eo as [->|[->|[->| ->]]]; first [reflexivity | exfalso; lia].
Qed.
Print Assumptions C45_unsupported.
(** every other bad argument raises ValueError, except MCS 7 (see below) *)
Theorem C45_value_error vm vo vi vs :
  ~ (is_int vm = true /\ is_int vo = true /\ 0 <= int_of vm <= 6 /\ 1 <= int_of vo <= 4 /\ ~ supported (int_of vo) (int_of vm)) ->
  ~ (is_int vm = true /\ int_of vm = 7 /\ is_int vo = true /\ 1 <= int_of vo <= 4) ->
  ~ (ints [vm; vo; vi; vs] /\ accepted (int_of vo) (int_of vm) (int_of vi) (int_of vs)) ->
  build vm vo vi vs = Err ValueError.
Proof.
  intros N1 N2 N3. unfold build, mr_ofdm_new.
  destruct (is_int vm) eqn:E1; [|reflexivity]. cbn [negb].
  destruct ((0 <=? int_of vm) && (int_of vm <=? 7)) eqn:E2; [|reflexivity]. cbn [negb]. apply range_spec in E2.
  destruct (is_int vo) eqn:E3; [|reflexivity]. cbn [negb].
  destruct ((1 <=? int_of vo) && (int_of vo <=? 4)) eqn:E4; [|reflexivity]. cbn [negb]. apply range_spec in E4.
  assert (Hs : supported (int_of vo) (int_of vm)).
  { destruct (Z.eq_dec (int_of vm) 7) as [E|E]; [exfalso; apply N2; auto|].
    assert (D : supported (int_of vo) (int_of vm) \/ ~ supported (int_of vo) (int_of vm)) by (unfold supported; lia).
    destruct D as [D|D]; [exact D|]. exfalso. apply N1. repeat split; auto; lia. }
  assert (Hrow : exists row, nth_error VALID_MCS_OFDM_COMBINATIONS (Z.to_nat (int_of vm)) = Some row
      /\ nth_error row (Z.to_nat (int_of vo - 1)) = Some true).
  { clear N1 N2 N3. revert Hs. set (m := int_of vm). set (o := int_of vo). clearbody m o. each; eexists; split; reflexivity. }
  destruct Hrow as (row & R1 & R2). rewrite R1, R2.
  destruct (is_int vi) eqn:E5; [|reflexivity]. cbn [negb].
  destruct ((int_of vi =? 0) || (int_of vi =? 1)) eqn:E6; [|reflexivity]. cbn [negb].
  destruct (is_int vs) eqn:E7; [|reflexivity]. cbn [negb].
  destruct ((0 <=? int_of vs) && (int_of vs <=? 3)) eqn:E8; [|reflexivity]. apply range_spec in E8.
  exfalso. apply N3. assert (Hi : int_of vi = 0 \/ int_of vi = 1) by (apply orb_true_iff in E6; rewrite !Z.eqb_eq in E6; exact E6).
  split; [repeat constructor; assumption|]. split; auto.
Qed.
Print Assumptions C45_value_error.
(** MCS = 7 passes the range check (0..7) and then indexes a table of seven rows *)
Theorem C45_mcs7_refuted vm vo vi vs : is_int vm = true -> int_of vm = 7 -> is_int vo = true -> 1 <= int_of vo <= 4 ->
  ~ supported (int_of vo) (int_of vm) /\ build vm vo vi vs = Err IndexError.
Proof.
  intros E1 E2 E3 E4. split; [unfold supported; lia|]. unfold build, mr_ofdm_new. rewrite E1, E2, E3.
  destruct ((1 <=? int_of vo) && (int_of vo <=? 4)) eqn:F; [reflexivity|]. exfalso. enough (1 <= int_of vo <= 4 -> (1 <=? int_of vo) && (int_of vo <=? 4) = true) by (rewrite H in F by assumption; discriminate). apply range_spec.
Qed.
Print Assumptions C45_mcs7_refuted.
Example C45_case : (exists s, build (PInt 5) (PInt 3) (PBool true) (PInt 2) = Ok s) /\ build (PInt 7) (PInt 3) (PInt 0) (PInt 0) = Err IndexError.
Proof. split; [eexists|]; reflexivity. Qed.

(** ** C46 *)
Lemma send_clear r s : snd (send r s) = snd (send r (clear s)) /\ clear (fst (send r s)) = clear s.
Proof. destruct r; [apply bytes_clear|apply bits_clear]. Qed.
Lemma after_clear h : forall s, clear (after h s) = clear s.
Proof. induction h as [|r h IH]; intro s; [reflexivity|]. cbn [after]. rewrite IH. apply send_clear. Qed.
Theorem C46_no_memory vm vo vi vs s0 h r : build vm vo vi vs = Ok s0 ->
  snd (send r (after h s0)) = snd (send r s0) /\ m_bits_per_symbol (after h s0) = m_bits_per_symbol s0.
Proof.
  intros _. split.
  - rewrite (proj1 (send_clear r (after h s0))), after_clear. symmetry. apply send_clear.
  - pose proof (after_clear h s0) as E. apply (f_equal m_ndbps) in E. exact E.
Qed.
Print Assumptions C46_no_memory.
Lemma used_inv opt mcs il scr s : used opt mcs il scr s ->
  supported opt mcs /\ il_ok il /\ scr_ok scr /\ clear s = std_obj opt mcs il scr.
Proof.
  intros (vm & vo & vi & vs & s0 & h & Hn & <- & <- & <- & <- & ->). apply new_inv in Hn as (_ & (H1 & H2 & H3) & ->).
  split; [assumption|]. split; [assumption|]. split; [assumption|]. now rewrite after_clear.
Qed.
(** a non-trivial history: a rejected payload, then a frame, on the same object *)
Example C46_case : exists s0, build (PInt 3) (PInt 4) (PInt 0) (PInt 0) = Ok s0 /\
  is_ok (snd (send (Octets (AStr "x")) s0)) = false /\
  is_ok (snd (send (Octets (AList 1 [1%Q; 2%Q])) (after [Octets (AStr "x"); Octets (AList 1 [5%Q])] s0))) = true.
Proof. eexists. split; [reflexivity|]. split; vm_compute; reflexivity. Qed.

(** ** payloads of octets on used objects *)
Lemma octets_run opt mcs il scr s a zs : used opt mcs il scr s -> holds_octets a zs -> Forall is_octet zs -> 1 <= zlen zs <= 2047 ->
  m_bytes_symbols a s = (after_frame opt mcs il scr (octet_bits zs) s,
    Ok (frame_phr opt mcs il scr (octet_bits zs), frame_payload opt mcs il scr (octet_bits zs))).
Proof.
  intros Hu Ha Ho Hl. destruct (used_inv _ _ _ _ _ Hu) as (H1 & H2 & H3 & H4).
  assert (Hne : zs <> []) by (intro; subst; unfold zlen in Hl; simpl in Hl; lia).
  rewrite (ofdm_bytes_bits a zs s) by assumption. apply frame_run; auto.
  - rewrite <- octet_bits_arg_eq. apply check_binary_bits_arg. now apply octet_bits_nonnil.
  - unfold zlen in *. rewrite octet_bits_length, Nat2Z.inj_mul. change (Z.of_nat 8) with 8. rewrite Z.mul_comm, Z.div_mul by lia. exact Hl.
Qed.

(** ** C28 *)
(** _interleaver on an object, for the payload MCS; streams of whole blocks *)
Theorem C28_permutation opt mcs il scr s : used opt mcs il scr s ->
  exists pos : nat -> nat,
  (forall p, (p < il_block opt mcs il)%nat -> (pos p < il_block opt mcs il)%nat)
  /\ (forall p q, (p < il_block opt mcs il)%nat -> (q < il_block opt mcs il)%nat -> pos p = pos q -> p = q)
  /\ forall x k, length x = (k * il_block opt mcs il)%nat ->
     exists s' y, interleaver x mcs s = (s', Ok y) /\ length y = length x
     /\ forall b p, (b < k)%nat -> (p < il_block opt mcs il)%nat ->
        nth (b * il_block opt mcs il + pos p) y false = nth (b * il_block opt mcs il + p) x false.
Proof.
  intro Hu. destruct (used_inv _ _ _ _ _ Hu) as (H1 & H2 & H3 & H4).
  pose proof (std_perm opt mcs il H1 H2) as Hp. pose proof (il_block_pos opt mcs il H1 H2) as Hn.
  set (n := il_block opt mcs il) in *. exists (fun p => Z.to_nat (nth p (std_ij opt mcs il) 0)).
  pose proof Hp as (Hl & Hd & Hr). rewrite Forall_forall in Hr.
  assert (Hb : forall p, (p < n)%nat -> 0 <= nth p (std_ij opt mcs il) 0 < Z.of_nat n) by (intros; apply Hr, nth_In; lia).
  split; [intros p Hpn; specialize (Hb p Hpn); lia|]. split.
  { intros p q Hpn Hqn E. pose proof (Hb p Hpn). pose proof (Hb q Hqn). rewrite (NoDup_nth _ 0) in Hd. apply Hd; lia. }
  intros x k Hx. exists (upd_ij (std_ij opt mcs il) s), (il_apply (std_ij opt mcs il) x).
  split; [|split; [apply il_apply_length|]].
  - destruct s. unfold clear, std_obj in H4.
    cbn [MMrOfdm.m_il MMrOfdm.m_scr MMrOfdm.m_opt MMrOfdm.m_mcs MMrOfdm.m_low MMrOfdm.m_nfft MMrOfdm.m_ncbps_low MMrOfdm.m_ncbps MMrOfdm.m_rate MMrOfdm.m_ndbps] in H4.
    injection H4 as -> -> -> -> -> -> -> -> -> ->. run.
    rewrite (get_sf opt mcs H1), (get_bpsc opt mcs H1). cbv beta iota zeta. rewrite (ncbps_block opt mcs il H1 H2). reflexivity.
  - intros b p Hbk Hpn. destruct (il_apply_spec n _ x Hp Hn) as [A _]. apply A; [|assumption].
    rewrite Hx, Nat.div_mul by lia. exact Hbk.
Qed.
Print Assumptions C28_permutation.
(** one function of the configuration undoes it, whatever the number of blocks *)
Theorem C28_undone opt mcs il scr s : used opt mcs il scr s ->
  exists undo : list bool -> list bool, forall x k, length x = (k * il_block opt mcs il)%nat ->
  exists s' y, interleaver x mcs s = (s', Ok y) /\ undo y = x.
Proof.
  intro Hu. destruct (used_inv _ _ _ _ _ Hu) as (H1 & H2 & H3 & H4).
  pose proof (std_perm opt mcs il H1 H2) as Hp. pose proof (il_block_pos opt mcs il H1 H2) as Hn.
  exists (il_undo (std_ij opt mcs il)). intros x k Hx. exists (upd_ij (std_ij opt mcs il) s), (il_apply (std_ij opt mcs il) x). split.
  - destruct s. unfold clear, std_obj in H4.
    cbn [MMrOfdm.m_il MMrOfdm.m_scr MMrOfdm.m_opt MMrOfdm.m_mcs MMrOfdm.m_low MMrOfdm.m_nfft MMrOfdm.m_ncbps_low MMrOfdm.m_ncbps MMrOfdm.m_rate MMrOfdm.m_ndbps] in H4.
    injection H4 as -> -> -> -> -> -> -> -> -> ->. run.
    rewrite (get_sf opt mcs H1), (get_bpsc opt mcs H1). cbv beta iota zeta. rewrite (ncbps_block opt mcs il H1 H2). reflexivity.
  - rewrite (il_undo_apply _ _ x Hp Hn). rewrite Hx, Nat.div_mul by lia. rewrite <- Hx. apply firstn_all.
Qed.
Print Assumptions C28_undone.
Definition std_order (opt mcs il : Z) : bool :=
  forallb (fun p => nth p (std_ij opt mcs il) 0 =? std_position opt mcs il (Z.of_nat p)) (seq 0 (il_block opt mcs il)).
(** For BPSK and QPSK the permutation is the standard's. *)
Theorem C28_standard_partial opt mcs il scr s x k : used opt mcs il scr s -> mcs <= 4 -> length x = (k * il_block opt mcs il)%nat ->
  exists s' y, interleaver x mcs s = (s', Ok y) /\ length y = length x
  /\ forall b p, (b < k)%nat -> (p < il_block opt mcs il)%nat ->
     nth (b * il_block opt mcs il + Z.to_nat (std_position opt mcs il (Z.of_nat p))) y false = nth (b * il_block opt mcs il + p) x false.
Proof.
  intros Hu Hm Hx. destruct (used_inv _ _ _ _ _ Hu) as (H1 & H2 & H3 & H4).
  pose proof (std_perm opt mcs il H1 H2) as Hp. pose proof (il_block_pos opt mcs il H1 H2) as Hn.
  assert (Ho : std_order opt mcs il = true).
  { clear -H1 H2 Hm. destruct H2 as [-> | ->]; revert H1; each; first [exfalso; lia | vm_compute; reflexivity]. }
  unfold std_order in Ho. rewrite forallb_forall in Ho.
  exists (upd_ij (std_ij opt mcs il) s), (il_apply (std_ij opt mcs il) x).
  split; [|split; [apply il_apply_length|]].
  - destruct s. unfold clear, std_obj in H4.
    cbn [MMrOfdm.m_il MMrOfdm.m_scr MMrOfdm.m_opt MMrOfdm.m_mcs MMrOfdm.m_low MMrOfdm.m_nfft MMrOfdm.m_ncbps_low MMrOfdm.m_ncbps MMrOfdm.m_rate MMrOfdm.m_ndbps] in H4.
    injection H4 as -> -> -> -> -> -> -> -> -> ->. run.
    rewrite (get_sf opt mcs H1), (get_bpsc opt mcs H1). cbv beta iota zeta. rewrite (ncbps_block opt mcs il H1 H2). reflexivity.
  - intros b p Hbk Hpn. destruct (il_apply_spec _ _ x Hp Hn) as [A _]. specialize (Ho p). rewrite in_seq in Ho.
    specialize (Ho ltac:(lia)). apply Z.eqb_eq in Ho. rewrite <- Ho. apply A; [|assumption].
    rewrite Hx, Nat.div_mul by lia. exact Hbk.
Qed.
Print Assumptions C28_standard_partial.
(** With 16-QAM it is not: the code composes the two steps in the other order.  Option 3, MCS 5, input bit 8 of the first
    block goes to position 72 and not 64. *)
Theorem C28_qam16_refuted : exists opt mcs il s x s' y p, supported opt mcs /\ mcs = 5
  /\ mr_ofdm_new (PInt mcs) (PInt opt) (PInt il) (PInt 0) = Ok s /\ length x = il_block opt mcs il
  /\ (p < il_block opt mcs il)%nat /\ interleaver x mcs s = (s', Ok y)
  /\ nth (Z.to_nat (std_position opt mcs il (Z.of_nat p))) y false <> nth p x false
  /\ std_position opt mcs il (Z.of_nat p) = 64 /\ nth 72 y false = nth p x false.
Proof.
  exists 3, 5, 0. eexists. exists (repeat false 8 ++ [true] ++ repeat false 87). eexists. eexists. exists 8%nat.
  split; [unfold supported; lia|]. split; [reflexivity|]. split; [reflexivity|]. split; [reflexivity|].
  split; [vm_compute; lia|]. split; [vm_compute; reflexivity|]. split; [vm_compute; discriminate|]. split; vm_compute; reflexivity.
Qed.
Print Assumptions C28_qam16_refuted.
(** exactly, for every 16-QAM configuration (MCS 5 and 6): the steps in the other order, so three quarters of the bits of each
    block are not where the standard puts them *)
Definition swapped_position (opt mcs il k : Z) : Z :=
  let n := Z.of_nat (il_block opt mcs il) in std_step1 n 12 (std_step2 n 12 2 k).
Theorem C28_qam16_every_refuted opt mcs il scr s x k : used opt mcs il scr s -> 5 <= mcs -> length x = (k * il_block opt mcs il)%nat ->
  (exists s' y, interleaver x mcs s = (s', Ok y) /\ length y = length x
   /\ forall b p, (b < k)%nat -> (p < il_block opt mcs il)%nat ->
      nth (b * il_block opt mcs il + Z.to_nat (swapped_position opt mcs il (Z.of_nat p))) y false = nth (b * il_block opt mcs il + p) x false)
  /\ (4 * length (filter (fun p => negb (swapped_position opt mcs il (Z.of_nat p) =? std_position opt mcs il (Z.of_nat p))%Z) (seq 0 (il_block opt mcs il)))
      = 3 * il_block opt mcs il)%nat.
Proof.
  intros Hu Hm Hx. destruct (used_inv _ _ _ _ _ Hu) as (H1 & H2 & H3 & H4).
  pose proof (std_perm opt mcs il H1 H2) as Hp. pose proof (il_block_pos opt mcs il H1 H2) as Hn.
  assert (Ho : forallb (fun p => nth p (std_ij opt mcs il) 0 =? swapped_position opt mcs il (Z.of_nat p)) (seq 0 (il_block opt mcs il)) = true
    /\ (4 * length (filter (fun p => negb (swapped_position opt mcs il (Z.of_nat p) =? std_position opt mcs il (Z.of_nat p))%Z) (seq 0 (il_block opt mcs il)))
      = 3 * il_block opt mcs il)%nat).
  { clear -H1 H2 Hm. destruct H2 as [-> | ->]; revert H1; each; first [exfalso; lia | split; vm_compute; reflexivity]. }
  destruct Ho as [Ho Hc]. split; [|exact Hc]. clear Hc. rewrite forallb_forall in Ho.
  exists (upd_ij (std_ij opt mcs il) s), (il_apply (std_ij opt mcs il) x).
  split; [|split; [apply il_apply_length|]].
  - destruct s. unfold clear, std_obj in H4.
    cbn [MMrOfdm.m_il MMrOfdm.m_scr MMrOfdm.m_opt MMrOfdm.m_mcs MMrOfdm.m_low MMrOfdm.m_nfft MMrOfdm.m_ncbps_low MMrOfdm.m_ncbps MMrOfdm.m_rate MMrOfdm.m_ndbps] in H4.
    injection H4 as -> -> -> -> -> -> -> -> -> ->. run.
    rewrite (get_sf opt mcs H1), (get_bpsc opt mcs H1). cbv beta iota zeta. rewrite (ncbps_block opt mcs il H1 H2). reflexivity.
  - intros b p Hbk Hpn. destruct (il_apply_spec _ _ x Hp Hn) as [A _]. specialize (Ho p). rewrite in_seq in Ho.
    specialize (Ho ltac:(lia)). apply Z.eqb_eq in Ho. rewrite <- Ho. apply A; [|assumption].
    rewrite Hx, Nat.div_mul by lia. exact Hbk.
Qed.
Print Assumptions C28_qam16_every_refuted.
(** QPSK and 16-QAM objects, two blocks *)
Example C28_case : exists s t, used 3 3 1 0 s /\ used 2 5 0 1 t /\ (0 < il_block 3 3 1)%nat /\ (0 < il_block 2 5 0)%nat
  /\ is_ok (snd (interleaver (repeat true (2 * il_block 3 3 1)) 3 s)) = true /\ is_ok (snd (interleaver (repeat true (2 * il_block 2 5 0)) 5 t)) = true.
Proof.
  eexists. eexists. split; [exists (PInt 3), (PInt 3), (PInt 1), (PInt 0); eexists; exists []; repeat split; reflexivity|].
  split; [exists (PInt 5), (PInt 2), (PInt 0), (PInt 1); eexists; exists []; repeat split; reflexivity|]. split; [vm_compute; lia|]. split; [vm_compute; lia|]. split; vm_compute; reflexivity.
Qed.

(** ** C32 *)
(** With a payload coded at rate 1/2 the header has the number of symbols of the standard *)
Theorem C32_half_rate_partial opt mcs il scr s a zs : used opt mcs il scr s -> mcs_three_quarters mcs = false ->
  holds_octets a zs -> Forall is_octet zs -> 1 <= zlen zs <= 2047 ->
  exists s' phr pay, m_bytes_symbols a s = (s', Ok (phr, pay)) /\ zlen phr = phr_symbols il opt.
Proof.
  intros Hu H3 Ha Ho Hl. rewrite (octets_run opt mcs il scr s a zs) by assumption.
  destruct (used_inv _ _ _ _ _ Hu) as (H1 & H2 & _). eexists. eexists. eexists. split; [reflexivity|].
  unfold zlen, frame_phr. rewrite map_length, seq_length. clear -H1 H2 H3. revert H3.
  destruct H2 as [-> | ->]; revert H1; each; first [discriminate | reflexivity].
Qed.
Print Assumptions C32_half_rate_partial.
(** With rate 3/4 (MCS 4 and 6) it is always half as long again *)
Theorem C32_three_quarters_refuted opt mcs il scr s a zs : used opt mcs il scr s -> mcs_three_quarters mcs = true ->
  holds_octets a zs -> Forall is_octet zs -> 1 <= zlen zs <= 2047 ->
  exists s' phr pay, m_bytes_symbols a s = (s', Ok (phr, pay)) /\ 2 * zlen phr = 3 * phr_symbols il opt /\ zlen phr <> phr_symbols il opt.
Proof.
  intros Hu H3 Ha Ho Hl. rewrite (octets_run opt mcs il scr s a zs) by assumption.
  destruct (used_inv _ _ _ _ _ Hu) as (H1 & H2 & _). eexists. eexists. eexists. split; [reflexivity|].
  unfold zlen, frame_phr. rewrite map_length, seq_length. clear -H1 H2 H3. revert H3.
  destruct H2 as [-> | ->]; revert H1; each; first [discriminate | intros _; split; [reflexivity | vm_compute; discriminate]].
Qed.
Print Assumptions C32_three_quarters_refuted.
Example C32_case : exists s a, used 3 4 1 0 s /\ holds_octets a [7; 255] /\
  exists phr pay, snd (m_bytes_symbols a s) = Ok (phr, pay) /\ length phr = 9%nat.
Proof.
  eexists. exists (AList 1 [7%Q; 255%Q]). split; [|split].
  - exists (PInt 4), (PInt 3), (PInt 1), (PInt 0). eexists. exists []. repeat split; reflexivity.
  - exact (HO_list [7; 255]).
  - eexists. eexists. split; vm_compute; reflexivity.
Qed.

(** ** C33 *)
(** the array before scrambling (attribute _payload_pad) and the number of symbols *)
Theorem C33_padding opt mcs il scr s a bits : used opt mcs il scr s -> check_binary_array a = Ok bits -> 1 <= zlen bits / 8 <= 2047 ->
  exists s' phr pay z, m_bits_symbols a s = (s', Ok (phr, pay))
  /\ m_pay_pad s' = Some (bits ++ repeat false (6 + z))
  /\ (data_bits opt mcs | zlen bits + 6 + Z.of_nat z)
  /\ (forall w, (data_bits opt mcs | w) -> zlen bits + 6 <= w -> zlen bits + 6 + Z.of_nat z <= w)
  /\ zlen pay * data_bits opt mcs = (zlen bits + 6 + Z.of_nat z) * Z.of_nat (mcs_spreading mcs).
Proof.
  intros Hu Hb Hn. destruct (used_inv _ _ _ _ _ Hu) as (H1 & H2 & H3 & H4).
  rewrite (frame_run opt mcs il scr a bits s H1 H2 H3 H4 Hb Hn).
  destruct (groups_spec opt mcs (length bits) H1) as (G1 & G2 & G3). cbv zeta in G1, G2, G3.
  pose proof (data_bits_pos opt mcs H1) as Hd.
  eexists. eexists. eexists. exists (pad_bits opt mcs (length bits)). split; [reflexivity|]. split; [reflexivity|].
  assert (E : zlen bits + 6 + Z.of_nat (pad_bits opt mcs (length bits)) = Z.of_nat (groups opt mcs (length bits)) * data_bits opt mcs)
    by (unfold zlen; lia).
  rewrite E. split; [exists (Z.of_nat (groups opt mcs (length bits))); reflexivity|]. split.
  - intros w [q ->] Hw. unfold zlen in Hw. set (g := Z.of_nat (groups opt mcs (length bits))) in *.
    assert (g - 1 < q) by (apply Z.mul_lt_mono_pos_r with (data_bits opt mcs); lia). apply Z.mul_le_mono_nonneg_r; lia.
  - unfold zlen, frame_payload. rewrite map_length, seq_length. unfold npay. rewrite Nat2Z.inj_mul. lia.
Qed.
Print Assumptions C33_padding.
Example C33_case : exists s phr pay, used 4 4 0 0 s /\ snd (m_bits_symbols (bits_arg (repeat true 48)) s) = Ok (phr, pay) /\ length pay = 3%nat.
Proof.
  eexists. eexists. eexists. split.
  - exists (PInt 4), (PInt 4), (PInt 0), (PInt 0). eexists. exists []. repeat split; reflexivity.
  - split; vm_compute; reflexivity.
Qed.

(** ** C34 *)
(** the six bits after the payload as they enter the encoder (attribute _payload_scrambled), exactly *)
Theorem C34_tail_exact opt mcs il scr s a bits : used opt mcs il scr s -> check_binary_array a = Ok bits -> 1 <= zlen bits / 8 <= 2047 ->
  exists s' phr pay w, m_bits_symbols a s = (s', Ok (phr, pay)) /\ m_pay_scr s' = Some w
  /\ firstn 6 (skipn (length bits) w)
     = if (zlen bits + 6) mod data_bits opt mcs =? 0 then map (fun i => pn9_bit (scrambling_seed scr) (length bits + i)) (seq 0 6)
       else repeat false 6.
Proof.
  intros Hu Hb Hn. destruct (used_inv _ _ _ _ _ Hu) as (H1 & H2 & H3 & H4).
  rewrite (frame_run opt mcs il scr a bits s H1 H2 H3 H4 Hb Hn).
  destruct (groups_spec opt mcs (length bits) H1) as (G1 & G2 & G3). cbv zeta in G1, G2, G3.
  pose proof (data_bits_pos opt mcs H1) as Hd. set (d := data_bits opt mcs) in *. set (g := Z.of_nat (groups opt mcs (length bits))) in *.
  eexists. eexists. eexists. exists (plain opt mcs scr bits). split; [reflexivity|]. split; [reflexivity|].
  unfold plain. set (p := pad_bits opt mcs (length bits)) in *.
  assert (Hz : ((zlen bits + 6) mod d =? 0) = Nat.eqb p 0).
  { unfold zlen. destruct (Nat.eqb_spec p 0) as [E|E].
    - apply Z.eqb_eq. replace (Z.of_nat (length bits) + 6) with (g * d) by lia. apply Z.mod_mul. lia.
    - apply Z.eqb_neq. intro M. apply Z.mod_divide in M as [q M]; [|lia]. rewrite M in G1, G3.
      assert (q < g) by (apply Z.mul_lt_mono_pos_r with d; lia). assert (g < q + 1) by (apply Z.mul_lt_mono_pos_r with d; lia). lia. }
  rewrite Hz. destruct (Nat.eqb p 0) eqn:Ep.
  - apply Nat.eqb_eq in Ep. apply list_eq_nth with false.
    + rewrite firstn_length, skipn_length, scrambler_length, map_length, seq_length. unfold padded. rewrite app_length, repeat_length. lia.
    + intros i Hi. rewrite firstn_length, skipn_length, scrambler_length in Hi.
      assert (Hi6 : (i < 6)%nat) by lia.
      rewrite nth_firstn, nth_skipn, nth_map_seq by assumption.
      rewrite scrambler_nth by (unfold padded; rewrite app_length, repeat_length; lia).
      unfold padded at 1. rewrite app_nth2_plus, nth_repeat_false. apply xorb_false_l.
  - assert (Hf : length (firstn (length bits) (scrambler (padded opt mcs bits) (scrambling_seed scr))) = length bits).
    { rewrite firstn_length, scrambler_length. unfold padded. rewrite app_length. lia. }
    rewrite skipn_app, Hf, Nat.sub_diag. rewrite skipn_all2 by lia. cbn [skipn app]. reflexivity.
Qed.
Print Assumptions C34_tail_exact.
(** so the tail is zero for every payload of octets, except Option 4 with MCS 4 and L = 6 mod 9 *)
Theorem C34_octets_partial opt mcs il scr s a zs : used opt mcs il scr s -> holds_octets a zs -> Forall is_octet zs -> 1 <= zlen zs <= 2047 ->
  ~ (opt = 4 /\ mcs = 4 /\ zlen zs mod 9 = 6) ->
  exists s' phr pay w, m_bytes_symbols a s = (s', Ok (phr, pay)) /\ m_pay_scr s' = Some w
  /\ firstn 6 (skipn (8 * length zs) w) = repeat false 6.
Proof.
  intros Hu Ha Ho Hl Hx. destruct (used_inv _ _ _ _ _ Hu) as (H1 & H2 & H3 & H4).
  assert (Hne : zs <> []) by (intro; subst; unfold zlen in Hl; simpl in Hl; lia).
  rewrite (ofdm_bytes_bits a zs s) by assumption.
  assert (Hc : check_binary_array (octet_bits_arg zs) = Ok (octet_bits zs)).
  { rewrite <- octet_bits_arg_eq. apply check_binary_bits_arg. now apply octet_bits_nonnil. }
  assert (Hz : zlen (octet_bits zs) = 8 * zlen zs) by (unfold zlen; rewrite octet_bits_length; lia).
  destruct (C34_tail_exact opt mcs il scr s _ _ Hu Hc) as (s' & phr & pay & w & E1 & E2 & E3).
  { rewrite Hz, Z.mul_comm, Z.div_mul by lia. exact Hl. }
  exists s', phr, pay, w. split; [exact E1|]. split; [exact E2|]. rewrite octet_bits_length in E3. rewrite E3, Hz.
  assert (N : (8 * zlen zs + 6) mod data_bits opt mcs <> 0).
  { clear -H1 Hx. revert Hx. generalize (zlen zs). intros L Hx M. apply Z.mod_divide in M as [q M]; [|pose proof (data_bits_pos opt mcs H1); lia].
    revert H1 M Hx. each; match goal with |- _ = _ * ?d -> _ => let v := eval vm_compute in d in change d with v end; intros M Hx;
      first [exfalso; lia | apply Hx; split; [reflexivity|]; split; [reflexivity|]; Z.div_mod_to_equations; lia]. }
  apply Z.eqb_neq in N. now rewrite N.
Qed.
Print Assumptions C34_octets_partial.
Theorem C34_no_padding_refuted : exists s a w, used 4 4 0 0 s /\ holds_octets a (repeat 0 6)
  /\ (exists s' r, m_bytes_symbols a s = (s', Ok r) /\ m_pay_scr s' = Some w)
  /\ firstn 6 (skipn 48 w) <> repeat false 6.
Proof.
  eexists. exists (AList 1 (map inject_Z (repeat 0 6))). eexists. split; [|split; [|split]].
  - exists (PInt 4), (PInt 4), (PInt 0), (PInt 0). eexists. exists []. repeat split; reflexivity.
  - exact (HO_list (repeat 0 6)).
  - eexists. eexists. split; vm_compute; reflexivity.
  - vm_compute. discriminate.
Qed.
Print Assumptions C34_no_padding_refuted.
Example C34_case : exists s, used 4 4 0 0 s /\ check_binary_array (bits_arg (repeat true 56)) = Ok (repeat true 56) /\ (zlen (repeat true 56) + 6) mod data_bits 4 4 = 8
  /\ holds_octets (ABytes [x55; x0f]) [0x55; 0x0f] /\ ~ (4 = 4 /\ 4 = 4 /\ zlen [0x55; 0x0f] mod 9 = 6).
Proof.
  eexists. split; [exists (PInt 4), (PInt 4), (PInt 0), (PInt 0); eexists; exists []; repeat split; reflexivity|]. split; [vm_compute; reflexivity|]. split; [vm_compute; reflexivity|].
  split; [exact (HO_bytes [x55; x0f])|]. vm_compute. intros (_ & _ & K). discriminate.
Qed.

(** ** C38 *)
(** Pilots of the whole frame: symbol n, counted from the first header symbol *)
Theorem C38_pilots opt mcs il scr s a zs : used opt mcs il scr s -> holds_octets a zs -> Forall is_octet zs -> 1 <= zlen zs <= 2047 ->
  exists s' phr pay, m_bytes_symbols a s = (s', Ok (phr, pay)) /\
  forall n j, (n < length (phr ++ pay))%nat -> (j < Z.to_nat (pilot_tones opt))%nat ->
    tone_at (fft_size opt) (nth n (phr ++ pay) []) (nth j (nth (n mod length (pilot_sets opt)) (pilot_sets opt) []) 0)
    = TPilot (inject_Z (level (pn9_bit 0x1FF (n * Z.to_nat (pilot_tones opt) + j))), 0%Q).
Proof.
  intros Hu Ha Ho Hl. destruct (used_inv _ _ _ _ _ Hu) as (H1 & H2 & H3 & H4).
  rewrite (octets_run opt mcs il scr s a zs) by assumption. eexists. eexists. eexists. change (pilot_sets opt) with (std_sets opt).
  split; [reflexivity|].
  intros n j Hn Hj. fold (npil opt) in *. unfold frame_phr, frame_payload in *.
  rewrite app_length, !map_length, !seq_length in Hn. rewrite app_nth_map by assumption.
  pose proof (std_sets_pos opt (supported_opt _ _ H1)) as Hp. set (S := zlen (std_sets opt)) in *.
  assert (G : forall m col v bits k p, supported opt m -> length bits = (k * coded_bits opt m)%nat -> (p < k)%nat ->
     tone_at (fft_size opt) (sym opt m col v bits p) (nth j (pset_of opt col p) 0) = TPilot (pn_pilot v (p * npil opt + j))).
  { intros m col v bits k p Hm Hb Hpk. destruct (pset_of_ok opt m col p Hm) as [Hok Hlen].
    pose proof (read_pilots_layout (fft_size opt) (guard_left opt) (guard_right opt) (pset_of opt col p)
      (map (fun j => pn_pilot v (p * npil opt + j)%nat) (seq 0 (npil opt)))
      (symbol_data (mcs_modulation m) (mcs_spreading m) (block opt m bits p)) (std_band opt m Hm) Hok) as R.
    rewrite map_length, seq_length in R. unfold zlen in Hlen. specialize (R ltac:(lia)).
    apply (f_equal (fun l => nth j l TZero)) in R. unfold read_pilots in R. rewrite (nth_map _ _ _ 0) in R by lia.
    rewrite map_map, nth_map_seq in R by lia. exact R. }
  assert (EZ : Z.of_nat (length (std_sets opt)) = S) by reflexivity.
  destruct (Nat.ltb_spec n (nphr opt mcs il)).
  - pose proof (G (lowest_mcs opt) 0 511 _ _ n (supported_low _ _ H1) (hdr_sent_length opt mcs il scr (zlen (octet_bits zs) / 8) H1 H2) H) as R.
    unfold pset_of in R. fold S in R. rewrite Z.add_0_l, <- EZ, <- Nat2Z.inj_mod, Nat2Z.id in R. exact R.
  - set (n0 := nphr opt mcs il) in *.
    pose proof (G mcs (Z.of_nat n0 mod S) (pn_iter (n0 * npil opt) 511) _ _ (n - n0)%nat H1 (pay_sent_length opt mcs il scr (octet_bits zs) H1) ltac:(lia)) as R.
    rewrite pn_pilot_shift in R. unfold pset_of in R. fold S in R.
    rewrite Zplus_mod_idemp_l in R. rewrite <- Nat2Z.inj_add in R. replace (n0 + (n - n0))%nat with n in R by lia.
    assert (EM : Z.to_nat (Z.of_nat n mod S) = Nat.modulo n (length (std_sets opt))) by (rewrite <- EZ, <- Nat2Z.inj_mod, Nat2Z.id; reflexivity).
    rewrite EM in R. replace (n0 * npil opt + ((n - n0) * npil opt + j))%nat with (n * npil opt + j)%nat in R by nia.
    exact R.
Qed.
Print Assumptions C38_pilots.
Example C38_case : exists s phr pay, used 1 3 0 0 s /\ snd (m_bytes_symbols (ABytes (repeat x55 60)) s) = Ok (phr, pay)
  /\ length phr = 3%nat /\ length pay = 6%nat.
Proof.
  eexists. eexists. eexists. split.
  - exists (PInt 3), (PInt 1), (PInt 0), (PInt 0). eexists. exists []. repeat split; reflexivity.
  - split; [|split]; vm_compute; reflexivity.
Qed.

(** ** C43: symbols of a frame (the samples are counted in Prop_Time) *)
Theorem C43_symbols opt mcs il scr s a zs : used opt mcs il scr s -> holds_octets a zs -> Forall is_octet zs -> 1 <= zlen zs <= 2047 ->
  exists s' phr pay, m_bytes_symbols a s = (s', Ok (phr, pay))
  /\ zlen phr = phr_symbols il opt * (if mcs_three_quarters mcs then 3 else 2) / 2
  /\ zlen pay = Z.of_nat (mcs_spreading mcs) * - ((- (8 * zlen zs + 6)) / data_bits opt mcs)
  /\ Forall (fun y => length y = Z.to_nat (fft_size opt)) (phr ++ pay).
Proof.
  intros Hu Ha Ho Hl. destruct (used_inv _ _ _ _ _ Hu) as (H1 & H2 & H3 & H4).
  rewrite (octets_run opt mcs il scr s a zs) by assumption. eexists. eexists. eexists. split; [reflexivity|].
  split; [|split].
  - unfold zlen, frame_phr. rewrite map_length, seq_length. clear -H1 H2. destruct H2 as [-> | ->]; revert H1; each; reflexivity.
  - unfold zlen at 1. unfold frame_payload. rewrite map_length, seq_length. unfold npay. rewrite Nat2Z.inj_mul.
    destruct (groups_spec opt mcs (length (octet_bits zs)) H1) as (_ & G & _). cbv zeta in G. unfold groups in *.
    rewrite octet_bits_length, Nat2Z.inj_mul in *. change (Z.of_nat 8) with 8 in *. fold (zlen zs) in *. rewrite Z2Nat.id by lia. lia.
  - apply Forall_app. split; apply Forall_forall; intros y Hy; apply in_map_iff in Hy as (i & <- & _); unfold sym, layout;
      now rewrite map_length, freqs_length.
Qed.
Print Assumptions C43_symbols.
(** other sizes are refused, the object being unchanged *)
Theorem C43_refused opt mcs il scr s a bits : used opt mcs il scr s -> check_binary_array a = Ok bits -> ~ (1 <= zlen bits / 8 <= 2047) ->
  m_bits_symbols a s = (s, Err ValueError).
Proof.
  intros Hu Hb Hn. destruct (used_inv _ _ _ _ _ Hu) as (H1 & H2 & H3 & H4). now apply (frame_fails opt mcs il scr a bits).
Qed.
Print Assumptions C43_refused.
Example C43_case : exists s phr pay, used 1 2 0 3 s /\ snd (m_bytes_symbols (ABytes (repeat x55 60)) s) = Ok (phr, pay)
  /\ length phr = 3%nat /\ length pay = 12%nat /\ m_bits_symbols (bits_arg (repeat true 7)) s = (s, Err ValueError).
Proof.
  eexists. eexists. eexists. split; [exists (PInt 2), (PInt 1), (PInt 0), (PInt 3); eexists; exists []; repeat split; reflexivity|]. split; [|split; [|split]]; vm_compute; reflexivity.
Qed.

(** ** C44 in the frequency domain: frames of one option and interleaving depth determine everything else *)
Theorem C44_symbols_determine opt il m1 sc1 s1 a1 z1 m2 sc2 s2 a2 z2 :
  used opt m1 il sc1 s1 -> used opt m2 il sc2 s2 ->
  holds_octets a1 z1 -> holds_octets a2 z2 -> Forall is_octet z1 -> Forall is_octet z2 -> 1 <= zlen z1 <= 2047 -> 1 <= zlen z2 <= 2047 ->
  forall phr1 pay1 phr2 pay2, snd (m_bytes_symbols a1 s1) = Ok (phr1, pay1) -> snd (m_bytes_symbols a2 s2) = Ok (phr2, pay2) ->
  phr1 ++ pay1 = phr2 ++ pay2 -> m1 = m2 /\ sc1 = sc2 /\ z1 = z2.
Proof.
  intros Hu1 Hu2 Ha1 Ha2 Ho1 Ho2 Hl1 Hl2 phr1 pay1 phr2 pay2 E1 E2 E.
  rewrite (octets_run opt m1 il sc1 s1 a1 z1) in E1 by assumption. rewrite (octets_run opt m2 il sc2 s2 a2 z2) in E2 by assumption.
  cbn [snd] in E1, E2. injection E1 as <- <-. injection E2 as <- <-.
  destruct (used_inv _ _ _ _ _ Hu1) as (A1 & A2 & A3 & _). destruct (used_inv _ _ _ _ _ Hu2) as (B1 & B2 & B3 & _).
  assert (D : forall zs, zlen (octet_bits zs) / 8 = zlen zs).
  { intro zs. unfold zlen. rewrite octet_bits_length, Nat2Z.inj_mul. change (Z.of_nat 8) with 8. rewrite Z.mul_comm, Z.div_mul; lia. }
  assert (M : forall zs, Nat.modulo (length (octet_bits zs)) 8 = 0%nat) by (intro; rewrite octet_bits_length, Nat.mul_comm; apply mod_mult; lia).
  apply frames_inj in E; try assumption; try (rewrite D; assumption); try apply M.
  destruct E as (-> & -> & E). repeat split; try reflexivity. now apply octet_bits_inj.
Qed.
Print Assumptions C44_symbols_determine.
