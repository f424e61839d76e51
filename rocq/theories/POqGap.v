(** * Distances between MR-O-QPSK chip sequences and signals *)
From Coq Require Import Permutation.
From Verif Require Import Py PList SBits SEntry MBits PBits PEntry MRate SRate PConv PRate PRate34 MFields PFields SCrc MModul MOfdm Tables MOqpsk SOqpsk PFskGap POqpsk POqRun SOqGap Prop_Oqpsk.

(** ** bits *)
Lemma as_map {A} (d : A) l : l = map (fun i => nth i l d) (seq 0 (length l)).
Proof. apply (nth_ext _ _ d d); [now rewrite map_length, seq_length|]. intros i Hi. rewrite (nth_map _ _ _ 0%nat d) by (now rewrite seq_length). now rewrite seq_nth. Qed.
Lemma distance_cons x y a b : distance (x :: a) (y :: b) = ((if xorb x y then 1 else 0) + distance a b)%nat.
Proof. reflexivity. Qed.
Lemma diff_distance a : forall b p q, length a = length b ->
  (distance (diff_decode p a) (diff_decode q b) <= (if xorb p q then 1 else 0) + 2 * distance a b)%nat.
Proof.
  induction a as [|x a IH]; intros [|y b] p q L; cbn [length] in L; try lia; [cbn; lia|]. cbn [diff_decode]. rewrite !distance_cons. specialize (IH b x y ltac:(lia)).
  destruct x, y, p, q; cbn [xorb] in *; lia.
Qed.
Lemma BDE_distance m m' ref : length m = length m' -> (distance m m' <= 2 * distance (BDE m ref 0) (BDE m' ref 0))%nat.
Proof.
  intro L. assert (E : forall x, diff_decode ref (BDE x ref 0) = x) by (intro x; apply bde_decode). rewrite <- (E m), <- (E m') at 1.
  pose proof (diff_distance (BDE m ref 0) (BDE m' ref 0) ref ref) as D. rewrite !BDE_length in D. specialize (D L). rewrite xorb_nilpotent in D. lia.
Qed.
Lemma ilv_distance (psdu : bool) x y : let n := (if psdu then 126 else 60)%nat in length x = n -> length y = n -> distance (ilv psdu x) (ilv psdu y) = distance x y.
Proof.
  cbv zeta. intros Lx Ly. unfold ilv. rewrite Lx, Ly. set (n := if psdu then 126%nat else 60%nat) in *.
  rewrite <- (map_map (q_pos psdu n) (fun k => nth k x false)), <- (map_map (q_pos psdu n) (fun k => nth k y false)). rewrite distance_maps.
  assert (P : Permutation (map (q_pos psdu n) (seq 0 n)) (seq 0 n)).
  { apply NoDup_Permutation_bis.
    - assert (G : forall l, NoDup l -> (forall k, In k l -> (k < n)%nat) -> NoDup (map (q_pos psdu n) l)).
      { induction l as [|k l IH]; intros Hd Hb; [constructor|]. inversion Hd; subst. cbn [map]. constructor.
        - rewrite in_map_iff. intros (j & E & Hj). apply (one_block_inj psdu) in E; [subst; contradiction|apply Hb; now right|apply Hb; now left].
        - apply IH; [assumption|]. intros j Hj. apply Hb. now right. }
      apply G; [apply seq_NoDup|]. intros k Hk. apply in_seq in Hk. lia.
    - rewrite map_length, seq_length. lia.
    - intros j Hj. apply in_map_iff in Hj as (k & <- & Hk). apply in_seq in Hk. apply in_seq. split; [lia|].
      pose proof (q_pos_bound psdu 1 k ltac:(lia)) as B. cbv zeta in B. rewrite !Nat.mul_1_r in B. fold n in B. specialize (B ltac:(lia)). lia. }
  rewrite (filter_perm_length _ _ _ P). rewrite <- distance_maps. rewrite <- Lx at 1. rewrite <- Ly. rewrite <- !as_map. reflexivity.
Qed.
Lemma chip_distance sp name u v : In sp all_spreads -> spread_bits sp = 1%nat -> In name sp ->
  distance (chip_code name [u]) (chip_code name [v]) = (spread_chips sp * (if xorb u v then 1 else 0))%nat.
Proof.
  intros Hi Hk Hn. cbn [all_spreads In] in Hi.
  repeat (destruct Hi as [<-|Hi]; [try discriminate Hk; cbn [In] in Hn; repeat (destruct Hn as [<-|Hn]; [destruct u, v; vm_compute; reflexivity|]); destruct Hn|]). destruct Hi.
Qed.
Lemma chunks_1 (m : list bool) : chunks 1 m = map (fun x => [x]) m.
Proof.
  induction m as [|x m IH]; [reflexivity|]. change (x :: m) with ([x] ++ m). rewrite chunks_app by (try reflexivity; lia). rewrite IH. reflexivity.
Qed.
Lemma spread_distance sp m m' : In sp all_spreads -> spread_bits sp = 1%nat -> length m = length m' ->
  distance (spread sp m) (spread sp m') = (spread_chips sp * distance m m')%nat.
Proof.
  intros Hi Hk. unfold spread. rewrite Hk, !chunks_1. pose proof (codes_ok sp Hi) as (Hn & _ & _ & Hok). generalize 0%nat as i. revert m'.
  induction m as [|x m IH]; intros [|y m'] i L; cbn [length] in L; try lia; [cbn; lia|]. cbn [map]. rewrite !codes_cons. cbn [concat].
  assert (Lc : forall u, length (chip_code (table_for sp i) [u]) = spread_chips sp).
  { intro u. destruct (code_ok_get sp (table_for sp i) [u]) as (_ & Hc); [apply Hok; now apply table_for_in|now rewrite Hk|]. apply Hc. }
  rewrite distance_app by (now rewrite !Lc). rewrite (chip_distance sp) by (auto; now apply table_for_in). rewrite IH by lia. rewrite distance_cons. lia.
Qed.
Lemma pilots_distance b c c' : length c = length c' -> distance (with_pilots b c) (with_pilots b c') = distance c c'.
Proof.
  unfold with_pilots. set (n := pilot_spacing b). assert (Hn : (0 < n)%nat) by (unfold n; destruct b; apply Nat.ltb_lt; reflexivity). clearbody n. generalize (pilot_of b) as pl. intro pl.
  revert c'. induction c as [c IH] using (induction_ltof1 _ (@length bool)). unfold ltof in IH. intros c' L.
  destruct (list_eq_dec Bool.bool_dec c []) as [->|Z0]; [destruct c'; [reflexivity|discriminate]|].
  assert (Z1 : c' <> []) by (intros ->; destruct c; [congruence|discriminate]). assert (0 < length c)%nat by (destruct c; [congruence|cbn; lia]).
  rewrite (chunks_cons n c), (chunks_cons n c') by assumption. cbn [flat_map].
  rewrite <- !app_assoc, !distance_app by (rewrite ?firstn_length; lia). rewrite PConv.distance_refl. rewrite IH by (rewrite !skipn_length; lia).
  rewrite <- (firstn_skipn n c) at 3. rewrite <- (firstn_skipn n c') at 3. rewrite distance_app by (rewrite !firstn_length; lia). reflexivity.
Qed.
(** ** coded fields *)
Lemma code_distance x y n : (6 <= n)%nat -> length x = length y -> x <> y -> (10 <= distance (code_12 0 (x ++ repeat false n)) (code_12 0 (y ++ repeat false n)))%nat.
Proof.
  intros Hn L N. change 0 with (r12_new 0). rewrite <- !enc_code_12. apply enc12_distance; [apply r12_new_range|rewrite !app_length; lia| |apply fin_common_tail; [apply r12_new_range|rewrite repeat_length; lia]].
  intro E. apply app_inv_tail in E. contradiction.
Qed.
Lemma phr_far p b sm rm len sm' rm' len' : 0 <= rm <= 3 -> 0 <= rm' <= 3 -> 0 <= len <= 2047 -> 0 <= len' <= 2047 ->
  (sm, rm, len) <> (sm', rm', len') -> (header_distance b <= distance (phr_chips p b sm rm len) (phr_chips p b sm' rm' len'))%nat.
Proof.
  intros H1 H2 H3 H4 N. destruct (sp_phr_in b) as (_ & Hi & Hk). unfold phr_chips.
  assert (C : (10 <= distance (phr_code (hdr p sm rm len)) (phr_code (hdr p sm' rm' len')))%nat).
  { apply code_distance; [lia|now rewrite !hdr_length|]. intro E. apply (hdr_inj p) in E; auto. destruct E as (-> & -> & ->). contradiction. }
  rewrite spread_distance by (auto; unfold phr_diff; now rewrite !BDE_length, !ilv_length, !phr_code_length).
  unfold phr_diff. match goal with |- context [distance (BDE ?m ?r 0) (BDE ?m' ?r 0)] => pose proof (BDE_distance m m' r) as D end.
  rewrite !ilv_length, !phr_code_length in D. specialize (D eq_refl). rewrite (ilv_distance false) in D by apply phr_code_length.
  assert (S : spread_chips (sp_phr b) = header_factor b) by (destruct b; reflexivity). rewrite S. unfold header_distance. nia.
Qed.
Lemma psdu_far b rm zs zs' : 0 <= rm <= 3 -> four_bits b rm = false -> 1 <= zlen zs <= 7 -> zlen zs = zlen zs' -> Forall is_octet zs -> Forall is_octet zs' -> zs <> zs' ->
  length (psdu_chips b rm 0 (zlen zs) (octet_bits zs)) = length (psdu_chips b rm 0 (zlen zs) (octet_bits zs'))
  /\ (payload_distance b rm <= distance (psdu_chips b rm 0 (zlen zs) (octet_bits zs)) (psdu_chips b rm 0 (zlen zs) (octet_bits zs')))%nat.
Proof.
  intros Hr H4 Hl El Ho Ho' N. unfold psdu_chips. change (0 =? 0) with true. cbv iota.
  destruct (sp_psdu_ok b rm Hr) as (_ & _ & E3). unfold four_bits in H4.
  assert (B1 : psdu_blocks (zlen zs) = 1) by (unfold psdu_blocks; Z.div_mod_to_equations; lia).
  assert (L : length (octet_bits zs) = Z.to_nat (8 * zlen zs)) by (rewrite octet_bits_length; unfold zlen; lia).
  assert (L' : length (octet_bits zs') = Z.to_nat (8 * zlen zs)) by (rewrite octet_bits_length; unfold zlen in *; lia).
  assert (P : length (psdu_code (zlen zs) (octet_bits zs)) = 126%nat) by (rewrite psdu_code_length, B1 by (auto; lia); reflexivity).
  assert (P' : length (psdu_code (zlen zs) (octet_bits zs')) = 126%nat) by (rewrite psdu_code_length, B1 by (auto; lia); reflexivity).
  assert (C : (10 <= distance (psdu_code (zlen zs) (octet_bits zs)) (psdu_code (zlen zs) (octet_bits zs')))%nat).
  { unfold psdu_code. apply code_distance; [rewrite B1; lia|congruence|]. intro E. apply N. now apply octet_bits_inj. }
  assert (D : length (dsss_bits b rm (zlen zs) (octet_bits zs)) = 126%nat /\ length (dsss_bits b rm (zlen zs) (octet_bits zs')) = 126%nat
    /\ ((if bde_psdu b rm then 5 else 10) <= distance (dsss_bits b rm (zlen zs) (octet_bits zs)) (dsss_bits b rm (zlen zs) (octet_bits zs')))%nat).
  { unfold dsss_bits. cbv zeta. set (t := ilv true (psdu_code (zlen zs) (octet_bits zs))). set (t' := ilv true (psdu_code (zlen zs) (octet_bits zs'))).
    assert (T : length t = 126%nat) by (unfold t; now rewrite ilv_length). assert (T' : length t' = 126%nat) by (unfold t'; now rewrite ilv_length).
    assert (Dt : distance t t' = distance (psdu_code (zlen zs) (octet_bits zs)) (psdu_code (zlen zs) (octet_bits zs'))) by now apply (ilv_distance true).
    pose proof (BDE_distance t t' false ltac:(congruence)) as Db. destruct (bde_psdu b rm); rewrite ?BDE_length; (split; [assumption|split; [assumption|lia]]). }
  destruct D as (D1 & D2 & D3). destruct (sp_psdu b rm) as [sp|] eqn:Esp.
  - destruct (E3 sp eq_refl) as [Hi [Hk|Hk]]; [|rewrite Hk in H4; discriminate]. split; [rewrite !spread_length by (auto; now rewrite Hk, Nat.mod_1_r); congruence|].
    rewrite spread_distance by (auto; congruence).
    assert (S : (payload_distance b rm <= spread_chips sp * (if bde_psdu b rm then 5 else 10))%nat); [|nia].
    clear -Esp Hr Hk. assert (K : rm = 0 \/ rm = 1 \/ rm = 2 \/ rm = 3) by lia. destruct K as [->|[->|[->| ->]]]; destruct b; vm_compute in Esp; try discriminate Esp; injection Esp as <-; vm_compute in Hk; try discriminate Hk; vm_compute; lia.
  - split; [congruence|].
    assert (S : (payload_distance b rm <= (if bde_psdu b rm then 5 else 10))%nat); [|lia].
    clear -Esp Hr. assert (K : rm = 0 \/ rm = 1 \/ rm = 2 \/ rm = 3) by lia. destruct K as [->|[->|[->| ->]]]; destruct b; vm_compute in Esp; try discriminate Esp; vm_compute; lia.
Qed.
