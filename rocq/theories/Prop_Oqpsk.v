(** * Properties C48-C56, C59, C60: MR-O-QPSK up to the chip sequence *)
From Verif Require Import Py MBits MFields MModul MOfdm Tables MRate MOqpsk SBits SEntry SRate SOqpsk PList PBits PEntry PConv PRate POqpsk POqRun.

(** ** objects and their call histories *)
(** bytesToIQ / bitsToIQ: chips and sampling frequency *)
Definition oq_send (p : platform) (r : request) : SM oqpsk (list bool * Z) :=
  match r with Octets a => q_bytesToChips p a | Bits a => q_bitsToChips p a end.
Fixpoint oq_after (p : platform) (h : list request) (s : oqpsk) : oqpsk :=
  match h with [] => s | r :: h' => oq_after p h' (fst (oq_send p r s)) end.
(** an object built with these parameters and used in any way *)
Definition oq_used (p : platform) (b : Frequency_band) (rm sm sps : Z) (s : oqpsk) : Prop :=
  exists s0 h, oqpsk_new b rm sm sps = Ok s0 /\ s = oq_after p h s0.

(** what a call depends on *)
Definition request_bits (r : request) : res (list bool) :=
  match r with Octets a => do bits <- to_binary_array a; check_binary_array (bits_arg bits) | Bits a => check_binary_array a end.
Lemma send_master p r s : params (fst (oq_send p r s)) = params s
  /\ snd (oq_send p r s) = do bits <- request_bits r; chips_pure p (params s) bits.
Proof.
  destruct r as [a|a]; cbn [oq_send request_bits]; [|apply bits_master].
  unfold q_bytesToChips, sbind, slift. destruct (to_binary_array a) as [bits|e]; [|split; reflexivity]. apply bits_master.
Qed.
Lemma after_params p h : forall s, params (oq_after p h s) = params s.
Proof. induction h as [|r h IH]; intro s; [reflexivity|]. cbn [oq_after]. rewrite IH. apply send_master. Qed.
Lemma used_params p b rm sm sps s : oq_used p b rm sm sps s -> params s = (sps, sm, b, rm).
Proof.
  intros (s0 & h & Hn & ->). rewrite after_params. unfold oqpsk_new in Hn.
  destruct (if sm =? 1 then _ else _) in Hn; [|discriminate]. cbn [rbind] in Hn. injection Hn as <-. reflexivity.
Qed.
Lemma octets_request a zs : holds_octets a zs -> zs <> [] -> Forall is_octet zs -> request_bits (Octets a) = Ok (octet_bits zs).
Proof.
  intros H1 H2 H3. cbn [request_bits]. rewrite (holds_octets_ok a zs) by assumption. cbn [rbind].
  apply check_binary_bits_arg. now apply octet_bits_nonnil.
Qed.
Lemma octet_zlen zs : zlen (octet_bits zs) = 8 * zlen zs.
Proof. unfold zlen. rewrite octet_bits_length. lia. Qed.
Lemma nonempty_octets (zs : list Z) : 1 <= zlen zs -> zs <> [].
Proof. intros H E. subst. unfold zlen in H. simpl in H. lia. Qed.
Lemma needs_pairs_eq b rm sm : oq_supported b rm sm -> pairs_only b rm sm = needs_pairs b rm sm.
Proof. intros [H [->|[-> E]]]; each_rm H; destruct b; try discriminate E; reflexivity. Qed.
Lemma octets_sent p b rm sm sps s a zs : oq_used p b rm sm sps s -> oq_supported b rm sm -> 0 < sps ->
  holds_octets a zs -> Forall is_octet zs -> 1 <= zlen zs <= 2047 ->
  snd (oq_send p (Octets a) s) =
  if needs_pairs b rm sm && Z.odd (psdu_blocks (zlen zs)) then Err ValueError
  else Ok (shr_chips b ++ phr_chips p b (negb (sm =? 0)) rm (zlen zs) ++ with_pilots b (psdu_chips b rm sm (zlen zs) (octet_bits zs)), rate_of b rm sm * sps).
Proof.
  intros Hu Hs Hp Ha Ho Hl. rewrite (proj2 (send_master p (Octets a) s)). rewrite (octets_request a zs) by (auto; now apply nonempty_octets).
  cbn [rbind]. rewrite (used_params _ _ _ _ _ _ Hu). rewrite (chips_ok p sps sm b rm _ (zlen zs)) by (auto; apply octet_zlen).
  now rewrite needs_pairs_eq.
Qed.

(** ** C48 *)
Definition rate_one_half (x : list bool) : list bool := map z2b (snd (snd (r12_sequence (r12_new 0) (map b2z x)))).
Theorem C48_header d : q_FEC d false = rate_one_half (d ++ repeat false 6) /\ length (q_FEC d false) = (2 * length d + 12)%nat.
Proof.
  unfold rate_one_half. rewrite r12_sequence_spec by apply r12_new_range. cbn [snd]. rewrite map_z2b_b2z, enc_code_12, q_FEC_phr.
  split; [reflexivity|]. unfold phr_code. rewrite code_12_length, app_length, repeat_length. lia.
Qed.
Print Assumptions C48_header.
Theorem C48_payload d len : zlen d = 8 * len -> exists z, q_FEC d true = rate_one_half (d ++ repeat false (6 + z))
  /\ (63 | zlen d + 6 + Z.of_nat z) /\ forall w, (63 | w) -> zlen d + 6 <= w -> zlen d + 6 + Z.of_nat z <= w.
Proof.
  intro Hd. assert (Hn : 0 <= len) by (unfold zlen in Hd; lia). destruct (psdu_blocks_spec len Hn) as [B _].
  exists (Z.to_nat (63 * psdu_blocks len - 8 * len - 6)). split; [|split].
  - unfold rate_one_half. rewrite r12_sequence_spec by apply r12_new_range. cbn [snd]. rewrite map_z2b_b2z, enc_code_12, q_FEC_psdu.
    unfold psdu_code. replace (zlen d / 8) with len by (rewrite Hd, Z.mul_comm, Z.div_mul; lia). do 3 f_equal. lia.
  - exists (psdu_blocks len). lia.
  - intros w [q ->] Hw. lia.
Qed.
Print Assumptions C48_payload.
Theorem C48_unique d d' b : length d = length d' -> q_FEC d b = q_FEC d' b -> d = d'.
Proof.
  intros Hl E. destruct b.
  - rewrite !q_FEC_psdu in E. unfold psdu_code in E. apply code_12_inj in E. now apply app_inj_len in E.
  - rewrite !q_FEC_phr in E. unfold phr_code in E. apply code_12_inj in E. now apply app_inj_len in E.
Qed.
Print Assumptions C48_unique.
Example C48_case : length (q_FEC (repeat true 64) true) = 252%nat.
Proof. vm_compute. reflexivity. Qed.

(** ** C49 *)
Theorem C49_relation m ref i : (i < length m)%nat ->
  length (BDE m ref 0) = length m
  /\ nth i (BDE m ref 0) false = xorb (nth i m false) (if Nat.eqb i 0 then ref else nth (i - 1) (BDE m ref 0) false).
Proof.
  intro Hi. split; [apply BDE_length|]. unfold BDE. rewrite bde_loop_nth by assumption. change (0 <? 0) with false. cbn [andb].
  destruct i; [reflexivity|]. cbn [Nat.eqb]. now rewrite Nat.sub_1_r.
Qed.
Print Assumptions C49_relation.
Theorem C49_decode m ref : diff_decode ref (BDE m ref 0) = m.
Proof. apply bde_decode. Qed.
Print Assumptions C49_decode.
Theorem C49_periodic m ref M i : 0 < M -> (i < length m)%nat ->
  nth i (BDE m ref M) false = if Z.of_nat i mod M =? 0 then nth i m false else xorb (nth i m false) (nth (i - 1) (BDE m ref M) false).
Proof.
  intros HM Hi. unfold BDE. rewrite bde_loop_nth by assumption. rewrite (proj2 (Z.ltb_lt 0 M) HM). cbn [andb Nat.add].
  destruct (Z.eqb_spec (Z.of_nat i mod M) 0) as [E|E]; [reflexivity|]. destruct i; [exfalso; apply E; reflexivity|]. cbn [Nat.sub]. now rewrite Nat.sub_0_r.
Qed.
Print Assumptions C49_periodic.
Example C49_case : BDE [true; true; false; true] true 0 = [false; true; true; false] /\ BDE [true; true; false; true] true 2 = [true; false; false; true].
Proof. split; reflexivity. Qed.

(** ** C50 *)
Theorem C50_spreading sp m n : in_use sp -> length m = (n * spread_bits sp)%nat ->
  exists out, DSSS_spread m sp = Ok out /\ length out = (n * spread_chips sp)%nat
  /\ (forall j, (j < n)%nat -> slice (j * spread_chips sp) (spread_chips sp) out = chip_code (table_for sp j) (slice (j * spread_bits sp) (spread_bits sp) m))
  /\ despread sp n out = m.
Proof.
  intros Hu Hm. apply in_use_all in Hu. destruct (codes_ok sp Hu) as (Hn & Hb & Hc & Hok).
  assert (M0 : Nat.modulo (length m) (spread_bits sp) = 0%nat) by (rewrite Hm; apply Nat.mod_mul; lia).
  assert (D : (length m / spread_bits sp)%nat = n) by (rewrite Hm; apply Nat.div_mul; lia).
  exists (spread sp m). split; [rewrite spread_ok by assumption; now rewrite M0|].
  split; [rewrite spread_length by assumption; now rewrite D|].
  split; [intros j Hj; apply spread_slice; [assumption|assumption|lia]|].
  rewrite <- D at 1. now apply despread_spread.
Qed.
Print Assumptions C50_spreading.
Theorem C50_refused sp m : in_use sp -> (forall n, length m <> (n * spread_bits sp)%nat) -> DSSS_spread m sp = Err ValueError.
Proof.
  intros Hu Hm. apply in_use_all in Hu. destruct (codes_ok sp Hu) as (Hn & Hb & Hc & Hok). rewrite spread_ok by assumption.
  destruct (Nat.eqb_spec (Nat.modulo (length m) (spread_bits sp)) 0) as [E|E]; [|reflexivity]. exfalso.
  apply (Hm (length m / spread_bits sp)%nat). pose proof (Nat.div_mod (length m) (spread_bits sp)). lia.
Qed.
Print Assumptions C50_refused.
(** the codes of each table: all of the same length and different; those of one bit are complements *)
Theorem C50_codes sp name g h : in_use sp -> In name sp -> length g = spread_bits sp -> length h = spread_bits sp ->
  length (chip_code name g) = spread_chips sp /\ (chip_code name g = chip_code name h -> g = h)
  /\ (spread_bits sp = 1%nat -> chip_code name [true] = map negb (chip_code name [false])).
Proof.
  intros Hu Hi Hg Hh. apply in_use_all in Hu. destruct (codes_ok sp Hu) as (Hn & Hb & Hc & Hok).
  split; [now apply (code_ok_get sp); auto|]. split; [now apply (code_ok_inj sp); auto|].
  intros H1. clear -Hu Hi H1. cbn [all_spreads In] in Hu.
  repeat (destruct Hu as [<-|Hu]; [cbn [In] in Hi; repeat (destruct Hi as [<-|Hi]; [first [discriminate H1 | vm_compute; reflexivity]|]); destruct Hi|]). destruct Hu.
Qed.
Print Assumptions C50_codes.
Example C50_case : in_use ["(16,4)"%string] /\ in_use ["(8,1)0"%string; "(8,1)1"%string]
  /\ DSSS_spread [true; false] ["(8,1)0"%string; "(8,1)1"%string]
     = Ok [false; true; false; false; true; true; true; false; false; true; true; false; false; false; true; true].
Proof.
  split; [|split; [|reflexivity]].
  - exists Band_780MHz. right. right. exists 1. reflexivity.
  - exists Band_470MHz. right. left. reflexivity.
Qed.

(** ** C51 *)
Definition flip (j : nat) (l : list bool) : list bool := set_nth j (negb (nth j l false)) l.
Theorem C51_header x : length x = 60%nat -> exists pos y, q_interleaver x false = Ok y /\ length y = 60%nat
  /\ (forall k, (k < 60)%nat -> (pos k < 60)%nat /\ nth k y false = nth (pos k) x false)
  /\ (forall k l, (k < 60)%nat -> (l < 60)%nat -> pos k = pos l -> k = l).
Proof.
  intro Hx. exists (q_pos false 60). eexists. split; [apply (q_interleaver_run false x 1); [lia|exact Hx]|]. rewrite Hx.
  split; [now rewrite map_length, seq_length|]. split.
  - intros k Hk. split; [apply (q_pos_bound false 1); [lia|exact Hk]|]. now rewrite nth_map_seq.
  - exact (one_block_inj false).
Qed.
Print Assumptions C51_header.
(** one block of payload: up to 7 octets *)
Theorem C51_single_block_partial x : length x = 126%nat -> exists pos y, q_interleaver x true = Ok y /\ length y = 126%nat
  /\ (forall k, (k < 126)%nat -> (pos k < 126)%nat /\ nth k y false = nth (pos k) x false)
  /\ (forall k l, (k < 126)%nat -> (l < 126)%nat -> pos k = pos l -> k = l).
Proof.
  intro Hx. exists (q_pos true 126). eexists. split; [apply (q_interleaver_run true x 1); [lia|exact Hx]|]. rewrite Hx.
  split; [now rewrite map_length, seq_length|]. split.
  - intros k Hk. split; [apply (q_pos_bound true 1); [lia|exact Hk]|]. now rewrite nth_map_seq.
  - exact (one_block_inj true).
Qed.
Print Assumptions C51_single_block_partial.
(** with two blocks or more, every coded bit from 126 to 108 nb + 17 is lost, whatever the data *)
Theorem C51_refuted nb x j : (2 <= nb)%nat -> length x = (126 * nb)%nat -> (126 <= j < 108 * nb + 18)%nat ->
  (j < length x)%nat /\ flip j x <> x /\ exists y, q_interleaver x true = Ok y /\ q_interleaver (flip j x) true = Ok y.
Proof.
  intros Hn Hx Hj. split; [lia|]. split.
  - intro E. apply (f_equal (fun l => nth j l false)) in E. unfold flip in E. rewrite nth_set_nth in E.
    rewrite Nat.eqb_refl, (proj2 (Nat.ltb_lt _ _)) in E by lia. cbn [andb] in E. destruct (nth j x false); discriminate.
  - eexists. split; [apply (q_interleaver_run true x nb); [lia|exact Hx]|].
    rewrite <- (q_interleaver_run true x nb) by (auto; lia). symmetry. apply (unread nb); [lia|assumption|unfold flip; now rewrite set_nth_length|].
    intros i Hi. unfold flip. rewrite nth_set_nth. destruct (Nat.eqb_spec j i); [lia|reflexivity].
Qed.
Print Assumptions C51_refuted.
Example C51_case : exists x, length x = 252%nat /\ flip 130 x <> x /\ q_interleaver x true = q_interleaver (flip 130 x) true.
Proof. exists (repeat false 252). split; [reflexivity|]. split; [vm_compute; discriminate|vm_compute; reflexivity]. Qed.

(** ** C52 *)
Definition ceil_blocks (n mp : nat) : nat := ((n + mp - 1) / mp)%nat.
Lemma pilot_of_length b : length (pilot_of b) = pilot_length b.
Proof. destruct b; reflexivity. Qed.
Lemma spacing_pos b : (0 < pilot_spacing b)%nat.
Proof. destruct b; cbn; lia. Qed.
Lemma with_pilots_step b c : c <> [] ->
  with_pilots b c = pilot_of b ++ firstn (pilot_spacing b) c ++ with_pilots b (skipn (pilot_spacing b) c).
Proof.
  intro Hc. pose proof (spacing_pos b). unfold with_pilots. rewrite (chunks_cons _ c) by assumption. cbn [flat_map]. now rewrite <- app_assoc.
Qed.
Lemma with_pilots_nil b : with_pilots b [] = [].
Proof. unfold with_pilots. now rewrite chunks_nil. Qed.
Lemma pilots_ind b (P : list bool -> Prop) : P [] -> (forall c, c <> [] -> P (skipn (pilot_spacing b) c) -> P c) -> forall c, P c.
Proof.
  intros H0 HS c. remember (length c) as n eqn:E. revert c E. induction n as [n IH] using lt_wf_ind. intros c ->.
  destruct c as [|x c]; [assumption|]. apply HS; [discriminate|]. eapply IH; [|reflexivity]. rewrite skipn_length. pose proof (spacing_pos b). cbn [length]. lia.
Qed.
Lemma ceil_blocks_step n mp : (0 < mp)%nat -> (0 < n)%nat -> ceil_blocks n mp = S (ceil_blocks (n - mp) mp).
Proof.
  intros Hm Hn. unfold ceil_blocks. destruct (le_lt_dec n mp).
  - replace (n - mp)%nat with 0%nat by lia. rewrite (Nat.div_small (0 + mp - 1) mp) by lia.
    replace (n + mp - 1)%nat with (n - 1 + 1 * mp)%nat by lia. rewrite Nat.div_add, Nat.div_small by lia. lia.
  - replace (n + mp - 1)%nat with (n - mp + mp - 1 + 1 * mp)%nat by lia. rewrite Nat.div_add by lia. lia.
Qed.
Theorem C52_insertion b c : exists out, insert_pilots b c = Ok out
  /\ length out = (length c + ceil_blocks (length c) (pilot_spacing b) * pilot_length b)%nat
  /\ (forall j, (j < length c)%nat -> nth ((j / pilot_spacing b + 1) * pilot_length b + j) out false = nth j c false)
  /\ (forall l i, (l < ceil_blocks (length c) (pilot_spacing b))%nat -> (i < pilot_length b)%nat ->
      nth (l * (pilot_length b + pilot_spacing b) + i) out false = nth i (pilot_chips b) false).
Proof.
  exists (with_pilots b c). split; [apply pilots_ok|]. pose proof (spacing_pos b) as Hm. pose proof (pilot_of_length b) as Hl.
  assert (Ew : pilot_of b = pilot_chips b) by (destruct b; vm_compute; reflexivity).
  set (mp := pilot_spacing b) in *. set (np := pilot_length b) in *.
  revert c. apply (pilots_ind b).
  - rewrite with_pilots_nil. assert (Z0 : ceil_blocks 0 mp = 0%nat) by (unfold ceil_blocks; apply Nat.div_small; lia).
    cbn [length]. rewrite Z0. repeat split; intros; lia.
  - intros c Hc (I1 & I2 & I3). fold mp in I1, I2, I3. rewrite with_pilots_step by assumption. fold mp. rewrite skipn_length in I1, I2, I3.
    assert (Lp : (0 < length c)%nat) by (destruct c; [congruence|cbn [length]; lia]).
    rewrite (ceil_blocks_step (length c) mp) by assumption. split; [|split].
    + rewrite !app_length, I1, firstn_length, Hl. lia.
    + intros j Hj. destruct (le_lt_dec mp j) as [G|G].
      * rewrite app_nth2 by lia. rewrite app_nth2; [|rewrite firstn_length, Hl; pose proof (Nat.le_0_l (j / mp * np)); lia].
        rewrite firstn_length, Hl, Nat.min_l by lia.
        specialize (I2 (j - mp)%nat ltac:(lia)). rewrite nth_skipn in I2. replace (mp + (j - mp))%nat with j in I2 by lia. rewrite <- I2. f_equal.
        replace j with (j - mp + 1 * mp)%nat at 1 by lia. rewrite Nat.div_add by lia. lia.
      * rewrite Nat.div_small by assumption. rewrite app_nth2 by lia. rewrite Hl. replace ((0 + 1) * np + j - np)%nat with j by lia.
        rewrite app_nth1 by (rewrite firstn_length; lia). now apply nth_firstn.
    + intros l i Hll Hi. destruct l as [|l].
      * rewrite app_nth1 by lia. now rewrite Ew.
      * rewrite <- (I3 l i ltac:(lia) Hi).
        assert (mp < length c)%nat. { destruct (le_lt_dec (length c) mp); [|assumption]. exfalso. replace (length c - mp)%nat with 0%nat in Hll by lia.
          unfold ceil_blocks in Hll. rewrite Nat.div_small in Hll by lia. lia. }
        rewrite app_nth2 by lia. rewrite app_nth2 by (rewrite firstn_length, Hl; lia). rewrite firstn_length, Hl. f_equal. lia.
Qed.
Print Assumptions C52_insertion.
Lemma skipn_plus {A} a b (l : list A) : skipn a (skipn b l) = skipn (b + a) l.
Proof. revert l. induction b as [|b IH]; intros [|x l]; cbn [skipn Nat.add]; try reflexivity; [now rewrite !skipn_nil|apply IH]. Qed.
Lemma drop_pilots_ok b : forall c fuel, (length (with_pilots b c) <= fuel)%nat -> drop_pilots fuel (pilot_length b) (pilot_spacing b) (with_pilots b c) = c.
Proof.
  apply (pilots_ind b (fun c => forall fuel, (length (with_pilots b c) <= fuel)%nat -> drop_pilots fuel (pilot_length b) (pilot_spacing b) (with_pilots b c) = c)).
  - intros fuel _. rewrite with_pilots_nil. destruct fuel; reflexivity.
  - intros c Hc IH fuel Hf. rewrite with_pilots_step in * by assumption. pose proof (spacing_pos b) as Hm. pose proof (pilot_of_length b) as Hl.
    set (mp := pilot_spacing b) in *. set (np := pilot_length b) in *.
    assert (Lp : (0 < length c)%nat) by (destruct c; [congruence|cbn [length]; lia]).
    rewrite !app_length, firstn_length, Hl in Hf. destruct fuel as [|fuel]; [lia|]. cbn [drop_pilots].
    set (W := pilot_of b ++ firstn mp c ++ with_pilots b (skipn mp c)). destruct W as [|x W'] eqn:EW.
    { exfalso. apply (f_equal (@length bool)) in EW. unfold W in EW. rewrite !app_length, firstn_length in EW. cbn [length] in EW. lia. }
    rewrite <- EW. unfold W. rewrite <- skipn_plus. rewrite (skipn_app np), (skipn_all2 (pilot_of b)), Hl, Nat.sub_diag by lia. cbn [skipn app].
    destruct (le_lt_dec (length c) mp) as [G|G].
    + rewrite (skipn_all2 c) by lia. rewrite with_pilots_nil, app_nil_r, (firstn_all2 c) by lia. rewrite (firstn_all2 c) by lia.
      rewrite (skipn_all2 c) by lia. destruct fuel; cbn; now rewrite app_nil_r.
    + rewrite firstn_app, firstn_firstn, Nat.min_id, firstn_length, Nat.min_l, Nat.sub_diag, firstn_O, app_nil_r by lia.
      rewrite skipn_app, firstn_length, Nat.min_l, Nat.sub_diag by lia. rewrite (skipn_all2 (firstn mp c)) by (rewrite firstn_length; lia). cbn [skipn app].
      rewrite IH by lia. apply firstn_skipn.
Qed.
Theorem C52_removable b c : exists out, insert_pilots b c = Ok out /\ remove_pilots b out = c.
Proof. exists (with_pilots b c). split; [apply pilots_ok|]. apply drop_pilots_ok. lia. Qed.
Print Assumptions C52_removable.
Example C52_case : exists out, insert_pilots Band_470MHz (repeat true 600) = Ok out /\ length out = 664%nat.
Proof. eexists. split; [vm_compute; reflexivity|reflexivity]. Qed.

(** ** C53 *)
Theorem C53_agree_partial b w : b <> Band_2450MHz -> bget PILOT_SEQUENCES b = Ok w ->
  DSSS_spread [false] (shr_codes b) = Ok (from_bitstring w).
Proof. intros Hb H2. destruct b; try congruence; injection H2 as <-; vm_compute; reflexivity. Qed.
Print Assumptions C53_agree_partial.
Example C53_case : exists w, Band_780MHz <> Band_2450MHz /\ bget PILOT_SEQUENCES Band_780MHz = Ok w /\ length (from_bitstring w) = 64%nat.
Proof. eexists. split; [discriminate|]. split; reflexivity. Qed.
(** 2450 MHz: the two sequences differ in one chip, number 78 *)
Theorem C53_refuted : exists w c, bget PILOT_SEQUENCES Band_2450MHz = Ok w
  /\ DSSS_spread [false] (shr_codes Band_2450MHz) = Ok c /\ length c = length (from_bitstring w)
  /\ (forall i, (i < 128)%nat -> nth i (from_bitstring w) false = xorb (nth i c false) (Nat.eqb i 78)).
Proof.
  eexists. eexists. split; [reflexivity|]. split; [vm_compute; reflexivity|]. split; [vm_compute; reflexivity|].
  intros i Hi. do 128 (destruct i as [|i]; [vm_compute; reflexivity|]). lia.
Qed.
Print Assumptions C53_refuted.

(** ** C54: the payloads of 1..2047 octets that are refused, exactly *)
Theorem C54_exact_partial p b rm sm sps s a zs : oq_used p b rm sm sps s -> oq_supported b rm sm -> 0 < sps ->
  holds_octets a zs -> Forall is_octet zs -> 1 <= zlen zs <= 2047 ->
  if needs_pairs b rm sm && Z.odd (psdu_blocks (zlen zs)) then snd (q_bytesToChips p a s) = Err ValueError
  else exists chips f, snd (q_bytesToChips p a s) = Ok (chips, f).
Proof.
  intros Hu Hs Hp Ha Ho Hl. change (q_bytesToChips p a s) with (oq_send p (Octets a) s).
  rewrite (octets_sent p b rm sm sps s a zs) by assumption. destruct (_ && _); eauto.
Qed.
Print Assumptions C54_exact_partial.
(** in particular no payload of 1..7 octets can be sent in the modes spreading groups of four bits, nor in MDSSS rate modes 0 and 1 *)
Theorem C54_refuted p b rm sm sps s a zs : oq_used p b rm sm sps s -> oq_supported b rm sm -> 0 < sps -> needs_pairs b rm sm = true ->
  holds_octets a zs -> Forall is_octet zs -> 1 <= zlen zs <= 7 -> snd (q_bytesToChips p a s) = Err ValueError.
Proof.
  intros Hu Hs Hp Hn Ha Ho Hl. pose proof (C54_exact_partial p b rm sm sps s a zs Hu Hs Hp Ha Ho ltac:(lia)) as H. rewrite Hn in H.
  replace (psdu_blocks (zlen zs)) with 1 in H; [exact H|]. unfold psdu_blocks. Z.div_mod_to_equations. lia.
Qed.
Print Assumptions C54_refuted.
Example C54_case : exists s, oq_used Wrapping Band_915MHz 1 0 10 s /\ oq_supported Band_915MHz 1 0 /\ needs_pairs Band_915MHz 1 0 = true
  /\ snd (q_bytesToChips Wrapping (ABytes [x55]) s) = Err ValueError
  /\ is_ok (snd (q_bytesToChips Wrapping (ABytes (repeat x55 8)) s)) = true.
Proof.
  eexists. split; [eexists; exists []; split; reflexivity|]. split; [split; [lia|left; reflexivity]|]. split; [reflexivity|]. split; vm_compute; reflexivity.
Qed.

(** ** C55 *)
(** bits 63 to 54 nb + 2 of the payload have no influence (nb: number of interleaver blocks), in all modes *)
Lemma psdu_chips_agree b rm sm zs zs' : oq_supported b rm sm -> zlen zs = zlen zs' -> 1 <= zlen zs ->
  (forall j, (j < 63 \/ 54 * Z.to_nat (psdu_blocks (zlen zs)) + 3 <= j)%nat -> nth j (octet_bits zs) false = nth j (octet_bits zs') false) ->
  psdu_chips b rm sm (zlen zs) (octet_bits zs) = psdu_chips b rm sm (zlen zs) (octet_bits zs').
Proof.
  intros Hs Hl H1 E. unfold psdu_chips. destruct (sm =? 0); [|reflexivity].
  enough (I : ilv true (psdu_code (zlen zs) (octet_bits zs)) = ilv true (psdu_code (zlen zs) (octet_bits zs'))) by (unfold dsss_bits; now rewrite I).
  destruct (psdu_blocks_spec (zlen zs) ltac:(lia)) as [B Bp]. set (nb := Z.to_nat (psdu_blocks (zlen zs))) in *.
  assert (L : length (octet_bits zs) = Z.to_nat (8 * zlen zs)) by (rewrite octet_bits_length; unfold zlen; lia).
  assert (L' : length (octet_bits zs') = Z.to_nat (8 * zlen zs)) by (rewrite octet_bits_length; unfold zlen in *; lia).
  set (z := Z.to_nat (63 * psdu_blocks (zlen zs) - 8 * zlen zs)).
  assert (R : q_interleaver (psdu_code (zlen zs) (octet_bits zs)) true = q_interleaver (psdu_code (zlen zs) (octet_bits zs')) true).
  { apply (lost_bits _ _ nb); [unfold nb; lia|rewrite app_length, repeat_length; unfold nb; lia|rewrite app_length, repeat_length; unfold nb; lia|].
    intros j Hj. destruct (le_lt_dec (length (octet_bits zs)) j).
    - rewrite !app_nth2 by lia. now rewrite L, L'.
    - rewrite !app_nth1 by lia. now apply E. }
  rewrite !(q_interleaver_run true _ nb) in R; try (unfold nb; lia); try (rewrite psdu_code_length by (auto; lia); unfold nb; lia).
  now injection R.
Qed.
Theorem C55_lost_refuted p b rm sm sps s s' a a' zs zs' : oq_used p b rm sm sps s -> oq_used p b rm sm sps s' -> oq_supported b rm sm -> 0 < sps ->
  holds_octets a zs -> holds_octets a' zs' -> Forall is_octet zs -> Forall is_octet zs' -> zlen zs = zlen zs' -> 1 <= zlen zs <= 2047 ->
  (forall j, (j < 63 \/ 54 * Z.to_nat (psdu_blocks (zlen zs)) + 3 <= j)%nat -> nth j (octet_bits zs) false = nth j (octet_bits zs') false) ->
  snd (q_bytesToChips p a s) = snd (q_bytesToChips p a' s').
Proof.
  intros Hu Hu' Hs Hp Ha Ha' Ho Ho' Hl H1 E. change (snd (oq_send p (Octets a) s) = snd (oq_send p (Octets a') s')).
  rewrite (octets_sent p b rm sm sps s a zs), (octets_sent p b rm sm sps s' a' zs') by (auto; lia). rewrite <- Hl.
  now rewrite (psdu_chips_agree b rm sm zs zs').
Qed.
Print Assumptions C55_lost_refuted.
(** so every payload of 8 octets or more shares its signal with a different one: bit 7 of its eighth octet is lost *)
Definition change_octet (zs : list Z) (k : nat) (v : Z) : list Z := set_nth k v zs.
Lemma change_octet_other zs k v j : (Nat.div j 8 <> k)%nat -> nth j (octet_bits (change_octet zs k v)) false = nth j (octet_bits zs) false.
Proof.
  intro H. revert zs k H. revert j. assert (G : forall q r zs k, (r < 8)%nat -> q <> k -> nth (8 * q + r) (octet_bits (change_octet zs k v)) false = nth (8 * q + r) (octet_bits zs) false).
  { induction q as [|q IH]; intros r zs k Hr Hk; (destruct zs as [|z zs]; [destruct k; reflexivity|]); destruct k as [|k]; try congruence; unfold octet_bits, change_octet; cbn [set_nth flat_map].
    - rewrite !app_nth1 by (rewrite lsb_bits_length; lia). reflexivity.
    - rewrite !app_nth2 by (rewrite lsb_bits_length; lia). rewrite !lsb_bits_length. reflexivity.
    - rewrite !app_nth2 by (rewrite lsb_bits_length; lia). rewrite !lsb_bits_length. replace (8 * S q + r - 8)%nat with (8 * q + r)%nat by lia. apply IH; lia. }
  intros j zs k Hj. pose proof (Nat.div_mod j 8 ltac:(lia)) as D. rewrite D. apply G; [apply Nat.mod_upper_bound; lia|assumption].
Qed.
Lemma lsb_flip7 z j : 0 <= z <= 255 -> (j < 7)%nat -> nth j (lsb_bits 8 (Z.lxor z 128)) false = nth j (lsb_bits 8 z) false.
Proof.
  intros Hz Hj. unfold lsb_bits. rewrite !nth_map_seq by lia. rewrite Z.lxor_spec. replace (Z.testbit 128 (Z.of_nat j)) with false; [apply xorb_false_r|].
  change 128 with (2 ^ 7). symmetry. apply Z.pow2_bits_false. lia.
Qed.
Lemma octet_split zs k : (k < length zs)%nat -> octet_bits zs = octet_bits (firstn k zs) ++ lsb_bits 8 (nth k zs 0) ++ octet_bits (skipn (S k) zs).
Proof.
  intro H. rewrite <- (firstn_skipn k zs) at 1. unfold octet_bits. rewrite flat_map_app. f_equal.
  revert zs H. induction k as [|k IH]; intros [|z zs] H; cbn [length] in H; try lia; cbn [skipn flat_map nth]; [reflexivity|]. apply IH. lia.
Qed.
Theorem C55_every_payload_refuted p b rm sm sps s a zs : oq_used p b rm sm sps s -> oq_supported b rm sm -> 0 < sps ->
  holds_octets a zs -> Forall is_octet zs -> 8 <= zlen zs <= 2047 ->
  exists zs', zs' <> zs /\ length zs' = length zs /\ Forall is_octet zs' /\
  snd (q_bytesToChips p a s) = snd (q_bytesToChips p (AList 1 (map inject_Z zs')) s).
Proof.
  intros Hu Hs Hp Ha Ho Hl. set (v := Z.lxor (nth 7 zs 0) 128). exists (change_octet zs 7 v).
  assert (L : (8 <= length zs)%nat) by (unfold zlen in Hl; lia).
  assert (Hz : 0 <= nth 7 zs 0 <= 255) by (rewrite Forall_forall in Ho; apply Ho, nth_In; lia).
  assert (Bv : is_octet v /\ v <> nth 7 zs 0).
  { assert (C : forallb (fun z => (0 <=? Z.lxor z 128) && (Z.lxor z 128 <=? 255) && negb (Z.lxor z 128 =? z)) (states 256) = true) by (vm_compute; reflexivity).
    pose proof (states_forall 256 _ C (nth 7 zs 0) ltac:(lia)) as H. cbv beta in H. fold v in H. apply andb_prop in H as [H H3]. apply andb_prop in H as [H1 H2].
    apply Z.leb_le in H1, H2. apply negb_true_iff, Z.eqb_neq in H3. unfold is_octet. lia. }
  destruct Bv as [Bv Nv].
  assert (Ho' : Forall is_octet (change_octet zs 7 v)).
  { apply Forall_forall. intros x Hx. apply (In_nth _ _ 0) in Hx as (i & Hi & <-). unfold change_octet in *. rewrite set_nth_length in Hi.
    rewrite nth_set_nth. destruct (_ && _); [assumption|]. rewrite Forall_forall in Ho. apply Ho, nth_In, Hi. }
  assert (E7 : nth 7 (change_octet zs 7 v) 0 = v) by (unfold change_octet; rewrite nth_set_nth, (proj2 (Nat.ltb_lt _ _)) by lia; reflexivity).
  split; [intro E; apply Nv; rewrite <- E7; now rewrite E|]. split; [apply set_nth_length|]. split; [assumption|].
  apply (C55_lost_refuted p b rm sm sps s s a _ zs (change_octet zs 7 v)); auto; try (exact (HO_list _)).
  - unfold zlen, change_octet. now rewrite set_nth_length.
  - lia.
  - intros j Hj. destruct (Nat.eq_dec (j / 8) 7) as [Ej|Ej]; [|symmetry; now apply change_octet_other].
    pose proof (Nat.div_mod j 8 ltac:(lia)) as D. pose proof (Nat.mod_upper_bound j 8 ltac:(lia)) as U.
    assert (Hj63 : (j < 63)%nat).
    { destruct Hj as [Hj|Hj]; [assumption|]. exfalso. destruct (psdu_blocks_spec (zlen zs) ltac:(lia)) as [B _]. lia. }
    rewrite (octet_split zs 7), (octet_split (change_octet zs 7 v) 7) by (unfold change_octet; rewrite ?set_nth_length; lia).
    assert (F : forall l, (8 <= length l)%nat -> length (octet_bits (firstn 7 l)) = 56%nat) by (intros l Hll; rewrite octet_bits_length, firstn_length; lia).
    rewrite (app_nth2 (octet_bits (firstn 7 zs))) by (rewrite F by lia; lia).
    rewrite (app_nth2 (octet_bits (firstn 7 (change_octet zs 7 v)))) by (rewrite F by (unfold change_octet; rewrite ?set_nth_length; lia); lia).
    rewrite (F zs) by lia. rewrite (F (change_octet zs 7 v)) by (unfold change_octet; rewrite ?set_nth_length; lia).
    rewrite (app_nth1 (lsb_bits 8 (nth 7 zs 0))) by (rewrite lsb_bits_length; lia).
    rewrite (app_nth1 (lsb_bits 8 (nth 7 (change_octet zs 7 v) 0))) by (rewrite lsb_bits_length; lia). rewrite E7.
    symmetry. apply lsb_flip7; [assumption|lia].
Qed.
Print Assumptions C55_every_payload_refuted.
(** MDSSS: the signal does not depend on the payload at all *)
Theorem C55_mdsss_refuted p b rm sps s a a' zs zs' : oq_used p b rm 1 sps s -> oq_supported b rm 1 -> 0 < sps ->
  holds_octets a zs -> holds_octets a' zs' -> Forall is_octet zs -> Forall is_octet zs' -> length zs = length zs' -> 1 <= zlen zs <= 2047 ->
  snd (q_bytesToChips p a s) = snd (q_bytesToChips p a' s).
Proof.
  intros Hu Hs Hp Ha Ha' Ho Ho' Hl H1. change (snd (oq_send p (Octets a) s) = snd (oq_send p (Octets a') s)).
  assert (E : zlen zs = zlen zs') by (unfold zlen; lia).
  rewrite (octets_sent p b rm 1 sps s a zs), (octets_sent p b rm 1 sps s a' zs') by (auto; lia). rewrite <- E. reflexivity.
Qed.
Print Assumptions C55_mdsss_refuted.
Example C55_case : exists s, oq_used Wrapping Band_470MHz 0 0 10 s
  /\ is_ok (snd (q_bytesToChips Wrapping (ABytes (repeat x55 8)) s)) = true
  /\ snd (q_bytesToChips Wrapping (ABytes (repeat x55 7 ++ [x55])) s) = snd (q_bytesToChips Wrapping (ABytes (repeat x55 7 ++ [xd5])) s).
Proof. eexists. split; [eexists; exists []; split; reflexivity|]. split; vm_compute; reflexivity. Qed.

(** ** C56 *)
(** the header of any two frames of one band, whatever the modes and payloads *)
Lemma with_pilots_inj b c c' : with_pilots b c = with_pilots b c' -> c = c'.
Proof.
  intro E. rewrite <- (drop_pilots_ok b c (length (with_pilots b c))) by lia. rewrite <- (drop_pilots_ok b c' (length (with_pilots b c))) by (rewrite E; lia).
  now rewrite E.
Qed.
Lemma phr_chips_inj p b sm rm len sm' rm' len' : 0 <= rm <= 3 -> 0 <= rm' <= 3 -> 0 <= len <= 2047 -> 0 <= len' <= 2047 ->
  phr_chips p b sm rm len = phr_chips p b sm' rm' len' -> sm = sm' /\ rm = rm' /\ len = len'.
Proof.
  intros H1 H2 H3 H4 E. destruct (sp_phr_in b) as (_ & Hi & Hk). unfold phr_chips in E.
  apply spread_inj in E; [|assumption|now rewrite Hk, Nat.mod_1_r|now rewrite Hk, Nat.mod_1_r].
  unfold phr_diff in E. apply BDE_inj in E.
  assert (E' : q_interleaver (phr_code (hdr p sm rm len)) false = q_interleaver (phr_code (hdr p sm' rm' len')) false).
  { rewrite !(q_interleaver_run false _ 1) by (try lia; rewrite phr_code_length; reflexivity). f_equal. exact E. }
  apply (one_block_determines false) in E'; [|apply phr_code_length|apply phr_code_length].
  unfold phr_code in E'. apply code_12_inj in E'. apply app_inj_len in E' as [E' _]; [|now rewrite !hdr_length].
  now apply (hdr_inj p).
Qed.
Theorem C56_header p b rm sm sps s a zs chips f rm' sm' sps' s' a' zs' f' :
  oq_used p b rm sm sps s -> oq_used p b rm' sm' sps' s' -> oq_supported b rm sm -> oq_supported b rm' sm' -> 0 < sps -> 0 < sps' ->
  holds_octets a zs -> holds_octets a' zs' -> Forall is_octet zs -> Forall is_octet zs' -> 1 <= zlen zs <= 2047 -> 1 <= zlen zs' <= 2047 ->
  snd (q_bytesToChips p a s) = Ok (chips, f) -> snd (q_bytesToChips p a' s') = Ok (chips, f') ->
  rm = rm' /\ sm = sm' /\ length zs = length zs'.
Proof.
  intros Hu Hu' Hs Hs' Hp Hp' Ha Ha' Ho Ho' Hl Hl' E E'.
  change (q_bytesToChips p a s) with (oq_send p (Octets a) s) in E. change (q_bytesToChips p a' s') with (oq_send p (Octets a') s') in E'.
  rewrite (octets_sent p b rm sm sps s a zs) in E by assumption. rewrite (octets_sent p b rm' sm' sps' s' a' zs') in E' by assumption.
  destruct (_ && _) in E; [discriminate|]. destruct (_ && _) in E'; [discriminate|]. injection E as E _. injection E' as E' _.
  rewrite <- E' in E. apply app_inv_head in E. apply app_inj_len in E as [E _]; [|now rewrite !phr_chips_length].
  apply phr_chips_inj in E; try (apply Hs); try (apply Hs'); try lia. destruct E as (E1 & E2 & E3).
  split; [assumption|]. split; [|unfold zlen in E3; lia].
  destruct Hs as [_ [->|[-> _]]]; destruct Hs' as [_ [->|[-> _]]]; try reflexivity; discriminate E1.
Qed.
Print Assumptions C56_header.
Lemma single_block_inj b rm zs zs' : 0 <= rm <= 3 -> four_bits b rm = false -> 1 <= zlen zs <= 7 -> zlen zs = zlen zs' -> Forall is_octet zs -> Forall is_octet zs' ->
  psdu_chips b rm 0 (zlen zs) (octet_bits zs) = psdu_chips b rm 0 (zlen zs) (octet_bits zs') -> zs = zs'.
Proof.
  intros Hr H4 Hl El Ho Ho' E. unfold psdu_chips in E. change (0 =? 0) with true in E. cbv iota in E.
  destruct (sp_psdu_ok b rm Hr) as (_ & _ & E3). unfold four_bits in H4.
  assert (Dd : dsss_bits b rm (zlen zs) (octet_bits zs) = dsss_bits b rm (zlen zs) (octet_bits zs')).
  { destruct (sp_psdu b rm) as [sp|]; [|assumption]. destruct (E3 sp eq_refl) as [Hi [Hk|Hk]]; [|rewrite Hk in H4; discriminate].
    apply spread_inj in E; [assumption|assumption| |]; now rewrite Hk, Nat.mod_1_r. }
  assert (B1 : psdu_blocks (zlen zs) = 1) by (unfold psdu_blocks; Z.div_mod_to_equations; lia).
  assert (L : length (octet_bits zs) = Z.to_nat (8 * zlen zs)) by (rewrite octet_bits_length; unfold zlen; lia).
  assert (L' : length (octet_bits zs') = Z.to_nat (8 * zlen zs)) by (rewrite octet_bits_length; unfold zlen in *; lia).
  assert (P : length (psdu_code (zlen zs) (octet_bits zs)) = 126%nat) by (rewrite psdu_code_length, B1 by (auto; lia); reflexivity).
  assert (P' : length (psdu_code (zlen zs) (octet_bits zs')) = 126%nat) by (rewrite psdu_code_length, B1 by (auto; lia); reflexivity).
  assert (I : ilv true (psdu_code (zlen zs) (octet_bits zs)) = ilv true (psdu_code (zlen zs) (octet_bits zs'))).
  { unfold dsss_bits in Dd. cbv zeta in Dd. destruct (bde_psdu b rm); [now apply BDE_inj in Dd|assumption]. }
  assert (Q : q_interleaver (psdu_code (zlen zs) (octet_bits zs)) true = q_interleaver (psdu_code (zlen zs) (octet_bits zs')) true).
  { rewrite !(q_interleaver_run true _ 1) by (try lia; rewrite ?P, ?P'; reflexivity). f_equal. exact I. }
  apply (one_block_determines true) in Q; [|assumption|assumption]. unfold psdu_code in Q. apply code_12_inj in Q.
  apply app_inj_len in Q as [Q _]; [|congruence]. now apply octet_bits_inj.
Qed.
(** DSSS, payloads of at most 7 octets: everything is recovered from the chips *)
Theorem C56_round_trip p b rm sps s a zs chips f rm' sm' sps' s' a' zs' f' :
  oq_used p b rm 0 sps s -> oq_used p b rm' sm' sps' s' -> oq_supported b rm 0 -> oq_supported b rm' sm' -> 0 < sps -> 0 < sps' ->
  holds_octets a zs -> holds_octets a' zs' -> Forall is_octet zs -> Forall is_octet zs' -> 1 <= zlen zs <= 7 -> 1 <= zlen zs' <= 2047 ->
  snd (q_bytesToChips p a s) = Ok (chips, f) -> snd (q_bytesToChips p a' s') = Ok (chips, f') ->
  rm = rm' /\ sm' = 0 /\ zs = zs'.
Proof.
  intros Hu Hu' Hs Hs' Hp Hp' Ha Ha' Ho Ho' Hl Hl' E E'.
  destruct (C56_header p b rm 0 sps s a zs chips f rm' sm' sps' s' a' zs' f') as (<- & <- & El); auto; try lia.
  split; [reflexivity|]. split; [reflexivity|].
  change (q_bytesToChips p a s) with (oq_send p (Octets a) s) in E. change (q_bytesToChips p a' s') with (oq_send p (Octets a') s') in E'.
  assert (Ez : zlen zs = zlen zs') by (unfold zlen; lia).
  rewrite (octets_sent p b rm 0 sps s a zs) in E by (auto; lia). rewrite (octets_sent p b rm 0 sps' s' a' zs') in E' by (auto; lia).
  rewrite <- Ez in E'. destruct (needs_pairs b rm 0) eqn:Hn.
  { replace (psdu_blocks (zlen zs)) with 1 in E by (unfold psdu_blocks; Z.div_mod_to_equations; lia). discriminate E. }
  cbn [andb] in E, E'. injection E as E _. injection E' as E' _. rewrite <- E' in E. apply app_inv_head in E. apply app_inv_head in E.
  apply with_pilots_inj in E. rewrite <- (needs_pairs_eq b rm 0 Hs) in Hn. unfold pairs_only in Hn. change (0 =? 0) with true in Hn.
  apply (single_block_inj b rm); auto. apply Hs.
Qed.
Print Assumptions C56_round_trip.
Example C56_case : exists s chips f, oq_used Wrapping Band_868MHz 2 0 10 s /\ snd (q_bytesToChips Wrapping (ABytes [x55; x0f]) s) = Ok (chips, f).
Proof. eexists. eexists. eexists. split; [eexists; exists []; split; reflexivity|]. vm_compute. reflexivity. Qed.
(** so payloads of up to 7 octets are distinguishable in DSSS *)
Theorem C55_single_block_partial p b rm sps s a a' zs zs' chips f chips' f' : oq_used p b rm 0 sps s -> oq_supported b rm 0 -> 0 < sps ->
  holds_octets a zs -> holds_octets a' zs' -> Forall is_octet zs -> Forall is_octet zs' -> 1 <= zlen zs <= 7 -> length zs = length zs' -> zs <> zs' ->
  snd (q_bytesToChips p a s) = Ok (chips, f) -> snd (q_bytesToChips p a' s) = Ok (chips', f') -> chips <> chips'.
Proof.
  intros Hu Hs Hp Ha Ha' Ho Ho' Hl El Hne E E' <-.
  destruct (C56_round_trip p b rm sps s a zs chips f rm 0 sps s a' zs' f') as (_ & _ & Z0); auto. unfold zlen in *. lia.
Qed.
Print Assumptions C55_single_block_partial.

(** ** C59 *)
Theorem C59_construction b rm sm sps :
  oqpsk_new b rm sm sps = if (sm =? 1) && negb (mdsss_band b) then Err UnsupportedError
                          else Ok {| q_sps := sps; q_SM := sm; q_band := b; q_RM := rm; q_mem := [] |}.
Proof. unfold oqpsk_new. destruct (sm =? 1); [|reflexivity]. destruct b; reflexivity. Qed.
Print Assumptions C59_construction.
(** unsupported parameters accepted at construction: the calls fail, all of them *)
Lemma psdu_rm_err b rm sm bits : ~ (0 <= rm <= 3) -> exists e, psdu_pure b rm sm bits = Err e.
Proof.
  intro H. assert (N : rm <> 0 /\ rm <> 1 /\ rm <> 2 /\ rm <> 3) by lia. destruct N as (N0 & N1 & N2 & N3).
  apply Z.eqb_neq in N0, N1, N2, N3.
  unfold psdu_pure. match goal with |- exists e, rbind ?x _ = _ => destruct x as [t|e] end; [|eexists; reflexivity]. cbn [rbind]. destruct (sm =? 0).
  - assert (Z0 : exists e, (do d <- bget PSDU_BDE_DSSS b; zdict d rm) = Err e).
    { destruct b; unfold bget, zdict, dict_get; cbn [PSDU_BDE_DSSS assoc band_eqb rbind]; cbv beta iota; cbn [assoc]; rewrite ?N0, ?N1, ?N2, ?N3; eexists; reflexivity. }
    destruct Z0 as [e ->]. eexists. reflexivity.
  - match goal with |- exists e, rbind ?x _ = _ => assert (Z0 : exists e, x = Err e) end.
    { destruct b; unfold bget, zdict, dict_get; cbn [PSDU_SPREADING_FACTOR_MDSSS assoc band_eqb rbind]; cbv beta iota; cbn [assoc]; rewrite ?N0, ?N1, ?N2, ?N3;
      try (destruct (_ && _)); eexists; reflexivity. }
    destruct Z0 as [e ->]. eexists. reflexivity.
Qed.
Lemma rate_sm_err b rm sm sps : sm <> 0 -> sm <> 1 -> exists e, q_chip_rate (bare (sps, sm, b, rm)) = Err e.
Proof.
  intros H0 H1. apply Z.eqb_neq in H0, H1. unfold q_chip_rate, zdict, dict_get. cbn [bare q_SM DATA_RATE assoc]. rewrite H0, H1. eexists. reflexivity.
Qed.
Theorem C59_no_signal p b rm sm sps s r : oq_used p b rm sm sps s -> ~ (oq_supported b rm sm /\ 0 < sps) -> exists e, snd (oq_send p r s) = Err e.
Proof.
  intros Hu Hn. rewrite (proj2 (send_master p r s)), (used_params _ _ _ _ _ _ Hu). destruct (request_bits r) as [bits|e]; [|eexists; reflexivity].
  cbn [rbind]. unfold chips_pure. cbn [bare q_band q_RM q_SM q_sps]. cbv zeta. rewrite shr_ok. cbn [rbind].
  destruct (q_PHR p _ _) as [phr|e]; [|eexists; reflexivity]. cbn [rbind]. destruct (phr_pure b _ phr) as [c2|e]; [|eexists; reflexivity]. cbn [rbind].
  destruct (Z_le_dec 0 rm) as [R0|R0]; [destruct (Z_le_dec rm 3) as [R3|R3]|].
  2:{ destruct (psdu_rm_err b rm sm bits ltac:(lia)) as [e ->]. eexists. reflexivity. }
  2:{ destruct (psdu_rm_err b rm sm bits ltac:(lia)) as [e ->]. eexists. reflexivity. }
  destruct (psdu_pure b rm sm bits) as [c3|e]; [|eexists; reflexivity]. cbn [rbind]. rewrite pilots_ok. cbn [rbind].
  destruct (Z.eq_dec sm 0) as [S0|S0]; [|destruct (Z.eq_dec sm 1) as [S1|S1]].
  - destruct (q_chip_rate _); [|eexists; reflexivity]. cbn [rbind]. destruct (Z.leb_spec sps 0); [eexists; reflexivity|].
    exfalso. apply Hn. split; [split; [lia|now left]|lia].
  - destruct (q_chip_rate _); [|eexists; reflexivity]. cbn [rbind]. destruct (Z.leb_spec sps 0); [eexists; reflexivity|].
    exfalso. apply Hn. split; [split; [lia|right]|lia]. split; [assumption|]. destruct Hu as (s0 & h & Hnew & _). rewrite C59_construction in Hnew.
    subst sm. cbn in Hnew. destruct (mdsss_band b); [reflexivity|discriminate].
  - destruct (rate_sm_err b rm sm sps S0 S1) as [e Ee]. unfold bare in Ee. rewrite Ee. eexists. reflexivity.
Qed.
Print Assumptions C59_no_signal.
(** but construction does not refuse them *)
Theorem C59_refuted b rm sm sps : ~ (0 <= rm <= 3) \/ ~ (0 <= sm <= 1) -> (sm = 1 -> mdsss_band b = true) -> exists s, oqpsk_new b rm sm sps = Ok s.
Proof.
  intros _ H. rewrite C59_construction. destruct (Z.eqb_spec sm 1); [rewrite H by assumption|]; eexists; reflexivity.
Qed.
Print Assumptions C59_refuted.
Example C59_case : exists s, oqpsk_new Band_470MHz 9 5 10 = Ok s /\ snd (oq_send Wrapping (Octets (ABytes [x55])) s) = Err ValueError.
Proof. eexists. split; [reflexivity|vm_compute; reflexivity]. Qed.

(** ** C60 *)
Theorem C60_no_memory p b rm sm sps s0 h r : oqpsk_new b rm sm sps = Ok s0 ->
  snd (oq_send p r (oq_after p h s0)) = snd (oq_send p r s0).
Proof. intros _. rewrite !(proj2 (send_master p r _)). now rewrite after_params. Qed.
Print Assumptions C60_no_memory.
Example C60_case : exists s0, oqpsk_new Band_470MHz 1 0 10 = Ok s0
  /\ is_ok (snd (oq_send Wrapping (Octets (AStr "x")) s0)) = false
  /\ is_ok (snd (oq_send Wrapping (Octets (ABytes [x55])) (oq_after Wrapping [Octets (AStr "x"); Octets (ABytes [x0f; x10])] s0))) = true.
Proof. eexists. split; [reflexivity|]. split; vm_compute; reflexivity. Qed.
