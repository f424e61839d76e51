(** * C107: MR-O-QPSK reception with error correction by the convolutional code *)
From Coq Require Import Reals Permutation.
From Verif Require Import Py MBits MModul MOfdm Tables MRate MOqpsk SBits SEntry SRate SOqpsk SOqRx SOqDs SOqVit PList PBits PEntry PConv PRate POqpsk POqRun POqRx POqGap Prop_Oqpsk Prop_OqRx Prop_OqDs.
From Verif Require SVit PVit PSoft PFskGap.
Open Scope Z_scope.

Lemma illegible_within w t n r c : illegible w t n r c = 0%nat <-> within w t n r c.
Proof.
  unfold illegible, within. split.
  - intros H j Hj. apply length_zero_iff_nil in H. destruct (Nat.le_gt_cases (distance (slice (j * w) w r) (slice (j * w) w c)) t) as [L|L]; [assumption|exfalso].
    assert (I : In j (filter (fun j => Nat.ltb t (distance (slice (j * w) w r) (slice (j * w) w c))) (seq 0 n))).
    { apply filter_In. split; [apply in_seq; lia|now apply Nat.ltb_lt]. }
    rewrite H in I. exact I.
  - intro H. apply length_zero_iff_nil. assert (G : forall l, (forall j, In j l -> (j < n)%nat) -> filter (fun j => Nat.ltb t (distance (slice (j * w) w r) (slice (j * w) w c))) l = []).
    { induction l as [|j l IH]; intro B; [reflexivity|]. cbn [filter]. rewrite (proj2 (Nat.ltb_ge _ _)) by (apply H, B; now left). apply IH. intros; apply B; now right. }
    apply G. intros j Hj. apply in_seq in Hj. lia.
Qed.
(** wrong bits after the despreading of bits spread one by one *)
Lemma nearest_group_length sp j block : length (nearest_group sp j block) = spread_bits sp.
Proof.
  unfold nearest_group. assert (G : forall l g, length g = spread_bits sp -> (forall h, In h l -> length h = spread_bits sp) -> length (fold_left (nearer (table_for sp j) block) l g) = spread_bits sp).
  { induction l as [|h l IH]; intros g Hg Hl; [assumption|]. cbn [fold_left]. apply IH; [|intros; apply Hl; now right]. unfold nearer. destruct (Nat.ltb _ _); [apply Hl; now left|assumption]. }
  apply G; [apply repeat_length|]. intros h Hh. now apply bit_strings_length.
Qed.
Lemma near_errors sp m n r : In sp all_spreads -> spread_bits sp = 1%nat -> n = length m -> length r = length (spread sp m) ->
  (length (despread_near sp n r) = n /\ distance (despread_near sp n r) m <= illegible (spread_chips sp) (correctable sp) n r (spread sp m))%nat.
Proof.
  intros Hs H1 -> Lr. assert (L : Nat.modulo (length m) (spread_bits sp) = 0%nat) by (rewrite H1; apply one_bit).
  destruct (codes_ok sp Hs) as (Hn & Hb & Hc & Hok). rewrite (spread_length sp m Hs L) in Lr. unfold despread_near, illegible.
  assert (Em : m = flat_map (fun j => slice (j * spread_bits sp) (spread_bits sp) m) (seq 0 (length m / spread_bits sp))).
  { rewrite <- (concat_chunks (spread_bits sp) m) at 1 by assumption. rewrite chunks_as_map by assumption. now rewrite flat_map_concat_map. }
  rewrite H1, Nat.div_1_r in Em. rewrite H1, Nat.div_1_r in Lr.
  split.
  - assert (G : forall l, length (flat_map (fun j => nearest_group sp j (slice (j * spread_chips sp) (spread_chips sp) r)) l) = length l).
    { induction l as [|j l IH]; [reflexivity|]. cbn [flat_map length]. rewrite app_length, nearest_group_length, IH, H1. reflexivity. }
    rewrite G. apply seq_length.
  - rewrite Em at 2. set (k := length m) in *.
    assert (G : forall l, (forall j, In j l -> (j < k)%nat) -> (distance (flat_map (fun j => nearest_group sp j (slice (j * spread_chips sp) (spread_chips sp) r)) l) (flat_map (fun j => slice (j * 1) 1 m) l)
       <= length (filter (fun j => Nat.ltb (correctable sp) (distance (slice (j * spread_chips sp) (spread_chips sp) r) (slice (j * spread_chips sp) (spread_chips sp) (spread sp m)))) l))%nat).
    { induction l as [|j l IH]; intro B; [cbn; lia|]. pose proof (B j (or_introl eq_refl)) as Bj. specialize (IH ltac:(intros; apply B; now right)). cbn [flat_map filter].
      assert (L1 : length (slice (j * 1) 1 m) = 1%nat) by (apply slice_len; lia). pose proof (nearest_group_length sp j (slice (j * spread_chips sp) (spread_chips sp) r)) as L2. rewrite H1 in L2.
      rewrite PConv.distance_app by congruence. destruct (Nat.ltb_spec (correctable sp) (distance (slice (j * spread_chips sp) (spread_chips sp) r) (slice (j * spread_chips sp) (spread_chips sp) (spread sp m)))) as [T|T].
      - cbn [length]. destruct (nearest_group _ _ _) as [|u [|]]; try discriminate. destruct (slice (j * 1) 1 m) as [|v [|]]; try discriminate. destruct u, v; cbn in *; lia.
      - rewrite (nearest_group_ok sp j (slice (j * 1) 1 m)); [rewrite PConv.distance_refl; lia|assumption|now rewrite L1|apply slice_len; nia|].
        rewrite (spread_slice sp m j Hs L) in T by (rewrite H1, Nat.div_1_r; assumption). rewrite H1 in T. exact T. }
    apply G. intros j Hj. apply in_seq in Hj. lia.
Qed.
Definition dpos (payload : bool) (j : nat) : nat :=
  let rows := if payload then 7%nat else 6%nat in let cols := if payload then 18%nat else 10%nat in (rows * cols - 1 - rows * (j mod cols) - j / cols)%nat.
Definition dsize (payload : bool) : nat := if payload then 126%nat else 60%nat.
Lemma deint_map payload l : deinterleave payload l = map (fun k => nth k l false) (map (dpos payload) (seq 0 (dsize payload))).
Proof. rewrite map_map. unfold deinterleave, dsize, dpos. destruct payload; reflexivity. Qed.
Fixpoint nodupb (l : list nat) : bool := match l with [] => true | x :: r => negb (existsb (Nat.eqb x) r) && nodupb r end.
Lemma nodupb_ok l : nodupb l = true -> NoDup l.
Proof.
  induction l as [|x l IH]; intro H; [constructor|]. cbn [nodupb] in H. apply andb_prop in H as [H1 H2]. constructor; [|now apply IH].
  intro I. apply negb_true_iff in H1. assert (existsb (Nat.eqb x) l = true) by (apply existsb_exists; exists x; split; [assumption|apply Nat.eqb_refl]). congruence.
Qed.
Lemma dpos_perm payload : Permutation (map (dpos payload) (seq 0 (dsize payload))) (seq 0 (dsize payload)).
Proof.
  apply NoDup_Permutation_bis.
  - apply nodupb_ok. destruct payload; vm_compute; reflexivity.
  - rewrite map_length. lia.
  - assert (C : forallb (fun k => Nat.ltb k (dsize payload)) (map (dpos payload) (seq 0 (dsize payload))) = true) by (destruct payload; vm_compute; reflexivity).
    rewrite forallb_forall in C. intros k Hk. apply in_seq. specialize (C k Hk). apply Nat.ltb_lt in C. lia.
Qed.
Lemma deint_distance payload x y : length x = dsize payload -> length y = dsize payload -> distance (deinterleave payload x) (deinterleave payload y) = distance x y.
Proof.
  intros Lx Ly. rewrite !deint_map, PFskGap.distance_maps, (PFskGap.filter_perm_length _ _ _ (dpos_perm payload)), <- PFskGap.distance_maps. rewrite <- Lx at 1. rewrite <- Ly. now rewrite <- !as_map.
Qed.
Lemma deint_length payload x : length (deinterleave payload x) = dsize payload.
Proof. rewrite deint_map, !map_length. apply seq_length. Qed.
Lemma allowed_split n z x : PVit.allowed (repeat None n ++ repeat (Some false) z) x <-> exists y, length y = n /\ x = y ++ repeat false z.
Proof.
  unfold PVit.allowed. revert x. induction n as [|n IH]; intro x; cbn [repeat app].
  - split.
    + intro H. exists []. split; [reflexivity|]. cbn [app]. revert x H. induction z as [|z IH]; intros x H; inversion H; subst; [reflexivity|]. cbn [repeat]. f_equal. now apply IH.
    + intros (y & L & ->). destruct y; [|discriminate]. cbn [app]. induction z; constructor; auto.
  - split.
    + intro H. inversion H as [|? b ? x' _ Hx]; subst. apply IH in Hx as (y & L & ->). exists (b :: y). split; [now rewrite <- L|reflexivity].
    + intros ([|b y] & L & ->); [discriminate|]. cbn [app]. constructor; [exact I|]. apply IH. exists y. split; [now injection L|reflexivity].
Qed.
(** at most four wrong coded bits are corrected *)
Lemma corrected_ok free zeros x h : length x = free -> (6 <= zeros)%nat -> length h = (2 * (free + zeros))%nat ->
  (distance (code_12 0 (x ++ repeat false zeros)) h <= 4)%nat -> corrected free zeros h = x.
Proof.
  intros Lx Hz Lh D. unfold corrected. set (w := x ++ repeat false zeros) in *.
  assert (Lw : length w = (free + zeros)%nat) by (unfold w; rewrite app_length, repeat_length; lia).
  assert (Lc : length (code_12 0 w) = length h) by (rewrite code_12_length; lia).
  destruct (PSoft.hard_decodes 10 (code_12 0 w) h Lc ltac:(lia)) as [L2 H2]. change (fun b : bool => if b then 1%R else (-1)%R) with PSoft.sign_of.
  replace (SVit.viterbi _ _) with w; [unfold w; rewrite firstn_app, Lx, Nat.sub_diag, firstn_O, app_nil_r; apply firstn_all2; lia|]. symmetry.
  destruct (PVit.corr_pairs false w (map PSoft.sign_of h) (free + zeros) Lw ltac:(discriminate) L2) as [Ew Lp].
  apply PVit.viterbi_found; [rewrite app_length, !repeat_length, Lp; reflexivity|apply allowed_split; exists x; now split|].
  intros y Hy Ny. apply allowed_split in Hy as (y0 & Ly & ->). assert (Ly' : length (y0 ++ repeat false zeros) = (free + zeros)%nat) by (rewrite app_length, repeat_length; lia).
  destruct (PVit.corr_pairs false (y0 ++ repeat false zeros) (map PSoft.sign_of h) (free + zeros) Ly' ltac:(discriminate)) as [Ey _].
  { unfold PVit.code_of. rewrite map_length, code_12_length. lia. }
  rewrite <- Ew, <- Ey. apply H2; [unfold PVit.code_of; rewrite !code_12_length; lia|]. unfold w, PVit.code_of. apply code_distance; [assumption|congruence|].
  intro E. apply Ny. unfold w. now rewrite E.
Qed.

Lemma diff_length ref x : length (diff_decode ref x) = length x.
Proof. revert ref. induction x as [|e x IH]; intro ref; [reflexivity|]. cbn [diff_decode length]. now rewrite IH. Qed.
Lemma illegible_firstn w t n r c : illegible w t n (firstn (n * w) r) (firstn (n * w) c) = illegible w t n r c.
Proof.
  unfold illegible. f_equal. assert (G : forall l, (forall j, In j l -> (j < n)%nat) -> filter (fun j => Nat.ltb t (distance (slice (j * w) w (firstn (n * w) r)) (slice (j * w) w (firstn (n * w) c)))) l
    = filter (fun j => Nat.ltb t (distance (slice (j * w) w r) (slice (j * w) w c))) l).
  { induction l as [|j l IH]; intro B; [reflexivity|]. cbn [filter]. pose proof (B j (or_introl eq_refl)). rewrite !slice_firstn by nia. rewrite IH by (intros; apply B; now right). reflexivity. }
  apply G. intros j Hj. apply in_seq in Hj. lia.
Qed.
Lemma header_illegible_eq b r c : header_illegible b r c = illegible (spread_chips (phr_codes b)) (correctable (phr_codes b)) 60 (skipn (header_start b) r) (skipn (header_start b) c).
Proof. reflexivity. Qed.
Lemma vit_header_unf b chips : vit_header b chips = corrected 24 6 (deinterleave false (diff_decode (parity sfd_bits) (despread_near (phr_codes b) 60 (firstn (60 * spread_chips (phr_codes b)) (skipn (header_start b) chips))))).
Proof. reflexivity. Qed.
Lemma vit_header_eq p b sm rm len rest r : let c := shr_chips b ++ phr_chips p b sm rm len ++ rest in length r = length c -> (header_illegible b r c <= 2)%nat ->
  vit_header b r = hdr p sm rm len.
Proof.
  intros c Lr W. destruct (sp_phr_in b) as (_ & Hi & H1).
  assert (Lc : (header_start b + 60 * spread_chips (phr_codes b) <= length c)%nat) by (unfold c; rewrite !app_length, shr_chips_len, phr_chips_len; lia).
  assert (F : firstn (60 * spread_chips (phr_codes b)) (skipn (header_start b) c) = spread (phr_codes b) (phr_diff p b sm rm len)).
  { unfold c. rewrite skipn_app, shr_chips_len, Nat.sub_diag, (skipn_all2 (shr_chips b)) by (rewrite shr_chips_len; lia). cbn [app].
    rewrite skipn_O. rewrite firstn_app, phr_chips_len, Nat.sub_diag, app_nil_r. rewrite <- (phr_chips_len p b sm rm len), firstn_all. unfold phr_chips. now rewrite phr_codes_eq. }
  assert (L60 : length (phr_diff p b sm rm len) = 60%nat) by (unfold phr_diff; rewrite BDE_length, ilv_length; apply phr_code_length).
  clearbody c. rewrite header_illegible_eq, <- illegible_firstn, F in W. rewrite vit_header_unf. rewrite phr_codes_eq in *.
  set (r' := firstn _ _) in *.
  assert (Lr' : length r' = (60 * spread_chips (sp_phr b))%nat) by (unfold r'; rewrite firstn_length, skipn_length, Lr; lia). clearbody r'.
  destruct (near_errors (sp_phr b) (phr_diff p b sm rm len) 60 r') as [LN DN]; [assumption|assumption|congruence| |].
  { rewrite Lr', spread_length by (try assumption; rewrite H1; apply one_bit). rewrite H1, Nat.div_1_r, L60. reflexivity. }
  cbv zeta. set (d := despread_near _ _ _) in *. clearbody d.
  apply corrected_ok; [apply hdr_length|lia|rewrite deint_length; reflexivity|].
  fold (phr_code (hdr p sm rm len)). pose proof (phr_code_length p sm rm len) as Lk.
  assert (Ed : diff_decode (parity sfd_bits) (phr_diff p b sm rm len) = ilv false (phr_code (hdr p sm rm len))) by (unfold phr_diff; rewrite shr_last; apply diff_decode_BDE).
  generalize dependent (phr_code (hdr p sm rm len)). intros k Lk Ed. assert (DN2 : (distance d (phr_diff p b sm rm len) <= 2)%nat) by (eapply Nat.le_trans; eassumption). clear F W DN. generalize dependent (phr_diff p b sm rm len). intros x L60 Ed DN.
  rewrite <- (deinterleave_ilv false k) by exact Lk. rewrite <- Ed.
  rewrite deint_distance by (rewrite diff_length; assumption).
  pose proof (diff_distance x d (parity sfd_bits) (parity sfd_bits) ltac:(congruence)) as DD. rewrite xorb_nilpotent in DD. rewrite PFskGap.distance_sym in DN. lia.
Qed.
Lemma vit_payload_eq p b rm zs r : let c := shr_chips b ++ phr_chips p b false rm (zlen zs) ++ with_pilots b (psdu_chips b rm 0 (zlen zs) (octet_bits zs)) in
  0 <= rm <= 3 -> four_bits b rm = false -> 1 <= zlen zs <= 7 -> length r = length c -> (payload_errors b rm r c <= 4)%nat ->
  vit_payload b rm (zlen zs) r = octet_bits zs.
Proof.
  intros c Hr H4 Hl Lr P. unfold payload_errors, vit_payload in *. cbv zeta in *.
  assert (Ls : length (skipn (payload_start b) r) = length (skipn (payload_start b) c)) by (rewrite !skipn_length; lia).
  assert (Lp : length (remove_pilots b (skipn (payload_start b) r)) = length (remove_pilots b (skipn (payload_start b) c))).
  { unfold remove_pilots. rewrite Ls. now apply remove_pilots_length. }
  assert (B1 : psdu_blocks (zlen zs) = 1) by (unfold psdu_blocks; Z.div_mod_to_equations; lia).
  set (k := psdu_code (zlen zs) (octet_bits zs)).
  assert (L8 : length (octet_bits zs) = Z.to_nat (8 * zlen zs)) by (rewrite octet_bits_length; unfold zlen; lia).
  assert (Lk : length k = 126%nat) by (unfold k; rewrite psdu_code_length, B1 by (auto; lia); reflexivity).
  set (d := dsss_bits b rm (zlen zs) (octet_bits zs)).
  assert (Ld : length d = 126%nat) by (unfold d, dsss_bits; cbv zeta; destruct (bde_psdu b rm); rewrite ?BDE_length, ilv_length; exact Lk).
  assert (Hc : remove_pilots b (skipn (payload_start b) c) = match sp_psdu b rm with Some sp => spread sp d | None => d end).
  { unfold c. rewrite payload_here. unfold remove_pilots. rewrite drop_pilots_ok by lia. reflexivity. }
  rewrite Hc in *. set (r' := remove_pilots b (skipn (payload_start b) r)) in *. rewrite !psdu_codes_eq, psdu_diff_eq in * by assumption.
  set (e := match sp_psdu b rm with Some sp => despread_near sp (length r' / spread_chips sp) r' | None => r' end).
  assert (E : length e = 126%nat /\ ((if bde_psdu b rm then 2 else 1) * distance d e <= 4)%nat).
  { unfold e. pose proof (psdu_diff_eq b rm Hr) as Hd. unfold psdu_diff in Hd. rewrite psdu_codes_eq in Hd by assumption.
    destruct (sp_psdu_ok b rm Hr) as (_ & _ & H3). unfold four_bits in H4. destruct (sp_psdu b rm) as [sp|] eqn:Esp.
    - destruct (H3 sp eq_refl) as [Hi Hk]. apply Nat.eqb_neq in H4. destruct Hk as [Hk|Hk]; [|congruence]. rewrite Hk in Hd. cbn [Nat.eqb] in Hd. rewrite <- Hd.
      destruct (codes_ok sp Hi) as (_ & _ & Hcp & _). assert (M : Nat.modulo (length d) (spread_bits sp) = 0%nat) by (rewrite Hk; apply one_bit).
      pose proof (spread_length sp d Hi M) as SL. rewrite Hk, Nat.div_1_r in SL. rewrite Lp, SL, Nat.div_mul in * by lia.
      destruct (near_errors sp d (length d) r' Hi Hk eq_refl) as [LN DN]; [congruence|].
      split; [congruence|]. rewrite PFskGap.distance_sym. lia.
    - rewrite <- Hd. split; [congruence|]. rewrite PFskGap.distance_sym. lia. }
  destruct E as [Le De]. fold e.
  apply corrected_ok; [assumption|lia|rewrite deint_length; unfold dsize; lia|].
  assert (Ek : code_12 0 (octet_bits zs ++ repeat false (63 - Z.to_nat (8 * zlen zs))) = k).
  { unfold k, psdu_code. rewrite B1. do 3 f_equal. lia. }
  rewrite Ek, <- (deinterleave_ilv true k) by exact Lk.
  rewrite deint_distance; [|rewrite ilv_length; exact Lk|destruct (bde_psdu b rm); rewrite ?diff_length; exact Le].
  destruct (bde_psdu b rm) eqn:Eb.
  - replace (ilv true k) with (diff_decode false d) by (unfold d, dsss_bits; rewrite Eb; apply diff_decode_BDE).
    pose proof (diff_distance d e false false ltac:(congruence)) as DD. rewrite xorb_nilpotent in DD. lia.
  - replace (ilv true k) with d by (unfold d, dsss_bits; rewrite Eb; reflexivity). lia.
Qed.

(** ** C107 *)
(** every band, mode and size: two of the 60 groups of the header may be lost altogether (any number of wrong chips), whatever
    happens to the preamble and to the payload, and the others may have [correctable] wrong chips each *)
Theorem C107_header p b rm sm sps s a zs chips f received : oq_used p b rm sm sps s -> oq_supported b rm sm -> 0 < sps ->
  holds_octets a zs -> Forall is_octet zs -> 1 <= zlen zs <= 2047 -> snd (q_bytesToChips p a s) = Ok (chips, f) ->
  length received = length chips -> (header_illegible b received chips <= 2)%nat ->
  rx_mode (vit_header b received) = (sm =? 1, rm, zlen zs).
Proof.
  intros Hu Hs Hp Ha Ho Hl E Lr W. change (snd (oq_send p (Octets a) s) = Ok (chips, f)) in E.
  rewrite (octets_sent p b rm sm sps s a zs) in E by assumption. destruct (_ && _); [discriminate|]. injection E as <- <-.
  rewrite (vit_header_eq p b _ rm (zlen zs) _ received Lr W). rewrite mode_received by (try apply Hs; lia).
  destruct Hs as [_ [->|[-> _]]]; reflexivity.
Qed.
Print Assumptions C107_header.
(** DSSS, at most 7 octets: four wrong coded bits in the payload as well.  Where the bits are spread, two groups may be lost;
    where they are not, four chips may be wrong *)
Theorem C107_receiver p b rm sps s a zs chips f received : oq_used p b rm 0 sps s -> oq_supported b rm 0 -> 0 < sps ->
  holds_octets a zs -> Forall is_octet zs -> 1 <= zlen zs <= 7 -> snd (q_bytesToChips p a s) = Ok (chips, f) ->
  length received = length chips -> (header_illegible b received chips <= 2)%nat -> (payload_errors b rm received chips <= 4)%nat ->
  vit_receiver b received = {| f_mdsss := false; f_rate_mode := rm; f_octets := zlen zs; f_bits := octet_bits zs |}.
Proof.
  intros Hu Hs Hp Ha Ho Hl E Lr W P. unfold vit_receiver. rewrite (C107_header p b rm 0 sps s a zs chips f received Hu Hs Hp Ha Ho ltac:(lia) E Lr W).
  change (0 =? 1) with false. f_equal.
  change (snd (oq_send p (Octets a) s) = Ok (chips, f)) in E. rewrite (octets_sent p b rm 0 sps s a zs) in E by (auto; lia).
  destruct (needs_pairs b rm 0) eqn:Hn; cbn [andb] in E.
  { replace (psdu_blocks (zlen zs)) with 1 in E by (unfold psdu_blocks; Z.div_mod_to_equations; lia). discriminate. }
  injection E as <- <-. rewrite <- (needs_pairs_eq b rm 0 Hs) in Hn. change (pairs_only b rm 0) with (four_bits b rm) in Hn.
  exact (vit_payload_eq p b rm zs received (proj1 Hs) Hn Hl Lr P).
Qed.
Print Assumptions C107_receiver.
(** non-vacuity: two header groups and two payload groups with every chip wrong, besides wrong chips in all the others; the
    receiver without the decoder is misled *)
Definition flipped (l : list bool) (is : list nat) : list bool := map (fun i => xorb (nth i l false) (existsb (Nat.eqb i) is)) (seq 0 (length l)).
Example C107_case : exists s chips f, oq_used Wrapping Band_868MHz 1 0 10 s /\ oq_supported Band_868MHz 1 0
  /\ snd (q_bytesToChips Wrapping (ABytes [x55; x0f]) s) = Ok (chips, f)
  /\ (let h := payload_start Band_868MHz in
      let received := flipped (damage 8 3 (firstn h chips) ++ damage 4 1 (skipn h chips))
         (seq (header_start Band_868MHz + 83) 5 ++ seq (header_start Band_868MHz + 235) 5 ++ seq (h + 81) 3 ++ seq (h + 201) 3) in
      length received = length chips /\ header_illegible Band_868MHz received chips = 2%nat
      /\ payload_errors Band_868MHz 1 received chips = 4%nat /\ f_octets (near_receiver Band_868MHz received) = 943).
Proof.
  eexists. eexists. eexists. split; [eexists; exists []; split; reflexivity|]. split; [split; [lia|now left]|]. split; [vm_compute; reflexivity|].
  vm_compute. repeat split.
Qed.
