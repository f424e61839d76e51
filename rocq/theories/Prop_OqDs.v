(** * C91: MR-O-QPSK despreading corrects chip errors *)
From Verif Require Import Py MBits MModul MOfdm Tables MRate MOqpsk SBits SEntry SRate SOqpsk SOqRx SOqDs PList PBits PEntry PConv PRate POqpsk POqRun POqRx Prop_Oqpsk Prop_OqRx.
From Verif Require PFskGap.
Open Scope Z_scope.

Lemma fold_nearest name block g : forall l g0, In g (g0 :: l) ->
  (forall h, In h (g0 :: l) -> h <> g -> (distance (chip_code name g) block < distance (chip_code name h) block)%nat) ->
  fold_left (nearer name block) l g0 = g.
Proof.
  induction l as [|h l IH]; intros g0 Hi Hu; [destruct Hi as [->|[]]; reflexivity|]. cbn [fold_left].
  assert (Dec : forall a b : list bool, {a = b} + {a <> b}) by (apply list_eq_dec, Bool.bool_dec).
  apply IH.
  - unfold nearer. destruct (Nat.ltb_spec (distance (chip_code name h) block) (distance (chip_code name g0) block)) as [G|G].
    + destruct (Dec h g) as [->|N]; [now left|]. destruct Hi as [->|Hi]; [|]. { specialize (Hu h ltac:(right; now left) N). lia. } destruct Hi as [->|Hi]; [now left|now right].
    + destruct (Dec g0 g) as [->|N]; [now left|]. destruct Hi as [->|[->|Hi]]; [congruence| |now right]. specialize (Hu g0 ltac:(now left) N). lia.
  - intros x Hx Nx. apply Hu; [|assumption]. destruct Hx as [Hx|Hx]; [|right; now right]. unfold nearer in Hx. destruct (Nat.ltb _ _); [right; now left|now left].
Qed.
Definition far_apart (sp : list string) (name : string) : bool :=
  forallb (fun g => forallb (fun h => bits_eqb g h || Nat.ltb (2 * correctable sp) (distance (chip_code name g) (chip_code name h))) (bit_strings (spread_bits sp))) (bit_strings (spread_bits sp)).
Lemma codes_apart sp name g h : In sp all_spreads -> In name sp -> length g = spread_bits sp -> length h = spread_bits sp -> g <> h ->
  (2 * correctable sp < distance (chip_code name g) (chip_code name h))%nat.
Proof.
  assert (C : forallb (fun sp => forallb (far_apart sp) sp) all_spreads = true) by (vm_compute; reflexivity).
  intros Hs Hn Lg Lh N. rewrite forallb_forall in C. specialize (C _ Hs). rewrite forallb_forall in C. specialize (C _ Hn). unfold far_apart in C.
  rewrite forallb_forall in C. specialize (C g (bit_strings_in _ _ Lg)). rewrite forallb_forall in C. specialize (C h (bit_strings_in _ _ Lh)).
  apply orb_prop in C as [C|C]; [apply bits_eqb_spec in C; congruence|now apply Nat.ltb_lt].
Qed.
Lemma nearest_group_ok sp j g block : In sp all_spreads -> length g = spread_bits sp -> length block = spread_chips sp ->
  (distance block (chip_code (table_for sp j) g) <= correctable sp)%nat -> nearest_group sp j block = g.
Proof.
  intros Hs Lg Lb D. destruct (codes_ok sp Hs) as (Hn & Hb & Hc & Hok). pose proof (table_for_in sp j Hn) as Ht.
  unfold nearest_group. apply fold_nearest; [right; now apply bit_strings_in|]. intros h Hh N.
  assert (Lh : length h = spread_bits sp) by (destruct Hh as [<-|Hh]; [apply repeat_length|now apply bit_strings_length]).
  pose proof (codes_apart sp _ g h Hs Ht Lg Lh ltac:(congruence)) as F.
  pose proof (proj2 (code_ok_get sp _ g (Hok _ Ht) Lg)) as L1. pose proof (proj2 (code_ok_get sp _ h (Hok _ Ht) Lh)) as L2.
  pose proof (PFskGap.distance_triangle (chip_code (table_for sp j) g) (chip_code (table_for sp j) h) block ltac:(lia)) as T.
  rewrite !(PFskGap.distance_sym _ block). lia.
Qed.

Lemma slice_len i n (l : list bool) : (i + n <= length l)%nat -> length (slice i n l) = n.
Proof. intro H. unfold slice. rewrite firstn_length, skipn_length. lia. Qed.
Lemma near_spread sp m n r : In sp all_spreads -> Nat.modulo (length m) (spread_bits sp) = 0%nat -> n = (length m / spread_bits sp)%nat -> length r = length (spread sp m) ->
  within (spread_chips sp) (correctable sp) n r (spread sp m) -> despread_near sp n r = m.
Proof.
  intros Hs L -> Lr W. destruct (codes_ok sp Hs) as (Hn & Hb & Hc & Hok). rewrite (spread_length sp m Hs L) in Lr. unfold despread_near.
  rewrite <- (concat_chunks (spread_bits sp) m) at 2 by assumption. rewrite chunks_as_map by assumption. rewrite flat_map_concat_map. f_equal.
  apply map_ext_in. intros j Hj. apply in_seq in Hj. pose proof (Nat.div_mod (length m) (spread_bits sp) ltac:(lia)) as Dm.
  apply nearest_group_ok; [assumption| | |].
  - apply (slice_len (j * spread_bits sp)). nia.
  - apply slice_len. nia.
  - specialize (W j ltac:(lia)). rewrite (spread_slice sp m j Hs L ltac:(lia)) in W. exact W.
Qed.

Lemma slice_firstn i n m (l : list bool) : (i + n <= m)%nat -> slice i n (firstn m l) = slice i n l.
Proof. intro H. unfold slice. rewrite skipn_firstn_comm, firstn_firstn. now replace (Nat.min n (m - i)) with n by lia. Qed.
Lemma within_firstn w t n r c : within w t n r c -> within w t n (firstn (n * w) r) (firstn (n * w) c).
Proof. intros W j Hj. rewrite !slice_firstn by nia. now apply W. Qed.
Lemma remove_pilots_length np mp fuel : forall r c, length r = length c -> length (drop_pilots fuel np mp r) = length (drop_pilots fuel np mp c).
Proof.
  induction fuel as [|fuel IH]; intros r c L; [reflexivity|]. destruct r as [|x r], c as [|y c]; try discriminate; [reflexivity|]. cbn [drop_pilots].
  rewrite !app_length, !firstn_length, !skipn_length, L. f_equal. apply IH. rewrite !skipn_length. now rewrite L.
Qed.
Lemma sp_shr_in b : In (sp_shr b) all_spreads /\ spread_bits (sp_shr b) = 1%nat /\ length (shr_bits b) = (preamble_bits b + 16)%nat.
Proof. destruct b; vm_compute; repeat split; tauto. Qed.
Lemma one_bit (m : list bool) : Nat.modulo (length m) 1 = 0%nat.
Proof. apply Nat.mod_1_r. Qed.
(** the SHR and the header, whatever follows *)
Lemma near_header_eq p b sm rm len rest r : let c := shr_chips b ++ phr_chips p b sm rm len ++ rest in length r = length c -> header_legible b r c ->
  near_shr b r = rx_shr b c /\ near_header b r = rx_header b c.
Proof.
  intros c Lr [W1 W2]. destruct (sp_shr_in b) as (Hi & H1 & HL). destruct (sp_phr_in b) as (_ & Hi' & H1').
  assert (Lc : (header_start b + 60 * spread_chips (phr_codes b) <= length c)%nat) by (unfold c; rewrite !app_length, shr_chips_len, phr_chips_len; lia).
  split.
  - unfold near_shr, rx_shr. f_equal. assert (F : firstn (header_start b) c = spread (shr_codes b) (shr_bits b)).
    { unfold c. rewrite firstn_app, shr_chips_len, Nat.sub_diag, app_nil_r, <- shr_chips_len, firstn_all. unfold shr_chips. now rewrite shr_codes_eq. }
    rewrite F. rewrite shr_codes_eq in *. apply within_firstn in W1. unfold header_start in *. rewrite shr_codes_eq in *. rewrite F in W1. rewrite <- HL in *.
    rewrite (near_spread _ (shr_bits b)); [|assumption|rewrite H1; apply one_bit|rewrite H1, Nat.div_1_r; reflexivity| |assumption].
    + symmetry. replace (length (shr_bits b)) with (length (shr_bits b) / spread_bits (sp_shr b))%nat by (rewrite H1; apply Nat.div_1_r). apply despread_spread; [assumption|]. rewrite H1. apply one_bit.
    + rewrite firstn_length, Lr, spread_length by (try assumption; rewrite H1; apply one_bit). rewrite H1, Nat.div_1_r. lia.
  - unfold near_header, rx_header. cbv zeta. do 4 f_equal. assert (F : firstn (60 * spread_chips (phr_codes b)) (skipn (header_start b) c) = spread (phr_codes b) (phr_diff p b sm rm len)).
    { unfold c. rewrite skipn_app, shr_chips_len, Nat.sub_diag, (skipn_all2 (shr_chips b)) by (rewrite shr_chips_len; lia). cbn [app].
      rewrite skipn_O. rewrite firstn_app, phr_chips_len, Nat.sub_diag, app_nil_r. rewrite <- (phr_chips_len p b sm rm len), firstn_all. unfold phr_chips. now rewrite phr_codes_eq. }
    rewrite F. assert (L60 : length (phr_diff p b sm rm len) = 60%nat) by (unfold phr_diff; rewrite BDE_length, ilv_length; apply phr_code_length).
    apply within_firstn in W2. rewrite F in W2. rewrite phr_codes_eq in *.
    rewrite (near_spread _ (phr_diff p b sm rm len)); [|assumption|rewrite H1'; apply one_bit|rewrite H1', Nat.div_1_r; now rewrite L60| |assumption].
    + symmetry. rewrite <- L60. replace (length (phr_diff p b sm rm len)) with (length (phr_diff p b sm rm len) / spread_bits (sp_phr b))%nat at 1 by (rewrite H1'; apply Nat.div_1_r). apply despread_spread; [assumption|]. rewrite H1'. apply one_bit.
    + rewrite firstn_length, skipn_length, Lr, spread_length by (try assumption; rewrite H1'; apply one_bit). rewrite H1', Nat.div_1_r, L60. lia.
Qed.
Lemma near_payload_eq p b sm rm len n x r : let c := shr_chips b ++ phr_chips p b sm rm len ++ with_pilots b (match psdu_codes b rm with Some sp => spread sp x | None => x end) in
  0 <= rm <= 3 -> (forall sp, psdu_codes b rm = Some sp -> Nat.modulo (length x) (spread_bits sp) = 0%nat) -> length r = length c ->
  payload_legible b rm r c -> near_payload b rm n r = rx_payload b rm n c.
Proof.
  intros c Hr Hx Lr P. unfold payload_legible, near_payload, rx_payload in *. cbv zeta in *.
  assert (Ls : length (skipn (payload_start b) r) = length (skipn (payload_start b) c)) by (rewrite !skipn_length; lia).
  assert (Lp : length (remove_pilots b (skipn (payload_start b) r)) = length (remove_pilots b (skipn (payload_start b) c))).
  { unfold remove_pilots. rewrite Ls. now apply remove_pilots_length. }
  assert (Hc : remove_pilots b (skipn (payload_start b) c) = match psdu_codes b rm with Some sp => spread sp x | None => x end).
  { unfold c. rewrite payload_here. unfold remove_pilots. now rewrite drop_pilots_ok by lia. }
  rewrite Hc in *. set (r' := remove_pilots b (skipn (payload_start b) r)) in *. do 2 f_equal. destruct (psdu_codes b rm) as [sp|] eqn:Esp; [|now rewrite P].
  rewrite (psdu_codes_eq b rm Hr) in Esp. destruct (sp_psdu_ok b rm Hr) as (_ & _ & H3). destruct (H3 sp Esp) as [Hi _]. destruct (codes_ok sp Hi) as (_ & _ & Hc0 & _). specialize (Hx sp eq_refl).
  rewrite Lp in *. rewrite (spread_length sp x Hi Hx), Nat.div_mul in * by lia.
  rewrite (near_spread sp x); [|assumption|assumption|reflexivity|now rewrite Lp, spread_length|assumption]. now rewrite despread_spread.
Qed.
(** ** C91 *)
(** every spreading sequence used: up to [correctable] wrong chips in each group are corrected *)
Theorem C91_despread sp m n received : in_use sp -> length m = (n * spread_bits sp)%nat ->
  exists chips, DSSS_spread m sp = Ok chips /\
  (length received = length chips -> within (spread_chips sp) (correctable sp) n received chips -> despread_near sp n received = m).
Proof.
  intros Hu L. pose proof (in_use_all sp Hu) as Hi. destruct (codes_ok sp Hi) as (_ & Hb & _ & _). assert (M : Nat.modulo (length m) (spread_bits sp) = 0%nat) by (rewrite L; apply Nat.mod_mul; lia).
  exists (spread sp m). split; [rewrite spread_ok by assumption; now rewrite M|]. intros Lr W. apply near_spread; try assumption. rewrite L. symmetry. apply Nat.div_mul. lia.
Qed.
Print Assumptions C91_despread.
(** no decision rule corrects one more: two codes are at twice that distance plus one or two *)
Theorem C91_tight sp : in_use sp -> exists g h name, In name sp /\ length g = spread_bits sp /\ length h = spread_bits sp /\ g <> h
  /\ (distance (chip_code name g) (chip_code name h) <= 2 * correctable sp + 2)%nat.
Proof.
  intro Hu. pose proof (in_use_all sp Hu) as Hi.
  assert (C : forallb (fun sp => existsb (fun name => existsb (fun g => existsb (fun h => negb (bits_eqb g h) && Nat.leb (distance (chip_code name g) (chip_code name h)) (2 * correctable sp + 2)) (bit_strings (spread_bits sp))) (bit_strings (spread_bits sp))) sp) all_spreads = true) by (vm_compute; reflexivity).
  rewrite forallb_forall in C. specialize (C _ Hi). apply existsb_exists in C as (name & Hn & C). apply existsb_exists in C as (g & Hg & C). apply existsb_exists in C as (h & Hh & C). apply andb_prop in C as [C1 C2].
  exists g, h, name. split; [assumption|]. split; [now apply bit_strings_length|]. split; [now apply bit_strings_length|]. split; [|now apply Nat.leb_le].
  intros ->. replace (bits_eqb h h) with true in C1 by (symmetry; now apply bits_eqb_spec). discriminate.
Qed.
Print Assumptions C91_tight.
(** every mode and size: preamble, SFD and header *)
Theorem C91_header p b rm sm sps s a zs chips f received : oq_used p b rm sm sps s -> oq_supported b rm sm -> 0 < sps ->
  holds_octets a zs -> Forall is_octet zs -> 1 <= zlen zs <= 2047 -> snd (q_bytesToChips p a s) = Ok (chips, f) ->
  length received = length chips -> header_legible b received chips ->
  near_shr b received = repeat false (preamble_bits b) ++ sfd_bits
  /\ rx_mode (near_header b received) = (sm =? 1, rm, zlen zs).
Proof.
  intros Hu Hs Hp Ha Ho Hl E Lr W. pose proof (C56_header_receiver p b rm sm sps s a zs chips f Hu Hs Hp Ha Ho Hl E) as [R1 R2].
  change (snd (oq_send p (Octets a) s) = Ok (chips, f)) in E. rewrite (octets_sent p b rm sm sps s a zs) in E by assumption. destruct (_ && _); [discriminate|]. injection E as <- <-.
  destruct (near_header_eq p b _ rm (zlen zs) _ received Lr W) as [-> ->]. split; assumption.
Qed.
Print Assumptions C91_header.
(** DSSS, at most 7 octets: the payload too *)
Theorem C91_receiver p b rm sps s a zs chips f received : oq_used p b rm 0 sps s -> oq_supported b rm 0 -> 0 < sps ->
  holds_octets a zs -> Forall is_octet zs -> 1 <= zlen zs <= 7 -> snd (q_bytesToChips p a s) = Ok (chips, f) ->
  length received = length chips -> header_legible b received chips -> payload_legible b rm received chips ->
  near_receiver b received = {| f_mdsss := false; f_rate_mode := rm; f_octets := zlen zs; f_bits := octet_bits zs |}.
Proof.
  intros Hu Hs Hp Ha Ho Hl E Lr W P. pose proof (C56_receiver p b rm sps s a zs chips f Hu Hs Hp Ha Ho Hl E) as R.
  destruct (C91_header p b rm 0 sps s a zs chips f received Hu Hs Hp Ha Ho ltac:(lia) E Lr W) as [_ M].
  unfold near_receiver. rewrite M. change (0 =? 1) with false. f_equal.
  pose proof (C56_header_receiver p b rm 0 sps s a zs chips f Hu Hs Hp Ha Ho ltac:(lia) E) as [_ M']. unfold oq_receiver in R. rewrite M' in R. injection R as R. rewrite <- R. clear R M M'.
  change (snd (oq_send p (Octets a) s) = Ok (chips, f)) in E. rewrite (octets_sent p b rm 0 sps s a zs) in E by (auto; lia).
  destruct (needs_pairs b rm 0) eqn:Hn; cbn [andb] in E.
  { replace (psdu_blocks (zlen zs)) with 1 in E by (unfold psdu_blocks; Z.div_mod_to_equations; lia). discriminate. }
  injection E as <- <-. rewrite <- (needs_pairs_eq b rm 0 Hs) in Hn. change (pairs_only b rm 0) with (four_bits b rm) in Hn.
  unfold psdu_chips in *. change (0 =? 0) with true in *. cbv iota in *. rewrite <- (psdu_codes_eq b rm (proj1 Hs)) in *.
  apply near_payload_eq; [exact (proj1 Hs)| |assumption|assumption]. intros sp Esp. rewrite (psdu_codes_eq b rm (proj1 Hs)) in Esp.
  unfold four_bits in Hn. rewrite Esp in Hn. apply Nat.eqb_neq in Hn. destruct (sp_psdu_ok b rm (proj1 Hs)) as (_ & _ & H3). destruct (H3 sp Esp) as [_ [Hk|Hk]]; [|congruence]. rewrite Hk. apply one_bit.
Qed.
Print Assumptions C91_receiver.
(** non-vacuity: three wrong chips in each group of the header, one in each group of the payload *)
Definition damage (w k : nat) (l : list bool) : list bool := map (fun i => xorb (nth i l false) (Nat.ltb (i mod w) k)) (seq 0 (length l)).
Example C91_case : exists s chips f, oq_used Wrapping Band_868MHz 1 0 10 s /\ oq_supported Band_868MHz 1 0
  /\ snd (q_bytesToChips Wrapping (ABytes [x55; x0f]) s) = Ok (chips, f)
  /\ near_receiver Band_868MHz (damage 8 3 (firstn (payload_start Band_868MHz) chips) ++ damage 4 1 (skipn (payload_start Band_868MHz) chips))
     = {| f_mdsss := false; f_rate_mode := 1; f_octets := 2; f_bits := octet_bits [85; 15] |}.
Proof.
  eexists. eexists. eexists. split; [eexists; exists []; split; reflexivity|]. split; [split; [lia|now left]|]. split; [vm_compute; reflexivity|vm_compute; reflexivity].
Qed.
