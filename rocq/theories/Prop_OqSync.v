(** * C93: MR-O-QPSK frames can be found from any chip of the preamble *)
From Verif Require Import Py MBits MModul MOfdm Tables MRate MOqpsk SBits SEntry SRate SOqpsk SOqRx SOqDs SOqSync PList PBits PEntry PConv PRate POqpsk POqRun POqRx Prop_Oqpsk Prop_OqRx Prop_OqDs.
From Verif Require PFskGap POqGap.
Open Scope Z_scope.

(** ** finite facts, band by band *)
Definition all_bands : list Frequency_band :=
  [Band_470MHz; Band_780MHz; Band_868MHz; Band_915MHz; Band_917MHz; Band_920MHz; Band_950MHz; Band_2450MHz].
Lemma bands_in b : In b all_bands.
Proof. destruct b; cbn; tauto. Qed.
(** the phases of the unit are far from one another *)
Definition chk_phases (b : Frequency_band) : bool :=
  forallb (fun i => forallb (fun j => Nat.eqb i j || Nat.ltb (2 * sync_errors b) (distance (turned b i) (turned b j))) (seq 0 (period b))) (seq 0 (period b)).
(** the preamble repeats the unit *)
Definition chk_preamble (b : Frequency_band) : bool :=
  bits_eqb (firstn (preamble_bits b * spread_chips (shr_codes b)) (shr_chips b)) (concat (repeat (sync_unit b) (preamble_bits b / length (shr_codes b))))
  && Nat.eqb (length (sync_unit b)) (period b) && Nat.eqb (preamble_bits b mod length (shr_codes b)) 0 && Nat.ltb 0 (period b).
(** windows of the SHR bits before the SFD, from any group on *)
Definition chk_windows (b : Frequency_band) : bool :=
  forallb (fun g => let x := diff_decode false (skipn g (shr_bits b)) in
    forallb (fun k => Nat.leb 9 (distance (slice k 16 x) sfd_bits)) (seq 0 (preamble_bits b - g)) && bits_eqb (slice (preamble_bits b - g) 16 x) sfd_bits)
    (seq 0 (preamble_bits b)).
Lemma finite_facts : forallb (fun b => chk_phases b && chk_preamble b && chk_windows b) all_bands = true.
Proof. vm_compute. reflexivity. Qed.
Lemma facts b : chk_phases b = true /\ chk_preamble b = true /\ chk_windows b = true.
Proof.
  pose proof finite_facts as F. rewrite forallb_forall in F. specialize (F b (bands_in b)). apply andb_prop in F as [F F3]. apply andb_prop in F as [F1 F2]. auto.
Qed.

(** ** chip alignment *)
Lemma skip_twice {A} : forall n m (l : list A), skipn m (skipn n l) = skipn (n + m) l.
Proof. induction n as [|n IH]; intros m l; [reflexivity|]. destruct l as [|x l]; [now rewrite !skipn_nil|]. apply IH. Qed.
Lemma periodic_slice (u : list bool) : (0 < length u)%nat -> forall n o, (o + length u <= n * length u)%nat ->
  slice o (length u) (concat (repeat u n)) = skipn (o mod length u) u ++ firstn (o mod length u) u.
Proof.
  intros Hu. induction n as [|n IH]; intros o Ho; [lia|]. cbn [repeat concat]. set (rest := concat (repeat u n)) in *. destruct (Nat.lt_ge_cases o (length u)) as [G|G].
  - rewrite Nat.mod_small by assumption. unfold slice. rewrite skipn_app. replace (o - length u)%nat with 0%nat by lia. rewrite skipn_O, firstn_app, skipn_length.
    rewrite (firstn_all2 (n := length u) (skipn o u)) by (rewrite skipn_length; lia). f_equal. replace (length u - (length u - o))%nat with o by lia.
    destruct n as [|n]; [replace o with 0%nat by lia; reflexivity|]. unfold rest. cbn [repeat concat]. rewrite firstn_app. replace (o - length u)%nat with 0%nat by lia. cbn [firstn]. apply app_nil_r.
  - replace (o mod length u)%nat with ((o - length u) mod length u)%nat.
    + rewrite <- IH by lia. unfold slice. rewrite skipn_app, (skipn_all2 u) by lia. reflexivity.
    + replace o with ((o - length u) + 1 * length u)%nat at 2 by lia. now rewrite Nat.mod_add by lia.
Qed.
Lemma preamble_slice b c o : firstn (header_start b) c = shr_chips b -> (o + period b <= preamble_bits b * spread_chips (shr_codes b))%nat ->
  slice o (period b) c = turned b (o mod period b).
Proof.
  intros Hc Ho. destruct (facts b) as (_ & F & _). unfold chk_preamble in F. apply andb_prop in F as [F F4]. apply andb_prop in F as [F F3]. apply andb_prop in F as [F1 F2].
  apply bits_eqb_spec in F1. apply Nat.eqb_eq in F2, F3. apply Nat.ltb_lt in F4.
  rewrite <- (slice_firstn o (period b) (header_start b) c) by (unfold header_start; lia). rewrite Hc. rewrite <- (slice_firstn o (period b) _ (shr_chips b) Ho), F1.
  unfold turned. rewrite <- F2. apply periodic_slice; [lia|]. rewrite F2. unfold period in *. pose proof (Nat.div_mod (preamble_bits b) (length (shr_codes b)) ltac:(lia)) as D. rewrite F3 in D. nia.
Qed.
Lemma argmin (f : nat -> nat) g : forall l i, In g (i :: l) -> (forall h, In h (i :: l) -> h <> g -> (f g < f h)%nat) ->
  fold_left (fun i j => if Nat.ltb (f j) (f i) then j else i) l i = g.
Proof.
  induction l as [|h l IH]; intros i Hi Hu; [destruct Hi as [->|[]]; reflexivity|]. cbn [fold_left]. apply IH.
  - destruct (Nat.ltb_spec (f h) (f i)) as [G|G].
    + destruct (Nat.eq_dec h g) as [->|N]; [now left|]. destruct Hi as [->|Hi]; [|]. { specialize (Hu h ltac:(right; now left) N). lia. } destruct Hi as [->|Hi]; [now left|now right].
    + destruct (Nat.eq_dec i g) as [->|N]; [now left|]. destruct Hi as [->|[->|Hi]]; [congruence| |now right]. specialize (Hu i ltac:(now left) N). lia.
  - intros x Hx Nx. apply Hu; [|assumption]. destruct Hx as [Hx|Hx]; [|right; now right]. destruct (Nat.ltb _ _); [right; now left|now left].
Qed.
Lemma turned_length b i : (i <= period b)%nat -> length (turned b i) = period b.
Proof.
  intro H. destruct (facts b) as (_ & F & _). unfold chk_preamble in F. apply andb_prop in F as [F F4]. apply andb_prop in F as [F F3]. apply andb_prop in F as [F1 F2]. apply Nat.eqb_eq in F2.
  unfold turned. rewrite app_length, skipn_length, firstn_length. lia.
Qed.
Lemma period_pos b : (0 < period b)%nat.
Proof. destruct b; vm_compute; lia. Qed.
Lemma phase_found b o r c : firstn (header_start b) c = shr_chips b -> length r = length c -> (o + period b <= preamble_bits b * spread_chips (shr_codes b))%nat ->
  (distance (slice o (period b) r) (slice o (period b) c) <= sync_errors b)%nat -> phase_of b (skipn o r) = (o mod period b)%nat.
Proof.
  intros Hc Lr Ho D. rewrite (preamble_slice b c o Hc Ho) in D. pose proof (period_pos b) as Hp. pose proof (Nat.mod_upper_bound o (period b) ltac:(lia)) as Hm.
  destruct (facts b) as (F & _ & _). unfold chk_phases in F. rewrite forallb_forall in F. specialize (F (o mod period b)%nat ltac:(apply in_seq; lia)). rewrite forallb_forall in F.
  unfold phase_of. apply argmin; [right; apply in_seq; lia|]. intros h Hh N. assert (Hh' : (h < period b)%nat) by (destruct Hh as [<-|Hh]; [assumption|apply in_seq in Hh; lia]).
  specialize (F h ltac:(apply in_seq; lia)). apply orb_prop in F as [F|F]; [apply Nat.eqb_eq in F; congruence|]. apply Nat.ltb_lt in F.
  unfold mismatch. change (firstn (period b) (skipn o r)) with (slice o (period b) r).
  pose proof (turned_length b (o mod period b)%nat ltac:(lia)) as L1. pose proof (turned_length b h ltac:(lia)) as L2.
  assert (Lc : (header_start b <= length c)%nat). { rewrite <- (shr_chips_len b), <- Hc, firstn_length. lia. }
  assert (L3 : length (slice o (period b) r) = period b) by (apply slice_len; unfold header_start in Lc; lia).
  pose proof (PFskGap.distance_triangle (turned b (o mod period b)%nat) (turned b h) (slice o (period b) r) ltac:(lia)) as T.
  rewrite (PFskGap.distance_sym (slice o (period b) r)) in *. rewrite !(PFskGap.distance_sym _ (slice o (period b) r)) in *. lia.
Qed.
Lemma aligned_at b o r c : firstn (header_start b) c = shr_chips b -> length r = length c -> (o + period b <= preamble_bits b * spread_chips (shr_codes b))%nat ->
  (distance (slice o (period b) r) (slice o (period b) c) <= sync_errors b)%nat ->
  exists q, aligned b (skipn o r) = skipn (q * period b) r /\ (o <= q * period b < o + period b)%nat.
Proof.
  intros Hc Lr Ho D. unfold aligned. rewrite (phase_found b o r c) by assumption. pose proof (period_pos b) as Hp. pose proof (Nat.div_mod o (period b) ltac:(lia)) as E. pose proof (Nat.mod_upper_bound o (period b) ltac:(lia)) as U.
  rewrite skip_twice. set (m := (o mod period b)%nat) in *. set (d := (o / period b)%nat) in *. set (P := period b) in *. destruct (Nat.eq_dec m 0) as [Z0|NZ].
  - exists d. rewrite Z0 in *. rewrite Nat.sub_0_r, Nat.mod_same by lia. split; [f_equal; lia|lia].
  - exists (S d). rewrite Nat.mod_small by lia. split; [f_equal; lia|lia].
Qed.

(** ** reading the SHR *)
Lemma fold_nearer_in name block : forall l g, In (fold_left (nearer name block) l g) (g :: l).
Proof.
  induction l as [|h l IH]; intro g; [now left|]. cbn [fold_left]. destruct (IH (nearer name block g h)) as [E|E]; [|right; now right].
  rewrite <- E. unfold nearer at 1. destruct (Nat.ltb _ _); [right; now left|now left].
Qed.
Lemma shr_one b : In (shr_codes b) all_spreads /\ spread_bits (shr_codes b) = 1%nat /\ length (shr_bits b) = (preamble_bits b + 16)%nat.
Proof. rewrite shr_codes_eq. apply sp_shr_in. Qed.
Definition group_read (b : Frequency_band) (r : list bool) (j : nat) : bool :=
  nth 0 (nearest_group (shr_codes b) j (slice (j * spread_chips (shr_codes b)) (spread_chips (shr_codes b)) r)) false.
Lemma one_read sp j block : spread_bits sp = 1%nat -> nearest_group sp j block = [nth 0 (nearest_group sp j block) false].
Proof.
  intro H. assert (L : length (nearest_group sp j block) = 1%nat).
  { unfold nearest_group. destruct (fold_nearer_in (table_for sp j) block (bit_strings (spread_bits sp)) (repeat false (spread_bits sp))) as [E|E].
    - rewrite <- E, repeat_length. exact H.
    - apply bit_strings_length in E. now rewrite E. }
  destruct (nearest_group sp j block) as [|x [|y l]]; try discriminate. reflexivity.
Qed.
Lemma flat_map_one {A B} (f : A -> B) l : flat_map (fun x => [f x]) l = map f l.
Proof. induction l as [|x l IH]; [reflexivity|]. cbn. now rewrite IH. Qed.
Lemma despread_from b q n r : despread_near (shr_codes b) n (skipn (q * period b) r) = map (group_read b r) (seq (q * length (shr_codes b)) n).
Proof.
  destruct (shr_one b) as (_ & H1 & _). unfold despread_near.
  rewrite (flat_map_ext _ (fun j => [group_read b r (q * length (shr_codes b) + j)])).
  - rewrite flat_map_one. rewrite <- (map_map (fun j => (q * length (shr_codes b) + j)%nat) (group_read b r)). f_equal. induction n as [|n IH]; [reflexivity|]. rewrite !seq_S, map_app, IH. reflexivity.
  - intro j. rewrite (one_read _ j _ H1). f_equal. unfold group_read. f_equal. unfold nearest_group. f_equal. 
    assert (N : (0 < length (shr_codes b))%nat) by (destruct b; cbn; lia).
    f_equal.
    + unfold table_for. f_equal. rewrite Nat.add_comm, Nat.mod_add by lia. reflexivity.
    + unfold slice. rewrite skip_twice. f_equal. f_equal. unfold period. lia.
Qed.
Lemma group_right b r c j : firstn (header_start b) c = shr_chips b -> length r = length c -> (j < preamble_bits b + 16)%nat -> illegible b r c j = false ->
  group_read b r j = nth j (shr_bits b) false.
Proof.
  intros Hc Lr Hj I. destruct (shr_one b) as (Hi & H1 & HL). unfold illegible in I. apply Nat.ltb_ge in I. set (w := spread_chips (shr_codes b)) in *.
  assert (Lc : (header_start b <= length c)%nat). { rewrite <- (shr_chips_len b), <- Hc, firstn_length. lia. } unfold header_start in Lc. fold w in Lc.
  assert (S : slice (j * w) w c = chip_code (table_for (shr_codes b) j) [nth j (shr_bits b) false]).
  { rewrite <- (slice_firstn (j * w) w (header_start b) c) by (unfold header_start; fold w; nia). rewrite Hc. unfold shr_chips. rewrite <- shr_codes_eq. unfold w.
    rewrite spread_slice; [|assumption|rewrite H1; apply one_bit|rewrite H1, Nat.div_1_r; lia]. rewrite H1, Nat.mul_1_r. f_equal. unfold slice.
    rewrite <- (firstn_skipn j (shr_bits b)) at 2. rewrite app_nth2 by (rewrite firstn_length; lia). rewrite firstn_length, Nat.min_l, Nat.sub_diag by lia.
    destruct (skipn j (shr_bits b)) as [|x l] eqn:E; [|reflexivity]. apply (f_equal (@length bool)) in E. rewrite skipn_length in E. cbn in E. lia. }
  rewrite S in I. unfold group_read. fold w. rewrite (nearest_group_ok (shr_codes b) j [nth j (shr_bits b) false]); [reflexivity|assumption|now rewrite H1| |assumption].
  apply slice_len. nia.
Qed.

(** ** differential decoding of windows *)
Lemma diff_firstn n : forall p x, firstn n (diff_decode p x) = diff_decode p (firstn n x).
Proof. induction n as [|n IH]; intros p [|e x]; try reflexivity. cbn [firstn diff_decode]. now rewrite IH. Qed.
Lemma diff_slice n : forall k p x, (k <= length x)%nat -> slice k n (diff_decode p x) = diff_decode (nth k (p :: x) false) (slice k n x).
Proof.
  induction k as [|k IH]; intros p x Hk; [apply diff_firstn|]. destruct x as [|e x]; [cbn in Hk; lia|]. cbn [diff_decode nth]. unfold slice in *. cbn [skipn].
  rewrite IH by (cbn in Hk; lia). reflexivity.
Qed.
Lemma slice_map_seq (f : nat -> bool) g n k m : (k + m <= n)%nat -> slice k m (map f (seq g n)) = map f (seq (g + k) m).
Proof.
  intro H. unfold slice. rewrite skipn_map, firstn_map. f_equal. replace n with (k + (m + (n - k - m)))%nat by lia. rewrite !seq_app, skipn_app, seq_length, Nat.sub_diag, skipn_O.
  rewrite (skipn_all2 (n := k)) by (rewrite seq_length; lia). cbn [app]. rewrite firstn_app, seq_length, Nat.sub_diag, app_nil_r. rewrite firstn_all2 by (rewrite seq_length; lia). reflexivity.
Qed.
Lemma map_distance (f h : nat -> bool) (bad : nat -> bool) l : (forall j, In j l -> bad j = false -> f j = h j) ->
  (distance (map f l) (map h l) <= length (filter bad l))%nat.
Proof.
  induction l as [|j l IH]; intro H; [cbn; lia|]. cbn [map filter]. rewrite POqGap.distance_cons. specialize (IH ltac:(intros; apply H; [now right|assumption])).
  destruct (bad j) eqn:B; cbn [length]; [destruct (xorb _ _); lia|]. rewrite (H j ltac:(now left) B), xorb_nilpotent. lia.
Qed.
Lemma find_first (f : nat -> bool) m : f m = true -> (forall k, (k < m)%nat -> f k = false) -> forall n s, (s <= m < s + n)%nat -> find f (seq s n) = Some m.
Proof.
  intros T F. induction n as [|n IH]; intros s H; [lia|]. cbn [seq find]. destruct (Nat.eq_dec s m) as [->|N]; [now rewrite T|]. rewrite F by lia. apply IH. lia.
Qed.
Lemma as_map_from (l : list bool) g n : length l = (g + n)%nat -> skipn g l = map (fun j => nth j l false) (seq g n).
Proof.
  intro H. apply (nth_ext _ _ false false); [rewrite skipn_length, map_length, seq_length; lia|]. intros i Hi. rewrite skipn_length in Hi.
  rewrite (nth_map _ _ _ 0%nat) by (rewrite seq_length; lia). rewrite seq_nth by lia. rewrite <- (firstn_skipn g l) at 2. rewrite app_nth2 by (rewrite firstn_length; lia). f_equal. rewrite firstn_length. lia.
Qed.
Lemma find_header b o r c : firstn (header_start b) c = shr_chips b -> length r = length c -> (o + period b <= preamble_bits b * spread_chips (shr_codes b))%nat ->
  can_sync b o r c -> after_sfd b (skipn o r) = Some (skipn (header_start b) r).
Proof.
  intros Hc Lr Ho [D1 D2]. destruct (aligned_at b o r c Hc Lr Ho D1) as (q & E & Hq). unfold after_sfd. rewrite E. set (w := spread_chips (shr_codes b)) in *.
  destruct (shr_one b) as (Hi & H1 & HL). set (g := (q * length (shr_codes b))%nat). assert (Eg : (q * period b = g * w)%nat) by (unfold g, period; fold w; lia).
  assert (Hw : (0 < w)%nat) by (unfold w; destruct b; cbn; lia).
  assert (Hg : (g < preamble_bits b)%nat) by nia.
  assert (Lc : (header_start b <= length c)%nat). { rewrite <- (shr_chips_len b), <- Hc, firstn_length. lia. } unfold header_start in Lc. fold w in Lc.
  set (n := (length (skipn (q * period b) r) / w)%nat). set (m := (preamble_bits b - g)%nat).
  assert (Hn : (m + 16 <= n)%nat). { apply Nat.div_le_lower_bound; [lia|]. rewrite skipn_length, Eg, Lr. unfold m. nia. }
  rewrite despread_from. fold g. set (X := map (group_read b r) (seq g n)). set (T := skipn g (shr_bits b)).
  assert (ET : T = map (fun j => nth j (shr_bits b) false) (seq g (m + 16))) by (apply as_map_from; rewrite HL; unfold m; lia).
  assert (LX : length X = n) by (unfold X; now rewrite map_length, seq_length). assert (LT : length T = (m + 16)%nat) by (unfold T; rewrite skipn_length, HL; unfold m; lia).
  assert (Good : forall j, (g <= j < g + (m + 16))%nat -> illegible b r c j = false -> group_read b r j = nth j (shr_bits b) false) by (intros j Hj I; apply (group_right b r c); try assumption; unfold m in Hj; lia).
  assert (W : forall k, (k <= m)%nat -> (distance (slice k 16 (diff_decode false X)) (slice k 16 (diff_decode false T)) <= 4)%nat).
  { intros k Hk. rewrite !diff_slice by (rewrite ?LX, ?LT; lia). 
    assert (S1 : slice k 16 X = map (group_read b r) (seq (g + k) 16)) by (unfold X; apply slice_map_seq; lia).
    assert (S2 : slice k 16 T = map (fun j => nth j (shr_bits b) false) (seq (g + k) 16)) by (rewrite ET; apply slice_map_seq; lia).
    rewrite S1, S2. eapply Nat.le_trans; [apply POqGap.diff_distance; now rewrite !map_length|].
    pose proof (map_distance (group_read b r) (fun j => nth j (shr_bits b) false) (illegible b r c) (seq (g + k) 16)) as M.
    specialize (M ltac:(intros j Hj; apply in_seq in Hj; apply Good; lia)).
    destruct k as [|k].
    - cbn [nth]. rewrite xorb_nilpotent. specialize (D2 g Hg). rewrite seq_S, filter_app, app_length in D2. rewrite Nat.add_0_r in *. lia.
    - specialize (D2 (g + k)%nat ltac:(unfold m in Hk; lia)). change (seq (g + k) 17) with ((g + k)%nat :: seq (S (g + k)) 16) in D2. cbn [nth].
      replace (S (g + k)) with (g + S k)%nat in D2 by lia. change (filter (illegible b r c) ((g + k)%nat :: seq (g + S k) 16)) with (if illegible b r c (g + k) then (g + k)%nat :: filter (illegible b r c) (seq (g + S k) 16) else filter (illegible b r c) (seq (g + S k) 16)) in D2.
      assert (P1 : nth k X false = group_read b r (g + k)). { unfold X. rewrite (nth_map _ _ _ 0%nat) by (rewrite seq_length; lia). now rewrite seq_nth by lia. }
      assert (P2 : nth k T false = nth (g + k) (shr_bits b) false). { rewrite ET. rewrite (nth_map _ _ _ 0%nat) by (rewrite seq_length; lia). now rewrite seq_nth by lia. }
      rewrite P1, P2. destruct (illegible b r c (g + k)) eqn:I; [cbn [length] in D2; destruct (xorb _ _); lia|]. rewrite (Good (g + k)%nat) by (try assumption; lia). rewrite xorb_nilpotent. lia. }
  destruct (facts b) as (_ & _ & F). unfold chk_windows in F. rewrite forallb_forall in F. specialize (F g ltac:(apply in_seq; lia)). cbv zeta in F. fold T m in F. apply andb_prop in F as [F1 F2]. apply bits_eqb_spec in F2.
  rewrite forallb_forall in F1.
  assert (LD : forall p x, length (diff_decode p x) = length x) by (intros p x; revert p; induction x as [|e x IHx]; intro p; [reflexivity|]; cbn [diff_decode length]; now rewrite IHx).
  assert (L16 : forall k x, (k + 16 <= length x)%nat -> length (slice k 16 (diff_decode false x)) = 16%nat) by (intros; apply slice_len; now rewrite LD).
  unfold sfd_position. rewrite (find_first _ m).
  - rewrite skip_twice. do 2 f_equal. rewrite Eg. unfold header_start, m. fold w. nia.
  - unfold sfd_here. apply Nat.leb_le. rewrite <- F2. apply W. lia.
  - intros k Hk. unfold sfd_here. apply Nat.leb_gt. specialize (F1 k ltac:(apply in_seq; lia)). apply Nat.leb_le in F1. specialize (W k ltac:(lia)).
    pose proof (PFskGap.distance_triangle (slice k 16 (diff_decode false T)) sfd_bits (slice k 16 (diff_decode false X))) as Tr. rewrite !L16 in Tr by (rewrite ?LX, ?LT; lia). specialize (Tr ltac:(cbn; lia)). lia.
  - rewrite LD, LX. lia.
Qed.

(** ** C93 *)
Lemma starts_with_shr p b rm sm sps s a zs chips f : oq_used p b rm sm sps s -> oq_supported b rm sm -> 0 < sps ->
  holds_octets a zs -> Forall is_octet zs -> 1 <= zlen zs <= 2047 -> snd (q_bytesToChips p a s) = Ok (chips, f) -> firstn (header_start b) chips = shr_chips b.
Proof.
  intros Hu Hs Hp Ha Ho Hl E. change (snd (oq_send p (Octets a) s) = Ok (chips, f)) in E. rewrite (octets_sent p b rm sm sps s a zs) in E by assumption. destruct (_ && _); [discriminate|]. injection E as <- <-.
  rewrite firstn_app, shr_chips_len, Nat.sub_diag, app_nil_r. rewrite <- shr_chips_len. apply firstn_all.
Qed.
(** every frame, from any chip of the preamble that leaves a period of it: what follows the SFD is found *)
Theorem C93_found p b rm sm sps s a zs chips f received o : oq_used p b rm sm sps s -> oq_supported b rm sm -> 0 < sps ->
  holds_octets a zs -> Forall is_octet zs -> 1 <= zlen zs <= 2047 -> snd (q_bytesToChips p a s) = Ok (chips, f) ->
  length received = length chips -> (o + period b <= preamble_bits b * spread_chips (shr_codes b))%nat -> can_sync b o received chips ->
  after_sfd b (skipn o received) = Some (skipn (header_start b) received).
Proof. intros Hu Hs Hp Ha Ho Hl E Lr Hr C. apply (find_header b o received chips); try assumption. eapply starts_with_shr; eassumption. Qed.
Print Assumptions C93_found.
Lemma repaired (b : Frequency_band) (r c : list bool) : length r = length c -> (header_start b <= length c)%nat ->
  let r' := firstn (header_start b) c ++ skipn (header_start b) r in
  length r' = length c /\ skipn (header_start b) r' = skipn (header_start b) r /\ (forall k, (header_start b <= k)%nat -> skipn k r' = skipn k r)
  /\ within (spread_chips (shr_codes b)) (correctable (shr_codes b)) (preamble_bits b + 16) r' c.
Proof.
  intros L H r'. assert (K : forall k, (header_start b <= k)%nat -> skipn k r' = skipn k r).
  { intros k Hk. replace k with (header_start b + (k - header_start b))%nat by lia. rewrite <- !skip_twice. f_equal. unfold r'. apply (PFsk.skipn_exact (firstn (header_start b) c)). rewrite firstn_length. lia. }
  split; [unfold r'; rewrite app_length, firstn_length, skipn_length; lia|]. split; [now apply K|]. split; [exact K|].
  intros j Hj. rewrite <- (slice_firstn _ _ (header_start b) r') by (unfold header_start; nia). unfold r' at 1. rewrite firstn_app, firstn_length, Nat.min_l, Nat.sub_diag, app_nil_r by lia. rewrite firstn_firstn, Nat.min_id.
  rewrite slice_firstn by (unfold header_start; nia). rewrite PConv.distance_refl. lia.
Qed.
Lemma skip_pad (b : Frequency_band) r k : (header_start b <= k)%nat -> skipn k (repeat false (header_start b) ++ skipn (header_start b) r) = skipn k r.
Proof.
  intro H. replace k with (header_start b + (k - header_start b))%nat by lia. rewrite <- !skip_twice. f_equal. apply PFsk.skipn_exact, repeat_length.
Qed.
(** every mode and size: the fields of the header *)
Theorem C93_header p b rm sm sps s a zs chips f received o : oq_used p b rm sm sps s -> oq_supported b rm sm -> 0 < sps ->
  holds_octets a zs -> Forall is_octet zs -> 1 <= zlen zs <= 2047 -> snd (q_bytesToChips p a s) = Ok (chips, f) ->
  length received = length chips -> (o + period b <= preamble_bits b * spread_chips (shr_codes b))%nat -> can_sync b o received chips ->
  within (spread_chips (phr_codes b)) (correctable (phr_codes b)) 60 (skipn (header_start b) received) (skipn (header_start b) chips) ->
  sync_mode b (skipn o received) = Some (sm =? 1, rm, zlen zs).
Proof.
  intros Hu Hs Hp Ha Ho Hl E Lr Hr C W. unfold sync_mode. rewrite (C93_found p b rm sm sps s a zs chips f received o) by assumption. f_equal.
  pose proof (starts_with_shr p b rm sm sps s a zs chips f Hu Hs Hp Ha Ho Hl E) as Hc. assert (Lc : (header_start b <= length chips)%nat) by (rewrite <- (shr_chips_len b), <- Hc, firstn_length; lia).
  destruct (repaired b received chips Lr Lc) as (L' & S' & _ & W'). set (r' := firstn (header_start b) chips ++ skipn (header_start b) received) in *.
  rewrite <- (proj2 (C91_header p b rm sm sps s a zs chips f r' Hu Hs Hp Ha Ho Hl E L' ltac:(split; [exact W'|now rewrite S']))).
  f_equal. unfold near_header. cbv zeta. rewrite skip_pad by lia. now rewrite S'.
Qed.
Print Assumptions C93_header.
(** DSSS, at most 7 octets: the payload too *)
Theorem C93_receiver p b rm sps s a zs chips f received o : oq_used p b rm 0 sps s -> oq_supported b rm 0 -> 0 < sps ->
  holds_octets a zs -> Forall is_octet zs -> 1 <= zlen zs <= 7 -> snd (q_bytesToChips p a s) = Ok (chips, f) ->
  length received = length chips -> (o + period b <= preamble_bits b * spread_chips (shr_codes b))%nat -> can_sync b o received chips ->
  within (spread_chips (phr_codes b)) (correctable (phr_codes b)) 60 (skipn (header_start b) received) (skipn (header_start b) chips) ->
  payload_legible b rm received chips ->
  sync_receiver b (skipn o received) = Some {| f_mdsss := false; f_rate_mode := rm; f_octets := zlen zs; f_bits := octet_bits zs |}.
Proof.
  intros Hu Hs Hp Ha Ho Hl E Lr Hr C W P. unfold sync_receiver. rewrite (C93_found p b rm 0 sps s a zs chips f received o) by (assumption || lia). f_equal.
  pose proof (starts_with_shr p b rm 0 sps s a zs chips f Hu Hs Hp Ha Ho ltac:(lia) E) as Hc. assert (Lc : (header_start b <= length chips)%nat) by (rewrite <- (shr_chips_len b), <- Hc, firstn_length; lia).
  destruct (repaired b received chips Lr Lc) as (L' & S' & K' & W'). set (r' := firstn (header_start b) chips ++ skipn (header_start b) received) in *.
  assert (Ps : (header_start b <= payload_start b)%nat) by (unfold payload_start; lia).
  rewrite <- (C91_receiver p b rm sps s a zs chips f r' Hu Hs Hp Ha Ho Hl E L'); [|split; [exact W'|now rewrite S']|unfold payload_legible in *; now rewrite (K' (payload_start b) Ps)].
  unfold near_receiver, near_header, near_payload. cbv zeta. rewrite !skip_pad by lia. rewrite S', (K' (payload_start b) Ps). reflexivity.
Qed.
Print Assumptions C93_receiver.
(** the conditions of [can_sync] in numbers *)
Theorem C93_tolerance : map (fun b => (period b, sync_errors b, correctable (shr_codes b))) [Band_470MHz; Band_780MHz; Band_868MHz; Band_915MHz; Band_917MHz; Band_920MHz; Band_950MHz; Band_2450MHz]
  = [(32, 6, 15); (64, 12, 31); (32, 6, 15); (64, 12, 31); (64, 12, 31); (64, 7, 15); (32, 6, 15); (128, 28, 63)]%nat.
Proof. reflexivity. Qed.
Print Assumptions C93_tolerance.
(** no rule for the phase tolerates one more wrong chip: two phases are at twice that distance plus one or two *)
Theorem C93_tight b : exists i j, (i < j < period b)%nat /\ (distance (turned b i) (turned b j) <= 2 * sync_errors b + 2)%nat.
Proof.
  assert (C : existsb (fun j => Nat.leb (distance (turned b 0) (turned b j)) (2 * sync_errors b + 2)) (seq 1 (period b - 1)) = true) by (destruct b; vm_compute; reflexivity).
  apply existsb_exists in C as (j & Hj & C). apply in_seq in Hj. exists 0%nat, j. split; [lia|now apply Nat.leb_le].
Qed.
Print Assumptions C93_tight.
(** non-vacuity: listening from chip 41 of a frame in which chips 3, 10, 17, 24 and 31 of each group of the SHR are wrong and two groups are lost *)
Definition case_chips (chips : list bool) : list bool :=
  map (fun i => xorb (nth i chips false) (Nat.eqb (i mod 32 mod 7) 3 || Nat.eqb (i / 32) 20 || Nat.eqb (i / 32) 30)) (seq 0 (header_start Band_868MHz)) ++ skipn (header_start Band_868MHz) chips.
Lemma by_forallb n (P : nat -> nat) : forallb (fun k => Nat.leb (P k) 2) (seq 0 n) = true -> forall k, (k < n)%nat -> (P k <= 2)%nat.
Proof. intros H k Hk. rewrite forallb_forall in H. apply Nat.leb_le, H, in_seq. lia. Qed.
Example C93_case : exists s chips f, oq_used Wrapping Band_868MHz 0 0 10 s /\ oq_supported Band_868MHz 0 0
  /\ snd (q_bytesToChips Wrapping (ABytes [x55; x0f]) s) = Ok (chips, f)
  /\ length (case_chips chips) = length chips
  /\ can_sync Band_868MHz 41 (case_chips chips) chips
  /\ sync_receiver Band_868MHz (skipn 41 (case_chips chips))
     = Some {| f_mdsss := false; f_rate_mode := 0; f_octets := 2; f_bits := octet_bits [0x55; 0x0f] |}.
Proof.
  eexists. eexists. eexists. split; [eexists; exists []; split; reflexivity|]. split; [split; [lia|now left]|].
  split; [vm_compute; reflexivity|]. split; [vm_compute; reflexivity|].
  split; [split; [apply Nat.leb_le; vm_compute; reflexivity|apply by_forallb; vm_compute; reflexivity]|vm_compute; reflexivity].
Qed.
