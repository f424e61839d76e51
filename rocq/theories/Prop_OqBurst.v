(** * C109: MR-O-QPSK frames survive bursts *)
From Coq Require Import Reals.
From Coquelicot Require Import Complex.
From Verif Require Import Py MBits MModul MOfdm Tables MRate MOqpsk MWave SBits SEntry SRate SOqpsk SGap SOqGap SWave SOqRx SOqMf SOqDs SOqVit SOqBurst PList PBits PEntry PConv PRate POqpsk POqRun POqRx POqGap Prop_Oqpsk Prop_Wave Prop_OqRx Prop_OqDs Prop_OqMf Prop_OqVit.
From Verif Require PFskGap Prop_OqNoise.
Open Scope Z_scope.

(** equal but for [n] chips from [a] on *)
Definition same_outside (a n : nat) (r c : list bool) : Prop := length r = length c /\ forall i, (i < a \/ a + n <= i)%nat -> nth i r false = nth i c false.
Lemma slice_map i n (l : list bool) : (i + n <= length l)%nat -> slice i n l = map (fun k => nth k l false) (seq i n).
Proof.
  intro H. apply (nth_ext _ _ false false); [rewrite slice_len, map_length, seq_length by assumption; reflexivity|]. intros k Hk. rewrite slice_len in Hk by assumption.
  unfold slice. rewrite nth_firstn, nth_skipn by assumption. rewrite (nth_map _ _ _ 0%nat false) by (now rewrite seq_length). now rewrite seq_nth.
Qed.
Lemma burst_distance r c a n i m : same_outside a n r c -> (i + m <= length r)%nat ->
  (distance (slice i m r) (slice i m c) <= Nat.min (i + m) (a + n) - Nat.max i a)%nat.
Proof.
  intros [L H] B. rewrite !slice_map by lia. rewrite PFskGap.distance_maps. rewrite <- (seq_length (Nat.min (i + m) (a + n) - Nat.max i a) (Nat.max i a)).
  apply NoDup_incl_length; [apply NoDup_filter, seq_NoDup|]. intros k Hk. apply filter_In in Hk as [Hk X]. apply in_seq in Hk. apply in_seq.
  destruct (Nat.lt_ge_cases k a) as [K|K]; [rewrite H, xorb_nilpotent in X by lia; discriminate|].
  destruct (Nat.lt_ge_cases k (a + n)) as [K'|K']; [lia|rewrite H, xorb_nilpotent in X by lia; discriminate].
Qed.
Lemma at_most_two (f : nat -> bool) : (forall i j, f i = true -> f j = true -> (j <= i + 1)%nat) -> forall n s, (length (filter f (seq s n)) <= 2)%nat.
Proof.
  intro H. induction n as [|n IH]; intro s; [cbn; lia|]. cbn [seq filter]. destruct (f s) eqn:E; [|apply IH]. cbn [length].
  enough (length (filter f (seq (S s) n)) <= 1)%nat by lia. change 1%nat with (length [S s]). apply NoDup_incl_length; [apply NoDup_filter, seq_NoDup|].
  intros j Hj. apply filter_In in Hj as [Hj X]. apply in_seq in Hj. specialize (H s j E X). left. lia.
Qed.
Lemma burst_illegible w t n r c a m : (m <= longest_burst w t)%nat -> same_outside a m r c -> (n * w <= length r)%nat -> (illegible w t n r c <= 2)%nat.
Proof.
  unfold longest_burst, illegible. intros Hm S Hn.
  assert (G : forall j, (j < n)%nat -> Nat.ltb t (distance (slice (j * w) w r) (slice (j * w) w c)) = true -> (a + t < j * w + w /\ j * w + t < a + m)%nat).
  { intros j Hj T. apply Nat.ltb_lt in T. pose proof (burst_distance r c a m (j * w) w S ltac:(nia)). lia. }
  set (f := fun j => Nat.ltb t (distance (slice (j * w) w r) (slice (j * w) w c))) in *.
  replace (filter f (seq 0 n)) with (filter (fun j => Nat.ltb j n && f j) (seq 0 n)).
  - apply at_most_two. intros i j Hi Hj. apply andb_prop in Hi as [I1 I2]. apply andb_prop in Hj as [J1 J2]. apply Nat.ltb_lt in I1, J1.
    destruct (G i I1 I2) as [A1 _]. destruct (G j J1 J2) as [_ A2]. destruct (Nat.le_gt_cases j (i + 1)) as [K|K]; [assumption|exfalso]. assert ((i + 2) * w <= j * w)%nat by (apply Nat.mul_le_mono_r; lia). lia.
  - apply filter_ext_in. intros j Hj. apply in_seq in Hj. rewrite (proj2 (Nat.ltb_lt _ _)) by lia. reflexivity.
Qed.
Lemma same_skipn s a n r c : same_outside a n r c -> same_outside (a - s) (a + n - s - (a - s)) (skipn s r) (skipn s c).
Proof. intros [L H]. split; [rewrite !skipn_length; lia|]. intros i Hi. rewrite !nth_skipn. apply H. lia. Qed.
Lemma same_more a n m r c : (n <= m)%nat -> same_outside a n r c -> same_outside a m r c.
Proof. intros Hm [L H]. split; [assumption|]. intros i Hi. apply H. lia. Qed.
Lemma same_none a r c : same_outside a 0 r c -> r = c.
Proof. intros [L H]. apply (nth_ext _ _ false false); [assumption|]. intros i _. apply H. lia. Qed.
(** taking out the pilots keeps a burst in one piece *)
Lemma drop_burst np mp fuel : forall r c a n, same_outside a n r c ->
  exists a', same_outside a' n (drop_pilots fuel np mp r) (drop_pilots fuel np mp c) /\ (a = 0%nat -> a' = 0%nat).
Proof.
  induction fuel as [|fuel IH]; intros r c a n S; [exists 0%nat; split; [split; reflexivity|reflexivity]|].
  destruct r as [|x r], c as [|y c]; [exists 0%nat; split; [split; reflexivity|reflexivity]|destruct S; discriminate|destruct S; discriminate|].
  cbn [drop_pilots]. set (r0 := x :: r) in *. set (c0 := y :: c) in *. clearbody r0 c0. pose proof (same_skipn (np + mp) a n r0 c0 S) as S'.
  destruct (IH _ _ _ _ S') as (a1 & [L1 H1] & Z1). destruct S as [L H].
  set (d := drop_pilots fuel np mp (skipn (np + mp) r0)) in *. set (d' := drop_pilots fuel np mp (skipn (np + mp) c0)) in *.
  assert (Ld : (length r0 <= np + mp)%nat -> d = []).
  { intro B. unfold d. rewrite skipn_all2 by assumption. destruct fuel; reflexivity. }
  assert (F : forall i, (i < mp)%nat -> nth i (firstn mp (skipn np r0)) false = nth (np + i) r0 false /\ nth i (firstn mp (skipn np c0)) false = nth (np + i) c0 false).
  { intros i Hi. rewrite !nth_firstn by assumption. now rewrite !nth_skipn. }
  assert (Lf : length (firstn mp (skipn np r0)) = length (firstn mp (skipn np c0))) by (rewrite !firstn_length, !skipn_length; lia).
  assert (Lm : length (firstn mp (skipn np r0)) = Nat.min mp (length r0 - np)) by now rewrite firstn_length, skipn_length.
  destruct (Nat.le_gt_cases (np + mp) a) as [Ca|Ca].
  - exists (length (firstn mp (skipn np r0)) + a1)%nat. split; [|intro; subst a; assert (np = 0 /\ mp = 0)%nat as [-> ->] by lia; rewrite Z1; reflexivity]. split; [rewrite !app_length; lia|].
    intros i Hi. destruct (Nat.lt_ge_cases i (length (firstn mp (skipn np r0)))) as [K|K].
    + rewrite !app_nth1 by lia. destruct (F i ltac:(lia)) as [-> ->]. apply H. lia.
    + rewrite !app_nth2 by lia. rewrite <- Lf. apply H1. lia.
  - specialize (Z1 ltac:(lia)). subst a1. exists (a - np)%nat. split; [|intros ->; reflexivity]. split; [rewrite !app_length; lia|].
    intros i Hi. destruct (Nat.lt_ge_cases i (length (firstn mp (skipn np r0)))) as [K|K].
    + rewrite !app_nth1 by lia. destruct (F i ltac:(lia)) as [-> ->]. apply H. lia.
    + rewrite !app_nth2 by lia. rewrite <- Lf. destruct (Nat.le_gt_cases (length r0) (np + mp)) as [B|B]; [|apply H1; lia].
      specialize (Ld B). assert (Ed : d' = []) by (apply length_zero_iff_nil; rewrite <- L1, Ld; reflexivity). now rewrite Ld, Ed.
Qed.
Lemma header_burst_ok b r c a n : (n <= header_burst b)%nat -> same_outside a n r c -> (payload_start b <= length r)%nat -> (header_illegible b r c <= 2)%nat.
Proof.
  intros Hn S Hl. rewrite header_illegible_eq. apply same_skipn with (s := header_start b) in S.
  eapply burst_illegible; [|exact S|]; [unfold header_burst in Hn; lia|]. rewrite skipn_length. unfold payload_start in Hl. lia.
Qed.
Lemma payload_burst_ok b rm r c a n : 0 <= rm <= 3 -> (n <= payload_burst b rm)%nat -> same_outside a n r c -> (payload_errors b rm r c <= 4)%nat.
Proof.
  intros Hr Hn S. unfold payload_errors, payload_burst in *. cbv zeta. apply same_skipn with (s := payload_start b) in S. unfold remove_pilots.
  assert (Ls : length (skipn (payload_start b) r) = length (skipn (payload_start b) c)) by apply S. rewrite <- Ls.
  destruct (drop_burst (pilot_length b) (pilot_spacing b) (length (skipn (payload_start b) r)) _ _ _ _ S) as (a' & S' & _).
  set (r' := drop_pilots _ _ _ (skipn _ r)) in *. set (c' := drop_pilots _ _ _ (skipn _ c)) in *. destruct (psdu_codes b rm) as [sp|] eqn:Esp.
  - rewrite (psdu_codes_eq b rm Hr) in Esp. destruct (sp_psdu_ok b rm Hr) as (_ & _ & H3). destruct (H3 sp Esp) as [Hi _]. destruct (codes_ok sp Hi) as (_ & _ & Hc0 & _).
    enough (illegible (spread_chips sp) (correctable sp) (length c' / spread_chips sp) r' c' <= 2)%nat by lia.
    eapply burst_illegible; [|exact S'|]; [lia|]. destruct S' as [-> _]. rewrite Nat.mul_comm. apply Nat.mul_div_le. lia.
  - pose proof (burst_distance _ _ _ _ 0 (length r') S' ltac:(lia)) as D. unfold slice in D. cbn [skipn] in D. rewrite firstn_all, firstn_all2 in D by (destruct S'; lia). lia.
Qed.
(** the matched filter decides the other chips correctly *)
Lemma matched_burst g p b rm sm sps s r sig f received k : oq_used p b rm sm sps s -> pulse_regular b sps -> snd (oq_signal g p r s) = Ok (sig, f) ->
  length received = length sig -> disturbed b sps sig received k ->
  exists chips z a, snd (oq_send p r s) = Ok (chips, z) /\ same_outside a (2 * k) (matched b (Z.to_nat sps) received) chips.
Proof.
  intros Hu Hg E Lr (first & Hn). pose proof (C57_frames g p b rm sm sps s r Hu) as H. destruct (snd (oq_send p r s)) as [[c z]|e]; [|congruence].
  destruct H as (rate & sg & _ & P1 & P2 & Es & _ & T). specialize (T Hg). rewrite E in Es. injection Es as <- _. exists c, z, (2 * first)%nat. split; [reflexivity|].
  destruct T as (n & Lc & Ls & N & _). set (w := Z.to_nat sps) in *. assert (Hw : (0 < w)%nat) by (unfold w; lia).
  assert (Ln : (length received / w)%nat = n). { rewrite Lr, Ls. symmetry. apply (Nat.div_unique _ _ _ (w - 1)); [lia|]. rewrite Nat.mul_comm. reflexivity. }
  unfold matched. rewrite Ln. set (u := flat_map _ (seq 0 n)).
  assert (Lu : length u = (2 * n)%nat) by (unfold u; rewrite (flat_map_const_length _ 2), seq_length by reflexivity; reflexivity).
  split; [congruence|]. intros i Hi. destruct (Nat.lt_ge_cases i (2 * n)) as [B|B]; [|rewrite !nth_overflow by lia; reflexivity].
  assert (U : forall j, (j < n)%nat -> nth (2 * j) u false = positive (fst (correlate b w received j)) /\ nth (2 * j + 1) u false = positive (snd (correlate b w received j))).
  { intros j Hj. assert (V : forall m s0, (m < n)%nat -> forall l, (m < l)%nat -> nth (2 * m) (flat_map (fun j => let z := correlate b w received j in [positive (fst z); positive (snd z)]) (seq s0 l)) false = positive (fst (correlate b w received (s0 + m)))
       /\ nth (2 * m + 1) (flat_map (fun j => let z := correlate b w received j in [positive (fst z); positive (snd z)]) (seq s0 l)) false = positive (snd (correlate b w received (s0 + m)))).
    { induction m as [|m IH]; intros s0 Hm l Hl; (destruct l as [|l]; [lia|]); cbn [seq flat_map].
      - rewrite Nat.add_0_r. split; reflexivity.
      - replace (2 * S m)%nat with (S (S (2 * m))) by lia. replace (S (S (2 * m)) + 1)%nat with (S (S (2 * m + 1))) by lia. replace (s0 + S m)%nat with (S s0 + m)%nat by lia. apply (IH (S s0) ltac:(lia) l ltac:(lia)). }
    apply (V j 0%nat Hj n Hj). }
  pose proof (Nat.div_mod i 2 ltac:(lia)) as D. pose proof (Nat.mod_upper_bound i 2 ltac:(lia)) as M. set (j := (i / 2)%nat) in *. set (q := (i mod 2)%nat) in *. clearbody j q.
  specialize (Hn j ltac:(lia) ltac:(rewrite Ls; nia)). replace sps with (Z.of_nat w) in Hn by (unfold w; lia).
  destruct (pair_decided b (Tc_of rate) w n c sig received j) as [A1 A2]; try assumption; [now apply Tc_pos|lia|].
  destruct (U j ltac:(lia)) as [U1 U2]. assert (V : i = (2 * j)%nat \/ i = (2 * j + 1)%nat) by lia. destruct V as [-> | ->]; congruence.
Qed.

(** ** C109 *)
(** every band, mode and size: whatever is received during [k] consecutive chip pairs, anywhere in the frame, and with noise
    elsewhere, the modes and the octet count are read *)
Theorem C109_header g p b rm sm sps s a zs sig f received k : oq_used p b rm sm sps s -> oq_supported b rm sm -> 0 < sps -> pulse_regular b sps ->
  holds_octets a zs -> Forall is_octet zs -> 1 <= zlen zs <= 2047 -> snd (q_bytesToIQ g p a s) = Ok (sig, f) -> length received = length sig ->
  disturbed b sps sig received k -> (2 * k <= header_burst b)%nat ->
  rx_mode (vit_header b (matched b (Z.to_nat sps) received)) = (sm =? 1, rm, zlen zs).
Proof.
  intros Hu Hs Hp Hg Ha Ho Hl E Lr D K. destruct (matched_burst g p b rm sm sps s (Octets a) sig f received k Hu Hg E Lr D) as (c & z & x & Ec & S). cbn [oq_send] in Ec.
  apply (C107_header p b rm sm sps s a zs c z); auto; [apply S|]. apply (header_burst_ok b _ _ x (2 * k) K S). destruct S as [-> _].
  change (snd (oq_send p (Octets a) s) = Ok (c, z)) in Ec. rewrite (octets_sent p b rm sm sps s a zs) in Ec by assumption. destruct (_ && _); [discriminate|]. injection Ec as <- <-.
  rewrite !app_length, shr_chips_len, phr_chips_len. unfold payload_start. lia.
Qed.
Print Assumptions C109_header.
(** DSSS, at most 7 octets: the payload too *)
Theorem C109_receiver g p b rm sps s a zs sig f received k : oq_used p b rm 0 sps s -> oq_supported b rm 0 -> 0 < sps -> pulse_regular b sps ->
  holds_octets a zs -> Forall is_octet zs -> 1 <= zlen zs <= 7 -> snd (q_bytesToIQ g p a s) = Ok (sig, f) -> length received = length sig ->
  disturbed b sps sig received k -> (2 * k <= Nat.min (header_burst b) (payload_burst b rm))%nat ->
  vit_receiver b (matched b (Z.to_nat sps) received) = {| f_mdsss := false; f_rate_mode := rm; f_octets := zlen zs; f_bits := octet_bits zs |}.
Proof.
  intros Hu Hs Hp Hg Ha Ho Hl E Lr D K. destruct (matched_burst g p b rm 0 sps s (Octets a) sig f received k Hu Hg E Lr D) as (c & z & x & Ec & S). cbn [oq_send] in Ec.
  apply (C107_receiver p b rm sps s a zs c z); auto; [apply S| |].
  - apply (header_burst_ok b _ _ x (2 * k) ltac:(lia) S). destruct S as [-> _].
    change (snd (oq_send p (Octets a) s) = Ok (c, z)) in Ec. rewrite (octets_sent p b rm 0 sps s a zs) in Ec by (auto; lia). destruct (_ && _); [discriminate|]. injection Ec as <- <-.
    rewrite !app_length, shr_chips_len, phr_chips_len. unfold payload_start. lia.
  - apply (payload_burst_ok b rm _ _ x (2 * k) (proj1 Hs) ltac:(lia) S).
Qed.
Print Assumptions C109_receiver.
(** in particular: the samples of [k] chip pairs replaced by any others (silence, another transmission), the rest as sent *)
Theorem C109_replaced g p b rm sm sps s a zs sig f first k other : oq_used p b rm sm sps s -> oq_supported b rm sm -> pulse_regular b sps ->
  (match b with Band_915MHz | Band_2450MHz => 3 | _ => 2 end <= sps) ->
  holds_octets a zs -> Forall is_octet zs -> 1 <= zlen zs <= 2047 -> snd (q_bytesToIQ g p a s) = Ok (sig, f) ->
  length other = (k * Z.to_nat sps)%nat -> ((first + k) * Z.to_nat sps <= length sig)%nat -> (2 * k <= header_burst b)%nat ->
  let received := firstn (first * Z.to_nat sps) sig ++ other ++ skipn ((first + k) * Z.to_nat sps) sig in
  rx_mode (vit_header b (matched b (Z.to_nat sps) received)) = (sm =? 1, rm, zlen zs)
  /\ (sm = 0 -> zlen zs <= 7 -> (2 * k <= payload_burst b rm)%nat ->
      vit_receiver b (matched b (Z.to_nat sps) received) = {| f_mdsss := false; f_rate_mode := rm; f_octets := zlen zs; f_bits := octet_bits zs |}).
Proof.
  intros Hu Hs Hg Hm Ha Ho Hl E Lo Hk K received. assert (Hp : 0 < sps) by (destruct b; lia). set (w := Z.to_nat sps) in *.
  assert (Lr : length received = length sig) by (unfold received; rewrite !app_length, firstn_length, skipn_length, Lo; nia).
  assert (D : disturbed b sps sig received k).
  { exists first. intros j Hj Bj. fold w in Bj |- *.
    assert (Eb : pair_block w received j = pair_block w sig j).
    { apply (nth_ext _ _ (RtoC 0) (RtoC 0)); [unfold pair_block; rewrite !firstn_length, !skipn_length, Lr; reflexivity|].
      intros i Hi. assert (Hi' : (i < w)%nat) by (unfold pair_block in Hi; rewrite firstn_length in Hi; lia). rewrite !nth_pair_block by assumption.
      unfold received. destruct Hj as [Hj|Hj].
      - rewrite app_nth1 by (rewrite firstn_length; nia). apply nth_firstn. nia.
      - rewrite app_nth2 by (rewrite firstn_length; nia). rewrite app_nth2 by (rewrite firstn_length; nia). rewrite nth_skipn, firstn_length, Lo. f_equal. nia. }
    rewrite Eb, Prop_OqMf.gap_same. now apply Prop_OqNoise.C78_pulse. }
  split.
  - now apply (C109_header g p b rm sm sps s a zs sig f received k).
  - intros -> H7 P. apply (C109_receiver g p b rm sps s a zs sig f received k); auto; lia.
Qed.
Print Assumptions C109_replaced.
(** how many chip pairs: from 7 (header) and 1 (payload sent two chips to the bit) to 31 *)
Example C109_sizes : map (fun b => (header_burst b / 2, map (fun rm => payload_burst b rm / 2) [0; 1; 2; 3]%Z)%nat) [Band_470MHz; Band_780MHz; Band_868MHz; Band_915MHz; Band_917MHz; Band_2450MHz]
  = [(7, [7; 3; 1; 2]); (15, [15; 10; 5; 2]); (7, [7; 3; 1; 2]); (15, [15; 10; 5; 2]); (15, [15; 10; 5; 2]); (15, [31; 21; 10; 5])]%nat.
Proof. reflexivity. Qed.
(** non-vacuity: two octets at 915 MHz, fifteen chip pairs of the frame replaced *)
Example C109_case g : exists s sig f, oq_used Wrapping Band_915MHz 0 0 8 s /\ oq_supported Band_915MHz 0 0 /\ pulse_regular Band_915MHz 8
  /\ snd (q_bytesToIQ g Wrapping (ABytes [x55; x0f]) s) = Ok (sig, f)
  /\ forall other, length other = 120%nat ->
     vit_receiver Band_915MHz (matched Band_915MHz 8 (firstn (600 * 8) sig ++ other ++ skipn (615 * 8) sig))
     = {| f_mdsss := false; f_rate_mode := 0; f_octets := 2; f_bits := octet_bits [85; 15] |}.
Proof.
  destruct (C90_case g) as (s & sig & f & Hu & Hs & Hg & E). exists s, sig, f. split; [assumption|]. split; [assumption|]. split; [assumption|]. split; [assumption|]. intros other Lo.
  assert (Hh : holds_octets (ABytes [x55; x0f]) [85; 15]) by apply (HO_bytes [x55; x0f]). assert (Ho : Forall is_octet [85; 15]) by (repeat constructor; unfold is_octet; lia).
  assert (Hz : zlen [85; 15] = 2) by reflexivity.
  assert (Ls : ((600 + 15) * Z.to_nat 8 <= length sig)%nat).
  { rewrite (C80_dsss_samples_partial g Wrapping Band_915MHz 0 8 s (ABytes [x55; x0f]) [85; 15] sig f Hu Hs ltac:(lia) Hh Ho ltac:(lia) E).
    apply Nat.leb_le. vm_compute. reflexivity. }
  destruct (C109_replaced g Wrapping Band_915MHz 0 0 8 s (ABytes [x55; x0f]) [85; 15] sig f 600 15 other Hu Hs Hg ltac:(lia) Hh Ho ltac:(lia) E Lo Ls) as [_ R]; [apply Nat.leb_le; reflexivity|].
  exact (R eq_refl ltac:(lia) ltac:(apply Nat.leb_le; reflexivity)).
Qed.
