(** * C110: coded MR-FSK frames survive fades *)
From Coq Require Import Qreals Reals Lra.
From Coquelicot Require Import Complex.
From Verif Require Import Py MBits MPn9 Tables MFsk SBits SEntry SPn9 SFsk PList PBits PEntry PPn9 PConv PFskFec PFsk PFskGap Prop_Fsk Prop_FskGap
  MTime STime PTime SGap PGap MFskWave SFskWave Prop_FskWave SFskGap PFskNoise Prop_FskNoise SFskRx PSync Prop_FskRx SFskVit PFskVit PFskSoft Prop_FskVit SFade PFskFade.
Local Open Scope Z_scope.

(** ** lost bits *)
Definition seen1 (o : option bool) (u : bool) : R := match o with Some b => if xorb b u then 1%R else 0%R | None => 0%R end.
Lemma seen1_nonneg o u : (0 <= seen1 o u)%R.
Proof. destruct o as [b|]; cbn; [destruct (xorb b u)|]; lra. Qed.
Lemma seen_total r a : Nat.even (length a) = true -> total (seen_cost r) a = tot (fun j => seen1 (nth j r None) (nth j a false)) (seq 0 (length a)).
Proof.
  intro Ev. apply Nat.even_spec in Ev as [n Hn]. unfold total. replace (length a / 2)%nat with n by (rewrite Hn, Nat.mul_comm, Nat.div_mul; lia).
  rewrite Hn, <- tot_pairs. apply tot_ext. intros k _. reflexivity.
Qed.
Lemma tot_zero f l : (forall i, In i l -> f i = 0%R) -> tot f l = 0%R.
Proof. intro H. rewrite (tot_ext f (fun _ => 0 * 0)%R) by (intros i Hi; rewrite H by assumption; lra). rewrite tot_scal. lra. Qed.
Lemma tot_one f l j c : (forall i, 0 <= f i)%R -> In j l -> (c <= f j)%R -> (c <= tot f l)%R.
Proof.
  intros P Hj Hc. induction l as [|i l IH]; [destruct Hj|]. unfold tot in *. cbn [map fold_right]. destruct Hj as [->|Hj].
  - pose proof (tot_nonneg f l P) as Q. unfold tot in Q. lra.
  - specialize (IH Hj). specialize (P i). lra.
Qed.
Theorem C110_bits : forall s a zs frame received st, fsk_object s -> k_fec s = true ->
  holds_octets a zs -> zs <> [] -> Forall is_octet zs -> zlen zs <= 2047 ->
  k_binary (fst (k_bytesToIQ a s)) = Some frame ->
  (forall i, (i < length frame)%nat -> nth i received None = Some (nth i frame false)
     \/ (nth i received None = None /\ (st <= i < st + fade_bits (k_il s))%nat)) ->
  fsk_loss_corrector (k_fsk4 s) (k_il s) (k_white s) (k_scheme s) (k_preamble s) received
  = {| rx_fcs := k_fcs s; rx_white := k_white s; rx_octets := zlen zs; rx_payload := octet_bits zs |}.
Proof.
  intros s a zs fr r st Hs F Ha N O L Hb R. destruct (frame_parts s a zs fr Hs F Ha N O L Hb) as (-> & LS & Ev & L64).
  unfold fsk_loss_corrector. rewrite <- LS. set (n := length (shr_bits s)) in *. apply object_valid in Hs.
  apply (fade_core s zs _ (st - n)%nat); auto; [unfold zlen in L; lia|]. cbv zeta. set (A := f_white s _) in *. set (q := skipn n r).
  assert (Q : forall j, (j < length A)%nat -> nth j q None = Some (nth j A false) \/ (nth j q None = None /\ lost (st - n) (fade_bits (k_il s)) j = true)).
  { intros j Hj. unfold q. rewrite nth_skipn. specialize (R (n + j)%nat ltac:(rewrite app_length; fold n; lia)). rewrite app_nth2 in R by (fold n; lia). fold n in R. replace (n + j - n)%nat with j in R by lia.
    destruct R as [R|[R1 R2]]; [left; exact R|right]. split; [exact R1|]. unfold lost. apply andb_true_intro. split; [apply Nat.leb_le; lia|apply Nat.ltb_lt; lia]. }
  intros m b Hm Lb (j & Hj & Vj & Nj).
  assert (Lm : length (firstn m A) = m) by (rewrite firstn_length; destruct Hm; lia). rewrite Lm in Hj.
  assert (Em : Nat.even m = true) by (destruct Hm as [-> | ->]; [reflexivity|assumption]).
  assert (mA : (m <= length A)%nat) by (destruct Hm; lia).
  rewrite !seen_total by (rewrite ?Lm, ?Lb; assumption). rewrite Lm, Lb.
  rewrite (tot_zero (fun j => seen1 (nth j q None) (nth j (firstn m A) false))).
  - apply Rlt_le_trans with 1%R; [lra|]. apply (tot_one _ _ j); [intro; apply seen1_nonneg|apply in_seq; lia|].
    destruct (Q j ltac:(lia)) as [E|[_ E]]; [|congruence]. rewrite E. rewrite nth_firstn in Nj by lia. cbn [seen1]. destruct (nth j A false), (nth j b false); cbn [xorb]; try congruence; lra.
  - intros i Hi. apply in_seq in Hi. rewrite nth_firstn by lia. destruct (Q i ltac:(lia)) as [E|[E _]]; rewrite E; cbn [seen1]; [rewrite xorb_nilpotent|]; reflexivity.
Qed.
Print Assumptions C110_bits.

(** ** silence *)
Lemma gap_silent : forall x y, length x = length y -> (forall z, In z x -> z = RtoC 0) -> (forall z, In z y -> Cmod z = 1%R) -> gap x y = INR (length y).
Proof.
  induction x as [|u x IH]; destruct y as [|v y]; intros L Hx Hy; try discriminate L; [reflexivity|]. cbn [gap length]. rewrite S_INR, IH; [|now injection L|intros; apply Hx; now right|intros; apply Hy; now right].
  rewrite (Hx u) by now left. replace (RtoC 0 - v)%C with (- v)%C by ring. rewrite Cmod_opp, (Hy v) by now left. ring.
Qed.
Lemma tone_unit h t j z : In z (tone_samples h t j) -> Cmod z = 1%R.
Proof.
  unfold tone_samples. intro H. apply in_map_iff in H as (i & <- & _). set (p := (2 * PI * _)%R). unfold Cmod. cbn [fst snd].
  replace (cos p ^ 2 + sin p ^ 2)%R with 1%R; [apply sqrt_1|]. pose proof (sin2_cos2 p) as Q. unfold Rsqr in Q. cbn [pow]. lra.
Qed.
Lemma nth_block x j i : (i < 20)%nat -> nth i (block x j) (RtoC 0) = nth (20 * j + i) x (RtoC 0).
Proof. intro H. unfold block. rewrite nth_firstn, nth_skipn by assumption. reflexivity. Qed.
Lemma block_flat (F : nat -> list C) x : (forall j, length (F j) = 20%nat) -> forall n a, skipn (20 * a) x = flat_map F (seq a n) -> forall j, (a <= j < a + n)%nat -> block x j = F j.
Proof.
  intro HF. induction n as [|n IH]; intros a E j Hj; [lia|]. cbn [seq flat_map] in E. destruct (Nat.eq_dec j a) as [->|D].
  - unfold block. rewrite E, firstn_exact by apply HF. reflexivity.
  - apply (IH (S a)); [|lia]. replace (20 * S a)%nat with (20 + 20 * a)%nat by lia. rewrite <- skipn_twice, E. apply skipn_exact. apply HF.
Qed.
Lemma blocks_of y : forall n a, length y = (20 * (a + n))%nat -> skipn (20 * a) y = flat_map (block y) (seq a n).
Proof.
  induction n as [|n IH]; intros a L; [cbn; apply skipn_all2; lia|]. cbn [seq flat_map]. rewrite <- IH by lia. unfold block. replace (20 * S a)%nat with (20 + 20 * a)%nat by lia. rewrite <- skipn_twice. symmetry. apply firstn_skipn.
Qed.
Lemma faded_length st k x : length (faded st k x) = length x.
Proof. unfold faded. now rewrite map_length, seq_length. Qed.
Definition in_fade (st k j : nat) : bool := Nat.leb st j && Nat.ltb j (st + k).
Lemma block_faded st k x j : (20 * j + 20 <= length x)%nat -> in_fade st k j = false -> block (faded st k x) j = block x j.
Proof.
  intros H V. assert (L1 : length (block (faded st k x) j) = 20%nat) by (apply block_length; rewrite faded_length; lia). assert (L2 : length (block x j) = 20%nat) by (apply block_length; lia).
  apply list_eq_nth with (RtoC 0); [congruence|]. intros i Hi. rewrite L1 in Hi. rewrite !nth_block by assumption. unfold faded. rewrite nth_map_seq by lia.
  destruct (Nat.leb_spec (20 * st) (20 * j + i)), (Nat.ltb_spec (20 * j + i) (20 * (st + k))); cbn [andb]; try reflexivity.
  exfalso. unfold in_fade in V. apply andb_false_iff in V as [V|V]; [apply Nat.leb_gt in V|apply Nat.ltb_ge in V]; lia.
Qed.
(** a bit that differs makes its symbol differ *)
Lemma symbol_differs fsk4 a b j : nth j a false <> nth j b false -> symbol_tone fsk4 a (j / symbol_bits fsk4) <> symbol_tone fsk4 b (j / symbol_bits fsk4).
Proof.
  unfold symbol_tone, symbol_bits. destruct fsk4; intro N.
  - pose proof (Nat.div_mod j 2 ltac:(lia)) as D. pose proof (Nat.mod_upper_bound j 2 ltac:(lia)). set (k := (j / 2)%nat) in *. clearbody k. assert (j = 2 * k \/ j = 2 * k + 1)%nat as [-> | ->] by lia;
      destruct (nth (2 * k) a false), (nth (2 * k + 1) a false), (nth (2 * k) b false), (nth (2 * k + 1) b false); cbn; congruence.
  - rewrite Nat.div_1_r. destruct (nth j a false), (nth j b false); cbn; congruence.
Qed.
Theorem C110_silence : forall s a zs x f received st, fsk_object s -> k_fec s = true ->
  holds_octets a zs -> zs <> [] -> Forall is_octet zs -> zlen zs <= 2047 ->
  snd (k_bytesToSamples a s) = Ok (x, f) -> (length x <= length received)%nat ->
  let k := fade_symbols (k_fsk4 s) (k_il s) in
  (forall i, (20 * st <= i < 20 * (st + k))%nat -> nth i received (RtoC 0) = RtoC 0) ->
  (let n := (20 * first_symbol (k_preamble s))%nat in gap (skipn n received) (skipn n (faded st k x)) < 3 / 4)%R ->
  fsk_soft_receiver (k_fsk4 s) (k_il s) (k_white s) (k_scheme s) (k_preamble s) (Q2R (k_h s)) received
  = {| rx_fcs := k_fcs s; rx_white := k_white s; rx_octets := zlen zs; rx_payload := octet_bits zs |}.
Proof.
  intros s a zs x f r st Hs F Ha N O L Hx Lr k Z G. destruct (sample_body s a zs x f Hs F Ha N O L Hx) as (Sk & Lx & Ev & L64). pose proof (index_range s Hs) as Hh.
  set (A := f_white s _) in *. set (f4 := k_fsk4 s) in *. set (n := first_symbol (k_preamble s)) in *. rewrite Lx in Lr. set (h := Q2R (k_h s)) in *.
  cbv zeta in G. rewrite (blocks_of (faded st k x) (symbols f4 A) n) in G by (rewrite faded_length; exact Lx).
  assert (BT : forall j, (j < symbols f4 A)%nat -> block x (n + j) = body_tones f4 h n A j).
  { intros j Hj. rewrite (block_flat (fun j => body_tones f4 h n A (j - n)) x (fun j => tone_samples_length _ _ _) (symbols f4 A) n Sk) by lia. f_equal. lia. }
  set (vis := fun j => negb (in_fade st k (n + j))).
  set (g := fun c j => gap (block r (n + j)) (body_tones f4 h n c j)).
  (* noise on the symbols that are seen *)
  assert (G' : (tot (fun j => if vis j then g A j else 0) (seq 0 (symbols f4 A)) < 3 / 4)%R).
  { eapply Rle_lt_trans; [|exact G]. clear G.
    assert (GB : gap (skipn (20 * n) r) (flat_map (block (faded st k x)) (seq n (symbols f4 A))) = tot (fun j => gap (block r j) (block (faded st k x) j)) (seq n (symbols f4 A))).
    { assert (X : forall m a, (a + m <= n + symbols f4 A)%nat -> gap (skipn (20 * a) r) (flat_map (block (faded st k x)) (seq a m)) = tot (fun j => gap (block r j) (block (faded st k x) j)) (seq a m)).
      { induction m as [|m IH]; intros b Hb; [unfold tot; cbn; destruct (skipn _ r); reflexivity|]. cbn [seq flat_map]. unfold tot. cbn [map fold_right]. fold (tot (fun j => gap (block r j) (block (faded st k x) j)) (seq (S b) m)). rewrite <- IH by lia.
        rewrite <- (firstn_skipn 20 (skipn (20 * b) r)) at 1. rewrite gap_app; [|rewrite (block_length (faded st k x) b) by (rewrite faded_length; lia); apply (block_length r b); lia].
        rewrite skipn_twice. replace (20 * S b)%nat with (20 + 20 * b)%nat by lia. reflexivity. }
      apply X. lia. }
    rewrite GB, (tot_shift _ n). apply tot_le. intros j Hj. apply in_seq in Hj. destruct (vis j) eqn:V; [|apply gap_nonneg].
    unfold vis in V. apply negb_true_iff in V. rewrite block_faded by (try assumption; lia). rewrite BT by lia. apply Rle_refl. }
  unfold fsk_soft_receiver. apply object_valid in Hs. apply (fade_core s zs _ ((st - n) * symbol_bits f4)); auto; [unfold zlen in L; lia|]. cbv zeta. fold A. fold n. fold f4. fold h.
  intros m b Hm Lb (j & Hj & Vj & Nj).
  assert (Lm : length (firstn m A) = m) by (rewrite firstn_length; destruct Hm; lia). rewrite Lm in Hj.
  assert (Em : Nat.even m = true) by (destruct Hm as [-> | ->]; [reflexivity|assumption]).
  assert (mA : (m <= length A)%nat) by (destruct Hm; lia).
  rewrite !sample_total by (rewrite ?Lm, ?Lb; assumption).
  assert (SyA : symbols f4 (firstn m A) = (m / symbol_bits f4)%nat) by (unfold symbols, symbol_bits; rewrite Lm; destruct f4; [reflexivity|now rewrite Nat.div_1_r]).
  assert (Syb : symbols f4 b = (m / symbol_bits f4)%nat) by (unfold symbols, symbol_bits; rewrite Lb; destruct f4; [reflexivity|now rewrite Nat.div_1_r]).
  assert (SyAll : symbols f4 A = (length A / symbol_bits f4)%nat) by (unfold symbols, symbol_bits; destruct f4; [reflexivity|now rewrite Nat.div_1_r]).
  rewrite SyA, Syb. set (M := (m / symbol_bits f4)%nat) in *.
  assert (Sb : (1 <= symbol_bits f4 <= 2)%nat) by (unfold symbol_bits; destruct f4; lia).
  assert (MA : (M <= symbols f4 A)%nat) by (rewrite SyAll; apply Nat.div_le_mono; lia).
  fold (g (firstn m A)). fold (g b).
  set (quiet_part := fun j => if vis j then 0%R else 20%R).
  assert (Split : forall c, tot (g c) (seq 0 M) = (tot (fun j => if vis j then g c j else 0) (seq 0 M) + tot quiet_part (seq 0 M))%R).
  { intro c. rewrite <- tot_plus. apply tot_ext. intros i Hi. apply in_seq in Hi. unfold quiet_part. destruct (vis i) eqn:V; [lra|]. rewrite Rplus_0_l. unfold g.
    assert (L1 : length (block r (n + i)) = 20%nat) by (apply block_length; lia).
    rewrite gap_silent; [unfold body_tones; rewrite tone_samples_length; cbn [INR]; lra|unfold body_tones; rewrite tone_samples_length; exact L1| |intros z Hz; eapply tone_unit, Hz].
    intros z Hz. apply (In_nth _ _ (RtoC 0)) in Hz as (t & Ht & <-). rewrite L1 in Ht. rewrite nth_block by assumption. apply Z.
    unfold vis in V. apply negb_false_iff in V. unfold in_fade in V. apply andb_prop in V as [V1 V2]. apply Nat.leb_le in V1. apply Nat.ltb_lt in V2. lia. }
  rewrite !Split. apply Rplus_lt_compat_r.
  assert (GA : (tot (fun j => if vis j then g (firstn m A) j else 0) (seq 0 M) < 3 / 4)%R).
  { eapply Rle_lt_trans; [|exact G']. replace (symbols f4 A) with (M + (symbols f4 A - M))%nat by lia. rewrite seq_app, tot_app.
    assert (P : (0 <= tot (fun j => if vis j then g A j else 0) (seq (0 + M) (symbols f4 A - M)))%R) by (apply tot_nonneg; intro i; destruct (vis i); [apply gap_nonneg|lra]).
    rewrite (tot_ext (fun j => if vis j then g (firstn m A) j else 0%R) (fun j => if vis j then g A j else 0%R)); [lra|]. intros i Hi. apply in_seq in Hi. destruct (vis i); [|reflexivity]. unfold g, body_tones. do 2 f_equal.
    unfold symbol_tone. assert (Mb : (i * symbol_bits f4 + symbol_bits f4 <= m)%nat) by (pose proof (Nat.mul_div_le m (symbol_bits f4) ltac:(lia)); fold M in H; nia).
    unfold symbol_bits in Mb. destruct f4; rewrite !nth_firstn by lia; reflexivity. }
  (* the symbol of bit j is seen, and differs *)
  set (i := (j / symbol_bits f4)%nat).
  pose proof (Nat.div_mod j (symbol_bits f4) ltac:(lia)) as Dj. fold i in Dj. pose proof (Nat.mod_upper_bound j (symbol_bits f4) ltac:(lia)) as Uj.
  assert (iM : (i < M)%nat).
  { unfold i, M. apply Nat.even_spec in Em as [w Hw]. unfold symbol_bits. destruct f4; [|rewrite !Nat.div_1_r; lia]. rewrite Hw, (Nat.mul_comm 2 w), Nat.div_mul by lia. apply Nat.div_lt_upper_bound; lia. }
  assert (Vi : vis i = true).
  { unfold vis. apply negb_true_iff. destruct (in_fade st k (n + i)) eqn:V; [|reflexivity]. exfalso. unfold in_fade in V. apply andb_prop in V as [V1 V2]. apply Nat.leb_le in V1. apply Nat.ltb_lt in V2.
    assert (K : (symbol_bits f4 * k <= fade_bits (k_il s))%nat) by (unfold k, fade_symbols, symbol_bits, fade_bits; destruct f4, (k_il s); lia).
    enough (lost ((st - n) * symbol_bits f4) (fade_bits (k_il s)) j = true) by congruence. unfold lost. apply andb_true_intro. split; [apply Nat.leb_le; nia|apply Nat.ltb_lt; nia]. }
  assert (D3 : (3 <= gap (body_tones f4 h n (firstn m A) i) (body_tones f4 h n b i))%R).
  { apply (symbol_gap h _ _ (n + i)); auto; try apply symbol_tone_cases. apply symbol_differs. exact Nj. }
  assert (T : (tot (fun j => if vis j then gap (body_tones f4 h n (firstn m A) j) (body_tones f4 h n b j) else 0) (seq 0 M)
    <= tot (fun j => 2 * (if vis j then g (firstn m A) j else 0) + 2 * (if vis j then g b j else 0)) (seq 0 M))%R).
  { apply tot_le. intros t Ht. apply in_seq in Ht. destruct (vis t); [|lra]. apply gap_par. unfold body_tones. rewrite tone_samples_length. apply block_length. lia. }
  rewrite tot_plus, !tot_scal in T.
  assert (T3 : (3 <= tot (fun j => if vis j then gap (body_tones f4 h n (firstn m A) j) (body_tones f4 h n b j) else 0) (seq 0 M))%R).
  { apply (tot_one _ _ i); [intro t; destruct (vis t); [apply gap_nonneg|lra]|apply in_seq; lia|]. rewrite Vi. exact D3. }
  lra.
Qed.
Print Assumptions C110_silence.

(** one bit more, and two payloads can look the same: with and without interleaving *)
Definition agree_outside (st len : nat) (a b : list bool) : Prop :=
  length a = length b /\ forall i, (i < length a)%nat -> ~ (st <= i < st + len)%nat -> nth i a false = nth i b false.
Lemma agree_check st len a b : Nat.eqb (length a) (length b) && forallb (fun i => lost st len i || Bool.eqb (nth i a false) (nth i b false)) (seq 0 (length a)) = true -> agree_outside st len a b.
Proof.
  intro H. apply andb_prop in H as [H1 H2]. split; [now apply Nat.eqb_eq|]. intros i Hi N. rewrite forallb_forall in H2. specialize (H2 i ltac:(apply in_seq; lia)). apply orb_prop in H2 as [H2|H2]; [|now apply Bool.eqb_prop].
  exfalso. apply N. unfold lost in H2. apply andb_prop in H2 as [A B]. apply Nat.leb_le in A. apply Nat.ltb_lt in B. lia.
Qed.
Definition fsk_plain : res fsk :=
  fsk_new (PInt 50000) (PFloat (1 # 2)) (PInt 1) (PStr "2FSK") (PBool true) (PInt 0) (PInt 1) (PBool true) (PBool false) (PInt 8).
Lemma fsk_plain_object : exists s, fsk_plain = Ok s /\ fsk_object s.
Proof. destruct fsk_plain as [s|] eqn:E; [|vm_compute in E; discriminate]. exists s. split; [reflexivity|]. unfold fsk_object, fsk_plain in *. repeat eexists; [exact E|exact (eq_refl (fsk_history [] s))]. Qed.
Theorem C110_sharp : forall il, exists s st z1 z2 f1 f2, fsk_object s /\ k_fec s = true /\ k_il s = il
  /\ Forall is_octet z1 /\ Forall is_octet z2 /\ z1 <> z2
  /\ k_binary (fst (k_bytesToIQ (AList 1 (map inject_Z z1)) s)) = Some f1 /\ k_binary (fst (k_bytesToIQ (AList 1 (map inject_Z z2)) s)) = Some f2
  /\ agree_outside st (S (fade_bits il)) f1 f2.
Proof.
  assert (O : forall l, forallb (fun z => (0 <=? z) && (z <=? 255)) l = true -> Forall is_octet l) by (intros l H; apply Forall_forall; intros z Hz; rewrite forallb_forall in H; specialize (H z Hz); unfold is_octet; lia).
  intros [|].
  - destruct fsk_a_object as (s & E & Ob). exists s. vm_compute in E. inversion E; subst. exists 112%nat, [7; 0; 255], [7; 204; 255]. do 2 eexists.
    split; [exact Ob|]. split; [reflexivity|]. split; [reflexivity|]. split; [now apply O|]. split; [now apply O|]. split; [discriminate|]. split; [vm_compute; reflexivity|]. split; [vm_compute; reflexivity|]. apply agree_check. vm_compute. reflexivity.
  - destruct fsk_plain_object as (s & E & Ob). exists s. vm_compute in E. inversion E; subst. exists 112%nat, [0], [1]. do 2 eexists.
    split; [exact Ob|]. split; [reflexivity|]. split; [reflexivity|]. split; [now apply O|]. split; [now apply O|]. split; [discriminate|]. split; [vm_compute; reflexivity|]. split; [vm_compute; reflexivity|]. apply agree_check. vm_compute. reflexivity.
Qed.
Print Assumptions C110_sharp.

(** ** cases *)
(** 16 bits lost from the coded header on *)
Definition losing (st len : nat) (l : list bool) : list (option bool) := map (fun i => if lost st len i then None else Some (nth i l false)) (seq 0 (length l)).
Example C110_case : exists s frame received, fsk_a = Ok s /\ fsk_object s /\ k_fec s = true /\ k_il s = true
  /\ k_binary (fst (k_bytesToIQ (AList 1 (map inject_Z [7; 0; 255])) s)) = Some frame
  /\ received = losing 85 (fade_bits true) frame
  /\ (forall i, (i < length frame)%nat -> nth i received None = Some (nth i frame false) \/ (nth i received None = None /\ (85 <= i < 85 + fade_bits (k_il s))%nat))
  /\ length (filter (fun o => match o with None => true | _ => false end) received) = 16%nat.
Proof.
  destruct fsk_a_object as (s & E & O). exists s. vm_compute in E. inversion E; subst. do 2 eexists. split; [reflexivity|]. split; [exact O|]. split; [reflexivity|]. split; [reflexivity|]. split; [vm_compute; reflexivity|]. split; [reflexivity|].
  split; [|vm_compute; reflexivity]. clear. intros i Hi. unfold losing. rewrite nth_map_seq by assumption. destruct (lost 85 (fade_bits true) i) eqn:V; [right|now left]. split; [reflexivity|].
  unfold lost in V. apply andb_prop in V as [A B]. apply Nat.leb_le in A. apply Nat.ltb_lt in B. cbn [k_il]. lia.
Qed.
(** silence, and the rest as sent *)
Example C110_silence_case : exists s x f, fsk_a = Ok s /\ fsk_object s /\ k_fec s = true
  /\ snd (k_bytesToSamples (AList 1 (map inject_Z [7; 0; 255])) s) = Ok (x, f)
  /\ let k := fade_symbols (k_fsk4 s) (k_il s) in k = 16%nat
  /\ (forall i, (20 * 90 <= i < 20 * (90 + k))%nat -> nth i (faded 90 k x) (RtoC 0) = RtoC 0)
  /\ (let n := (20 * first_symbol (k_preamble s))%nat in gap (skipn n (faded 90 k x)) (skipn n (faded 90 k x)) < 3 / 4)%R.
Proof.
  destruct fsk_a_object as (s & E & O).
  assert (K : forall l, is_ok (snd (k_bytesToIQ l s)) = true -> exists x f, snd (k_bytesToSamples l s) = Ok (x, f)).
  { intros l H. rewrite (proj1 (samples_bytes l s)). destruct (snd (k_bytesToIQ l s)) as [sg|]; [|discriminate]. do 2 eexists. reflexivity. }
  destruct (K (AList 1 (map inject_Z [7; 0; 255]))) as (x & f & K1); [vm_compute in E; inversion E; subst; vm_compute; reflexivity|]. exists s, x, f.
  split; [exact E|]. split; [exact O|]. split; [vm_compute in E; inversion E; reflexivity|]. split; [exact K1|]. cbv zeta.
  split; [vm_compute in E; inversion E; reflexivity|]. set (k := fade_symbols _ _). split; [|rewrite gap_same; lra].
  intros i Hi. destruct (Nat.le_gt_cases (length x) i) as [B|S]; [apply nth_overflow; rewrite faded_length; exact B|]. unfold faded. rewrite nth_map_seq by assumption.
  rewrite (proj2 (Nat.leb_le _ _)), (proj2 (Nat.ltb_lt _ _)) by lia. reflexivity.
Qed.
