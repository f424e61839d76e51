(** * C44 (receiver), C85, C86: receiving MR-OFDM frames *)
From Coq Require Import Reals Lra.
From Coquelicot Require Import Complex.
From Verif Require Import Py PList SBits SEntry MBits PBits PEntry MPn9 SPn9 MModul MOfdm Tables SOfdm SMrOfdm PModul POfdm MMrOfdm PStd PMrOfdm PMrRx MTime STime PTime SGap PGap SPower PPower SMrRx PRecv PChannel Prop_MrOfdm Prop_Time.

(** ** the parts of a frame *)
Lemma quarter_4 opt : 1 <= opt <= 4 -> fft_size opt = 4 * Z.of_nat (quarter opt) /\ (0 < quarter opt)%nat /\ fft_size opt / 2 = Z.of_nat (2 * quarter opt).
Proof.
  intro H. destruct (opt_quarter opt H) as [E P]. fold (quarter opt) in E, P. split; [assumption|]. split; [assumption|].
  rewrite E. replace (4 * Z.of_nat (quarter opt)) with (Z.of_nat (2 * quarter opt) * 2) by lia. apply Z.div_mul. lia.
Qed.
Lemma ltf_value opt : 1 <= opt <= 4 -> exists body, length body = (4 * quarter opt)%nat
  /\ m_LTF opt = Ok (tail_of (2 * quarter opt) body ++ body ++ body)
  /\ forall f, - (fft_size opt / 2) <= f < fft_size opt / 2 -> analyse body f = RtoC (IZR (ltf_sign opt f)).
Proof.
  intro Ho. destruct (fft_table opt Ho) as (E1 & E2 & E3 & e & l & _ & E4 & E6). destruct (quarter_4 opt Ho) as (Hq & Hq0 & N2). set (N := fft_size opt) in *. set (q := quarter opt) in *.
  destruct (bpsk_new N E2) as (c & st & E5). unfold m_LTF. rewrite E1. cbn [rbind]. rewrite E5. cbn [rbind]. rewrite E4. cbn [rbind].
  set (col := map (fun z => RtoC (IZR z)) l). assert (Lc : length col = (2 * (2 * q))%nat) by (unfold col, zlen in *; rewrite map_length; lia).
  unfold subcarriersToIQ. replace (zlen col =? N) with true by (symmetry; apply Z.eqb_eq; unfold zlen; lia). cbn [rbind].
  change (symbol_samples 0 col) with (o_ifft col). exists (o_ifft col). split; [rewrite o_ifft_length; lia|]. split.
  - unfold tail_of. rewrite o_ifft_length, Lc. replace (2 * (2 * q) - 2 * q)%nat with (2 * (2 * q) / 2)%nat; [reflexivity|]. rewrite (Nat.mul_comm 2 (2 * q)), Nat.div_mul by lia. lia.
  - intros f Hf. rewrite N2 in Hf. set (r := Z.to_nat (f + N / 2)). replace f with (Z.of_nat r - Z.of_nat (2 * q)) at 1 by (unfold r; lia).
    rewrite (analyse_o_ifft col r (2 * q)) by (unfold r; lia). unfold col. rewrite (nth_map _ _ _ 0) by (unfold r, zlen in *; lia).
    unfold ltf_sign. fold N r. do 2 f_equal. f_equal. assert (Ho' : opt = 1 \/ opt = 2 \/ opt = 3 \/ opt = 4) by lia.
    destruct Ho' as [->|[->|[->| ->]]]; injection E4 as <-; reflexivity.
Qed.
Lemma blocks_nth {A B} (F : A -> list B) n l b p (d : A) (e : B) : (forall x, In x l -> length (F x) = n) -> (b < length l)%nat -> (p < n)%nat ->
  nth (b * n + p) (flat_map F l) e = nth p (F (nth b l d)) e.
Proof.
  revert b. induction l as [|x l IH]; intros b HF Hb Hp; [cbn in Hb; lia|]. cbn [flat_map]. destruct b as [|b].
  - rewrite app_nth1; [reflexivity|]. rewrite HF by now left. lia.
  - rewrite app_nth2; rewrite HF by (now left); [|nia]. replace (S b * n + p - n)%nat with (b * n + p)%nat by lia. cbn [nth]. apply IH; auto; [|cbn in Hb; lia]. intros; apply HF; now right.
Qed.
Lemma blocks_length {A B} (F : A -> list B) n l : (forall x, In x l -> length (F x) = n) -> length (flat_map F l) = (length l * n)%nat.
Proof. induction l as [|x l IH]; intro HF; [reflexivity|]. cbn [flat_map length]. rewrite app_length, IH, HF; [lia|now left|]. intros; apply HF; now right. Qed.
Lemma prefixed_nth q b i : length b = (4 * q)%nat -> (i < 5 * q)%nat -> nth i (prefixed q b) (RtoC 0) = nth ((i + 3 * q) mod (4 * q)) b (RtoC 0).
Proof.
  intros L Hi. unfold prefixed, tail_of. destruct (Nat.lt_ge_cases i q).
  - rewrite app_nth1 by (rewrite skipn_length; lia). rewrite nth_skipn. rewrite Nat.mod_small by lia. f_equal. lia.
  - rewrite app_nth2; rewrite skipn_length; [|lia]. replace (i + 3 * q)%nat with (i - q + 1 * (4 * q))%nat by lia. rewrite Nat.mod_add, Nat.mod_small by lia. f_equal. lia.
Qed.
Lemma ltf_nth q b i : length b = (4 * q)%nat -> (i < 10 * q)%nat -> nth i (tail_of (2 * q) b ++ b ++ b) (RtoC 0) = nth ((i + 2 * q) mod (4 * q)) b (RtoC 0).
Proof.
  intros L Hi. unfold tail_of. destruct (Nat.lt_ge_cases i (2 * q)).
  - rewrite app_nth1 by (rewrite skipn_length; lia). rewrite nth_skipn. rewrite Nat.mod_small by lia. f_equal. lia.
  - rewrite app_nth2; rewrite skipn_length; [|lia]. destruct (Nat.lt_ge_cases i (6 * q)).
    + rewrite app_nth1 by lia. replace (i + 2 * q)%nat with (i - 2 * q + 1 * (4 * q))%nat by lia. rewrite Nat.mod_add, Nat.mod_small by lia. f_equal. lia.
    + rewrite app_nth2 by lia. replace (i + 2 * q)%nat with (i - 6 * q + 2 * (4 * q))%nat by lia. rewrite Nat.mod_add, Nat.mod_small by lia. f_equal. lia.
Qed.
Lemma F2_length {A B} (R : A -> B -> Prop) l1 l2 : Forall2 R l1 l2 -> length l1 = length l2.
Proof. induction 1; cbn; lia. Qed.
(** [sym n] (with its tail) is at the place of symbol n in sig *)
Record parts (opt : Z) (count : nat) (sig : list C) (lb : list C) (body : nat -> list C) : Prop := {
  p_ltf : length lb = (4 * quarter opt)%nat;
  p_body : forall n, (n < count)%nat -> length (body n) = (4 * quarter opt)%nat;
  p_length : length sig = ((30 + 5 * count) * quarter opt)%nat;
  p_ltf_at : forall i, (i < 5 * quarter opt)%nat -> nth (25 * quarter opt + i) sig (RtoC 0) = nth ((i + 3 * quarter opt) mod (4 * quarter opt)) lb (RtoC 0);
  p_body_at : forall n i, (n < count)%nat -> (i < 5 * quarter opt)%nat ->
     nth ((30 + 5 * n) * quarter opt + i) sig (RtoC 0) = nth ((i + 3 * quarter opt) mod (4 * quarter opt)) (body n) (RtoC 0) }.
Lemma frame_parts opt mcs il scr s a zs sig fr : modulator opt mcs il scr s -> holds_octets a zs -> Forall is_octet zs -> 1 <= zlen zs <= 2047 ->
  snd (m_bytesToIQ a s) = Ok (sig, fr) ->
  supported opt mcs /\ il_ok il /\ scr_ok scr /\
  exists lb body, parts opt (frame_symbols_of opt mcs il (zlen zs)) sig lb body
  /\ (forall f, - (fft_size opt / 2) <= f < fft_size opt / 2 -> analyse lb f = RtoC (IZR (ltf_sign opt f)))
  /\ forall n f, (n < frame_symbols_of opt mcs il (zlen zs))%nat -> - (fft_size opt / 2) <= f < fft_size opt / 2 ->
     analyse (body n) f = amplitude (symbol_factor opt mcs il n)
        (tone_at (fft_size opt) (nth n (frame_phr opt mcs il scr (octet_bits zs) ++ frame_payload opt mcs il scr (octet_bits zs)) []) f).
Proof.
  intros Hm Ha Hz Hl E. destruct (C41_frames opt mcs il scr s (Octets a) sig fr Hm E) as (stf & ltf & phr & pay & hb & pb & ES & EL & ESend & Esig & F1 & F2).
  apply modulator_used in Hm. destruct (used_inv _ _ _ _ _ Hm) as (H1 & H2 & H3 & _). split; [assumption|]. split; [assumption|]. split; [assumption|].
  cbn [send] in ESend. rewrite (octets_run opt mcs il scr s a zs) in ESend by assumption. cbn [snd] in ESend. injection ESend as <- <-.
  assert (Ho : 1 <= opt <= 4) by (unfold supported in H1; lia). destruct (quarter_4 opt Ho) as (Hq & Hq0 & N2).
  destruct (ltf_value opt Ho) as (lb & Llb & EL' & Alb). rewrite EL in EL'. injection EL' as ->.
  destruct (training_length opt Ho) as (q' & Hq' & _ & T1 & _). unfold stf_of in T1. rewrite ES in T1.
  assert (q' = quarter opt) by lia. subst q'. clear Hq'. set (q := quarter opt) in *. fold (quarter opt) in Esig. fold q in Esig.
  assert (Lall : forall b, In b (hb ++ pb) -> length b = (4 * q)%nat).
  { assert (X : forall k syms bs, Forall2 (carries (fft_size opt) k) syms bs -> forall b, In b bs -> length b = (4 * q)%nat).
    { clear -Hq. intros k syms bs F. induction F as [|y b syms bs [L _] F IH]; intros b' Hb; [destruct Hb|]. destruct Hb as [<-|Hb]; [lia|auto]. }
    intros b Hb. apply in_app_or in Hb as [Hb|Hb]; [apply (X _ _ _ F1 b Hb)|apply (X _ _ _ F2 b Hb)]. }
  pose proof (header_symbols_eq opt mcs il H1 H2) as HS.
  assert (NP : payload_symbols_of opt mcs (zlen zs) = npay opt mcs (length (octet_bits zs))).
  { unfold payload_symbols_of, npay. rewrite octet_bits_length. do 2 f_equal. unfold zlen. lia. }
  pose proof (F2_length _ _ _ F1) as G1. pose proof (F2_length _ _ _ F2) as G2. unfold frame_phr in G1. unfold frame_payload in G2. rewrite map_length, seq_length in G1, G2.
  assert (Lb : length (hb ++ pb) = frame_symbols_of opt mcs il (zlen zs)) by (unfold frame_symbols_of; rewrite HS, NP, app_length; lia).
  assert (LP : forall b, In b (hb ++ pb) -> length (prefixed q b) = (5 * q)%nat) by (intros b Hb; rewrite prefixed_length; rewrite (Lall b Hb); lia).
  assert (LL : length (tail_of (2 * q) lb ++ lb ++ lb) = (10 * q)%nat) by (rewrite !app_length; unfold tail_of; rewrite skipn_length; lia).
  exists lb, (fun n => nth n (hb ++ pb) []). split; [constructor|split].
  - exact Llb.
  - intros n Hn. apply Lall, nth_In. lia.
  - fold q. rewrite Esig, app_length, T1, (app_length (tail_of (2 * q) lb ++ lb ++ lb)), LL, (blocks_length (prefixed q) (5 * q)), Lb by exact LP. lia.
  - fold q. intros i Hi. rewrite Esig, app_nth2, T1 by lia. rewrite (app_nth1 (tail_of (2 * q) lb ++ lb ++ lb)) by (rewrite LL; lia). rewrite ltf_nth by (assumption || lia).
    f_equal. replace (25 * q + i - 20 * q + 2 * q)%nat with (i + 3 * q + 1 * (4 * q))%nat by lia. apply Nat.mod_add. lia.
  - fold q. intros n i Hn Hi. rewrite Esig, app_nth2, T1 by lia. rewrite (app_nth2 (tail_of (2 * q) lb ++ lb ++ lb)); rewrite LL; [|lia].
    replace ((30 + 5 * n) * q + i - 20 * q - 10 * q)%nat with (n * (5 * q) + i)%nat by lia.
    rewrite (blocks_nth (prefixed q) (5 * q) (hb ++ pb) n i [] (RtoC 0)) by (try exact LP; lia). apply prefixed_nth; [|lia]. apply Lall, nth_In. lia.
  - exact Alb.
  - intros n f Hn Hf. unfold symbol_factor, symbol_modulation. rewrite HS.
    assert (X : forall k syms bs, Forall2 (carries (fft_size opt) k) syms bs -> forall n, (n < length bs)%nat -> analyse (nth n bs []) f = amplitude k (tone_at (fft_size opt) (nth n syms []) f)).
    { clear -Hf. intros k syms bs F. induction F as [|y b syms bs (_ & A & _) F IH]; intros n Hn; [cbn in Hn; lia|]. destruct n as [|n]; [cbn [nth]; auto|]. cbn [nth]. apply IH. cbn in Hn. lia. }
    pose proof (F2_length _ _ _ F1) as G1'. rewrite app_length in Lb. destruct (Nat.ltb_spec n (nphr opt mcs il)).
    + rewrite !app_nth1 by lia. apply X; [assumption|lia].
    + rewrite !app_nth2 by lia. rewrite G1'. apply X; [assumption|lia].
Qed.
Lemma data_freq_used opt n f : In f (data_freqs opt n) -> (- (fft_size opt / 2) <= f < fft_size opt - fft_size opt / 2) /\ guard_or_dc (fft_size opt) (guard_left opt) (guard_right opt) f = false.
Proof.
  intro Hf. unfold data_freqs in Hf. apply filter_In in Hf as [Hf HP]. apply freqs_In in Hf. unfold is_data in HP. apply andb_true_iff in HP as [_ H2]. apply negb_true_iff in H2. split; [lia|assumption].
Qed.
Lemma parts_body opt count sig lb body n : parts opt count sig lb body -> (n < count)%nat -> rx_body opt sig n = body n.
Proof.
  intros P Hn. destruct P as [P1 P2 P3 P4 P5]. set (q := quarter opt) in *. specialize (P2 n Hn). unfold rx_body. fold q.
  apply (nth_ext _ _ (RtoC 0) (RtoC 0)); rewrite firstn_length, skipn_length, P3; [nia|]. intros i Hi. rewrite nth_firstn, nth_skipn by lia.
  replace ((31 + 5 * n) * q + i)%nat with ((30 + 5 * n) * q + (q + i))%nat by lia. rewrite P5 by lia. f_equal.
  replace (q + i + 3 * q)%nat with (i + 1 * (4 * q))%nat by lia. rewrite Nat.mod_add, Nat.mod_small by lia. reflexivity.
Qed.

(** ** C44: a receiver that knows only the option and the interleaving mode *)
Theorem C44_receiver opt mcs il scr s a zs sig fr : modulator opt mcs il scr s -> holds_octets a zs -> Forall is_octet zs -> 1 <= zlen zs <= 2047 ->
  snd (m_bytesToIQ a s) = Ok (sig, fr) ->
  mr_receiver opt il (rx_tone opt sig) = {| f_mcs := mcs; f_scrambler := scr; f_octets := zs |}.
Proof.
  intros Hm Ha Hz Hl E. destruct (frame_parts _ _ _ _ _ _ _ _ _ Hm Ha Hz Hl E) as (H1 & H2 & H3 & lb & body & P & _ & A).
  assert (Ho : 1 <= opt <= 4) by (unfold supported in H1; lia). destruct (quarter_4 opt Ho) as (Hq & Hq0 & N2).
  apply receiver_core; auto. intros n f Hn Hf. apply data_freq_used in Hf as [Hf _]. unfold rx_tone. rewrite (parts_body _ _ _ _ _ _ P Hn), A by (auto; lia).
  match goal with |- (Cmod (Cminus ?x ?x) < _)%R => replace (Cminus x x) with (RtoC 0) by ring end. rewrite Cmod_0. unfold symbol_factor. apply norm_pos.
Qed.
Print Assumptions C44_receiver.

(** ** C85: noise *)
Theorem C85_subcarriers opt mcs il scr s a zs sig fr r : modulator opt mcs il scr s -> holds_octets a zs -> Forall is_octet zs -> 1 <= zlen zs <= 2047 ->
  snd (m_bytesToIQ a s) = Ok (sig, fr) ->
  (forall n f, (n < frame_symbols_of opt mcs il (zlen zs))%nat -> In f (data_freqs opt n) ->
     (Cmod (rx_tone opt r n f - rx_tone opt sig n f)%C < symbol_factor opt mcs il n)%R) ->
  mr_receiver opt il (rx_tone opt r) = {| f_mcs := mcs; f_scrambler := scr; f_octets := zs |}.
Proof.
  intros Hm Ha Hz Hl E Hr. destruct (frame_parts _ _ _ _ _ _ _ _ _ Hm Ha Hz Hl E) as (H1 & H2 & H3 & lb & body & P & _ & A).
  assert (Ho : 1 <= opt <= 4) by (unfold supported in H1; lia). destruct (quarter_4 opt Ho) as (Hq & Hq0 & N2).
  apply receiver_core; auto. intros n f Hn Hf. specialize (Hr n f Hn Hf). apply data_freq_used in Hf as [Hf _].
  unfold rx_tone at 2 in Hr. rewrite (parts_body _ _ _ _ _ _ P Hn), A in Hr by (auto; lia). exact Hr.
Qed.
Print Assumptions C85_subcarriers.
(** the same in terms of the samples: noise energy in the useful part of each symbol below the square of the decision distance *)
Theorem C85_samples opt mcs il scr s a zs sig fr r : modulator opt mcs il scr s -> holds_octets a zs -> Forall is_octet zs -> 1 <= zlen zs <= 2047 ->
  snd (m_bytesToIQ a s) = Ok (sig, fr) -> length r = length sig ->
  (forall n, (n < frame_symbols_of opt mcs il (zlen zs))%nat -> (gap (rx_body opt r n) (rx_body opt sig n) < symbol_factor opt mcs il n ^ 2)%R) ->
  mr_receiver opt il (rx_tone opt r) = {| f_mcs := mcs; f_scrambler := scr; f_octets := zs |}.
Proof.
  intros Hm Ha Hz Hl E Hlen Hr. eapply C85_subcarriers; eauto. intros n f Hn Hf. specialize (Hr n Hn).
  assert (L : length (rx_body opt r n) = length (rx_body opt sig n)) by (unfold rx_body; rewrite !firstn_length, !skipn_length, Hlen; reflexivity).
  pose proof (analyse_error _ _ f L) as B. fold (rx_tone opt r n f) (rx_tone opt sig n f) in B.
  assert (K : (0 < symbol_factor opt mcs il n)%R) by apply norm_pos. pose proof (Cmod_ge_0 (rx_tone opt r n f - rx_tone opt sig n f)%C). nra.
Qed.
Print Assumptions C85_samples.
(** the decision distances: 1 for BPSK, 1/sqrt 2 for QPSK, 1/sqrt 10 for 16-QAM *)
Example C85_case : exists s, modulator 3 5 1 2 s /\ is_ok (snd (send (Octets (ABytes [x55; x0f])) s)) = true
  /\ frame_symbols_of 3 5 1 2 = 7%nat /\ symbol_factor 3 5 1 0 = 1%R /\ symbol_factor 3 5 1 6 = (1 / sqrt 10)%R.
Proof.
  eexists. split; [exists (PInt 5), (PInt 3), (PInt 1), (PInt 2); eexists; exists []; repeat split; reflexivity|]. split; [vm_compute; reflexivity|].
  split; [reflexivity|]. split; reflexivity.
Qed.

(** ** C86: multipath *)
Lemma through_body opt count sig lb body h n f : parts opt count sig lb body -> 1 <= opt <= 4 -> (length h <= S (quarter opt))%nat -> (n < count)%nat ->
  rx_tone opt (through h sig) n f = Cmult (response (fft_size opt) h f) (analyse (body n) f).
Proof.
  intros P Ho Hh Hn. destruct (quarter_4 opt Ho) as (Hq & Hq0 & _). destruct P as [P1 P2 P3 P4 P5]. set (q := quarter opt) in *. unfold rx_tone, rx_body. fold q.
  rewrite (window_through h sig (body n) _ (4 * q) q f); [f_equal; f_equal; lia|lia|now apply P2|assumption|lia|lia|rewrite P3; nia|].
  intros i Hi. replace ((31 + 5 * n) * q - q + i)%nat with ((30 + 5 * n) * q + i)%nat by lia. rewrite P5 by lia. f_equal. f_equal. lia.
Qed.
Lemma through_ltf opt count sig lb body h f : parts opt count sig lb body -> 1 <= opt <= 4 -> (length h <= S (quarter opt))%nat ->
  analyse (rx_ltf opt (through h sig)) f = Cmult (response (fft_size opt) h f) (analyse lb f).
Proof.
  intros P Ho Hh. destruct (quarter_4 opt Ho) as (Hq & Hq0 & _). destruct P as [P1 P2 P3 P4 P5]. set (q := quarter opt) in *. unfold rx_ltf. fold q.
  rewrite (window_through h sig lb _ (4 * q) q f); [f_equal; f_equal; lia|lia|assumption|assumption|lia|lia|rewrite P3; nia|].
  intros i Hi. replace (26 * q - q + i)%nat with (25 * q + i)%nat by lia. rewrite P4 by lia. f_equal. f_equal. lia.
Qed.
Lemma ltf_sign_used opt f : 1 <= opt <= 4 -> - (fft_size opt / 2) <= f < fft_size opt / 2 -> guard_or_dc (fft_size opt) (guard_left opt) (guard_right opt) f = false ->
  ltf_sign opt f = 1 \/ ltf_sign opt f = -1.
Proof.
  intros Ho Hf Hg. destruct (quarter_4 opt Ho) as (Hq & Hq0 & N2).
  assert (I : In f (freqs (fft_size opt))) by (apply freqs_In; lia).
  assert (T : forallb (fun f => guard_or_dc (fft_size opt) (guard_left opt) (guard_right opt) f || (ltf_sign opt f =? 1) || (ltf_sign opt f =? -1)) (freqs (fft_size opt)) = true).
  { clear -Ho. assert (Ho' : opt = 1 \/ opt = 2 \/ opt = 3 \/ opt = 4) by lia. destruct Ho' as [->|[->|[->| ->]]]; vm_compute; reflexivity. }
  rewrite forallb_forall in T. specialize (T f I). rewrite Hg in T. cbn [orb] in T. apply orb_prop in T as [T|T]; apply Z.eqb_eq in T; auto.
Qed.
(** the channel measured on the LTF is the channel *)
Theorem C86_measured opt mcs il scr s a zs sig fr h f : modulator opt mcs il scr s -> holds_octets a zs -> Forall is_octet zs -> 1 <= zlen zs <= 2047 ->
  snd (m_bytesToIQ a s) = Ok (sig, fr) -> (length h <= S (quarter opt))%nat ->
  - (fft_size opt / 2) <= f < fft_size opt / 2 -> guard_or_dc (fft_size opt) (guard_left opt) (guard_right opt) f = false ->
  measured opt (through h sig) f = response (fft_size opt) h f.
Proof.
  intros Hm Ha Hz Hl E Hh Hf Hg. destruct (frame_parts _ _ _ _ _ _ _ _ _ Hm Ha Hz Hl E) as (H1 & H2 & H3 & lb & body & P & B & _).
  assert (Ho : 1 <= opt <= 4) by (unfold supported in H1; lia). unfold measured. rewrite (through_ltf _ _ _ _ _ _ f P Ho Hh), B by assumption.
  rewrite <- Cmult_assoc, <- RtoC_mult, <- mult_IZR. destruct (ltf_sign_used opt f Ho Hf Hg) as [-> | ->]; cbn [Z.mul Pos.mul]; ring.
Qed.
Print Assumptions C86_measured.
Theorem C86_multipath opt mcs il scr s a zs sig fr h : modulator opt mcs il scr s -> holds_octets a zs -> Forall is_octet zs -> 1 <= zlen zs <= 2047 ->
  snd (m_bytesToIQ a s) = Ok (sig, fr) -> (length h <= S (quarter opt))%nat ->
  (forall f, - (fft_size opt / 2) <= f < fft_size opt / 2 -> guard_or_dc (fft_size opt) (guard_left opt) (guard_right opt) f = false ->
     response (fft_size opt) h f <> RtoC 0) ->
  mr_receiver opt il (equalised opt (through h sig)) = {| f_mcs := mcs; f_scrambler := scr; f_octets := zs |}.
Proof.
  intros Hm Ha Hz Hl E Hh Hr. destruct (frame_parts _ _ _ _ _ _ _ _ _ Hm Ha Hz Hl E) as (H1 & H2 & H3 & lb & body & P & B & A).
  assert (Ho : 1 <= opt <= 4) by (unfold supported in H1; lia). destruct (quarter_4 opt Ho) as (Hq & Hq0 & N2).
  apply receiver_core; auto. intros n f Hn Hf. apply data_freq_used in Hf as [Hf Hg].
  unfold equalised. rewrite (C86_measured opt mcs il scr s a zs sig fr h f) by (auto; lia). rewrite (through_body _ _ _ _ _ _ _ f P Ho Hh Hn), A by (auto; lia).
  match goal with |- (Cmod (Cminus (Cdiv (Cmult ?h0 ?x) _) _) < _)%R => replace (Cminus (Cdiv (Cmult h0 x) h0) x) with (RtoC 0) by (field; apply Hr; [lia|assumption]) end.
  rewrite Cmod_0. unfold symbol_factor. apply norm_pos.
Qed.
Print Assumptions C86_multipath.
(** multipath and noise: [d] bounds the error of every used subcarrier of the LTF and of the symbols *)
Lemma tone_bound opt mcs col v bits n k n0 f : supported opt mcs -> length bits = (k * coded_bits opt mcs)%nat -> (n < k)%nat ->
  (n0 mod length (pilot_sets opt) = Z.to_nat ((col + Z.of_nat n) mod zlen (std_sets opt)))%nat -> In f (data_freqs opt n0) ->
  (Cmod (amplitude (norm_factor (mcs_modulation mcs)) (tone_at (fft_size opt) (sym opt mcs col v bits n) f)) <= sqrt (strongest (mcs_modulation mcs)))%R.
Proof.
  intros H Hl Hn Hc Hf. set (m := mcs_modulation mcs). destruct (data_freqs_tones opt mcs col v bits n0 n f Hc Hf) as [g Eg]. rewrite Eg, amplitude_value.
  pose proof (sym_read opt mcs col v bits n k H Hl Hn) as R.
  assert (ED : data_freqs opt n0 = filter (is_data (fft_size opt) (guard_left opt) (guard_right opt) (pset_of opt col n)) (freqs (fft_size opt))).
  { unfold data_freqs, pilots_of, pset_of. change (pilot_sets opt) with (std_sets opt) in *. now rewrite Hc. }
  assert (In g (symbol_data m (mcs_spreading mcs) (block opt mcs bits n))) as Ig.
  { unfold m. rewrite <- R. unfold read_data. rewrite <- ED. apply in_map_iff. exists f. rewrite Eg. auto. }
  pose proof (data_ring m (mcs_spreading mcs) (block opt mcs bits n)) as F. rewrite Forall_forall in F.
  assert (B : ring m (power g)).
  { apply F; [|assumption]. rewrite (block_length opt mcs bits n k Hl Hn), (coded_points opt mcs H). apply mod_mult. pose proof (group_size_pos m). lia. }
  apply ring_bounds in B. rewrite <- tone_power in B. rewrite <- (sqrt_pow2 (Cmod (tone_value (norm_factor m) (TData g)))) by apply Cmod_ge_0. apply sqrt_le_1_alt. lra.
Qed.
Lemma frame_bound opt mcs il scr zs n f : supported opt mcs -> il_ok il -> scr_ok scr -> 1 <= zlen zs <= 2047 -> (n < frame_symbols_of opt mcs il (zlen zs))%nat -> In f (data_freqs opt n) ->
  (Cmod (amplitude (symbol_factor opt mcs il n) (tone_at (fft_size opt) (nth n (frame_phr opt mcs il scr (octet_bits zs) ++ frame_payload opt mcs il scr (octet_bits zs)) []) f))
   <= sqrt (strongest (symbol_modulation opt mcs il n)))%R.
Proof.
  intros H Hi Hs Hl Hn Hf. pose proof (supported_low opt mcs H) as Hlow. pose proof (supported_opt _ _ H) as Ho.
  pose proof (header_symbols_eq opt mcs il H Hi) as HS.
  assert (NP : payload_symbols_of opt mcs (zlen zs) = npay opt mcs (length (octet_bits zs))).
  { unfold payload_symbols_of, npay. rewrite octet_bits_length. do 2 f_equal. unfold zlen. lia. }
  unfold symbol_factor, symbol_modulation, frame_symbols_of in *. rewrite HS in *. rewrite NP in Hn. unfold frame_phr, frame_payload. rewrite app_nth_map by lia.
  destruct (Nat.ltb_spec n (nphr opt mcs il)) as [L|L].
  - apply (tone_bound opt (lowest_mcs opt) 0 511 _ n (nphr opt mcs il) n); auto; [now apply hdr_sent_length|]. exact (pilots_turn opt 0 n Ho).
  - eapply tone_bound; [assumption|now apply pay_sent_length|lia| |exact Hf].
    replace n with (nphr opt mcs il + (n - nphr opt mcs il))%nat at 1 by lia. now apply pilots_turn.
Qed.
Theorem C86_noise opt mcs il scr s a zs sig fr h r d : modulator opt mcs il scr s -> holds_octets a zs -> Forall is_octet zs -> 1 <= zlen zs <= 2047 ->
  snd (m_bytesToIQ a s) = Ok (sig, fr) -> (length h <= S (quarter opt))%nat ->
  (forall n f, (n < frame_symbols_of opt mcs il (zlen zs))%nat -> In f (data_freqs opt n) ->
     (Cmod (analyse (rx_ltf opt r) f - analyse (rx_ltf opt (through h sig)) f)%C <= d)%R
     /\ (Cmod (rx_tone opt r n f - rx_tone opt (through h sig) n f)%C <= d)%R
     /\ (d * (1 + sqrt (strongest (symbol_modulation opt mcs il n)) + symbol_factor opt mcs il n)
         < symbol_factor opt mcs il n * Cmod (response (fft_size opt) h f))%R) ->
  mr_receiver opt il (equalised opt r) = {| f_mcs := mcs; f_scrambler := scr; f_octets := zs |}.
Proof.
  intros Hm Ha Hz Hl E Hh Hr. destruct (frame_parts _ _ _ _ _ _ _ _ _ Hm Ha Hz Hl E) as (H1 & H2 & H3 & lb & body & P & B & A).
  assert (Ho : 1 <= opt <= 4) by (unfold supported in H1; lia). destruct (quarter_4 opt Ho) as (Hq & Hq0 & N2).
  apply receiver_core; auto. intros n f Hn Hf. destruct (Hr n f Hn Hf) as (R1 & R2 & R3).
  pose proof (frame_bound opt mcs il scr zs n f H1 H2 H3 Hl Hn Hf) as X. apply data_freq_used in Hf as [Hf Hg].
  rewrite (through_ltf _ _ _ _ _ _ f P Ho Hh), B in R1 by lia. rewrite (through_body _ _ _ _ _ _ _ f P Ho Hh Hn), A in R2 by (auto; lia).
  unfold equalised, measured. set (k := symbol_factor opt mcs il n) in *. set (x := amplitude k _) in *. set (H0 := response _ _ _) in *.
  set (u := analyse (rx_ltf opt r) f) in *. set (w := rx_tone opt r n f) in *. set (S := sqrt (strongest _)) in *. set (g := RtoC (IZR (ltf_sign opt f))) in *.
  assert (G : Cmult g g = RtoC 1 /\ Cmod g = 1%R).
  { unfold g. rewrite <- RtoC_mult, <- mult_IZR, Cmod_R. destruct (ltf_sign_used opt f Ho ltac:(lia) Hg) as [-> | ->]; split; try reflexivity; [rewrite Rabs_right|rewrite Rabs_left]; lra. }
  destruct G as [G1 G2]. assert (K : (0 < k)%R) by (unfold k, symbol_factor; apply norm_pos). clearbody g k x H0 u w S.
  set (v := Cmult u g). assert (V : (Cmod (v - H0)%C <= d)%R).
  { replace (v - H0)%C with ((u - H0 * g) * g)%C; [rewrite Cmod_mult, G2, Rmult_1_r; exact R1|]. unfold v. transitivity (u * g - H0 * (g * g))%C; [ring|]. rewrite G1. ring. }
  pose proof (Cmod_ge_0 (v - H0)%C) as D0. pose proof (Cmod_ge_0 x) as X0. pose proof (Cmod_ge_0 (w - H0 * x)%C) as W0.
  assert (V1 : (Cmod H0 - d <= Cmod v)%R).
  { pose proof (Cmod_triangle v (H0 - v)%C) as T. replace (v + (H0 - v))%C with H0 in T by ring. replace (H0 - v)%C with (- (v - H0))%C in T by ring. rewrite Cmod_opp in T. lra. }
  assert (Vp : (0 < Cmod v)%R) by nra. assert (Vn : v <> RtoC 0) by now apply Cmod_gt_0.
  replace (Cminus (Cdiv w v) x) with (Cdiv ((w - H0 * x) - (v - H0) * x)%C v) by (field; assumption).
  unfold Cdiv. rewrite Cmod_mult, Cmod_inv by assumption. apply (Rmult_lt_reg_r (Cmod v)); [assumption|]. rewrite Rmult_assoc, Rinv_l, Rmult_1_r by lra.
  assert (T : (Cmod ((w - H0 * x) - (v - H0) * x)%C <= d + d * S)%R).
  { unfold Cminus at 1. eapply Rle_trans; [apply Cmod_triangle|]. rewrite Cmod_opp, Cmod_mult.
    assert (Cmod (v - H0)%C * Cmod x <= d * S)%R by (apply Rmult_le_compat; assumption). unfold Cminus in *. lra. }
  nra.
Qed.
Print Assumptions C86_noise.
(** special cases: unknown gain and phase; windows taken up to a quarter of a symbol too early *)
Lemma through_gain g sig : through [g] sig = map (Cmult g) sig.
Proof.
  apply (nth_ext _ _ (RtoC 0) (RtoC 0)); unfold through; rewrite !map_length, seq_length; [reflexivity|]. intros i Hi. rewrite nth_map_seq by assumption.
  rewrite (nth_map (Cmult g) sig i (RtoC 0) (RtoC 0)) by assumption. cbn [length csum nth Nat.leb]. rewrite Nat.sub_0_r. ring.
Qed.
Lemma cis_not_0 x : cis x <> RtoC 0.
Proof.
  intro E. apply (f_equal Cmod) in E. rewrite Cmod_0 in E. unfold Cmod, cis in E. cbn [fst snd] in E. pose proof (sin2_cos2 x) as T. unfold Rsqr in T.
  replace (cos x ^ 2 + sin x ^ 2)%R with 1%R in E by lra. rewrite sqrt_1 in E. lra.
Qed.
Theorem C86_gain opt mcs il scr s a zs sig fr g : modulator opt mcs il scr s -> holds_octets a zs -> Forall is_octet zs -> 1 <= zlen zs <= 2047 ->
  snd (m_bytesToIQ a s) = Ok (sig, fr) -> g <> RtoC 0 ->
  mr_receiver opt il (equalised opt (map (Cmult g) sig)) = {| f_mcs := mcs; f_scrambler := scr; f_octets := zs |}.
Proof.
  intros Hm Ha Hz Hl E Hg. rewrite <- through_gain. eapply C86_multipath; eauto; [cbn; lia|]. intros f Hf _. unfold response. cbn [length csum nth].
  change unit_at with cis. intro Z. apply Hg. rewrite <- (Cmult_0_l (Cinv (cis (- (2 * PI * (IZR f * INR 0 / IZR (fft_size opt))))))), <- Z. field. apply cis_not_0.
Qed.
Print Assumptions C86_gain.
Lemma through_delay d sig : (d <= length sig)%nat -> through (repeat (RtoC 0) d ++ [RtoC 1]) sig = repeat (RtoC 0) d ++ firstn (length sig - d) sig.
Proof.
  intro Hd. apply (nth_ext _ _ (RtoC 0) (RtoC 0)); unfold through; rewrite map_length, seq_length.
  { rewrite app_length, repeat_length, firstn_length. lia. }
  intros t Ht. rewrite nth_map_seq by assumption. change csum with Csum. rewrite app_length, repeat_length. cbn [length].
  rewrite (Csum_single _ (d + 1) d); [|lia|].
  - rewrite (app_nth2 (repeat (RtoC 0) d) [RtoC 1]) by (rewrite repeat_length; lia). rewrite repeat_length, Nat.sub_diag. cbn [nth].
    destruct (Nat.leb_spec d t).
    + rewrite app_nth2 by (rewrite repeat_length; lia). rewrite repeat_length, nth_firstn by lia. ring.
    + rewrite app_nth1 by (rewrite repeat_length; lia). symmetry. apply nth_repeat.
  - intros i Hi Hne. destruct (Nat.leb i t); [|reflexivity]. rewrite app_nth1 by (rewrite repeat_length; lia). rewrite nth_repeat. ring.
Qed.
Theorem C86_timing opt mcs il scr s a zs sig fr d : modulator opt mcs il scr s -> holds_octets a zs -> Forall is_octet zs -> 1 <= zlen zs <= 2047 ->
  snd (m_bytesToIQ a s) = Ok (sig, fr) -> (d <= quarter opt)%nat ->
  mr_receiver opt il (equalised opt (repeat (RtoC 0) d ++ firstn (length sig - d) sig)) = {| f_mcs := mcs; f_scrambler := scr; f_octets := zs |}.
Proof.
  intros Hm Ha Hz Hl E Hd. destruct (frame_parts _ _ _ _ _ _ _ _ _ Hm Ha Hz Hl E) as (_ & _ & _ & lb & body & P & _).
  pose proof (p_length _ _ _ _ _ P) as Ls. rewrite <- through_delay by nia. eapply C86_multipath; eauto; [rewrite app_length, repeat_length; cbn; lia|].
  intros f Hf _. unfold response. change csum with Csum. change unit_at with cis. rewrite app_length, repeat_length. cbn [length].
  rewrite (Csum_single _ (d + 1) d); [|lia|].
  - rewrite app_nth2 by (rewrite repeat_length; lia). rewrite repeat_length, Nat.sub_diag. cbn [nth]. rewrite Cmult_1_l. apply cis_not_0.
  - intros i Hi Hne. rewrite app_nth1 by (rewrite repeat_length; lia). rewrite nth_repeat. ring.
Qed.
Print Assumptions C86_timing.
(** a channel with an echo of half the amplitude, q samples later, meets the hypotheses of C86_multipath *)
Example C86_case : exists s, modulator 3 5 1 2 s /\ is_ok (snd (send (Octets (ABytes [x55; x0f])) s)) = true
  /\ let h := RtoC 1 :: repeat (RtoC 0) 7 ++ [RtoC (/ 2)] in (length h <= S (quarter 3))%nat
     /\ forall f, response (fft_size 3) h f <> RtoC 0.
Proof.
  eexists. split; [exists (PInt 5), (PInt 3), (PInt 1), (PInt 2); eexists; exists []; repeat split; reflexivity|]. split; [vm_compute; reflexivity|].
  cbv zeta. split; [vm_compute; lia|]. intros f E. unfold response in E. cbn [repeat app length csum nth] in E. change unit_at with cis in E.
  set (x0 := cis _) in E at 1. set (x8 := cis (- (2 * PI * (IZR f * INR 8 / _)))) in E.
  assert (M : forall x, Cmod (cis x) = 1%R).
  { intro x. unfold Cmod, cis. cbn [fst snd]. pose proof (sin2_cos2 x) as T. unfold Rsqr in T. replace (cos x ^ 2 + sin x ^ 2)%R with 1%R by lra. apply sqrt_1. }
  assert (E' : x0 = (- (RtoC (/ 2) * x8))%C).
  { match type of E with ?l = _ => replace l with (x0 + RtoC (/ 2) * x8)%C in E by ring end.
    transitivity (x0 + RtoC (/ 2) * x8 - RtoC (/ 2) * x8)%C; [ring|]. rewrite E. ring. }
  apply (f_equal Cmod) in E'. rewrite Cmod_opp, Cmod_mult, Cmod_R in E'. unfold x0, x8 in E'. rewrite !M in E'. rewrite Rabs_right in E' by lra. lra.
Qed.
