(** * C104, C105: receiving coded MR-FSK with errors and noise *)
From Coq Require Import Qreals Reals Lra.
From Coquelicot Require Import Complex.
From Verif Require Import Py MBits MPn9 Tables MFsk SBits SEntry SPn9 SFsk PList PBits PEntry PPn9 PConv PFskFec PFsk PFskGap Prop_Fsk Prop_FskGap
  MTime STime PTime SGap PGap MFskWave SFskWave Prop_FskWave SFskGap PFskNoise Prop_FskNoise SFskRx PSync Prop_FskRx SFskVit PFskVit PFskSoft.
Local Open Scope Z_scope.

(** the frame: what comes before the header, what comes after *)
Lemma frame_parts s a zs fr : fsk_object s -> k_fec s = true -> holds_octets a zs -> zs <> [] -> Forall is_octet zs -> zlen zs <= 2047 ->
  k_binary (fst (k_bytesToIQ a s)) = Some fr ->
  fr = shr_bits s ++ f_white s (body s (octet_bits zs)) /\ length (shr_bits s) = (first_symbol (k_preamble s) * symbol_bits (k_fsk4 s))%nat
  /\ Nat.even (length (f_white s (body s (octet_bits zs)))) = true /\ (64 <= length (f_white s (body s (octet_bits zs))))%nat.
Proof.
  intros Hs F Ha N O L Hb. destruct (bytes_frame s a zs Hs Ha N O L) as (fr' & E & Fr & Len). rewrite Hb in E. injection E as <-.
  apply object_valid in Hs. pose proof Hs as (_ & _ & _ & Hp & _). destruct (f_frame_inv _ _ _ Hs Fr) as [Ca ->]. split; [reflexivity|].
  rewrite shr_bits_length by assumption. split.
  - unfold shr_len, first_symbol, symbol_bits. destruct (k_fsk4 s); lia.
  - assert (LB : exists n, (32 <= n)%nat /\ length (body s (octet_bits zs)) = (2 * n)%nat).
    { rewrite body_length by assumption. rewrite F, octet_bits_length. assert (1 <= length zs)%nat by (destruct zs; [congruence|cbn; lia]).
      destruct (Z.even _); eexists; (split; [|reflexivity]); lia. }
    destruct LB as (n & Hn & LB). rewrite f_white_length by (unfold f_start; rewrite F, LB; lia). rewrite LB. split; [apply Nat.even_spec; now exists n|lia].
Qed.

(** ** C104: bits *)
(** the decoder returns an input the encoder can have been given, and none costs less *)
Theorem C104_decoder : forall scheme known cost, follows scheme (false, false, false) known (fsk_viterbi scheme known cost)
  /\ forall x, follows scheme (false, false, false) known x ->
     (spent scheme cost 0 (false, false, false) (fsk_viterbi scheme known cost) <= spent scheme cost 0 (false, false, false) x)%R.
Proof. exact fsk_viterbi_best. Qed.
Print Assumptions C104_decoder.
(** a coded frame received with at most two wrong bits after the delimiter, wherever they are *)
Theorem C104_bits : forall s a zs frame received, fsk_object s -> k_fec s = true ->
  holds_octets a zs -> zs <> [] -> Forall is_octet zs -> zlen zs <= 2047 ->
  k_binary (fst (k_bytesToIQ a s)) = Some frame -> (length frame <= length received)%nat ->
  (let n := (first_symbol (k_preamble s) * symbol_bits (k_fsk4 s))%nat in distance (skipn n received) (skipn n frame) <= 2)%nat ->
  fsk_bit_corrector (k_fsk4 s) (k_il s) (k_white s) (k_scheme s) (k_preamble s) received
  = {| rx_fcs := k_fcs s; rx_white := k_white s; rx_octets := zlen zs; rx_payload := octet_bits zs |}.
Proof.
  intros s a zs fr r Hs F Ha N O L Hb Lr D. destruct (frame_parts s a zs fr Hs F Ha N O L Hb) as (-> & LS & Ev & L64).
  cbv zeta in D. rewrite <- LS in D. rewrite skipn_exact in D by reflexivity. rewrite app_length in Lr. unfold fsk_bit_corrector. rewrite <- LS.
  apply object_valid in Hs. apply corrector_core; auto; [unfold zlen in L; lia|]. cbv zeta. set (b := f_white s _) in *. set (q := skipn (length (shr_bits s)) r) in *.
  assert (Lq : (length b <= length q)%nat) by (unfold q; rewrite skipn_length; lia). split; apply bit_separates; auto.
  - rewrite firstn_length, Nat.min_l by lia. reflexivity.
  - rewrite firstn_length. lia.
  - assert (X : forall n u v, (distance u (firstn n v) <= distance u v)%nat).
    { induction n as [|n IH]; intros u v; [rewrite firstn_O; unfold distance; destruct u; cbn; lia|].
      destruct u as [|c u], v as [|e v]; try (unfold distance; cbn; lia). specialize (IH u v). unfold distance in *. cbn [firstn xor_bits weight]. lia. }
    specialize (X 64%nat q b). lia.
Qed.
Print Assumptions C104_bits.
(** the same by a receiver that has to find the frame: listening from any symbol of the preamble on, in no window of the length
    of a delimiter more than one wrong bit, and at most two wrong bits after the delimiter *)
Theorem C104_hunt : forall s a zs frame j received, fsk_object s -> k_fec s = true ->
  holds_octets a zs -> zs <> [] -> Forall is_octet zs -> zlen zs <= 2047 -> is_ok (snd (k_bytesToIQ a s)) = true ->
  k_binary (fst (k_bytesToIQ a s)) = Some frame ->
  (j <= preamble_length (k_fsk4 s) (k_preamble s))%nat -> Nat.modulo j (symbol_bits (k_fsk4 s)) = 0%nat -> length received = (length frame - j)%nat ->
  (forall i, (j + i <= preamble_length (k_fsk4 s) (k_preamble s))%nat ->
     (distance (firstn (sfd_length (k_fsk4 s)) (skipn i received)) (firstn (sfd_length (k_fsk4 s)) (skipn (j + i) frame)) <= 1)%nat) ->
  (let n := (first_symbol (k_preamble s) * symbol_bits (k_fsk4 s))%nat in distance (skipn (n - j) received) (skipn n frame) <= 2)%nat ->
  hunting_corrector (k_fsk4 s) (k_il s) (k_white s) (k_scheme s) 1 received
  = Some (k_sfd s, true, {| rx_fcs := k_fcs s; rx_white := k_white s; rx_octets := zlen zs; rx_payload := octet_bits zs |}).
Proof.
  intros s a zs fr j r Hs F Ha N O L Ok Hb Hj Hm Lr W D. unfold hunting_corrector.
  assert (Se : sends s (bits_arg (octet_bits zs)) (octet_bits zs) fr).
  { assert (E : k_bytesToIQ a s = k_bitsToIQ (bits_arg (octet_bits zs)) s).
    { unfold k_bytesToIQ, sbind, slift. rewrite (holds_octets_ok a zs) by assumption. reflexivity. }
    rewrite E in *. split; [now apply check_binary_bits_arg, octet_bits_nonnil|]. destruct (k_bitsToIQ _ s) as [t [sg|e]]; [|discriminate]. exists t, sg. auto. }
  rewrite (C87_found s _ _ fr j r Hs Se Hj Hm Lr W), F. do 2 f_equal.
  destruct (frame_parts s a zs fr Hs F Ha N O L Hb) as (E & LS & _). pose proof Hs as Hv. apply object_valid in Hv. destruct Hv as (_ & _ & _ & Hp & _).
  assert (FS : (first_symbol (k_preamble s) * symbol_bits (k_fsk4 s) = first_symbol 0 * symbol_bits (k_fsk4 s) + preamble_length (k_fsk4 s) (k_preamble s))%nat).
  { unfold first_symbol, preamble_length, symbol_bits. destruct (k_fsk4 s); lia. }
  transitivity (fsk_bit_corrector (k_fsk4 s) (k_il s) (k_white s) (k_scheme s) (k_preamble s) (repeat false j ++ r)).
  - unfold fsk_bit_corrector. rewrite skipn_twice, FS. do 2 f_equal. rewrite skipn_app, repeat_length, (skipn_all2 (repeat false j)) by (rewrite repeat_length; lia). cbn [app]. f_equal. lia.
  - apply (C104_bits s a zs fr); auto.
    + rewrite app_length, repeat_length, Lr. assert (preamble_length (k_fsk4 s) (k_preamble s) <= length fr)%nat by (rewrite E, app_length; lia). lia.
    + cbv zeta in *. rewrite skipn_app, repeat_length, (skipn_all2 (repeat false j)) by (rewrite repeat_length; lia). cbn [app]. exact D.
Qed.
Print Assumptions C104_hunt.

(** ** C105: samples *)
Lemma symbols_app fsk4 p b : Nat.modulo (length p) (symbol_bits fsk4) = 0%nat -> symbols fsk4 (p ++ b) = (length p / symbol_bits fsk4 + symbols fsk4 b)%nat.
Proof.
  unfold symbols, symbol_bits. destruct fsk4; intro M; rewrite app_length.
  - apply Nat.mod_divides in M as [k Hk]; [|lia]. rewrite Hk, (Nat.mul_comm 2 k), Nat.div_mul, Nat.add_comm, Nat.div_add by lia. lia.
  - now rewrite Nat.div_1_r.
Qed.
Lemma symbol_tone_app fsk4 p b j : Nat.modulo (length p) (symbol_bits fsk4) = 0%nat -> symbol_tone fsk4 (p ++ b) (length p / symbol_bits fsk4 + j) = symbol_tone fsk4 b j.
Proof.
  unfold symbol_tone, symbol_bits. destruct fsk4; intro M.
  - apply Nat.mod_divides in M as [k Hk]; [|lia]. rewrite Hk, (Nat.mul_comm 2 k), Nat.div_mul by lia. rewrite !app_nth2 by lia. rewrite Hk. f_equal; f_equal; lia.
  - rewrite Nat.div_1_r, app_nth2 by lia. do 2 f_equal. lia.
Qed.
Lemma blocks_len m : forall i (F : nat -> list C), (forall j, length (F j) = 20%nat) -> length (flat_map F (seq i m)) = (20 * m)%nat.
Proof. induction m as [|m IH]; intros i0 F0 HF; [reflexivity|]. cbn [seq flat_map]. rewrite app_length, HF, IH by assumption. lia. Qed.
Lemma sample_body s a zs x f : fsk_object s -> k_fec s = true ->
  holds_octets a zs -> zs <> [] -> Forall is_octet zs -> zlen zs <= 2047 -> snd (k_bytesToSamples a s) = Ok (x, f) ->
  let b := f_white s (body s (octet_bits zs)) in let n := first_symbol (k_preamble s) in
  skipn (20 * n) x = flat_map (fun j => body_tones (k_fsk4 s) (Q2R (k_h s)) n b (j - n)) (seq n (symbols (k_fsk4 s) b))
  /\ length x = (20 * (n + symbols (k_fsk4 s) b))%nat /\ Nat.even (length b) = true /\ (64 <= length b)%nat.
Proof.
  intros Hs F Ha N O L Hx b n. destruct (bytes_frame s a zs Hs Ha N O L) as (fr & Hb & _).
  destruct (frame_parts s a zs fr Hs F Ha N O L Hb) as (E & LS & Ev & L64).
  assert (Ex : exists g, x = fsk_samples {| sig_phase := phases s fr; sig_f := g |}).
  { destruct (bytes_bits a s) as (l & [(_ & Qa & Ra)|Qa]); [|rewrite Hx in Qa; discriminate]. rewrite Qa, samples_result in Hx. rewrite Ra in Hb.
    destruct (snd (k_bitsToIQ (bits_arg l) s)) as [sg|] eqn:Sg; [|discriminate]. cbn [rbind] in Hx. injection Hx as <- _.
    destruct (signal_all s _ sg Sg) as (ba & fr' & _ & _ & Ba & -> & _). rewrite Hb in Ba. injection Ba as <-. eexists. reflexivity. }
  destruct Ex as [g Ex]. rewrite samples_blocks in Ex.
  fold b in E, Ev, L64. set (P := shr_bits s) in *. set (f4 := k_fsk4 s) in *. fold n in LS.
  assert (Sb : symbol_bits f4 <> 0%nat) by (destruct f4; cbn; lia).
  assert (M : Nat.modulo (length P) (symbol_bits f4) = 0%nat) by (rewrite LS; now apply Nat.mod_mul).
  assert (Dn : (length P / symbol_bits f4 = n)%nat) by (rewrite LS; now apply Nat.div_mul).
  assert (Sy : symbols f4 fr = (n + symbols f4 b)%nat) by (rewrite E, symbols_app, Dn by assumption; reflexivity).
  split; [|split; [|auto]].
  - rewrite Ex, Sy, seq_app, flat_map_app, skipn_exact.
    + cbn [Nat.add]. rewrite !flat_map_concat_map. f_equal. apply map_ext_in. intros j Hj. apply in_seq in Hj. unfold body_tones.
      rewrite <- (symbol_tone_app f4 P b (j - n)) by assumption. rewrite Dn, <- E. replace (n + (j - n))%nat with j by lia. reflexivity.
    + apply blocks_len. intro. now rewrite map_length, seq_length.
  - rewrite <- Sy, Ex, blocks_len; [lia|]. intro. now rewrite map_length, seq_length.
Qed.
(** a coded frame received with noise of less than a quarter of the margin on its samples after the delimiter *)
Theorem C105_noise : forall s a zs x f received, fsk_object s -> k_fec s = true ->
  holds_octets a zs -> zs <> [] -> Forall is_octet zs -> zlen zs <= 2047 ->
  snd (k_bytesToSamples a s) = Ok (x, f) -> (length x <= length received)%nat ->
  (let n := (20 * first_symbol (k_preamble s))%nat in gap (skipn n received) (skipn n x) < fsk_margin (k_fsk4 s) true / 4)%R ->
  fsk_soft_receiver (k_fsk4 s) (k_il s) (k_white s) (k_scheme s) (k_preamble s) (Q2R (k_h s)) received
  = {| rx_fcs := k_fcs s; rx_white := k_white s; rx_octets := zlen zs; rx_payload := octet_bits zs |}.
Proof.
  intros s a zs x f r Hs F Ha N O L Hx Lr G. destruct (sample_body s a zs x f Hs F Ha N O L Hx) as (Sk & Lx & Ev & L64). pose proof (index_range s Hs) as Hh.
  set (b := f_white s _) in *. set (f4 := k_fsk4 s) in *. set (n := first_symbol (k_preamble s)) in *. rewrite Lx in Lr.
  cbv zeta in G. rewrite Sk, gap_blocks in G; [|intro; apply tone_samples_length|lia].
  assert (T : (total (sample_cost f4 (Q2R (k_h s)) n r) b < fsk_margin f4 true / 4)%R).
  { rewrite sample_total by assumption. eapply Rle_lt_trans; [|exact G]. rewrite (tot_shift _ n). apply Req_le, tot_ext. intros j _. do 2 f_equal. lia. }
  unfold fsk_soft_receiver. apply object_valid in Hs. apply corrector_core; auto; [unfold zlen in L; lia|]. cbv zeta. fold b. fold n. fold f4.
  split; apply sample_separates; auto.
  - rewrite firstn_length, Nat.min_l by lia. reflexivity.
  - assert (symbols f4 (firstn 64 b) <= symbols f4 b)%nat; [|lia]. unfold symbols. rewrite firstn_length. destruct f4; [apply Nat.div_le_mono|]; lia.
  - eapply Rle_lt_trans; [apply total_prefix; [intros; apply sample_cost_nonneg|reflexivity|lia]|exact T].
Qed.
Print Assumptions C105_noise.

(** ** cases *)
(** two wrong bits, one in the coded header: the receiver of C17, which does not correct errors, misreads the frame *)
Definition wrong (i : nat) (l : list bool) : list bool := firstn i l ++ map negb (firstn 1 (skipn i l)) ++ skipn (S i) l.
Example C104_case : exists s frame, fsk_a = Ok s /\ fsk_object s /\ k_fec s = true
  /\ k_binary (fst (k_bytesToIQ (AList 1 (map inject_Z [7; 0; 255])) s)) = Some frame
  /\ is_ok (snd (k_bytesToIQ (AList 1 (map inject_Z [7; 0; 255])) s)) = true
  /\ (let n := (first_symbol (k_preamble s) * symbol_bits (k_fsk4 s))%nat in
      let received := wrong (n + 20) (wrong (n + 3) frame) in
      length received = length frame /\ distance (skipn n received) (skipn n frame) = 2%nat
      /\ fsk_receiver (k_fsk4 s) (k_preamble s) true (k_il s) (k_scheme s) received <> fsk_receiver (k_fsk4 s) (k_preamble s) true (k_il s) (k_scheme s) frame).
Proof.
  destruct fsk_a_object as (s & E & O). exists s. eexists. split; [exact E|]. split; [exact O|]. vm_compute in E. inversion E; subst. clear.
  split; [reflexivity|]. split; [vm_compute; reflexivity|]. split; [vm_compute; reflexivity|]. vm_compute. repeat split. discriminate.
Qed.
(** noise of energy 4 on a sample *)
Example C105_case : exists s x f received, fsk_a = Ok s /\ fsk_object s /\ k_fec s = true
  /\ snd (k_bytesToSamples (AList 1 (map inject_Z [7; 0; 255])) s) = Ok (x, f)
  /\ length received = length x /\ received <> x
  /\ (let n := (20 * first_symbol (k_preamble s))%nat in gap (skipn n received) (skipn n x) < fsk_margin (k_fsk4 s) true / 4)%R.
Proof.
  destruct fsk_a_object as (s & E & O).
  assert (K : forall l, is_ok (snd (k_bytesToIQ l s)) = true -> exists x f, snd (k_bytesToSamples l s) = Ok (x, f)).
  { intros l H. rewrite (proj1 (samples_bytes l s)). destruct (snd (k_bytesToIQ l s)) as [sg|]; [|discriminate]. do 2 eexists. reflexivity. }
  destruct (K (AList 1 (map inject_Z [7; 0; 255]))) as (x & f & K1); [vm_compute in E; inversion E; subst; vm_compute; reflexivity|].
  set (n := (20 * first_symbol (k_preamble s))%nat).
  destruct (skipn n x) as [|c y] eqn:Sk.
  { exfalso. apply (f_equal (@length _)) in Sk. rewrite skipn_length in Sk. cbn [length] in Sk.
    assert (F : k_fec s = true) by (vm_compute in E; inversion E; reflexivity).
    assert (Oc : Forall is_octet [7; 0; 255]) by (repeat constructor; cbn; lia).
    destruct (sample_body s _ [7; 0; 255] x f O F (HO_list _) ltac:(discriminate) Oc ltac:(cbn; lia) K1) as (_ & Lx & _ & L64). cbv zeta in Lx. fold n in Lx.
    assert (1 <= symbols (k_fsk4 s) (f_white s (body s (octet_bits [7; 0; 255]%Z))))%nat; [|unfold n in Sk; lia].
    unfold symbols. destruct (k_fsk4 s); [|lia]. apply Nat.div_le_lower_bound; lia. }
  exists s, x, f, (firstn n x ++ (c + RtoC 2)%C :: y).
  split; [exact E|]. split; [exact O|]. split; [vm_compute in E; inversion E; reflexivity|]. split; [exact K1|].
  assert (Ln : (n <= length x)%nat) by (apply (f_equal (@length _)) in Sk; rewrite skipn_length in Sk; cbn [length] in Sk; lia).
  assert (NE : (c + RtoC 2)%C <> c).
  { intro Q. apply (f_equal fst) in Q. destruct c as [u v]. cbn in Q. lra. }
  split; [|split].
  - rewrite <- (firstn_skipn n x) at 2. rewrite !app_length, Sk. reflexivity.
  - rewrite <- (firstn_skipn n x) at 2. rewrite Sk. intro Q. apply app_inv_head in Q. injection Q as Q. now apply NE.
  - cbv zeta. fold n. rewrite skipn_exact by (rewrite firstn_length; lia). rewrite Sk. cbn [gap]. rewrite gap_same.
    replace (c + RtoC 2 - c)%C with (RtoC 2) by ring. rewrite Cmod_R, Rabs_pos_eq by lra.
    assert (k_fsk4 s = false) as -> by (vm_compute in E; inversion E; reflexivity). unfold fsk_margin. lra.
Qed.
