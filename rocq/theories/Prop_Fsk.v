(** * Properties C08-C22 and C61: MR-FSK *)
From Verif Require Import Py MBits MPn9 Tables MFsk SBits SEntry SPn9 SFsk PList PBits PEntry PPn9 PConv PFskFec PFsk.

(** C08: construction succeeds exactly when every argument is good; otherwise the first bad argument (in the order
    rate, index, SFD, preamble length, modulation, FEC, scheme, FCS type, whitening, interleaving) decides *)
Theorem C08_outcome : forall rate h sfdg modulation fec scheme fcs white il preamble,
  match first_bad [rate_arg rate; index_arg h; zero_or_one sfdg;
                   integer_arg preamble (fun z => (4 <=? z) && (z <=? 1000)); modulation_arg modulation;
                   bool_arg fec; zero_or_one scheme; zero_or_one fcs;
                   integer_arg white (fun _ => true); bool_arg il] with
  | Good => exists s, fsk_new rate h sfdg modulation fec scheme fcs white il preamble = Ok s
      /\ reads_rate rate (k_rate s) /\ 0 < k_rate s
      /\ reads_num h (k_h s) /\ (1 # 4 <= k_h s <= 5 # 2)%Q
      /\ reads_int sfdg (k_sfd s) /\ (k_sfd s = 0 \/ k_sfd s = 1)
      /\ reads_int preamble (k_preamble s) /\ 4 <= k_preamble s <= 1000
      /\ modulation = PStr (if k_fsk4 s then "4FSK" else "2FSK")
      /\ fec = PBool (k_fec s)
      /\ reads_int scheme (k_scheme s) /\ (k_scheme s = 0 \/ k_scheme s = 1)
      /\ reads_int fcs (k_fcs s) /\ (k_fcs s = 0 \/ k_fcs s = 1)
      /\ (exists z, reads_int white z /\ k_white s = negb (z =? 0))
      /\ il = PBool (k_il s)
      /\ k_phr_psdu s = None /\ k_encoded s = None /\ k_interleaved s = None
      /\ k_scrambled s = None /\ k_binary s = None
  | BadType => fsk_new rate h sfdg modulation fec scheme fcs white il preamble = Err TypeError
  | BadValue => fsk_new rate h sfdg modulation fec scheme fcs white il preamble = Err ValueError
  end.
Proof. exact fsk_new_outcome. Qed.
Print Assumptions C08_outcome.
Definition fsk_a : res fsk :=
  fsk_new (PInt 50000) (PFloat (1 # 2)) (PInt 1) (PStr "2FSK") (PBool true) (PInt 1) (PInt 1) (PBool true) (PBool true) (PInt 8).
Definition fsk_b : res fsk :=
  fsk_new (PFloat 100000) (PInt 1) (PInt 0) (PStr "4FSK") (PBool false) (PInt 0) (PInt 0) (PInt 7) (PBool false) (PInt 4).
Example C08_case :
  is_ok fsk_a = true /\ is_ok fsk_b = true
  /\ fsk_new (PInt 50000) (PInt 3) (PInt 5) (PStr "2FSK") (PBool true) (PInt 1) (PInt 1) (PBool true) (PBool true) (PInt 8) = Err ValueError
  /\ fsk_new (PInt 50000) (PInt 1) (PInt 1) (PStr "2FSK") (PInt 1) (PInt 1) (PInt 1) (PBool true) (PBool true) (PInt 8) = Err TypeError.
Proof. vm_compute. repeat split. Qed.

(** [fsk_object s]: s was built by the constructor and then used by any sequence of calls *)
Lemma fsk_a_object : exists s, fsk_a = Ok s /\ fsk_object s.
Proof. destruct fsk_a as [s|] eqn:E; [|vm_compute in E; discriminate]. exists s. split; [reflexivity|]. unfold fsk_object, fsk_a in *. repeat eexists; [exact E|exact (eq_refl (fsk_history [] s))]. Qed.
Lemma fsk_b_object : exists s, fsk_b = Ok s /\ fsk_object s.
Proof. destruct fsk_b as [s|] eqn:E; [|vm_compute in E; discriminate]. exists s. split; [reflexivity|]. unfold fsk_object, fsk_b in *. repeat eexists; [exact E|exact (eq_refl (fsk_history [] s))]. Qed.

(** object s accepts the argument a as the payload bits and sends the bit frame (attribute _binarySignal) *)
Definition sends (s : fsk) (a : arg) (bits frame : list bool) : Prop :=
  check_binary_array a = Ok bits /\ exists t sig, k_bitsToIQ a s = (t, Ok sig) /\ k_binary t = Some frame.
Lemma sends_frame s a bits frame : sends s a bits frame -> f_frame s bits = Ok frame.
Proof.
  intros (Hb & t & sig & E & Hk). pose proof (bits_master a s) as M. rewrite E in M. destruct M as (_ & M & K).
  unfold f_call in M. rewrite Hb in M. cbn [rbind] in M. destruct (f_frame s bits) as [fr|] eqn:F; [|discriminate].
  specialize (K bits fr Hb F). congruence.
Qed.
Lemma sends_case : exists s bits frame, fsk_a = Ok s /\ sends s (AList 1 (map inject_Z [1;0;1;1; 1;1;1;1])) bits frame.
Proof.
  destruct fsk_a as [s|] eqn:E; [|vm_compute in E; discriminate]. vm_compute in E. inversion E; subst. clear E.
  unfold sends. do 3 eexists. split; [reflexivity|]. split; [vm_compute; reflexivity|]. do 2 eexists. split; vm_compute; reflexivity.
Qed.

(** C09 *)
Theorem C09_header : forall s n, fsk_object s -> 0 <= n ->
  (n <= 2047 -> k_PHR s n = Ok ([false; false; false; k_fcs s =? 1; k_white s] ++ msb_bits 11 n))
  /\ (2048 <= n -> k_PHR s n = Err ValueError).
Proof.
  intros s n H Hn. apply object_valid in H. destruct H as (_ & _ & _ & _ & _ & Hf). split; intro L.
  - apply k_PHR_ok; [assumption|lia].
  - now apply k_PHR_err.
Qed.
Print Assumptions C09_header.
Theorem C09_recoverable : forall f w n f' w' n',
  (f = 0 \/ f = 1) -> (f' = 0 \/ f' = 1) -> 0 <= n <= 2047 -> 0 <= n' <= 2047 ->
  fsk_header f w n = fsk_header f' w' n' -> f = f' /\ w = w' /\ n = n'.
Proof.
  intros f w n f' w' n' Hf Hf' Hn Hn' E. unfold fsk_header in E. apply app_inj_len in E; [|reflexivity].
  destruct E as [E E3]. injection E as E1 E2. repeat split; [|assumption|].
  - destruct Hf as [-> | ->], Hf' as [-> | ->]; auto; discriminate.
  - apply (msb_bits_inj 11); try assumption; change (2 ^ Z.of_nat 11) with 2048; lia.
Qed.
Print Assumptions C09_recoverable.
Theorem C09_too_long : forall s a octets, fsk_object s ->
  holds_octets a octets -> Forall is_octet octets -> (2048 <= zlen octets) ->
  snd (k_bytesToIQ a s) = Err ValueError.
Proof.
  intros s a zs Hs Ha Ho L. apply object_valid in Hs. rewrite bytes_result.
  assert (Hne : zs <> []) by (intros ->; cbn in L; lia).
  rewrite (holds_octets_ok a zs) by assumption. cbn [rbind]. unfold f_call.
  rewrite check_binary_bits_arg by now apply octet_bits_nonnil. cbn [rbind].
  rewrite f_frame_err; [reflexivity|assumption|]. intros [H _]. rewrite zlen_octets in H. lia.
Qed.
Print Assumptions C09_too_long.
Example C09_case : fsk_header 1 true 0x1A5 = map (Z.eqb 1) [0;0;0;1;1; 0;0;1;1;0;1;0;0;1;0;1].
Proof. vm_compute. reflexivity. Qed.

(** C10 *)
Theorem C10_decodable : forall scheme x y, length x = length y -> k_FEC scheme x = k_FEC scheme y -> x = y.
Proof.
  intros scheme x y L E. rewrite !k_FEC_spec in E. injection E as E. apply f_enc_inj in E; [|lia].
  unfold f_input in E. now apply app_inj_len in E.
Qed.
Print Assumptions C10_decodable.
Theorem C10_prefix : forall scheme x y, exists cx cxy,
  k_FEC scheme x = Ok cx /\ k_FEC scheme (x ++ y) = Ok cxy
  /\ firstn (2 * length x) cxy = firstn (2 * length x) cx /\ (2 * length x <= length cx)%nat.
Proof.
  intros scheme x y. rewrite !k_FEC_spec. do 2 eexists. split; [reflexivity|]. split; [reflexivity|].
  unfold f_input. rewrite <- app_assoc, !enc_app.
  rewrite !firstn_exact by apply enc_length. split; [reflexivity|]. rewrite app_length, enc_length. lia.
Qed.
Print Assumptions C10_prefix.
Theorem C10_decoder : forall scheme x, scheme = 0 \/ scheme = 1 -> exists c tail_and_pad,
  k_FEC scheme x = Ok c /\ fec_decode scheme false false false c = x ++ tail_and_pad
  /\ (length tail_and_pad = if Z.even (zlen x / 8) then 16 else 8)%nat.
Proof.
  intros scheme x H. rewrite k_FEC_spec. eexists. exists (f_tail scheme (fin (fstep scheme) 0 x) ++ f_pad (length x)).
  split; [reflexivity|]. split; [now apply fec_decode_enc0|].
  rewrite app_length, f_tail_length by apply fin0_range. rewrite f_pad_length. unfold zlen. destruct (Z.even _); reflexivity.
Qed.
Print Assumptions C10_decoder.
Example C10_case : exists c, k_FEC 1 (map (Z.eqb 1) [1;0;1;1;0;0;1;0]) = Ok c /\ length c = 32%nat.
Proof. eexists. vm_compute. split; reflexivity. Qed.

(** C11: the coded stream is one run of the encoder over data, three tail bits and padding; after the tail bits the
    memory is zero *)
Theorem C11_flush : forall scheme x, exists tail pad c1 c2 M,
  length tail = 3%nat
  /\ fec_loop scheme 0 (map b2z (x ++ tail)) = (0, c1)
  /\ fec_loop scheme 0 (map b2z pad) = (M, c2)
  /\ k_FEC scheme x = Ok (map z2b (c1 ++ c2)).
Proof.
  intros scheme x. exists (f_tail scheme (fin (fstep scheme) 0 x)), (f_pad (length x)).
  rewrite !fec_loop_spec by lia. do 3 eexists. split; [apply f_tail_length, fin0_range|].
  split; [rewrite fin_app, f_tail_flush by apply fin0_range; reflexivity|]. split; [reflexivity|].
  rewrite k_FEC_spec. unfold f_input. rewrite app_assoc, enc_app, fin_app, f_tail_flush by apply fin0_range.
  rewrite <- map_app, map_z2b_b2z. reflexivity.
Qed.
Print Assumptions C11_flush.
(** one octet, recursive code: the memory is not zero before the tail bits *)
Example C11_case : exists M c, fec_loop 1 0 (map b2z [true; false; true; true; false; false; true; true]) = (M, c) /\ M <> 0
  /\ exists c', k_FEC 1 [true; false; true; true; false; false; true; true] = Ok c' /\ length c' = 32%nat.
Proof. eexists. eexists. split; [vm_compute; reflexivity|]. split; [vm_compute; discriminate|]. eexists. split; vm_compute; reflexivity. Qed.

(** C12 *)
Theorem C12_free_distance : forall scheme x y, length x = length y -> x <> y ->
  exists cx cy, k_FEC scheme x = Ok cx /\ k_FEC scheme y = Ok cy /\ length cx = length cy
    /\ (6 <= distance cx cy)%nat.
Proof.
  intros scheme x y L N. rewrite !k_FEC_spec. do 2 eexists. split; [reflexivity|]. split; [reflexivity|].
  split; [rewrite !coded_length, L; reflexivity|]. now apply f_distance.
Qed.
Print Assumptions C12_free_distance.
Theorem C12_attained : forall scheme, scheme = 0 \/ scheme = 1 ->
  exists x y cx cy, length x = length y /\ x <> y /\ k_FEC scheme x = Ok cx /\ k_FEC scheme y = Ok cy
    /\ distance cx cy = 6%nat.
Proof.
  intros scheme [-> | ->].
  - exists (map (Z.eqb 1) [0;0;0;0;0;0;0;0]), (map (Z.eqb 1) [1;1;0;0;0;0;0;0]). rewrite !k_FEC_spec.
    do 2 eexists. split; [reflexivity|]. split; [discriminate|]. split; [reflexivity|]. split; [reflexivity|]. vm_compute. reflexivity.
  - exists (map (Z.eqb 1) [0;0;0;0;0;0;0;0]), (map (Z.eqb 1) [1;0;0;0;1;0;0;0]). rewrite !k_FEC_spec.
    do 2 eexists. split; [reflexivity|]. split; [discriminate|]. split; [reflexivity|]. split; [reflexivity|]. vm_compute. reflexivity.
Qed.
Print Assumptions C12_attained.
Example C12_case : exists cx cy, k_FEC 1 (repeat true 8) = Ok cx /\ k_FEC 1 (repeat true 7 ++ [false]) = Ok cy /\ repeat true 8 <> repeat true 7 ++ [false] /\ distance cx cy = 7%nat.
Proof. eexists. eexists. split; [vm_compute; reflexivity|]. split; [vm_compute; reflexivity|]. split; [discriminate|vm_compute; reflexivity]. Qed.

(** C13 *)
Theorem C13_octets_fit : forall s a octets, fsk_object s -> k_fec s = true -> k_il s = true ->
  holds_octets a octets -> octets <> [] -> Forall is_octet octets -> zlen octets <= 2047 ->
  exists header coded, k_PHR s (zlen octets) = Ok header
    /\ k_FEC (k_scheme s) (header ++ octet_bits octets) = Ok coded
    /\ Nat.modulo (length coded) 32 = 0%nat
    /\ exists i, k_interleaver coded = Ok i /\ length i = length coded.
Proof.
  intros s a zs Hs Hf Hi Ha Hne Ho L. apply object_valid in Hs. pose proof (zlen_nonneg zs).
  destruct Hs as (_ & _ & _ & _ & _ & Hfcs).
  exists (fsk_header (k_fcs s) (k_white s) (zlen zs)). rewrite k_FEC_spec. eexists.
  split; [apply k_PHR_ok; [assumption|lia]|]. split; [reflexivity|].
  assert (M : Nat.modulo (length (enc (fstep (k_scheme s)) 0 (f_input (k_scheme s) (fsk_header (k_fcs s) (k_white s) (zlen zs) ++ octet_bits zs)))) 32 = 0%nat).
  { apply coded_blocks. rewrite app_length, fsk_header_length, octet_bits_length.
    replace (16 + 8 * length zs)%nat with ((2 + length zs) * 8)%nat by lia. apply Nat.mod_mul. lia. }
  split; [exact M|]. eexists. rewrite k_interleaver_ok by exact M. split; [reflexivity|]. now apply f_interleave_length.
Qed.
Print Assumptions C13_octets_fit.
Theorem C13_bits : forall s a bits, fsk_object s -> k_fec s = true -> k_il s = true ->
  check_binary_array a = Ok bits -> zlen bits / 8 <= 2047 ->
  (zlen bits mod 8 <> 0 -> snd (k_bitsToIQ a s) = Err ValueError)
  /\ (zlen bits mod 8 = 0 -> exists frame, k_binary (fst (k_bitsToIQ a s)) = Some frame
        /\ snd (k_bitsToIQ a s) = FSKModulator s frame 20).
Proof.
  intros s a bits Hs Hf Hi Hb L. apply object_valid in Hs.
  assert (C : carries s bits <-> zlen bits mod 8 = 0).
  { unfold carries. rewrite Hf, Hi.
    assert (E : zlen bits mod 8 = Z.of_nat (Nat.modulo (length bits) 8)) by (unfold zlen; rewrite Nat2Z.inj_mod; reflexivity).
    rewrite E. split; [intros [_ H]; rewrite H by auto; reflexivity|]. intro H. split; [lia|]. intros. lia. }
  split.
  - intro H. rewrite bits_result. unfold f_call. rewrite Hb. cbn [rbind]. rewrite f_frame_err; [reflexivity|assumption|tauto].
  - intro H. exists (shr_bits s ++ f_white s (body s bits)).
    assert (F : f_frame s bits = Ok (shr_bits s ++ f_white s (body s bits))) by (apply f_frame_ok; tauto).
    pose proof (bits_master a s) as M. destruct (k_bitsToIQ a s) as [t r]. destruct M as (_ & R & M). cbn [fst snd].
    split; [now apply (M bits)|]. rewrite R. unfold f_call. rewrite Hb. cbn [rbind]. now rewrite F.
Qed.
Print Assumptions C13_bits.
(** a coding, interleaving object; three octets; nine bits are refused *)
Example C13_case : exists s, fsk_a = Ok s /\ fsk_object s /\ k_fec s = true /\ k_il s = true /\ holds_octets (AList 1 (map inject_Z [7; 0; 255])) [7; 0; 255] /\ Forall is_octet [7; 0; 255]
  /\ snd (k_bitsToIQ (AList 1 (repeat 1%Q 9)) s) = Err ValueError.
Proof.
  destruct fsk_a_object as (s & E & O). exists s. split; [exact E|]. split; [exact O|]. vm_compute in E. inversion E; subst.
  split; [reflexivity|]. split; [reflexivity|]. split; [exact (HO_list [7; 0; 255])|]. split; [repeat constructor; unfold is_octet; lia|]. vm_compute. reflexivity.
Qed.

(** C14 *)
Theorem C14_interleaver : forall l, Nat.modulo (length l) 32 = 0%nat -> exists i,
  k_interleaver l = Ok i /\ length i = length l /\ k_interleaver i = Ok l
  /\ forall b t e, (32 * b < length l)%nat -> (t < 16)%nat -> (e < 2)%nat ->
       nth (32 * b + 2 * t + e) i false = nth (32 * b + 2 * source_pair t + e) l false.
Proof.
  intros l M. exists (f_interleave l). split; [now apply k_interleaver_ok|].
  split; [now apply f_interleave_length|]. split.
  - rewrite k_interleaver_ok by (rewrite f_interleave_length; assumption). now rewrite f_interleave_inv.
  - intros b t e Hb Ht He. rewrite <- !Nat.add_assoc. rewrite f_interleave_nth by (assumption || lia). do 2 f_equal.
    rewrite <- source_pair_il by lia.
    replace ((2 * t + e) / 2)%nat with t; [replace (Nat.modulo (2 * t + e) 2) with e; [reflexivity|]|].
    + rewrite Nat.add_comm, Nat.mul_comm, Nat.mod_add, Nat.mod_small by lia. reflexivity.
    + rewrite Nat.mul_comm, Nat.div_add_l, Nat.div_small by lia. lia.
Qed.
Print Assumptions C14_interleaver.
Theorem C14_rejects : forall l, Nat.modulo (length l) 32 <> 0%nat -> k_interleaver l = Err ValueError.
Proof. exact k_interleaver_err. Qed.
Print Assumptions C14_rejects.
Theorem C14_spread : forall t, (t < 15)%nat ->
  (source_pair t < 16)%nat /\ source_pair (source_pair t) = t
  /\ (source_pair t + 4 <= source_pair (S t) \/ source_pair (S t) + 4 <= source_pair t)%nat.
Proof.
  intros t H. do 15 (destruct t as [|t]; [vm_compute; lia|]). lia.
Qed.
Print Assumptions C14_spread.
Example C14_case : exists i, k_interleaver (repeat true 2 ++ repeat false 30) = Ok i /\ nth 30 i false = true /\ nth 31 i false = true /\ nth 0 i true = false
  /\ k_interleaver (repeat true 30) = Err ValueError.
Proof. eexists. split; [vm_compute; reflexivity|]. repeat split. Qed.

(** C15: in a frame the part after the SHR is header part ++ payload part; the header part depends on FCS type,
    whitening flag and count only and is never whitened; the payload part is whitened iff the flag is set *)
Theorem C15_whitening : forall s a bits frame, fsk_object s -> sends s a bits frame ->
  exists shr header coded phr_part psdu_part,
    k_SHR s = Ok shr /\ k_PHR s (zlen bits / 8) = Ok header
    /\ coded = phr_part ++ psdu_part
    /\ (if k_fec s then exists c, k_FEC (k_scheme s) (header ++ bits) = Ok c /\ (if k_il s then k_interleaver c = Ok coded else c = coded)
        else coded = header ++ bits)
    /\ length phr_part = (if k_fec s then 32 else 16)%nat
    /\ frame = shr ++ phr_part ++ (if k_white s then whiten psdu_part else psdu_part).
Proof.
  intros s a bits fr Hs H. apply sends_frame in H. apply object_valid in Hs. destruct (f_frame_inv s bits fr Hs H) as [C ->].
  pose proof Hs as (_ & _ & _ & _ & _ & Hf). pose proof (zlen_nonneg bits). assert (0 <= zlen bits / 8) by (apply Z.div_pos; lia).
  destruct (body_split s bits C) as (rest & E & L).
  exists (shr_bits s), (hdr s bits), (body s bits), (hdr_part s (hdr s bits)), rest.
  split; [now apply k_SHR_ok|]. split; [apply k_PHR_ok; [assumption|destruct C; lia]|]. split; [exact E|]. split.
  - unfold body. destruct (k_fec s) eqn:E1; [|reflexivity]. rewrite k_FEC_spec. eexists. split; [reflexivity|].
    cbv zeta. destruct (k_il s) eqn:E2; [|reflexivity]. apply k_interleaver_ok. apply coded_blocks. rewrite hdr_app_mod. destruct C. auto.
  - split; [exact L|]. rewrite E, f_white_split by assumption. reflexivity.
Qed.
Print Assumptions C15_whitening.
(** two objects that differ in the whitening flag at most, without FEC: same SHR, headers equal except bit 4, payload
    parts equal up to the PN9 XOR; with FEC: the header part is the coded header alone *)
Theorem C15_uncoded_pair : forall s t a b bits fs ft, fsk_object s -> fsk_object t ->
  k_fec s = false -> k_fec t = false -> k_fsk4 s = k_fsk4 t -> k_sfd s = k_sfd t -> k_preamble s = k_preamble t -> k_fcs s = k_fcs t ->
  k_white s = false -> k_white t = true ->
  sends s a bits fs -> sends t b bits ft ->
  exists shr h w, fs = shr ++ ([false; false; false; h; false] ++ w) ++ bits
    /\ ft = shr ++ ([false; false; false; h; true] ++ w) ++ whiten bits
    /\ k_SHR s = Ok shr /\ w = msb_bits 11 (zlen bits / 8).
Proof.
  intros s t a b bits fs ft Hs Ht Fs Ft E4 Es Ep Ec Ws Wt Hfs Hft. apply sends_frame in Hfs, Hft. apply object_valid in Hs, Ht.
  destruct (f_frame_inv s bits fs Hs Hfs) as [Cs ->]. destruct (f_frame_inv t bits ft Ht Hft) as [Ct ->].
  exists (shr_bits s), (k_fcs s =? 1), (msb_bits 11 (zlen bits / 8)).
  assert (SH : shr_bits t = shr_bits s) by (unfold shr_bits; now rewrite E4, Es, Ep, Fs, Ft). rewrite SH.
  assert (Bs : body s bits = hdr s bits ++ bits) by (unfold body; now rewrite Fs).
  assert (Bt : body t bits = hdr t bits ++ bits) by (unfold body; now rewrite Ft).
  rewrite Bs, Bt, !f_white_split by (unfold f_start, hdr; rewrite ?Fs, ?Ft; apply fsk_header_length).
  rewrite Ws, Wt. unfold hdr, fsk_header. rewrite Ws, Wt, <- Ec. repeat split. now apply k_SHR_ok.
Qed.
Print Assumptions C15_uncoded_pair.
(** two such objects, one whitening, sending the same bits *)
Example C15_case : exists s t bits fs ft, fsk_object s /\ fsk_object t /\ k_fec s = false /\ k_fec t = false /\ k_fsk4 s = k_fsk4 t /\ k_sfd s = k_sfd t /\ k_preamble s = k_preamble t /\ k_fcs s = k_fcs t
  /\ k_white s = false /\ k_white t = true /\ sends s (AList 1 (map inject_Z [1;0;1;1; 1;1;1;1])) bits fs /\ sends t (AList 1 (map inject_Z [1;0;1;1; 1;1;1;1])) bits ft /\ fs <> ft.
Proof.
  destruct (fsk_new (PInt 50000) (PInt 1) (PInt 1) (PStr "2FSK") (PBool false) (PInt 0) (PInt 1) (PBool false) (PBool false) (PInt 8)) as [s|] eqn:E; [|vm_compute in E; discriminate].
  destruct (fsk_new (PInt 50000) (PInt 1) (PInt 1) (PStr "2FSK") (PBool false) (PInt 0) (PInt 1) (PBool true) (PBool false) (PInt 8)) as [t|] eqn:F; [|vm_compute in F; discriminate].
  assert (O : fsk_object s) by (unfold fsk_object; repeat eexists; [exact E|exact (eq_refl (fsk_history [] s))]).
  assert (P : fsk_object t) by (unfold fsk_object; repeat eexists; [exact F|exact (eq_refl (fsk_history [] t))]).
  exists s, t. do 3 eexists. split; [exact O|]. split; [exact P|]. vm_compute in E, F. inversion E; subst. inversion F; subst. do 8 (split; [reflexivity|]).
  split; [split; [vm_compute; reflexivity|]; do 2 eexists; split; vm_compute; reflexivity|].
  split; [split; [vm_compute; reflexivity|]; do 2 eexists; split; vm_compute; reflexivity|]. vm_compute. discriminate.
Qed.

(** C16 *)
Theorem C16_layout : forall s a bits frame, fsk_object s -> sends s a bits frame ->
  exists body, frame = tile (Z.to_nat (k_preamble s)) (preamble_unit (k_fsk4 s)) ++ sfd (k_fsk4 s) (k_sfd s) (k_fec s) ++ body.
Proof.
  intros s a bits fr Hs H. apply sends_frame in H. apply object_valid in Hs. destruct (f_frame_inv s bits fr Hs H) as [C ->].
  eexists. unfold shr_bits. rewrite <- app_assoc. reflexivity.
Qed.
Print Assumptions C16_layout.
Lemma bytes_frame s a octets : fsk_object s -> holds_octets a octets -> octets <> [] ->
  Forall is_octet octets -> zlen octets <= 2047 ->
  exists frame, k_binary (fst (k_bytesToIQ a s)) = Some frame /\ f_frame s (octet_bits octets) = Ok frame
    /\ zlen frame = fsk_frame_bits (k_fsk4 s) (k_preamble s) (k_fec s) (zlen octets).
Proof.
  intros Hs Ha Hne Ho L. apply object_valid in Hs. assert (L' : (length octets <= 2047)%nat) by (unfold zlen in L; lia).
  pose proof (octets_carried s octets L') as C.
  eexists. split; [|split; [now apply f_frame_ok|now apply octet_frame_bits]].
  unfold k_bytesToIQ, sbind, slift. rewrite (holds_octets_ok a octets) by assumption.
  pose proof (bits_master (bits_arg (octet_bits octets)) s) as M. destruct (k_bitsToIQ (bits_arg (octet_bits octets)) s) as [t r].
  destruct M as (_ & _ & M). cbn [fst]. apply (M (octet_bits octets)); [now apply check_binary_bits_arg, octet_bits_nonnil|].
  now apply f_frame_ok.
Qed.
Theorem C16_length : forall s a octets, fsk_object s -> holds_octets a octets -> octets <> [] ->
  Forall is_octet octets -> zlen octets <= 2047 ->
  exists frame, k_binary (fst (k_bytesToIQ a s)) = Some frame
    /\ zlen frame = k_preamble s * (if k_fsk4 s then 16 else 8) + (if k_fsk4 s then 32 else 16)
                    + (if k_fec s then 2 * (16 + 8 * zlen octets + 3 + (if Z.even (zlen octets) then 13 else 5))
                       else 16 + 8 * zlen octets).
Proof.
  intros s a zs Hs Ha Hne Ho L. destruct (bytes_frame s a zs Hs Ha Hne Ho L) as (fr & A & _ & B). exists fr. split; assumption.
Qed.
Print Assumptions C16_length.
Example C16_case : exists s frame, fsk_a = Ok s /\ fsk_object s /\ k_binary (fst (k_bytesToIQ (AList 1 (map inject_Z [7; 0; 255])) s)) = Some frame
  /\ zlen frame = 8 * 8 + 16 + 2 * (16 + 24 + 3 + 5).
Proof.
  destruct fsk_a_object as (s & E & O). exists s. eexists. split; [exact E|]. split; [exact O|]. vm_compute in E. inversion E; subst. split; vm_compute; reflexivity.
Qed.

(** C17 *)
Theorem C17_round_trip : forall s a octets, fsk_object s -> holds_octets a octets -> octets <> [] ->
  Forall is_octet octets -> zlen octets <= 2047 ->
  exists frame, k_binary (fst (k_bytesToIQ a s)) = Some frame
    /\ fsk_receiver (k_fsk4 s) (k_preamble s) (k_fec s) (k_il s) (k_scheme s) frame
       = {| rx_fcs := k_fcs s; rx_white := k_white s; rx_octets := zlen octets; rx_payload := octet_bits octets |}.
Proof.
  intros s a zs Hs Ha Hne Ho L. destruct (bytes_frame s a zs Hs Ha Hne Ho L) as (fr & E1 & E2 & _).
  exists fr. split; [assumption|]. rewrite (receiver_spec s (octet_bits zs) fr (object_valid s Hs) E2). now rewrite zlen_octets.
Qed.
Print Assumptions C17_round_trip.
Theorem C17_bits : forall s a bits frame, fsk_object s -> sends s a bits frame ->
  fsk_receiver (k_fsk4 s) (k_preamble s) (k_fec s) (k_il s) (k_scheme s) frame
  = {| rx_fcs := k_fcs s; rx_white := k_white s; rx_octets := zlen bits / 8; rx_payload := bits |}.
Proof. intros s a bits fr Hs H. apply sends_frame in H. apply receiver_spec; [now apply object_valid|assumption]. Qed.
Print Assumptions C17_bits.
(** the same at the level of the emitted samples: two transmitters that agree on the receiver's knowledge and emit the
    same samples (phases equal up to whole turns) sent the same fields and the same payload *)
Theorem C17_samples : forall s t a b xs ys, fsk_object s -> fsk_object t ->
  k_h s = k_h t -> k_fsk4 s = k_fsk4 t -> k_preamble s = k_preamble t -> k_fec s = k_fec t -> k_il s = k_il t -> k_scheme s = k_scheme t ->
  snd (k_bitsToIQ a s) = Ok xs -> snd (k_bitsToIQ b t) = Ok ys ->
  Forall2 same_sample (sig_phase xs) (sig_phase ys) ->
  k_fcs s = k_fcs t /\ k_white s = k_white t /\ check_binary_array a = check_binary_array b.
Proof.
  intros s t a b xs ys Hs Ht Eh E4 Ep Ef Ei Ec Hx Hy F. apply object_valid in Hs, Ht. rewrite bits_result in Hx, Hy.
  unfold f_call in Hx, Hy.
  destruct (check_binary_array a) as [ba|] eqn:Ca; [|discriminate]. destruct (check_binary_array b) as [bb|] eqn:Cb; [|discriminate].
  cbn [rbind] in *.
  destruct (f_frame s ba) as [fa|] eqn:Fa; [|discriminate]. destruct (f_frame t bb) as [fb|] eqn:Fb; [|discriminate].
  cbn [rbind] in *. rewrite FSKModulator_spec in Hx, Hy.
  destruct (whole_symbols s fa) eqn:Wa; [|discriminate]. destruct (whole_symbols t fb) eqn:Wb; [|discriminate]. cbv zeta in Hx, Hy.
  destruct (arange_size (k_rate s) 20 _) as [na|]; [|discriminate]. destruct (na =? _); [|discriminate]. inversion Hx; subst xs; clear Hx.
  destruct (arange_size (k_rate t) 20 _) as [nb|]; [|discriminate]. destruct (nb =? _); [|discriminate]. inversion Hy; subst ys; clear Hy.
  cbn [sig_phase] in F.
  assert (P : phases t fb = phases s fb) by (unfold phases; now rewrite Eh, E4). rewrite P in F.
  assert (Wb' : whole_symbols s fb = true) by (unfold whole_symbols in *; now rewrite E4).
  assert (Eq : fa = fb) by (apply (samples_inj s); auto; apply Hs). subst fb.
  apply (receiver_spec s) in Fa; [|assumption]. apply (receiver_spec t) in Fb; [|assumption].
  rewrite <- E4, <- Ep, <- Ef, <- Ei, <- Ec in Fb. rewrite Fa in Fb. inversion Fb. auto.
Qed.
Print Assumptions C17_samples.
Example C17_case : exists s, fsk_a = Ok s /\ is_ok (snd (k_bytesToIQ (AList 1 (map inject_Z [7; 0; 255])) s)) = true.
Proof. destruct fsk_a as [s|] eqn:E; [|vm_compute in E; discriminate]. exists s. split; [reflexivity|]. vm_compute in E. inversion E; subst. vm_compute. reflexivity. Qed.

(** C18 *)
Theorem C18_tones : forall s a xs frame, fsk_object s -> snd (k_bitsToIQ a s) = Ok xs ->
  k_binary (fst (k_bitsToIQ a s)) = Some frame ->
  length (sig_phase xs) = (20 * symbols (k_fsk4 s) frame)%nat
  /\ sig_f xs = 20 * k_rate s
  /\ (k_fsk4 s = true -> length frame = 2 * symbols true frame)%nat
  /\ forall j i, (j < symbols (k_fsk4 s) frame)%nat -> (i < 19)%nat ->
       (nth (20 * j + i + 1) (sig_phase xs) 0 - nth (20 * j + i) (sig_phase xs) 0
        == (inject_Z (symbol_tone (k_fsk4 s) frame j) * (k_h s * inject_Z (k_rate s) / 2)) / inject_Z (sig_f xs))%Q.
Proof.
  intros s a xs fr Hs Hx Hb. apply object_valid in Hs. rewrite bits_result in Hx. unfold f_call in Hx.
  pose proof (bits_master a s) as M. destruct (k_bitsToIQ a s) as [t r]. destruct M as (_ & _ & M). cbn [fst] in Hb.
  destruct (check_binary_array a) as [ba|] eqn:Ca; [|discriminate]. cbn [rbind] in Hx.
  destruct (f_frame s ba) as [fa|] eqn:Fa; [|discriminate]. cbn [rbind] in Hx.
  rewrite (M ba fa eq_refl Fa) in Hb. inversion Hb; subst fa; clear Hb.
  rewrite FSKModulator_spec in Hx. destruct (whole_symbols s fr) eqn:W; [|discriminate]. cbv zeta in Hx.
  destruct (arange_size (k_rate s) 20 _) as [n|]; [|discriminate]. destruct (n =? _); [|discriminate]. inversion Hx; subst xs; clear Hx.
  cbn [sig_phase sig_f]. split; [apply phases_length|]. split; [lia|]. split.
  - intro E. unfold whole_symbols in W. rewrite E in W. cbn in W. apply Nat.even_spec in W as [k W]. unfold symbols.
    rewrite W, (Nat.mul_comm 2 k), Nat.div_mul by lia. lia.
  - intros j i Hj Hi. rewrite <- Nat.add_assoc. rewrite !phases_nth by lia.
    assert (A : (Z.of_nat (20 * j + (i + 1)) # 40 == (Z.of_nat (20 * j + i) # 40) + (1 # 40))%Q).
    { unfold Qeq, Qplus. cbn [Qnum Qden]. lia. }
    rewrite A. rewrite inject_Z_mult. assert (R : ~ (inject_Z (k_rate s) == 0)%Q).
    { destruct Hs as (Hr & _). intro E. unfold Qeq in E. cbn in E. lia. }
    change (inject_Z 20) with 20%Q. change (1 # 40) with (1 / 40)%Q. field. exact R.
Qed.
Print Assumptions C18_tones.
Theorem C18_gray : forall a0 a1 b0 b1,
  (tone4 a0 a1 = tone4 b0 b1 -> a0 = b0 /\ a1 = b1)
  /\ (tone4 a0 a1 - tone4 b0 b1 = 2 -> distance [a0; a1] [b0; b1] = 1%nat)
  /\ tone2 a0 = tone4 a0 false
  /\ tone4 false true = -3 /\ tone4 false false = -1 /\ tone4 true false = 1 /\ tone4 true true = 3.
Proof. intros a0 a1 b0 b1. destruct a0, a1, b0, b1; cbn; repeat split; intros; auto; discriminate. Qed.
Print Assumptions C18_gray.
Theorem C18_recoverable : forall f x y, (f = true -> Nat.even (length x) = true /\ Nat.even (length y) = true) ->
  symbols f x = symbols f y -> (forall j, (j < symbols f x)%nat -> symbol_tone f x j = symbol_tone f y j) -> x = y.
Proof. exact tones_inj. Qed.
Print Assumptions C18_recoverable.
(** a 4-FSK object sending an octet *)
Example C18_case : exists s xs frame, fsk_b = Ok s /\ fsk_object s /\ k_fsk4 s = true /\ snd (k_bitsToIQ (AList 1 (map inject_Z [1;0;1;1; 1;1;1;1])) s) = Ok xs
  /\ k_binary (fst (k_bitsToIQ (AList 1 (map inject_Z [1;0;1;1; 1;1;1;1])) s)) = Some frame /\ symbols true frame = 60%nat.
Proof.
  destruct fsk_b_object as (s & E & O). exists s. do 2 eexists. split; [exact E|]. split; [exact O|]. vm_compute in E. inversion E; subst. split; [reflexivity|]. split; [vm_compute; reflexivity|]. split; vm_compute; reflexivity.
Qed.

(** C19 is false of the code: for each of the usual symbol rates some legal payload length always raises ValueError
    (the length of np.arange computed in floating point exceeds the number of samples by one) *)
Definition standard_rates : list (Z * Z) :=
  [(2400, 3); (4800, 3); (9600, 3); (10000, 15); (12500, 17); (20000, 15); (25000, 17); (40000, 15); (50000, 17);
   (75000, 17); (80000, 15); (100000, 17); (120000, 27); (125000, 4); (150000, 17); (200000, 17); (250000, 4);
   (300000, 17); (400000, 17); (1000000, 4)].
Theorem C19_refuted : forall rate n, In (rate, n) standard_rates ->
  1 <= n <= 2047 /\
  forall h sfdg scheme fcs white il s, 
    fsk_new (PInt rate) h sfdg (PStr "2FSK") (PBool false) scheme fcs white il (PInt 4) = Ok s ->
  forall a octets, holds_octets a octets -> Forall is_octet octets -> zlen octets = n ->
    snd (k_bytesToIQ a s) = Err ValueError.
Proof.
  intros rate n Hin.
  assert (R : forallb (fun '(r, n) => (1 <=? n) && (n <=? 2047) && match arange_size r 20 (20 * fsk_symbols false 4 false n) with
     | Some m => negb (m =? 20 * fsk_symbols false 4 false n) | None => true end) standard_rates = true) by (vm_compute; reflexivity).
  rewrite forallb_forall in R. specialize (R _ Hin). cbv beta iota in R. apply andb_prop in R as [R1 R2].
  split; [lia|]. intros h sfdg scheme fcs white il s E a zs Ha Ho L.
  pose proof (fsk_new_valid _ _ _ _ _ _ _ _ _ _ _ E) as Hv.
  pose proof (fsk_new_outcome (PInt rate) h sfdg (PStr "2FSK") (PBool false) scheme fcs white il (PInt 4)) as K.
  destruct (first_bad _); [|rewrite K in E; discriminate|rewrite K in E; discriminate].
  destruct K as (s' & E' & K). rewrite E in E'. inversion E'; subst s'; clear E'.
  destruct K as (Kr & _ & _ & _ & _ & _ & Kp & _ & Km & Kf & _).
  assert (k_rate s = rate) by (destruct Kr as [[H|(b & H & _)]|(q & H & _)]; [inversion H; reflexivity|discriminate|discriminate]).
  assert (k_preamble s = 4) by (destruct Kp as [H'|(b & H' & _)]; [inversion H'; reflexivity|discriminate]).
  assert (k_fsk4 s = false) by (destruct (k_fsk4 s); [discriminate|reflexivity]).
  assert (k_fec s = false) by (inversion Kf; reflexivity).
  assert (Hne : zs <> []) by (intros ->; cbn in L; lia).
  destruct (bytes_octets s a zs Hv Ha Hne Ho ltac:(unfold zlen in L; lia)) as (_ & Q & _). cbv zeta in Q.
  rewrite H, H0, H1, H2, L in Q. rewrite Q. destruct (arange_size rate 20 _) as [m|]; [|reflexivity].
  destruct (m =? _); [discriminate|reflexivity].
Qed.
Print Assumptions C19_refuted.
Example C19_case : exists s, fsk_new (PInt 50000) (PInt 1) (PInt 0) (PStr "2FSK") (PBool false) (PInt 0) (PInt 0) (PBool false) (PBool false) (PInt 4) = Ok s.
Proof. eexists. vm_compute. reflexivity. Qed.

(** what holds: apart from that mismatch nothing fails, and the signal has 20 samples per symbol *)
Theorem C19_partial : forall s a octets, fsk_object s -> holds_octets a octets -> octets <> [] ->
  Forall is_octet octets -> zlen octets <= 2047 ->
  let n := 20 * (fsk_frame_bits (k_fsk4 s) (k_preamble s) (k_fec s) (zlen octets) / (if k_fsk4 s then 2 else 1)) in
  (arange_size (k_rate s) 20 n = Some n ->
     exists sig, snd (k_bytesToIQ a s) = Ok sig /\ zlen (sig_phase sig) = n /\ sig_f sig = 20 * k_rate s)
  /\ (arange_size (k_rate s) 20 n <> Some n -> snd (k_bytesToIQ a s) = Err ValueError).
Proof.
  intros s a zs Hs Ha Hne Ho L. apply object_valid in Hs. cbv zeta.
  destruct (bytes_octets s a zs Hs Ha Hne Ho ltac:(unfold zlen in L; lia)) as (_ & Q & N). cbv zeta in Q, N.
  change (fsk_frame_bits (k_fsk4 s) (k_preamble s) (k_fec s) (zlen zs) / (if k_fsk4 s then 2 else 1)) with (fsk_symbols (k_fsk4 s) (k_preamble s) (k_fec s) (zlen zs)).
  split; intro E.
  - rewrite Q, E, Z.eqb_refl. eexists. split; [reflexivity|]. cbn [sig_phase sig_f]. split; [exact N|lia].
  - rewrite Q. destruct (arange_size (k_rate s) 20 _) as [m|]; [|reflexivity].
    destruct (Z.eqb_spec m (20 * fsk_symbols (k_fsk4 s) (k_preamble s) (k_fec s) (zlen zs))); [congruence|reflexivity].
Qed.
Print Assumptions C19_partial.

(** C20: with an integral modulation index the phase is continuous *)
Lemma boundary s fr j : (0 < j)%nat -> (20 * j < length (phases s fr))%nat ->
  (nth (20 * j) (phases s fr) 0 - (nth (20 * j - 1)%nat (phases s fr) 0 + (nth (20 * j - 1)%nat (phases s fr) 0 - nth (20 * j - 2)%nat (phases s fr) 0))
   == inject_Z (symbol_tone (k_fsk4 s) fr j - symbol_tone (k_fsk4 s) fr (j - 1)) * k_h s * (Z.of_nat j # 2))%Q.
Proof.
  intros Hj L. rewrite phases_length in L.
  pose proof (phases_nth s fr j 0 ltac:(lia) ltac:(lia)) as P0. rewrite Nat.add_0_r in P0. rewrite P0.
  pose proof (phases_nth s fr (j - 1) 19 ltac:(lia) ltac:(lia)) as P1. replace (20 * (j - 1) + 19)%nat with (20 * j - 1)%nat in P1 by lia.
  pose proof (phases_nth s fr (j - 1) 18 ltac:(lia) ltac:(lia)) as P2. replace (20 * (j - 1) + 18)%nat with (20 * j - 2)%nat in P2 by lia.
  rewrite P1, P2.
  assert (A : (Z.of_nat (20 * j) # 40 == (Z.of_nat j # 2))%Q) by (unfold Qeq; cbn [Qnum Qden]; lia).
  assert (B : (Z.of_nat (20 * j - 1) # 40 == (Z.of_nat j # 2) - (1 # 40))%Q) by (unfold Qeq, Qminus, Qplus, Qopp; cbn [Qnum Qden]; lia).
  assert (C : (Z.of_nat (20 * j - 2) # 40 == (Z.of_nat j # 2) - (2 # 40))%Q) by (unfold Qeq, Qminus, Qplus, Qopp; cbn [Qnum Qden]; lia).
  rewrite A, B, C. unfold Z.sub. rewrite inject_Z_plus, inject_Z_opp. ring.
Qed.
Lemma tone_odd f fr j : exists k, symbol_tone f fr j = 2 * k + 1.
Proof. destruct (symbol_tone_cases f fr j) as [E|[E|[E|E]]]; rewrite E; [exists (-2)|exists (-1)|exists 0|exists 1]; lia. Qed.
Lemma signal_phases s a xs : snd (k_bitsToIQ a s) = Ok xs -> exists bits fr, check_binary_array a = Ok bits /\ f_frame s bits = Ok fr /\ sig_phase xs = phases s fr.
Proof.
  intro Hx. rewrite bits_result in Hx. unfold f_call in Hx.
  destruct (check_binary_array a) as [ba|] eqn:Ca; [|discriminate]. cbn [rbind] in Hx.
  destruct (f_frame s ba) as [fa|] eqn:Fa; [|discriminate]. cbn [rbind] in Hx. exists ba, fa. split; [reflexivity|]. split; [assumption|].
  rewrite FSKModulator_spec in Hx. destruct (whole_symbols s fa); [|discriminate]. cbv zeta in Hx.
  destruct (arange_size (k_rate s) 20 _) as [n|]; [|discriminate]. destruct (n =? _); [|discriminate]. now inversion Hx.
Qed.
Theorem C20_integer_index_partial : forall s a xs z, fsk_object s -> snd (k_bitsToIQ a s) = Ok xs ->
  (k_h s == inject_Z z)%Q -> phase_continuous (sig_phase xs).
Proof.
  intros s a xs z _ Hx Hz. destruct (signal_phases s a xs Hx) as (bits & fr & _ & _ & ->). intros j Hj L.
  destruct (tone_odd (k_fsk4 s) fr j) as [k1 K1]. destruct (tone_odd (k_fsk4 s) fr (j - 1)) as [k2 K2].
  exists ((k1 - k2) * z * Z.of_nat j). rewrite boundary by assumption. rewrite K1, K2, Hz.
  replace (2 * k1 + 1 - (2 * k2 + 1)) with ((k1 - k2) * 2) by lia. rewrite !inject_Z_mult.
  assert (A : (Z.of_nat j # 2 == inject_Z (Z.of_nat j) * (1 # 2))%Q) by (unfold Qeq; cbn [Qnum Qden Qmult inject_Z]; lia).
  rewrite A. change (inject_Z 2) with 2%Q. field.
Qed.
Print Assumptions C20_integer_index_partial.
(** 2FSK: the phase is continuous exactly if the index is an integer, whatever is sent *)
Theorem C20_refuted : forall s a xs, fsk_object s -> k_fsk4 s = false -> snd (k_bitsToIQ a s) = Ok xs ->
  (forall z, ~ (k_h s == inject_Z z)%Q) -> ~ phase_continuous (sig_phase xs).
Proof.
  intros s a xs Hs H4 Hx Hz C. apply object_valid in Hs. destruct (signal_phases s a xs Hx) as (bits & fr & _ & Ff & Ep).
  destruct (f_frame_inv s bits fr Hs Ff) as [_ ->]. rewrite Ep in C.
  assert (Hp : (4 <= Z.to_nat (k_preamble s))%nat) by (destruct Hs as (_ & _ & _ & Hp & _); lia).
  set (fr := shr_bits s ++ f_white s (body s bits)) in *.
  assert (T : exists r, fr = [false; true] ++ r).
  { unfold fr, shr_bits, tile. destruct (Z.to_nat (k_preamble s)) as [|p]; [lia|]. cbn [repeat concat]. rewrite H4. cbn. eauto. }
  destruct T as [r T].
  assert (L : (20 * 1 < length (phases s fr))%nat).
  { rewrite phases_length. unfold symbols. rewrite H4, T. cbn [app length]. lia. }
  destruct (C 1%nat ltac:(lia) L) as [k K]. rewrite boundary in K by (lia || exact L).
  apply (Hz k). rewrite H4, T in K. cbn [symbol_tone app nth tone2 Nat.sub] in K. rewrite <- K.
  change (inject_Z (1 - -1)) with 2%Q. change (Z.of_nat 1 # 2) with (1 # 2). field.
Qed.
Print Assumptions C20_refuted.
(** 4FSK: the preamble alternates the outer tones, so three times the index must be an integer *)
Theorem C20_4fsk_refuted : forall s a xs, fsk_object s -> k_fsk4 s = true -> snd (k_bitsToIQ a s) = Ok xs ->
  (forall z, ~ (3 * k_h s == inject_Z z)%Q) -> ~ phase_continuous (sig_phase xs).
Proof.
  intros s a xs Hs H4 Hx Hz C. apply object_valid in Hs. destruct (signal_phases s a xs Hx) as (bits & fr & _ & Ff & Ep).
  destruct (f_frame_inv s bits fr Hs Ff) as [_ ->]. rewrite Ep in C.
  assert (Hp : (4 <= Z.to_nat (k_preamble s))%nat) by (destruct Hs as (_ & _ & _ & Hp & _); lia).
  set (fr := shr_bits s ++ f_white s (body s bits)) in *.
  assert (T : exists r, fr = [false; true; true; true] ++ r).
  { unfold fr, shr_bits, tile. destruct (Z.to_nat (k_preamble s)) as [|p]; [lia|]. cbn [repeat concat]. rewrite H4. cbn. eauto. }
  destruct T as [r T].
  assert (L : (20 * 1 < length (phases s fr))%nat).
  { rewrite phases_length. unfold symbols. rewrite H4, T. cbn [app length]. assert (2 <= S (S (S (S (length r)))) / 2)%nat by (apply Nat.div_le_lower_bound; lia). lia. }
  destruct (C 1%nat ltac:(lia) L) as [k K]. rewrite boundary in K by (lia || exact L).
  apply (Hz k). rewrite H4, T in K. cbn [symbol_tone app nth tone4 Nat.sub Nat.mul Nat.add] in K. rewrite <- K.
  change (inject_Z (tone4 true true - tone4 false true)) with 6%Q. change (Z.of_nat 1 # 2) with (1 # 2). field.
Qed.
Print Assumptions C20_4fsk_refuted.
(** in general: exactly which frames have continuous phase *)
Theorem C20_exact : forall s a xs frame, fsk_object s -> snd (k_bitsToIQ a s) = Ok xs ->
  k_binary (fst (k_bitsToIQ a s)) = Some frame ->
  (phase_continuous (sig_phase xs) <->
   forall j, (0 < j < symbols (k_fsk4 s) frame)%nat -> exists z,
     (inject_Z (symbol_tone (k_fsk4 s) frame j - symbol_tone (k_fsk4 s) frame (j - 1)) * k_h s * inject_Z (Z.of_nat j) / 2 == inject_Z z)%Q).
Proof.
  intros s a xs fr _ Hx Hb. pose proof (bits_master a s) as M. destruct (signal_phases s a xs Hx) as (bits & fr' & Ca & Ff & Ep).
  destruct (k_bitsToIQ a s) as [t r]. destruct M as (_ & _ & M). cbn [fst] in Hb. rewrite (M bits fr' Ca Ff) in Hb. inversion Hb; subst fr'; clear Hb.
  rewrite Ep. assert (H : forall j, (Z.of_nat j # 2 == inject_Z (Z.of_nat j) / 2)%Q) by (intro; unfold Qdiv, Qinv, Qeq, Qmult, inject_Z; cbn; lia).
  split.
  - intros C j Hj. destruct (C j ltac:(lia) ltac:(rewrite phases_length; lia)) as [k K]. exists k. rewrite boundary in K by (rewrite ?phases_length; lia).
    rewrite <- K, H. field.
  - intros C j Hj L. rewrite phases_length in L. destruct (C j ltac:(lia)) as [k K]. exists k. rewrite boundary by (rewrite ?phases_length; lia).
    rewrite <- K, H. field.
Qed.
Print Assumptions C20_exact.
Example C20_case : exists s xs, fsk_a = Ok s /\ snd (k_bytesToIQ (AList 1 (map inject_Z [7; 0; 255])) s) = Ok xs
   /\ k_fsk4 s = false /\ (k_h s == 1 # 2)%Q.
Proof. destruct fsk_a as [s|] eqn:E; [|vm_compute in E; discriminate]. exists s. vm_compute in E. inversion E; subst. eexists. split; [reflexivity|]. split; [vm_compute; reflexivity|]. split; reflexivity. Qed.

(** C21 is false of the code: every accepted call returns nothing *)
Theorem C21_refuted : forall s entry fec,
  snd (k_modeSwitchToIQ entry fec s) =
    match entry with
    | PInt z => if (0 <=? z) && (z <=? 3) then Ok None else Err ValueError
    | PBool _ => Ok None
    | _ => Err TypeError
    end.
Proof. intros s [z|b|q|x|] fec; try reflexivity; unfold k_modeSwitchToIQ, slift; cbn; [destruct ((0 <=? z) && (z <=? 3)); reflexivity|destruct b; reflexivity]. Qed.
Print Assumptions C21_refuted.
(** nor can the function that builds the header of a mode switch frame be used: it fails whatever its arguments, with ValueError *)
Lemma binary_repr_wide z w : (w <= length (binary_repr z w))%nat.
Proof. unfold binary_repr. destruct (z =? 0); [rewrite repeat_length; lia|]. destruct (0 <? z); rewrite app_length, repeat_length; lia. Qed.
Theorem C21_header_refuted : forall entry fec page md mode, k_PHR_mode_switch entry fec page md mode = Err ValueError.
Proof.
  intros entry fec page md mode. unfold k_PHR_mode_switch. cbv zeta. cbn [np_assign_item rbind]. unfold np_assign_slice at 1.
  pose proof (binary_repr_wide entry 2) as W1. pose proof (binary_repr_wide md 2) as W2. unfold k_bin.
  assert (K : forall sg, np_assign_item 5 (map b2z (binary_repr md 2)) sg = Err ValueError).
  { intro sg. destruct (binary_repr md 2) as [|x [|y l]]; cbn in W2; [lia|lia|]. reflexivity. }
  destruct (Nat.eqb _ _); [cbn [rbind]; now rewrite K|].
  destruct (binary_repr entry 2) as [|x [|y l]]; cbn in W1; [lia|lia|]. reflexivity.
Qed.
Print Assumptions C21_header_refuted.
Example C21_case : exists s, fsk_a = Ok s /\ snd (k_modeSwitchToIQ (PInt 2) (PInt 0) s) = Ok None /\ snd (k_modeSwitchToIQ (PInt 4) (PInt 0) s) = Err ValueError.
Proof. destruct fsk_a_object as (s & E & _). exists s. split; [exact E|]. split; reflexivity. Qed.

(** C22 *)
Theorem C22_no_memory : forall rate h sfdg modulation fec scheme fcs white il preamble s,
  fsk_new rate h sfdg modulation fec scheme fcs white il preamble = Ok s ->
  forall (calls : list fsk_call) (a : arg) (entry nfec : pyval),
    snd (k_bitsToIQ a (fsk_history calls s)) = snd (k_bitsToIQ a s)
    /\ snd (k_bytesToIQ a (fsk_history calls s)) = snd (k_bytesToIQ a s)
    /\ snd (k_modeSwitchToIQ entry nfec (fsk_history calls s)) = snd (k_modeSwitchToIQ entry nfec s).
Proof.
  intros rate h sfdg modulation fec scheme fcs white il preamble s _ calls a entry nfec.
  pose proof (history_config calls s) as C. repeat split.
  - rewrite !bits_result. symmetry. now apply f_call_config.
  - rewrite !bytes_result. destruct (to_binary_array a); [|reflexivity]. cbn [rbind]. symmetry. now apply f_call_config.
Qed.
Print Assumptions C22_no_memory.
Example C22_case : exists s, fsk_a = Ok s /\ 
  k_binary (fsk_history [CallBytes (AList 1 [1%Q]); CallBits (AList 1 [1%Q]); CallSwitch (PInt 9) POther] s) <> None.
Proof. destruct fsk_a as [s|] eqn:E; [|vm_compute in E; discriminate]. exists s. split; [reflexivity|]. vm_compute in E. inversion E; subst. vm_compute. discriminate. Qed.

(** C61: the codes are those of 802.15.4g *)
Lemma fec_padding_pad x : fec_padding (zlen x / 8) = f_pad (@length bool x).
Proof. unfold fec_padding, f_pad, zlen. destruct (Z.even _); reflexivity. Qed.
Theorem C61_nrnsc : forall x, exists c,
  k_FEC 0 x = Ok c
  /\ let input := x ++ [false; false; false] ++ fec_padding (zlen x / 8) in
     c = flat_map (nrnsc_pair (fun n => nth n input false)) (seq 0 (length input)).
Proof.
  intro x. rewrite k_FEC_spec, fec_padding_pad. eexists. split; [reflexivity|]. cbv zeta.
  unfold f_input. change (f_tail 0 (fin (fstep 0) 0 x)) with [false; false; false]. apply nrnsc_code.
Qed.
Print Assumptions C61_nrnsc.
Theorem C61_rsc : forall x, exists c tail w,
  k_FEC 1 x = Ok c /\ length tail = 3%nat
  /\ let input := x ++ tail ++ fec_padding (zlen x / 8) in
     rsc_memory (fun n => nth n input false) w
     /\ c = flat_map (rsc_pair (fun n => nth n input false) w) (seq 0 (length input))
     /\ (forall i, (i < 3)%nat -> w (length x + i)%nat = false).
Proof.
  intro x. rewrite k_FEC_spec, fec_padding_pad. set (input := f_input 1 x).
  eexists. exists (f_tail 1 (fin (fstep 1) 0 x)), (rsc_w input).
  split; [reflexivity|]. split; [apply f_tail_length, fin0_range|]. cbv zeta.
  change (x ++ f_tail 1 (fin (fstep 1) 0 x) ++ f_pad (length x)) with input.
  split; [apply rsc_w_rec|]. split; [apply rsc_code|].
  (* after the tail the register holds the last three values, and it is zero *)
  assert (Z3 : rsc_fin input (length x + 3) = 0).
  { rewrite <- rsc_fin_firstn by (unfold input; rewrite f_input_length; lia).
    unfold input, f_input. rewrite app_assoc. rewrite firstn_exact by (rewrite app_length, f_tail_length by apply fin0_range; reflexivity).
    rewrite fin_app. apply f_tail_flush, fin0_range. }
  rewrite rsc_state in Z3. unfold at_ in Z3.
  rewrite !(proj2 (Nat.leb_le _ _)) in Z3 by lia.
  intros i Hi. destruct i as [|[|[|i]]]; [| | |lia].
  - replace (length x + 3 - 3)%nat with (length x + 0)%nat in Z3 by lia. destruct (rsc_w input (length x + 0)); [|reflexivity].
    exfalso. destruct (rsc_w input (length x + 3 - 1)), (rsc_w input (length x + 3 - 2)); cbn in Z3; lia.
  - replace (length x + 3 - 2)%nat with (length x + 1)%nat in Z3 by lia. destruct (rsc_w input (length x + 1)); [|reflexivity].
    exfalso. destruct (rsc_w input (length x + 3 - 1)), (rsc_w input (length x + 3 - 3)); cbn in Z3; lia.
  - replace (length x + 3 - 1)%nat with (length x + 2)%nat in Z3 by lia. destruct (rsc_w input (length x + 2)); [|reflexivity].
    exfalso. destruct (rsc_w input (length x + 3 - 2)), (rsc_w input (length x + 3 - 3)); cbn in Z3; lia.
Qed.
Print Assumptions C61_rsc.
Example C61_case : exists c d, k_FEC 0 (repeat true 8) = Ok c /\ k_FEC 1 (repeat true 8) = Ok d /\ c <> d
  /\ firstn 8 c = flat_map (nrnsc_pair (fun n => nth n (repeat true 4) false)) (seq 0 4).
Proof. eexists. eexists. split; [vm_compute; reflexivity|]. split; [vm_compute; reflexivity|]. split; [discriminate|vm_compute; reflexivity]. Qed.
