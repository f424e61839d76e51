(** * MR-OFDM: configuration, interleaver, pipeline *)
From Verif Require Import Py PList SBits MBits MPn9 SPn9 PPn9 MRate SRate PConv PRate MFields PFields SCrc MModul MOfdm Tables SOfdm SMrOfdm PModul POfdm MMrOfdm PBits PStd.

(** ** the object: construction parameters and the rest *)
Definition clear (s : mr_ofdm) : mr_ofdm :=
  {| m_il := m_il s; m_scr := m_scr s; m_opt := m_opt s; m_mcs := m_mcs s; m_low := m_low s; m_nfft := m_nfft s;
     m_ncbps_low := m_ncbps_low s; m_ncbps := m_ncbps s; m_rate := m_rate s; m_ndbps := m_ndbps s;
     m_ij := None; m_npad := None; m_header := None; m_header_enc := None; m_header_int := None; m_pay_pad := None;
     m_pay_scr := None; m_pay_enc := None; m_pay_int := None; m_mod_phy := None |}.

Ltac run := cbv beta iota zeta delta [sbind sget sattr slift smod sret interleaver padding clear
   upd_ij upd_npad upd_header upd_header_enc upd_header_int upd_pay_pad upd_pay_scr upd_pay_enc upd_pay_int upd_mod_phy
   m_il m_scr m_opt m_mcs m_low m_nfft m_ncbps_low m_ncbps m_rate m_ndbps m_ij m_npad m_header m_header_enc m_header_int
   m_pay_pad m_pay_scr m_pay_enc m_pay_int m_mod_phy].
Lemma phr_clear n s : snd (m_PHR n s) = snd (m_PHR n (clear s)) /\ clear (fst (m_PHR n s)) = clear s.
Proof.
  destruct s. unfold m_PHR. run.
  destruct (make_ofdm _ _ 0 511) as [[cfg st0]|e]; [|split; reflexivity].
  destruct (do row <- zget PHR_N_SYMBOLS _; zget row _) as [nsym|e]; [|split; reflexivity].
  destruct (do p <- _; phr_value p) as [h|e]; [|split; reflexivity].
  destruct (do r <- zget RATE _; encoder h r) as [enc|e]; [|split; reflexivity].
  destruct (zget FREQUENCY_SPREADING _) as [SF|e]; [|split; reflexivity].
  destruct (zget N_BPSC _) as [nb|e]; [|split; reflexivity].
  destruct (ofdm_symbols _ _ _ _) as [st1 [sy|e]]; split; reflexivity.
Qed.
Lemma payload_clear b mp s : snd (m_payload b mp s) = snd (m_payload b mp (clear s)) /\ clear (fst (m_payload b mp s)) = clear s.
Proof.
  destruct s. unfold m_payload. run.
  destruct (zget SCRAMBLING_SEED _) as [seed|e]; [|split; reflexivity].
  destruct (do r <- zget RATE _; encoder _ r) as [enc|e]; [|split; reflexivity].
  destruct (zget FREQUENCY_SPREADING _) as [SF|e]; [|split; reflexivity].
  destruct (zget N_BPSC _) as [nb|e]; [|split; reflexivity].
  destruct (make_ofdm _ _ _ _) as [[cfg st0]|e]; split; reflexivity.
Qed.
Lemma bits_clear a s : snd (m_bits_symbols a s) = snd (m_bits_symbols a (clear s)) /\ clear (fst (m_bits_symbols a s)) = clear s.
Proof.
  unfold m_bits_symbols. unfold sbind at 1 5. unfold slift at 1 3. unfold sbind at 1 7.
  destruct (check_binary_array a) as [bits|e]; [|split; reflexivity].
  unfold sbind, slift, smod, sret.
  destruct (phr_clear (zlen bits) s) as [E1 E2].
  assert (C2 : clear (clear s) = clear s) by reflexivity.
  pose proof (proj2 (phr_clear (zlen bits) (clear s))) as E3. rewrite C2 in E3.
  destruct (m_PHR (zlen bits) s) as [s1 r1], (m_PHR (zlen bits) (clear s)) as [s2 r2]. cbn [fst snd] in *. subst r2.
  destruct r1 as [[phr mp]|e]; [|split; [reflexivity|assumption]].
  destruct (payload_clear bits mp (upd_mod_phy mp s1)) as [F1 F2].
  destruct (payload_clear bits mp (upd_mod_phy mp s2)) as [G1 G2].
  replace (clear (upd_mod_phy mp s1)) with (clear s) in F1, F2 by (rewrite <- E2; reflexivity).
  replace (clear (upd_mod_phy mp s2)) with (clear s) in G1, G2 by (rewrite <- E3; reflexivity).
  destruct (m_payload bits mp (upd_mod_phy mp s1)) as [s3 r3], (m_payload bits mp (upd_mod_phy mp s2)) as [s4 r4].
  cbn [fst snd] in *. rewrite F1, G1. split; [|].
  - destruct (snd (m_payload bits mp (clear s))); reflexivity.
  - destruct (snd (m_payload bits mp (clear s))); cbn [fst]; assumption.
Qed.
Lemma bytes_clear a s : snd (m_bytes_symbols a s) = snd (m_bytes_symbols a (clear s)) /\ clear (fst (m_bytes_symbols a s)) = clear s.
Proof.
  unfold m_bytes_symbols, sbind, slift. destruct (to_binary_array a) as [bits|e]; [|split; reflexivity].
  apply bits_clear.
Qed.

(** ** interleaver *)
Definition is_perm (n : nat) (ij : list Z) : Prop :=
  length ij = n /\ NoDup ij /\ Forall (fun i => 0 <= i < Z.of_nat n) ij.
Definition permb (n : nat) (ij : list Z) : bool :=
  Nat.eqb (length ij) n && nodupb ij && forallb (fun i => (0 <=? i) && (i <? Z.of_nat n)) ij.
Lemma permb_ok n ij : permb n ij = true -> is_perm n ij.
Proof.
  unfold permb. intro H. apply andb_true_iff in H as [H H3]. apply andb_true_iff in H as [H1 H2].
  split; [now apply Nat.eqb_eq|]. split; [now apply nodupb_NoDup|]. rewrite forallb_forall in H3. rewrite Forall_forall.
  intros i Hi. specialize (H3 i Hi). apply andb_true_iff in H3 as [Ha Hb]. apply Z.leb_le in Ha. apply Z.ltb_lt in Hb. lia.
Qed.

Lemma il_blocks_length nb ij : forall x out base, length (il_blocks nb ij x out base) = length out.
Proof. induction nb as [|nb IH]; intros; cbn [il_blocks]; [reflexivity|]. rewrite IH. apply scatter_length. Qed.
Lemma il_blocks_spec n ij : is_perm n ij -> forall nb x out base,
  (nb * n <= length x)%nat -> (base + nb * n <= length out)%nat ->
  (forall i, (i < base)%nat -> nth i (il_blocks nb ij x out base) false = nth i out false)
  /\ (forall i, (base + nb * n <= i)%nat -> nth i (il_blocks nb ij x out base) false = nth i out false)
  /\ (forall b p, (b < nb)%nat -> (p < n)%nat ->
        nth (base + b * n + Z.to_nat (nth p ij 0)) (il_blocks nb ij x out base) false = nth (b * n + p) x false).
Proof.
  intros (Hl & Hd & Hr) nb. rewrite Forall_forall in Hr.
  induction nb as [|nb IH]; intros x out base Hx Ho; cbn [il_blocks].
  { split; [reflexivity|]. split; [reflexivity|]. intros; lia. }
  rewrite Hl. set (idx := map (fun i => (base + Z.to_nat i)%nat) ij).
  set (out' := scatter idx (firstn n x) out).
  assert (Hlo : length out' = length out) by apply scatter_length.
  destruct (IH (skipn n x) out' (base + n)%nat) as (I1 & I2 & I3).
  { rewrite skipn_length. lia. } { rewrite Hlo. lia. }
  assert (Hidx : forall i, In i idx -> (base <= i < base + n)%nat).
  { intros i Hi. apply in_map_iff in Hi as (z & <- & Hz). specialize (Hr z Hz). lia. }
  assert (Hout : forall i, (i < base \/ base + n <= i)%nat -> nth i out' false = nth i out false).
  { intros i Hi. apply scatter_notin. intro Hin. specialize (Hidx i Hin). lia. }
  split; [|split].
  - intros i Hi. rewrite I1 by lia. apply Hout. lia.
  - intros i Hi. rewrite I2 by lia. apply Hout. lia.
  - intros b p Hb Hp. destruct b as [|b].
    + assert (Hz : 0 <= nth p ij 0 < Z.of_nat n) by (apply Hr, nth_In; lia).
      rewrite I1 by lia. unfold out'.
      replace (base + 0 * n + Z.to_nat (nth p ij 0%Z))%nat with (nth p idx 0%nat).
      2:{ unfold idx. rewrite (nth_map _ _ _ 0%Z) by lia. lia. }
      rewrite scatter_nth.
      * rewrite nth_firstn by lia. reflexivity.
      * apply NoDup_map_inj; [|assumption]. intros a c Ha Hc E. pose proof (Hr a Ha). pose proof (Hr c Hc). lia.
      * unfold idx. rewrite firstn_length, map_length. lia.
      * intros i Hi. specialize (Hidx i Hi). lia.
      * unfold idx. rewrite map_length. lia.
    + specialize (I3 b p ltac:(lia) Hp). rewrite nth_skipn in I3.
      replace (base + S b * n + Z.to_nat (nth p ij 0%Z))%nat with (base + n + b * n + Z.to_nat (nth p ij 0%Z))%nat by lia.
      rewrite I3. f_equal. lia.
Qed.
Lemma il_apply_length ij x : length (il_apply ij x) = length x.
Proof. unfold il_apply. rewrite il_blocks_length. apply repeat_length. Qed.
Lemma nth_repeat_false n i : nth i (repeat false n) false = false.
Proof. revert i. induction n; destruct i; simpl; auto. Qed.
Lemma il_apply_spec n ij x : is_perm n ij -> (0 < n)%nat ->
  (forall b p, (b < length x / n)%nat -> (p < n)%nat ->
     nth (b * n + Z.to_nat (nth p ij 0)) (il_apply ij x) false = nth (b * n + p) x false)
  /\ (forall i, (length x / n * n <= i)%nat -> nth i (il_apply ij x) false = false).
Proof.
  intros Hp Hn. pose proof (Nat.mul_div_le (length x) n ltac:(lia)) as Hle.
  destruct (il_blocks_spec n ij Hp (length x / n) x (repeat false (length x)) 0) as (_ & H2 & H3).
  { lia. } { rewrite repeat_length. lia. }
  unfold il_apply. replace (length ij) with n by (symmetry; apply Hp).
  split.
  - intros b p Hb Hpp. specialize (H3 b p Hb Hpp). rewrite Nat.add_0_l in H3. exact H3.
  - intros i Hi. rewrite H2 by lia. apply nth_repeat_false.
Qed.

(** the receiver's inverse *)
Definition il_undo (ij : list Z) (y : list bool) : list bool :=
  flat_map (fun b => map (fun i => nth (b * length ij + Z.to_nat i) y false) ij) (seq 0 (length y / length ij)).
Lemma flat_map_block_nth {A} (f : nat -> list A) n k b p d : (forall i, length (f i) = n) -> (b < k)%nat -> (p < n)%nat ->
  nth (b * n + p) (flat_map f (seq 0 k)) d = nth p (f b) d.
Proof.
  intros Hf Hb Hp. replace k with (b + (1 + (k - b - 1)))%nat by lia. rewrite seq_app, flat_map_app.
  assert (E : forall a m, length (flat_map f (seq a m)) = (m * n)%nat).
  { intros a m. revert a. induction m as [|m IH]; intro a; [reflexivity|]. cbn [seq flat_map]. rewrite app_length, Hf, IH. lia. }
  rewrite app_nth2 by (rewrite E; lia). rewrite E. replace (b * n + p - b * n)%nat with p by lia.
  cbn [Nat.add seq flat_map]. rewrite app_nth1 by (rewrite Hf; lia). reflexivity.
Qed.
Lemma flat_map_block_length {A} (f : nat -> list A) n a m : (forall i, length (f i) = n) -> length (flat_map f (seq a m)) = (m * n)%nat.
Proof. intro Hf. revert a. induction m as [|m IH]; intro a; [reflexivity|]. cbn [seq flat_map]. rewrite app_length, Hf, IH. lia. Qed.
Lemma il_undo_apply n ij x : is_perm n ij -> (0 < n)%nat ->
  il_undo ij (il_apply ij x) = firstn (length x / n * n) x.
Proof.
  intros Hp Hn. destruct (il_apply_spec n ij x Hp Hn) as [H1 _]. destruct Hp as (Hl & Hd & Hr).
  unfold il_undo. rewrite Hl, il_apply_length.
  set (f := fun b => map (fun i => nth (b * n + Z.to_nat i) (il_apply ij x) false) ij).
  assert (Hf : forall i, length (f i) = n) by (intro; unfold f; now rewrite map_length).
  pose proof (Nat.mul_div_le (length x) n ltac:(lia)) as Hle.
  apply list_eq_nth with false.
  { rewrite (flat_map_block_length f n) by assumption. rewrite firstn_length. lia. }
  intros i Hi. rewrite (flat_map_block_length f n) in Hi by assumption.
  assert (Ei : i = (i / n * n + i mod n)%nat) by (rewrite Nat.mul_comm; apply Nat.div_mod; lia).
  assert (i mod n < n)%nat by (apply Nat.mod_upper_bound; lia).
  assert (i / n < length x / n)%nat by (apply Nat.div_lt_upper_bound; lia).
  rewrite nth_firstn by lia. rewrite Ei at 1. rewrite (flat_map_block_nth f n) by assumption.
  unfold f. rewrite (nth_map _ _ _ 0) by lia. rewrite H1 by assumption. now rewrite <- Ei.
Qed.

(** the index arrays of the standard configurations *)
Definition std_ij (opt mcs il : Z) : list Z :=
  il_ij (Z.of_nat (il_block opt mcs il)) (Z.of_nat (mcs_spreading mcs)) (Z.of_nat (group_size (mcs_modulation mcs))).
Definition il_ok (il : Z) : Prop := il = 0 \/ il = 1.
Lemma std_perm opt mcs il : supported opt mcs -> il_ok il -> is_perm (il_block opt mcs il) (std_ij opt mcs il).
Proof.
  intros H Hi. apply permb_ok.
  assert (forallb (fun c => permb (il_block (fst c) (snd c) 0) (std_ij (fst c) (snd c) 0)) all_supported = true) as H0 by (vm_compute; reflexivity).
  assert (forallb (fun c => permb (il_block (fst c) (snd c) 1) (std_ij (fst c) (snd c) 1)) all_supported = true) as H1 by (vm_compute; reflexivity).
  destruct Hi as [-> | ->].
  - exact (supported_forall (fun o m => permb (il_block o m 0) (std_ij o m 0)) H0 opt mcs H).
  - exact (supported_forall (fun o m => permb (il_block o m 1) (std_ij o m 1)) H1 opt mcs H).
Qed.
Lemma il_block_pos opt mcs il : supported opt mcs -> il_ok il -> (0 < il_block opt mcs il)%nat.
Proof. intros H [-> | ->]; revert H; each; vm_compute; lia. Qed.

(** ** construction *)
Definition std_obj (opt mcs il scr : Z) : mr_ofdm :=
  {| m_il := il; m_scr := scr; m_opt := opt; m_mcs := mcs; m_low := lowest_mcs opt; m_nfft := fft_size opt;
     m_ncbps_low := data_tones opt * Z.of_nat (group_size (mcs_modulation (lowest_mcs opt)));
     m_ncbps := data_tones opt * Z.of_nat (group_size (mcs_modulation mcs));
     m_rate := (if mcs_three_quarters mcs then 3 # 4 else 1 # 2)%Q; m_ndbps := data_bits opt mcs;
     m_ij := None; m_npad := None; m_header := None; m_header_enc := None; m_header_int := None; m_pay_pad := None;
     m_pay_scr := None; m_pay_enc := None; m_pay_int := None; m_mod_phy := None |}.
Definition scr_ok (scr : Z) : Prop := 0 <= scr <= 3.
Lemma new_std opt mcs il scr : supported opt mcs -> il_ok il -> scr_ok scr ->
  mr_ofdm_new (PInt mcs) (PInt opt) (PInt il) (PInt scr) = Ok (std_obj opt mcs il scr).
Proof.
  intros H Hi Hs. assert (Es : scr = 0 \/ scr = 1 \/ scr = 2 \/ scr = 3) by (unfold scr_ok in Hs; lia).
  revert H. destruct Hi as [-> | ->]; destruct Es as [->|[->|[->| ->]]]; each; reflexivity.
Qed.

(** ** encoder *)
Definition coded (mcs : Z) (x : list bool) : list bool := if mcs_three_quarters mcs then code_34 0 x else code_12 0 x.
Lemma code_12_length seed x : length (code_12 seed x) = (2 * length x)%nat.
Proof. rewrite <- enc_code_12. apply enc_length. Qed.
Lemma code_34_length seed x : length (code_34 seed x) = (4 * (length x / 3))%nat.
Proof.
  unfold code_34. generalize (length x / 3)%nat. intro n. rewrite (flat_map_block_length _ 4); [lia|reflexivity].
Qed.
Lemma encoder_12 x : encoder x "1/2" = Ok (code_12 0 x).
Proof.
  unfold encoder. cbn [String.eqb Ascii.eqb Bool.eqb]. rewrite <- enc_code_12.
  pose proof (r12_sequence_spec (r12_new 0) x (r12_new_range 0)) as H. rewrite H. rewrite map_z2b_b2z. reflexivity.
Qed.
Lemma encoder_34 x : Nat.modulo (length x) 3 = 0%nat -> x <> [] -> encoder x "3/4" = Ok (code_34 0 x).
Proof.
  intros Hm Hx. unfold encoder. cbn [String.eqb Ascii.eqb Bool.eqb].
  destruct (r34_sequence_spec (r12_new 0) x (r12_new_range 0) Hm Hx) as (A & B & E). rewrite E. cbn [rbind].
  rewrite map_z2b_b2z. now rewrite enc34_code.
Qed.

(** ** table lookups *)
Definition rate_name (mcs : Z) : string := if mcs_three_quarters mcs then "3/4" else "1/2".
Definition rate_q (mcs : Z) : Q := (if mcs_three_quarters mcs then 3 # 4 else 1 # 2)%Q.
Lemma get_phr_symbols opt mcs il : supported opt mcs -> il_ok il ->
  (do row <- zget PHR_N_SYMBOLS il; zget row opt) = Ok (phr_symbols il opt).
Proof. intros H [-> | ->]; revert H; each; reflexivity. Qed.
Lemma get_rate opt mcs : supported opt mcs -> zget RATE mcs = Ok (rate_name mcs).
Proof. each; reflexivity. Qed.
Lemma low_half opt mcs : supported opt mcs -> mcs_three_quarters (lowest_mcs opt) = false.
Proof. each; reflexivity. Qed.
Lemma get_sf opt mcs : supported opt mcs -> zget FREQUENCY_SPREADING mcs = Ok (Z.of_nat (mcs_spreading mcs)).
Proof. each; reflexivity. Qed.
Lemma get_bpsc opt mcs : supported opt mcs -> zget N_BPSC mcs = Ok (Z.of_nat (group_size (mcs_modulation mcs))).
Proof. each; reflexivity. Qed.
Lemma get_seed scr : scr_ok scr -> zget SCRAMBLING_SEED scr = Ok (scrambling_seed scr).
Proof. intro H. assert (scr = 0 \/ scr = 1 \/ scr = 2 \/ scr = 3) as [->|[->|[->| ->]]] by (unfold scr_ok in H; lia); reflexivity. Qed.
Lemma ncbps_block opt mcs il : supported opt mcs -> il_ok il ->
  il_ncbps il (fft_size opt) (Z.of_nat (mcs_spreading mcs)) (Z.of_nat (group_size (mcs_modulation mcs))) = Z.of_nat (il_block opt mcs il).
Proof. intros H [-> | ->]; revert H; each; reflexivity. Qed.
Lemma header_length opt mcs il : supported opt mcs -> il_ok il ->
  Z.to_nat (Qtrunc (inject_Z (get_number_of_bits_per_symbol (std_cfg opt (lowest_mcs opt))) * rate_q mcs) * phr_symbols il opt)
  = header_bits opt mcs il.
Proof. intros H [-> | ->]; revert H; each; reflexivity. Qed.
Lemma header_30 opt mcs il : supported opt mcs -> il_ok il -> (30 <= header_bits opt mcs il)%nat.
Proof. intros H [-> | ->]; revert H; each; vm_compute; lia. Qed.
(** symbols the header occupies *)
Definition nphr (opt mcs il : Z) : nat := (2 * header_bits opt mcs il / coded_bits opt (lowest_mcs opt))%nat.
Lemma header_symbols opt mcs il : supported opt mcs -> il_ok il ->
  (2 * header_bits opt mcs il = nphr opt mcs il * coded_bits opt (lowest_mcs opt))%nat.
Proof. intros H [-> | ->]; revert H; each; reflexivity. Qed.
Lemma phr_layout_length rate len scr n : (30 <= n)%nat -> length (phr_layout rate len scr n) = n.
Proof.
  intro H. unfold phr_layout. set (h := _ ++ _ ++ _ ++ _ ++ _ ++ _).
  assert (Hh : length h = 22%nat) by (unfold h; rewrite !app_length, !msb_bits_length; reflexivity).
  rewrite !app_length, repeat_length, Hh.
  assert (Hc : length (crc8_ofdm h) = 8%nat).
  { unfold crc8_ofdm. rewrite map_length. unfold crc8.
    assert (G : forall d r, length r = 8%nat -> length (fold_left crc_step d r) = 8%nat).
    { induction d as [|b d IH]; intros r Hr; [exact Hr|]. cbn [fold_left]. apply IH. unfold crc_step.
      destruct r as [|r0 r]; [discriminate|]. cbn [tl hd]. assert (length (r ++ [false]) = 8%nat) by (rewrite app_length; simpl in *; lia).
      destruct (xorb r0 b); [|assumption]. rewrite PConv.xor_bits_length, H0. reflexivity. }
    apply G. reflexivity. }
  lia.
Qed.

(** ** header *)
Definition hdr (opt mcs il scr len : Z) : list bool := phr_layout mcs len scr (header_bits opt mcs il).
Definition hdr_sent (opt mcs il scr len : Z) : list bool := il_apply (std_ij opt (lowest_mcs opt) il) (code_12 0 (hdr opt mcs il scr len)).
Lemma hdr_sent_length opt mcs il scr len : supported opt mcs -> il_ok il ->
  length (hdr_sent opt mcs il scr len) = (nphr opt mcs il * coded_bits opt (lowest_mcs opt))%nat.
Proof.
  intros H Hi. unfold hdr_sent. rewrite il_apply_length, code_12_length. unfold hdr. rewrite phr_layout_length by now apply header_30 with (1 := H).
  now apply header_symbols.
Qed.
Definition after_phr (opt mcs il scr len : Z) (s : mr_ofdm) : mr_ofdm :=
  upd_header_int (hdr_sent opt mcs il scr len) (upd_ij (std_ij opt (lowest_mcs opt) il)
    (upd_header_enc (code_12 0 (hdr opt mcs il scr len)) (upd_header (hdr opt mcs il scr len) s))).
Definition st_after (opt mcs il : Z) : ofdm_st :=
  {| o_col := Z.of_nat (nphr opt mcs il) mod zlen (std_sets opt);
     o_pn9 := {| pn_seed := 511; pn_value := pn_iter (nphr opt mcs il * npil opt) 511 |} |}.

Lemma mcs_range opt mcs : supported opt mcs -> 0 <= mcs <= 6.
Proof. unfold supported. lia. Qed.
Lemma phr_run opt mcs il scr n s : supported opt mcs -> il_ok il -> scr_ok scr -> clear s = std_obj opt mcs il scr ->
  1 <= n / 8 <= 2047 ->
  m_PHR n s = (after_phr opt mcs il scr (n / 8) s,
               Ok (map (sym opt (lowest_mcs opt) 0 511 (hdr_sent opt mcs il scr (n / 8))) (seq 0 (nphr opt mcs il)),
                   (std_cfg opt (lowest_mcs opt), st_after opt mcs il))).
Proof.
  intros H Hi Hs E Hn. pose proof (supported_low opt mcs H) as Hl. destruct s. unfold clear, std_obj in E.
  cbn [MMrOfdm.m_il MMrOfdm.m_scr MMrOfdm.m_opt MMrOfdm.m_mcs MMrOfdm.m_low MMrOfdm.m_nfft MMrOfdm.m_ncbps_low MMrOfdm.m_ncbps MMrOfdm.m_rate MMrOfdm.m_ndbps] in E.
  injection E as -> -> -> -> -> -> -> -> -> ->.
  unfold m_PHR. run. rewrite make_std by assumption. cbv beta iota zeta.
  rewrite (get_phr_symbols opt mcs il H Hi). cbv beta iota zeta. fold (rate_q mcs).
  rewrite (header_length opt mcs il H Hi).
  rewrite phr_value_ok by (try apply header_30 with (1 := H); try assumption; eapply mcs_range; eassumption).
  fold (hdr opt mcs il scr (n / 8)). cbv beta iota zeta.
  rewrite (get_rate opt _ Hl). unfold rate_name. rewrite (low_half opt mcs H). cbn [rbind]. rewrite encoder_12. cbv beta iota zeta.
  rewrite (get_sf opt _ Hl), (get_bpsc opt _ Hl). cbv beta iota zeta. rewrite (ncbps_block opt _ il Hl Hi).
  fold (std_ij opt (lowest_mcs opt) il). fold (hdr_sent opt mcs il scr (n / 8)).
  rewrite (run_symbols opt (lowest_mcs opt) 0 511 (hdr_sent opt mcs il scr (n / 8)) (nphr opt mcs il) Hl).
  - cbv beta iota zeta. reflexivity.
  - pose proof (std_sets_pos opt (supported_opt _ _ H)). lia.
  - now apply hdr_sent_length.
Qed.
Lemma phr_fails opt mcs il scr n s : supported opt mcs -> il_ok il -> scr_ok scr -> clear s = std_obj opt mcs il scr ->
  ~ (1 <= n / 8 <= 2047) -> m_PHR n s = (s, Err ValueError).
Proof.
  intros H Hi Hs E Hn. pose proof (supported_low opt mcs H) as Hl. destruct s. unfold clear, std_obj in E.
  cbn [MMrOfdm.m_il MMrOfdm.m_scr MMrOfdm.m_opt MMrOfdm.m_mcs MMrOfdm.m_low MMrOfdm.m_nfft MMrOfdm.m_ncbps_low MMrOfdm.m_ncbps MMrOfdm.m_rate MMrOfdm.m_ndbps] in E.
  injection E as -> -> -> -> -> -> -> -> -> ->.
  unfold m_PHR. run. rewrite make_std by assumption. cbv beta iota zeta.
  rewrite (get_phr_symbols opt mcs il H Hi). cbv beta iota zeta. fold (rate_q mcs).
  rewrite (header_length opt mcs il H Hi).
  rewrite phr_value_err by (try apply header_30 with (1 := H); try assumption; eapply mcs_range; eassumption). reflexivity.
Qed.

(** ** payload *)
Lemma data_bits_pos opt mcs : supported opt mcs -> 0 < data_bits opt mcs.
Proof. each; reflexivity. Qed.
Lemma data_bits_3 opt mcs : supported opt mcs -> mcs_three_quarters mcs = true -> data_bits opt mcs mod 3 = 0.
Proof. each; vm_compute; first [discriminate | reflexivity]. Qed.
(** coded bits of a group of symbols *)
Lemma group_coded opt mcs : supported opt mcs ->
  (if mcs_three_quarters mcs then data_bits opt mcs * 4 / 3 else data_bits opt mcs * 2)
  = Z.of_nat (coded_bits opt mcs * mcs_spreading mcs).
Proof. each; reflexivity. Qed.

Lemma groups_spec opt mcs n : supported opt mcs ->
  let d := data_bits opt mcs in let g := Z.of_nat (groups opt mcs n) in
  Z.of_nat n + 6 <= g * d < Z.of_nat n + 6 + d /\ 0 < g
  /\ Z.of_nat (pad_bits opt mcs n) = g * d - (Z.of_nat n + 6).
Proof.
  intros H d g. pose proof (data_bits_pos opt mcs H) as Hd. fold d in Hd.
  assert (Eg : g = - ((- (Z.of_nat n + 6)) / d)).
  { unfold g, groups. fold d. rewrite Z2Nat.id; [reflexivity|].
    pose proof (Z.div_mod (- (Z.of_nat n + 6)) d ltac:(lia)). pose proof (Z.mod_pos_bound (- (Z.of_nat n + 6)) d Hd). nia. }
  pose proof (Z.div_mod (- (Z.of_nat n + 6)) d ltac:(lia)). pose proof (Z.mod_pos_bound (- (Z.of_nat n + 6)) d Hd).
  assert (A : Z.of_nat n + 6 <= g * d < Z.of_nat n + 6 + d) by nia.
  split; [exact A|]. split; [nia|].
  unfold pad_bits. fold d. assert (Z.of_nat (groups opt mcs n * Z.to_nat d) = g * d) by (rewrite Nat2Z.inj_mul, Z2Nat.id by lia; reflexivity). lia.
Qed.

(** bits entering the payload encoder *)
Definition padded (opt mcs : Z) (bits : list bool) : list bool := bits ++ repeat false (6 + pad_bits opt mcs (length bits)).
Definition plain (opt mcs scr : Z) (bits : list bool) : list bool :=
  let n := length bits in let w := scrambler (padded opt mcs bits) (scrambling_seed scr) in
  if Nat.eqb (pad_bits opt mcs n) 0 then w else firstn n w ++ repeat false 6 ++ skipn (n + 6) w.
Lemma padded_length opt mcs bits : supported opt mcs ->
  Z.of_nat (length (padded opt mcs bits)) = Z.of_nat (groups opt mcs (length bits)) * data_bits opt mcs.
Proof.
  intro H. unfold padded. rewrite app_length, repeat_length. destruct (groups_spec opt mcs (length bits) H) as (_ & _ & E). lia.
Qed.
Lemma plain_length opt mcs scr bits : length (plain opt mcs scr bits) = length (padded opt mcs bits).
Proof.
  unfold plain. destruct (Nat.eqb _ 0); [apply scrambler_length|].
  rewrite !app_length, firstn_length, skipn_length, repeat_length, scrambler_length.
  unfold padded. rewrite app_length, repeat_length. lia.
Qed.
Lemma skipn_plus {A} a b (l : list A) : skipn a (skipn b l) = skipn (b + a) l.
Proof. revert l. induction b as [|b IH]; intro l; [reflexivity|]. destruct l; [now rewrite !skipn_nil|]. cbn [Nat.add skipn]. apply IH. Qed.
Lemma py_fill_tail (w : list bool) (n p : nat) : length w = (n + 6 + p)%nat ->
  py_fill (- 6 - Z.of_nat p) (- Z.of_nat p) false w
  = if Nat.eqb p 0 then w else firstn n w ++ repeat false 6 ++ skipn (n + 6) w.
Proof.
  intro Hw. unfold py_fill, zlen. rewrite Hw. unfold py_bound.
  replace (- 6 - Z.of_nat p <? 0) with true by (symmetry; apply Z.ltb_lt; lia).
  destruct (Nat.eqb_spec p 0) as [->|Hp].
  - cbn [Z.of_nat Z.opp Z.ltb Z.compare]. match goal with |- context [repeat false ?k] => replace k with 0%nat by lia end. reflexivity.
  - replace (- Z.of_nat p <? 0) with true by (symmetry; apply Z.ltb_lt; lia).
    replace (Z.to_nat (Z.max 0 (Z.of_nat (n + 6 + p) + (- 6 - Z.of_nat p)))) with n by lia.
    replace (Z.to_nat _) with 6%nat by lia.
    rewrite <- (firstn_skipn n w) at 1. rewrite <- (firstn_skipn 6 (skipn n w)) at 1.
    rewrite skipn_plus.
    assert (Hf : length (firstn n w) = n) by (rewrite firstn_length; lia). rewrite <- Hf at 1.
    apply set_slice_at. rewrite firstn_length, skipn_length, repeat_length. lia.
Qed.
Definition pay_sent (opt mcs il scr : Z) (bits : list bool) : list bool := il_apply (std_ij opt mcs il) (coded mcs (plain opt mcs scr bits)).
Definition npay (opt mcs : Z) (n : nat) : nat := (groups opt mcs n * mcs_spreading mcs)%nat.
Lemma plain_3 opt mcs scr bits : supported opt mcs -> mcs_three_quarters mcs = true ->
  Nat.modulo (length (plain opt mcs scr bits)) 3 = 0%nat.
Proof.
  intros H H3. pose proof (data_bits_3 opt mcs H H3) as E. pose proof (padded_length opt mcs bits H) as L.
  rewrite plain_length. apply Nat2Z.inj. rewrite Nat2Z.inj_mod, L. change (Z.of_nat 3) with 3.
  rewrite Z.mul_mod, E, Z.mul_0_r by lia. reflexivity.
Qed.
Lemma coded_length opt mcs scr bits : supported opt mcs ->
  length (coded mcs (plain opt mcs scr bits)) = (npay opt mcs (length bits) * coded_bits opt mcs)%nat.
Proof.
  intro H. pose proof (group_coded opt mcs H) as G. pose proof (padded_length opt mcs bits H) as L.
  unfold coded, npay. pose proof (plain_3 opt mcs scr bits H) as H3. pose proof (data_bits_3 opt mcs H) as D3.
  destruct (mcs_three_quarters mcs).
  - rewrite code_34_length. specialize (H3 eq_refl). specialize (D3 eq_refl). rewrite plain_length in *.
    pose proof (Nat.div_mod (length (padded opt mcs bits)) 3 ltac:(lia)) as M. rewrite H3 in M.
    pose proof (Z.div_mod (data_bits opt mcs) 3 ltac:(lia)) as M2. rewrite D3 in M2.
    assert (G2 : data_bits opt mcs / 3 * 4 = Z.of_nat (coded_bits opt mcs * mcs_spreading mcs)).
    { rewrite <- G. rewrite M2 at 2. replace ((3 * (data_bits opt mcs / 3) + 0) * 4) with (data_bits opt mcs / 3 * 4 * 3) by lia.
      now rewrite Z.div_mul by lia. }
    apply Nat2Z.inj. rewrite !Nat2Z.inj_mul in *. nia.
  - rewrite code_12_length, plain_length. apply Nat2Z.inj. rewrite !Nat2Z.inj_mul in *. nia.
Qed.
Lemma pay_sent_length opt mcs il scr bits : supported opt mcs ->
  length (pay_sent opt mcs il scr bits) = (npay opt mcs (length bits) * coded_bits opt mcs)%nat.
Proof. intro H. unfold pay_sent. rewrite il_apply_length. now apply coded_length. Qed.

Definition after_payload (opt mcs il scr : Z) (bits : list bool) (s : mr_ofdm) : mr_ofdm :=
  upd_pay_int (pay_sent opt mcs il scr bits) (upd_ij (std_ij opt mcs il)
    (upd_pay_enc (coded mcs (plain opt mcs scr bits)) (upd_pay_scr (plain opt mcs scr bits)
      (upd_pay_pad (padded opt mcs bits) (upd_npad (Z.of_nat (pad_bits opt mcs (length bits))) s))))).
Lemma payload_run opt mcs il scr bits cfg col v s : supported opt mcs -> il_ok il -> scr_ok scr -> clear s = std_obj opt mcs il scr ->
  0 <= col < zlen (std_sets opt) ->
  m_payload bits (cfg, {| o_col := col; o_pn9 := {| pn_seed := 511; pn_value := v |} |}) s
  = (after_payload opt mcs il scr bits s,
     Ok (map (sym opt mcs col v (pay_sent opt mcs il scr bits)) (seq 0 (npay opt mcs (length bits))))).
Proof.
  intros H Hi Hs E Hc. destruct s. unfold clear, std_obj in E.
  cbn [MMrOfdm.m_il MMrOfdm.m_scr MMrOfdm.m_opt MMrOfdm.m_mcs MMrOfdm.m_low MMrOfdm.m_nfft MMrOfdm.m_ncbps_low MMrOfdm.m_ncbps MMrOfdm.m_rate MMrOfdm.m_ndbps] in E.
  injection E as -> -> -> -> -> -> -> -> -> ->.
  unfold m_payload. run.
  destruct (groups_spec opt mcs (length bits) H) as (Hg1 & Hg0 & Ep).
  assert (Ep' : ceil_div (zlen bits + 6) (data_bits opt mcs) * data_bits opt mcs - (zlen bits + 6) = Z.of_nat (pad_bits opt mcs (length bits))).
  { rewrite Ep. f_equal. f_equal. unfold ceil_div, zlen. unfold groups. rewrite Z2Nat.id; [reflexivity|].
    pose proof (data_bits_pos opt mcs H). unfold groups in Hg0. lia. }
  rewrite Ep'. rewrite Nat2Z.id.
  assert (Epad : bits ++ repeat false (pad_bits opt mcs (length bits)) ++ repeat false 6 = padded opt mcs bits).
  { unfold padded. f_equal. rewrite <- repeat_app. f_equal. lia. }
  rewrite Epad. rewrite (get_seed scr Hs). cbv beta iota zeta.
  assert (Ef : py_fill (- 6 - Z.of_nat (pad_bits opt mcs (length bits))) (- Z.of_nat (pad_bits opt mcs (length bits))) false
                 (scrambler (padded opt mcs bits) (scrambling_seed scr)) = plain opt mcs scr bits).
  { rewrite (py_fill_tail _ (length bits)); [reflexivity|]. rewrite scrambler_length. unfold padded. rewrite app_length, repeat_length. lia. }
  rewrite Ef.
  assert (Een : (do r <- zget RATE mcs; encoder (plain opt mcs scr bits) r) = Ok (coded mcs (plain opt mcs scr bits))).
  { rewrite (get_rate opt mcs H). cbn [rbind]. unfold rate_name, coded.
    pose proof (plain_3 opt mcs scr bits H) as H3. destruct (mcs_three_quarters mcs); [|apply encoder_12].
    apply encoder_34; [now apply H3|]. intro E0. pose proof (plain_length opt mcs scr bits) as L. rewrite E0 in L.
    unfold padded in L. rewrite app_length, repeat_length in L. simpl in L. lia. }
  rewrite Een. cbv beta iota zeta.
  rewrite (get_sf opt mcs H), (get_bpsc opt mcs H). cbv beta iota zeta. rewrite (ncbps_block opt mcs il H Hi).
  fold (std_ij opt mcs il). fold (pay_sent opt mcs il scr bits).
  cbn [snd get_pilot_set_index get_pn9_value o_col o_pn9 pn9_current pn_value].
  rewrite make_std by assumption. cbv beta iota zeta.
  rewrite (run_symbols opt mcs col v (pay_sent opt mcs il scr bits) (npay opt mcs (length bits)) H Hc) by now apply pay_sent_length.
  reflexivity.
Qed.

(** ** the whole frame *)
Definition frame_phr (opt mcs il scr : Z) (bits : list bool) : list (list tone) :=
  map (sym opt (lowest_mcs opt) 0 511 (hdr_sent opt mcs il scr (zlen bits / 8))) (seq 0 (nphr opt mcs il)).
Definition frame_payload (opt mcs il scr : Z) (bits : list bool) : list (list tone) :=
  map (sym opt mcs (Z.of_nat (nphr opt mcs il) mod zlen (std_sets opt)) (pn_iter (nphr opt mcs il * npil opt) 511)
           (pay_sent opt mcs il scr bits)) (seq 0 (npay opt mcs (length bits))).
Definition after_frame (opt mcs il scr : Z) (bits : list bool) (s : mr_ofdm) : mr_ofdm :=
  after_payload opt mcs il scr bits (upd_mod_phy (std_cfg opt (lowest_mcs opt), st_after opt mcs il) (after_phr opt mcs il scr (zlen bits / 8) s)).
Theorem frame_run opt mcs il scr a bits s : supported opt mcs -> il_ok il -> scr_ok scr -> clear s = std_obj opt mcs il scr ->
  check_binary_array a = Ok bits -> 1 <= zlen bits / 8 <= 2047 ->
  m_bits_symbols a s = (after_frame opt mcs il scr bits s, Ok (frame_phr opt mcs il scr bits, frame_payload opt mcs il scr bits)).
Proof.
  intros H Hi Hs E Hb Hn. unfold m_bits_symbols, sbind, slift, smod, sret. rewrite Hb.
  rewrite (phr_run opt mcs il scr (zlen bits) s H Hi Hs E Hn). cbv beta iota zeta.
  pose proof (payload_run opt mcs il scr bits (std_cfg opt (lowest_mcs opt)) (o_col (st_after opt mcs il)) (pn_value (o_pn9 (st_after opt mcs il)))
     (upd_mod_phy (std_cfg opt (lowest_mcs opt), st_after opt mcs il) (after_phr opt mcs il scr (zlen bits / 8) s)) H Hi Hs) as P.
  specialize (P ltac:(rewrite <- E; reflexivity)).
  specialize (P ltac:(apply Z.mod_pos_bound; apply (std_sets_pos opt (supported_opt _ _ H)))).
  change {| o_col := o_col (st_after opt mcs il); o_pn9 := {| pn_seed := 511; pn_value := pn_value (o_pn9 (st_after opt mcs il)) |} |}
    with (st_after opt mcs il) in P.
  rewrite P. reflexivity.
Qed.
Lemma frame_fails opt mcs il scr a bits s : supported opt mcs -> il_ok il -> scr_ok scr -> clear s = std_obj opt mcs il scr ->
  check_binary_array a = Ok bits -> ~ (1 <= zlen bits / 8 <= 2047) -> m_bits_symbols a s = (s, Err ValueError).
Proof.
  intros H Hi Hs E Hb Hn. unfold m_bits_symbols, sbind, slift, smod, sret. rewrite Hb.
  rewrite (phr_fails opt mcs il scr (zlen bits) s H Hi Hs E Hn). reflexivity.
Qed.
