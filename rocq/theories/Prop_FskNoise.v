(** * C75: noise margin of MR-FSK signals *)
From Coq Require Import Qreals Reals Lra.
From Coquelicot Require Import Complex.
From Verif Require Import Py MBits MPn9 Tables MFsk SBits SEntry SPn9 SFsk PList PBits PEntry PPn9 PConv PFskFec PFsk PFskGap Prop_Fsk Prop_FskGap
  MTime STime PTime SGap PGap MFskWave SFskWave Prop_FskWave SFskGap PFskNoise.
Local Open Scope Z_scope.

Lemma distance_pos a b : length a = length b -> a <> b -> (1 <= distance a b)%nat.
Proof.
  revert b. induction a as [|x a IH]; destruct b as [|y b]; intros L N; try discriminate L; [congruence|]. unfold distance in *. cbn [xor_bits weight].
  destruct (bool_dec x y) as [->|D].
  - specialize (IH b ltac:(now injection L) ltac:(congruence)). lia.
  - destruct x, y; try congruence; cbn; lia.
Qed.
Lemma plain_differ s t a b za zb fa fb : fsk_object s -> fsk_object t -> same_air s t -> k_fec s = false ->
  holds_octets a za -> holds_octets b zb -> za <> [] -> zb <> [] -> Forall is_octet za -> Forall is_octet zb -> zlen za <= 2047 -> zlen zb <= 2047 ->
  k_binary (fst (k_bytesToIQ a s)) = Some fa -> k_binary (fst (k_bytesToIQ b t)) = Some fb ->
  (k_fcs s, za) <> (k_fcs t, zb) -> (1 <= distance fa fb)%nat.
Proof.
  intros Hs Ht (A1 & A2 & A3 & A4 & A5 & A6 & A7) F Ha Hb Na Nb Oa Ob La Lb Ba Bb N.
  destruct (bytes_frame s a za Hs Ha Na Oa La) as (fa' & Ba' & Ea & _). rewrite Ba in Ba'. injection Ba' as <-.
  destruct (bytes_frame t b zb Ht Hb Nb Ob Lb) as (fb' & Bb' & Eb & _). rewrite Bb in Bb'. injection Bb' as <-.
  apply object_valid in Hs, Ht.
  assert (La' : (length za <= 2047)%nat) by (unfold zlen in La; lia). assert (Lb' : (length zb <= 2047)%nat) by (unfold zlen in Lb; lia).
  destruct (f_frame_inv _ _ _ Hs Ea) as [Ca ->]. destruct (f_frame_inv _ _ _ Ht Eb) as [Cb ->].
  assert (Shr : shr_bits s = shr_bits t) by (unfold shr_bits; now rewrite A1, A2, A3, A4).
  rewrite Shr, distance_app, PConv.distance_refl by reflexivity. rewrite Nat.add_0_l.
  assert (B : forall u z, k_fec u = false -> PFsk.carries u (octet_bits z) -> (f_start u <= length (body u (octet_bits z)))%nat).
  { intros u z Fu Cu. rewrite body_length by assumption. unfold f_start. rewrite Fu. lia. }
  assert (Ft : k_fec t = false) by congruence.
  rewrite white_distance; try assumption; [|now apply B|unfold f_start; rewrite A4; apply B; assumption].
  unfold PFsk.body. rewrite F, Ft. rewrite distance_app by (unfold hdr; now rewrite !fsk_header_length).
  destruct (list_eq_dec bool_dec (hdr s (octet_bits za)) (hdr t (octet_bits zb))) as [E|E].
  - pose proof E as E'. apply header_inj in E' as [E1 E2]; try assumption. rewrite E, PConv.distance_refl, Nat.add_0_l.
    apply distance_pos; [rewrite !octet_bits_length; lia|]. intro Q. apply N. apply octet_bits_inj in Q; [congruence|assumption..].
  - apply distance_pos in E; [lia|]. unfold hdr. now rewrite !fsk_header_length.
Qed.
Lemma index_range s : fsk_object s -> (1 / 4 <= Q2R (k_h s) <= 5 / 2)%R.
Proof. intro H. apply object_valid in H. destruct H as (_ & [H1 H2] & _). apply Qle_Rle in H1, H2. unfold Q2R in H1, H2 |- *. cbn [Qnum Qden] in *. lra. Qed.

(** C75: each symbol sent on different tones costs at least 3 units of energy (a sample has energy 1), whatever the
    modulation index, the tones and the position of the symbol *)
Theorem C75_symbols : forall s t a b fa fb xa xb f g, fsk_object s -> fsk_object t -> k_fsk4 s = k_fsk4 t -> k_h s = k_h t ->
  snd (k_bitsToSamples a s) = Ok (xa, f) -> snd (k_bitsToSamples b t) = Ok (xb, g) ->
  k_binary (fst (k_bitsToSamples a s)) = Some fa -> k_binary (fst (k_bitsToSamples b t)) = Some fb ->
  (3 * INR (differing_symbols (k_fsk4 s) fa fb) <= gap xa xb)%R.
Proof.
  intros s t a b fa fb xa xb f g Hs Ht E4 Eh Xa Xb Fa Fb. rewrite samples_result in Xa, Xb. rewrite samples_state in Fa, Fb.
  destruct (snd (k_bitsToIQ a s)) as [sa|] eqn:Sa; [|discriminate]. destruct (snd (k_bitsToIQ b t)) as [sb|] eqn:Sb; [|discriminate].
  cbn [rbind] in Xa, Xb. injection Xa as <- _. injection Xb as <- _.
  destruct (signal_all s a sa Sa) as (ba & fa' & _ & _ & Ba & -> & _). rewrite Fa in Ba. injection Ba as <-.
  destruct (signal_all t b sb Sb) as (bb & fb' & _ & _ & Bb & -> & _). rewrite Fb in Bb. injection Bb as <-.
  apply phases_gap; auto. now apply index_range.
Qed.
Print Assumptions C75_symbols.

Lemma bytes_bits a s : exists l, (to_binary_array a = Ok l /\ k_bytesToSamples a s = k_bitsToSamples (bits_arg l) s /\ k_bytesToIQ a s = k_bitsToIQ (bits_arg l) s) \/ is_ok (snd (k_bytesToSamples a s)) = false.
Proof.
  unfold k_bytesToSamples, k_bytesToIQ, sbind, slift. destruct (to_binary_array a) as [l|e]; [exists l; left; auto|exists []; right; reflexivity].
Qed.
(** frames with different contents are at least a fixed energy apart *)
Theorem C75_margin : forall s t a b za zb xa xb f g, fsk_object s -> fsk_object t -> same_air s t -> k_h s = k_h t ->
  holds_octets a za -> holds_octets b zb -> za <> [] -> zb <> [] -> Forall is_octet za -> Forall is_octet zb -> zlen za <= 2047 -> zlen zb <= 2047 ->
  snd (k_bytesToSamples a s) = Ok (xa, f) -> snd (k_bytesToSamples b t) = Ok (xb, g) ->
  (k_fcs s, za) <> (k_fcs t, zb) -> (fsk_margin (k_fsk4 s) (k_fec s) <= gap xa xb)%R.
Proof.
  intros s t a b za zb xa xb f g Hs Ht Air Eh Ha Hb Na Nb Oa Ob La Lb Xa Xb N.
  destruct (bytes_frame s a za Hs Ha Na Oa La) as (fa & Fa & _ & Za). destruct (bytes_frame t b zb Ht Hb Nb Ob Lb) as (fb & Fb & _ & Zb).
  assert (D : ((if k_fec s then 6 else 1) <= distance fa fb)%nat).
  { destruct (k_fec s) eqn:F; [now apply (frames_differ s t a b za zb)|now apply (plain_differ s t a b za zb)]. }
  pose proof Air as (E4 & _).
  assert (K : (3 * INR (differing_symbols (k_fsk4 s) fa fb) <= gap xa xb)%R).
  { destruct (bytes_bits a s) as (la & [(_ & Qa & Ra)|Qa]); [|rewrite Xa in Qa; discriminate].
    destruct (bytes_bits b t) as (lb & [(_ & Qb & Rb)|Qb]); [|rewrite Xb in Qb; discriminate].
    rewrite Qa in Xa. rewrite Qb in Xb. rewrite Ra in Fa. rewrite Rb in Fb.
    apply (C75_symbols s t (bits_arg la) (bits_arg lb) fa fb xa xb f g); auto; rewrite samples_state; assumption. }
  assert (W : ((if k_fec s then if k_fsk4 s then 3 else 6 else 1) <= differing_symbols (k_fsk4 s) fa fb)%nat).
  { destruct (k_fsk4 s) eqn:F4.
    - rewrite <- E4 in Zb. assert (Ev : forall (u : fsk) (z : Z) (fr : list bool), zlen fr = fsk_frame_bits true (k_preamble u) (k_fec u) z -> exists k, length fr = (2 * k)%nat).
      { intros u z fr L. exists (Z.to_nat (zlen fr / 2)). unfold zlen in *. unfold fsk_frame_bits in L. 
        assert (M : Z.of_nat (length fr) mod 2 = 0).
        { rewrite L. destruct (k_fec u), (Z.even z); Z.div_mod_to_equations; lia. }
        Z.div_mod_to_equations. lia. }
      destruct (Ev s _ fa Za) as [ka Ka]. destruct (Ev t _ fb Zb) as [kb Kb].
      pose proof (differing_4 ka fa fb Ka ltac:(apply Nat.even_spec; now exists kb)) as Q. destruct (k_fec s); lia.
    - rewrite differing_2. destruct (k_fec s); lia. }
  apply le_INR in W. unfold fsk_margin. destruct (k_fec s), (k_fsk4 s); cbn [INR] in W; lra.
Qed.
Print Assumptions C75_margin.
(** noise of energy less than a quarter of that: the frame sent is the closest one *)
Theorem C75_noise : forall s t a b za zb xa xb f g received, fsk_object s -> fsk_object t -> same_air s t -> k_h s = k_h t ->
  holds_octets a za -> holds_octets b zb -> za <> [] -> zb <> [] -> Forall is_octet za -> Forall is_octet zb -> zlen za <= 2047 -> zlen zb <= 2047 ->
  snd (k_bytesToSamples a s) = Ok (xa, f) -> snd (k_bytesToSamples b t) = Ok (xb, g) ->
  length received = length xa -> (gap received xa < fsk_margin (k_fsk4 s) (k_fec s) / 4)%R ->
  (k_fcs s, za) <> (k_fcs t, zb) -> (gap received xa < gap received xb)%R.
Proof.
  intros s t a b za zb xa xb f g r Hs Ht Air Eh Ha Hb Na Nb Oa Ob La Lb Xa Xb Lr G N.
  pose proof (C75_margin s t a b za zb xa xb f g Hs Ht Air Eh Ha Hb Na Nb Oa Ob La Lb Xa Xb N). pose proof (gap_par xa xb r Lr). lra.
Qed.
Print Assumptions C75_noise.
Example C75_case : exists s xa fa xb fb, fsk_a = Ok s /\ fsk_object s
  /\ snd (k_bytesToSamples (AList 1 (map inject_Z [7; 0])) s) = Ok (xa, fa) /\ snd (k_bytesToSamples (AList 1 (map inject_Z [7; 0; 255])) s) = Ok (xb, fb).
Proof.
  destruct fsk_a as [s|] eqn:E; [|vm_compute in E; discriminate]. exists s.
  assert (O : fsk_object s) by (unfold fsk_object, fsk_a in *; repeat eexists; [exact E|exact (eq_refl (fsk_history [] s))]).
  assert (K : forall l, is_ok (snd (k_bytesToIQ l s)) = true -> exists x f, snd (k_bytesToSamples l s) = Ok (x, f)).
  { intros l H. rewrite (proj1 (samples_bytes l s)). destruct (snd (k_bytesToIQ l s)) as [sg|]; [|discriminate]. do 2 eexists. reflexivity. }
  destruct (K (AList 1 (map inject_Z [7; 0]))) as (x1 & f1 & K1); [vm_compute in E; inversion E; subst; vm_compute; reflexivity|].
  destruct (K (AList 1 (map inject_Z [7; 0; 255]))) as (x2 & f2 & K2); [vm_compute in E; inversion E; subst; vm_compute; reflexivity|].
  exists x1, f1, x2, f2. auto.
Qed.
