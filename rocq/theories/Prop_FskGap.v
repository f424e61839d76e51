(** * C74: MR-FSK coded frames tolerate two bit errors *)
From Verif Require Import Py MBits MPn9 Tables MFsk SBits SEntry SPn9 SFsk PList PBits PEntry PPn9 PConv PFskFec PFsk PFskGap Prop_Fsk.

(** [same_air s t]: what the receiver knows in advance is the same for both transmitters *)
Definition same_air (s t : fsk) : Prop :=
  k_fsk4 s = k_fsk4 t /\ k_sfd s = k_sfd t /\ k_preamble s = k_preamble t /\ k_fec s = k_fec t /\ k_scheme s = k_scheme t
  /\ k_il s = k_il t /\ k_white s = k_white t.
Lemma header_inj s t za zb : valid_fsk s -> valid_fsk t -> (length za <= 2047)%nat -> (length zb <= 2047)%nat ->
  hdr s (octet_bits za) = hdr t (octet_bits zb) -> k_fcs s = k_fcs t /\ length za = length zb.
Proof.
  intros Vs Vt La Lb E. unfold hdr, fsk_header in E.
  assert (D : forall zs, zlen (octet_bits zs) / 8 = zlen zs).
  { intro zs. unfold zlen. rewrite octet_bits_length, Nat2Z.inj_mul. change (Z.of_nat 8) with 8. rewrite Z.mul_comm, Z.div_mul; lia. }
  rewrite !D in E. apply app_inj_len in E as [E1 E3]; [|reflexivity]. assert (E1' : nth 3 [false; false; false; k_fcs s =? 1; k_white s] false = nth 3 [false; false; false; k_fcs t =? 1; k_white t] false) by now rewrite E1. cbn [nth] in E1'. clear E1. rename E1' into E1.
  apply msb_bits_inj in E3; [|unfold zlen; change (2 ^ Z.of_nat 11) with 2048; lia..].
  destruct Vs as (_ & _ & _ & _ & _ & F1). destruct Vt as (_ & _ & _ & _ & _ & F2). unfold zlen in E3. split; [|lia].
  destruct F1 as [e1|e1], F2 as [e2|e2]; rewrite e1, e2 in *; auto; discriminate E1.
Qed.
Lemma frames_differ s t a b za zb fa fb : fsk_object s -> fsk_object t -> same_air s t -> k_fec s = true ->
  holds_octets a za -> holds_octets b zb -> za <> [] -> zb <> [] -> Forall is_octet za -> Forall is_octet zb -> zlen za <= 2047 -> zlen zb <= 2047 ->
  k_binary (fst (k_bytesToIQ a s)) = Some fa -> k_binary (fst (k_bytesToIQ b t)) = Some fb ->
  (k_fcs s, za) <> (k_fcs t, zb) -> (6 <= distance fa fb)%nat.
Proof.
  intros Hs Ht (A1 & A2 & A3 & A4 & A5 & A6 & A7) F Ha Hb Na Nb Oa Ob La Lb Ba Bb N.
  destruct (bytes_frame s a za Hs Ha Na Oa La) as (fa' & Ba' & Ea & _). rewrite Ba in Ba'. injection Ba' as <-.
  destruct (bytes_frame t b zb Ht Hb Nb Ob Lb) as (fb' & Bb' & Eb & _). rewrite Bb in Bb'. injection Bb' as <-.
  apply object_valid in Hs, Ht.
  assert (La' : (length za <= 2047)%nat) by (unfold zlen in La; lia). assert (Lb' : (length zb <= 2047)%nat) by (unfold zlen in Lb; lia).
  destruct (f_frame_inv _ _ _ Hs Ea) as [Ca ->]. destruct (f_frame_inv _ _ _ Ht Eb) as [Cb ->].
  assert (P1 : (1 <= length za)%nat) by (destruct za; [congruence|cbn; lia]). assert (P2 : (1 <= length zb)%nat) by (destruct zb; [congruence|cbn; lia]).
  assert (Shr : shr_bits s = shr_bits t) by (unfold shr_bits; now rewrite A1, A2, A3, A4).
  rewrite Shr, distance_app, distance_refl by reflexivity. rewrite Nat.add_0_l.
  assert (B : forall u z, k_fec u = true -> carries u (octet_bits z) -> (f_start u <= length (body u (octet_bits z)))%nat).
  { intros u z Fu Cu. rewrite body_length by assumption. unfold f_start. rewrite Fu. lia. }
  assert (Ft : k_fec t = true) by congruence.
  rewrite white_distance; try assumption; [|now apply B|unfold f_start; rewrite A4; apply B; assumption].
  apply body_distance; try assumption; try (rewrite octet_bits_length; lia).
  - intro E. apply app_inj_len in E; [|unfold hdr; now rewrite !fsk_header_length]. destruct E as [E1 E2].
    apply N. apply header_inj in E1 as [-> _]; try assumption. apply octet_bits_inj in E2; [now subst|assumption..].
  - intro E. apply header_inj in E as [_ E]; try assumption. rewrite !octet_bits_length. lia.
Qed.

(** C74: with FEC, frames with different contents differ in at least six of the bits they both have *)
Theorem C74_distance : forall s t a b za zb fa fb, fsk_object s -> fsk_object t -> same_air s t -> k_fec s = true ->
  holds_octets a za -> holds_octets b zb -> za <> [] -> zb <> [] -> Forall is_octet za -> Forall is_octet zb -> zlen za <= 2047 -> zlen zb <= 2047 ->
  k_binary (fst (k_bytesToIQ a s)) = Some fa -> k_binary (fst (k_bytesToIQ b t)) = Some fb ->
  (k_fcs s, za) <> (k_fcs t, zb) -> (6 <= distance fa fb)%nat.
Proof. exact frames_differ. Qed.
Print Assumptions C74_distance.
(** so a frame received with at most two wrong bits is closer to the frame sent than to any other one *)
Theorem C74_two_errors : forall s t a b za zb fa fb received, fsk_object s -> fsk_object t -> same_air s t -> k_fec s = true ->
  holds_octets a za -> holds_octets b zb -> za <> [] -> zb <> [] -> Forall is_octet za -> Forall is_octet zb -> zlen za <= 2047 -> zlen zb <= 2047 ->
  k_binary (fst (k_bytesToIQ a s)) = Some fa -> k_binary (fst (k_bytesToIQ b t)) = Some fb ->
  length received = length fa -> (distance received fa <= 2)%nat ->
  (k_fcs s, za) <> (k_fcs t, zb) -> (distance received fa < distance received fb)%nat.
Proof.
  intros s t a b za zb fa fb r Hs Ht Hst F Ha Hb Na Nb Oa Ob La Lb Ba Bb Lr D N.
  pose proof (frames_differ s t a b za zb fa fb Hs Ht Hst F Ha Hb Na Nb Oa Ob La Lb Ba Bb N).
  pose proof (distance_triangle fa fb r ltac:(lia)). lia.
Qed.
Print Assumptions C74_two_errors.
(** a case: a coded, whitened, interleaved transmitter and payloads of different sizes whose frames have the same size *)
Example C74_case : exists s fa fb, fsk_a = Ok s /\ fsk_object s /\ k_fec s = true /\ k_white s = true /\ k_il s = true
  /\ k_binary (fst (k_bytesToIQ (AList 1 (map inject_Z [7; 0])) s)) = Some fa
  /\ k_binary (fst (k_bytesToIQ (AList 1 (map inject_Z [7; 0; 255])) s)) = Some fb
  /\ length fa = length fb /\ (6 <= distance fa fb)%nat.
Proof.
  destruct fsk_a as [s|] eqn:E; [|vm_compute in E; discriminate]. exists s. 
  assert (O : fsk_object s) by (unfold fsk_object, fsk_a in *; repeat eexists; [exact E|exact (eq_refl (fsk_history [] s))]).
  vm_compute in E. inversion E; subst. do 2 eexists. split; [reflexivity|]. split; [exact O|]. clear.
  do 3 (split; [reflexivity|]). split; [vm_compute; reflexivity|]. split; [vm_compute; reflexivity|]. split; [reflexivity|].
  vm_compute. repeat constructor.
Qed.
