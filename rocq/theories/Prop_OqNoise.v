(** * C78: MR-O-QPSK signals tolerate noise up to a known margin *)
From Coq Require Import Reals Lra.
From Coquelicot Require Import Complex.
From Verif Require Import Py PList SBits SEntry MBits PBits PEntry MRate SRate PConv PRate MFields MModul MOfdm STime SGap PGap Tables MOqpsk SOqpsk PFskGap POqpsk POqRun Prop_Oqpsk POqGap MWave SWave PWave Prop_Wave SOqGap Prop_OqGap POqNoise.

(** every chip has the energy of the pulse, whatever the message, mode and history *)
Theorem C78_energy g p b rm sm sps s r sig f : oq_used p b rm sm sps s -> pulse_regular b sps -> snd (oq_signal g p r s) = Ok (sig, f) ->
  exists chips z, snd (oq_send p r s) = Ok (chips, z) /\ energy sig = (INR (length chips) * pulse_energy b sps)%R.
Proof.
  intros Hu Hg E. pose proof (C57_frames g p b rm sm sps s r Hu) as H. destruct (snd (oq_send p r s)) as [[c z]|e]; [|congruence].
  destruct H as (rate & sg & _ & P1 & P2 & Es & _ & T). specialize (T Hg). rewrite E in Es. injection Es as <- _. exists c, z. split; [reflexivity|].
  apply train_list in T as (n & L & ->); [|lia]. rewrite PTime.energy_app, zeros_energy, (trains_energy _ _ n) by assumption. rewrite pulse_energy_eq by assumption. lra.
Qed.
Print Assumptions C78_energy.
(** any two transmissions of one band with the same samples_per_symbol (modes, messages and chip rates may differ): each
    differing chip costs four times the energy of the pulse *)
Theorem C78_distance g p b rm sm sps s r sig f rm' sm' s' r' sig' f' : oq_used p b rm sm sps s -> oq_used p b rm' sm' sps s' -> pulse_regular b sps ->
  snd (oq_signal g p r s) = Ok (sig, f) -> snd (oq_signal g p r' s') = Ok (sig', f') ->
  exists chips z chips' z', snd (oq_send p r s) = Ok (chips, z) /\ snd (oq_send p r' s') = Ok (chips', z')
  /\ (4 * pulse_energy b sps * INR (distance chips chips') <= gap sig sig')%R.
Proof.
  intros Hu Hu' Hg E E'. pose proof (C57_frames g p b rm sm sps s r Hu) as H. pose proof (C57_frames g p b rm' sm' sps s' r' Hu') as H'.
  destruct (snd (oq_send p r s)) as [[c z]|e]; [|congruence]. destruct (snd (oq_send p r' s')) as [[c' z']|e]; [|congruence].
  destruct H as (rate & sg & _ & P1 & P2 & Es & _ & T). specialize (T Hg). rewrite E in Es. injection Es as <- _.
  destruct H' as (rate' & sg' & _ & P1' & _ & Es' & _ & T'). specialize (T' Hg). rewrite E' in Es'. injection Es' as <- _.
  exists c, z, c', z'. split; [reflexivity|]. split; [reflexivity|].
  apply train_list in T as (n & L & ->); [|lia]. apply train_list in T' as (n' & L' & ->); [|lia].
  assert (X : trains (pulse b (Tc_of rate') (Z.to_nat sps)) (Z.to_nat sps) c' = trains (pulse b (Tc_of rate) (Z.to_nat sps)) (Z.to_nat sps) c').
  { assert (Y : forall l, trains (pulse b (Tc_of rate') (Z.to_nat sps)) (Z.to_nat sps) l = trains (pulse b (Tc_of rate) (Z.to_nat sps)) (Z.to_nat sps) l
      /\ forall x, trains (pulse b (Tc_of rate') (Z.to_nat sps)) (Z.to_nat sps) (x :: l) = trains (pulse b (Tc_of rate) (Z.to_nat sps)) (Z.to_nat sps) (x :: l)).
    { induction l as [|y l [I1 I2]]; [split; reflexivity|]. split; [apply I2|]. intro x. cbn [trains]. rewrite I1. f_equal. unfold one_pulse. apply map_ext. intro k.
      rewrite (pulse_scale b (Tc_of rate')), (pulse_scale b (Tc_of rate)); [reflexivity|now apply Tc_pos|lia|now apply Tc_pos|lia]. }
    apply Y. }
  rewrite X. rewrite <- (pulse_energy_eq b rate sps) by assumption. now apply (trains_gap _ _ n _ n').
Qed.
Print Assumptions C78_distance.
(** energy of the pulse: a quarter of samples_per_symbol for the half sine; at least 1 for the raised cosine with an even
    number of samples; never 0 when the pulse is sampled enough *)
Theorem C78_pulse b sps :
  ((b = Band_915MHz \/ b = Band_2450MHz) -> 3 <= sps -> pulse_energy b sps = (IZR sps / 4)%R)
  /\ (b <> Band_915MHz -> b <> Band_2450MHz -> 0 < sps -> Z.even sps = true -> (1 <= pulse_energy b sps)%R)
  /\ (match b with Band_915MHz | Band_2450MHz => 3 | _ => 2 end <= sps -> (0 < pulse_energy b sps)%R).
Proof. split; [intros; now apply half_sine_energy|]. split; [intros; now apply raised_energy|apply pulse_energy_pos]. Qed.
Print Assumptions C78_pulse.
(** DSSS frame of at most 7 octets against any other frame of the band: noise of energy below the energy of as many chips
    as the two must differ in *)
Theorem C78_noise g p b rm sps s a zs sig f rm' sm' s' a' zs' sig' f' received :
  oq_used p b rm 0 sps s -> oq_used p b rm' sm' sps s' -> oq_supported b rm 0 -> oq_supported b rm' sm' -> 0 < sps -> pulse_regular b sps ->
  holds_octets a zs -> holds_octets a' zs' -> Forall is_octet zs -> Forall is_octet zs' -> 1 <= zlen zs <= 7 -> 1 <= zlen zs' <= 2047 ->
  snd (q_bytesToIQ g p a s) = Ok (sig, f) -> snd (q_bytesToIQ g p a' s') = Ok (sig', f') -> (rm, 0, zs) <> (rm', sm', zs') ->
  length received = length sig ->
  (gap received sig < pulse_energy b sps * INR (Nat.min (header_distance b) (payload_distance b rm)))%R ->
  (gap received sig < gap received sig')%R.
Proof.
  intros Hu Hu' Hs Hs' Hp Hg Ha Ha' Ho Ho' Hl Hl' E E' N Lr Hd.
  destruct (C78_distance g p b rm 0 sps s (Octets a) sig f rm' sm' s' (Octets a') sig' f' Hu Hu' Hg E E') as (c & z & c' & z' & Ec & Ec' & G).
  cbn [oq_send] in Ec, Ec'.
  assert (D : (Nat.min (header_distance b) (payload_distance b rm) <= distance c c')%nat).
  { assert (Dec : {(rm, 0, zlen zs) = (rm', sm', zlen zs')} + {(rm, 0, zlen zs) <> (rm', sm', zlen zs')}) by (repeat decide equality; apply Z.eq_dec).
    destruct Dec as [K|K].
    - injection K as <- <- El. pose proof (C77_payload p b rm sps s a zs c z sps s' a' zs' c' z') as P.
      assert (payload_distance b rm <= distance c c')%nat; [|lia]. apply P; auto. intros ->. now apply N.
    - pose proof (C77_header p b rm 0 sps s a zs c z rm' sm' sps s' a' zs' c' z') as P.
      assert (header_distance b <= distance c c')%nat; [|lia]. apply P; auto; lia. }
  apply le_INR in D. pose proof (gap_par sig sig' received Lr). assert (E0 : (0 <= pulse_energy b sps)%R) by (apply sum_to_nonneg; intros; apply pow2_ge_0). nra.
Qed.
Print Assumptions C78_noise.
Lemma signal_exists g p b rm sm sps s a : oq_used p b rm sm sps s -> is_ok (snd (q_bytesToChips p a s)) = true -> exists sig f, snd (q_bytesToIQ g p a s) = Ok (sig, f).
Proof.
  intros Hu H. pose proof (C57_frames g p b rm sm sps s (Octets a) Hu) as F. cbn [oq_send oq_signal] in F. destruct (snd (q_bytesToChips p a s)) as [[c z]|e]; [|discriminate].
  destruct F as (rate & sig & _ & _ & _ & Es & _). now exists sig, (IZR z).
Qed.
Definition example_object (rm : Z) : oqpsk := {| q_sps := 8; q_SM := 0; q_band := Band_915MHz; q_RM := rm; q_mem := [] |}.
Lemma example_used rm : oq_used Wrapping Band_915MHz rm 0 8 (example_object rm).
Proof. eexists. exists []. split; reflexivity. Qed.
Lemma example_1 : is_ok (snd (q_bytesToChips Wrapping (ABytes [x55; x0f]) (example_object 0))) = true.
Proof. vm_compute. reflexivity. Qed.
Lemma example_2 : is_ok (snd (q_bytesToChips Wrapping (ABytes [x55]) (example_object 3))) = true.
Proof. vm_compute. reflexivity. Qed.
Lemma example_3 g : exists sig f, snd (q_bytesToIQ g Wrapping (ABytes [x55; x0f]) (example_object 0)) = Ok (sig, f).
Proof. exact (signal_exists g _ _ _ _ _ _ _ (example_used 0) example_1). Qed.
Lemma example_4 g : exists sig f, snd (q_bytesToIQ g Wrapping (ABytes [x55]) (example_object 3)) = Ok (sig, f).
Proof. exact (signal_exists g _ _ _ _ _ _ _ (example_used 3) example_2). Qed.
Example C78_case g : exists s s' sig sig' f f', oq_used Wrapping Band_915MHz 0 0 8 s /\ oq_used Wrapping Band_915MHz 3 0 8 s' /\ pulse_regular Band_915MHz 8
  /\ snd (q_bytesToIQ g Wrapping (ABytes [x55; x0f]) s) = Ok (sig, f) /\ snd (q_bytesToIQ g Wrapping (ABytes [x55]) s') = Ok (sig', f').
Proof.
  destruct (example_3 g) as (sig & f & E). destruct (example_4 g) as (sig' & f' & E').
  exists (example_object 0), (example_object 3), sig, sig', f, f'. split; [apply example_used|]. split; [apply example_used|]. split; [exact I|]. split; assumption.
Qed.
