(** * C77: MR-O-QPSK chip sequences tolerate chip errors *)
From Verif Require Import Py PList SBits SEntry MBits PBits PEntry MRate SRate PConv PRate MFields MModul MOfdm Tables MOqpsk SOqpsk PFskGap POqpsk POqRun SOqGap Prop_Oqpsk POqGap.

(** two transmissions in one band whose headers say something different (rate mode, spreading mode or payload length):
    they differ in that many of the chips they both have *)
Theorem C77_header p b rm sm sps s a zs chips f rm' sm' sps' s' a' zs' chips' f' :
  oq_used p b rm sm sps s -> oq_used p b rm' sm' sps' s' -> oq_supported b rm sm -> oq_supported b rm' sm' -> 0 < sps -> 0 < sps' ->
  holds_octets a zs -> holds_octets a' zs' -> Forall is_octet zs -> Forall is_octet zs' -> 1 <= zlen zs <= 2047 -> 1 <= zlen zs' <= 2047 ->
  snd (q_bytesToChips p a s) = Ok (chips, f) -> snd (q_bytesToChips p a' s') = Ok (chips', f') ->
  (rm, sm, zlen zs) <> (rm', sm', zlen zs') -> (header_distance b <= distance chips chips')%nat.
Proof.
  intros Hu Hu' Hs Hs' Hp Hp' Ha Ha' Ho Ho' Hl Hl' E E' N.
  change (q_bytesToChips p a s) with (oq_send p (Octets a) s) in E. change (q_bytesToChips p a' s') with (oq_send p (Octets a') s') in E'.
  rewrite (octets_sent p b rm sm sps s a zs) in E by assumption. rewrite (octets_sent p b rm' sm' sps' s' a' zs') in E' by assumption.
  destruct (_ && _) in E; [discriminate|]. destruct (_ && _) in E'; [discriminate|]. injection E as <- _. injection E' as <- _.
  rewrite distance_app by reflexivity. rewrite PConv.distance_refl. cbn [Nat.add]. rewrite distance_app by (now rewrite !phr_chips_length).
  assert (D : (header_distance b <= distance (phr_chips p b (negb (sm =? 0)%Z) rm (zlen zs)) (phr_chips p b (negb (sm' =? 0)%Z) rm' (zlen zs')))%nat); [|lia].
  destruct Hs as [Hr Hm], Hs' as [Hr' Hm']. apply phr_far; try lia. intro K. apply N. injection K as K1 K2 K3. subst rm'. rewrite K3. repeat f_equal.
  destruct Hm as [->|[-> _]], Hm' as [->|[-> _]]; try reflexivity; discriminate K1.
Qed.
Print Assumptions C77_header.
(** same header, DSSS, at most 7 octets, different payloads *)
Theorem C77_payload p b rm sps s a zs chips f sps' s' a' zs' chips' f' :
  oq_used p b rm 0 sps s -> oq_used p b rm 0 sps' s' -> oq_supported b rm 0 -> 0 < sps -> 0 < sps' ->
  holds_octets a zs -> holds_octets a' zs' -> Forall is_octet zs -> Forall is_octet zs' -> 1 <= zlen zs <= 7 -> zlen zs = zlen zs' ->
  snd (q_bytesToChips p a s) = Ok (chips, f) -> snd (q_bytesToChips p a' s') = Ok (chips', f') ->
  zs <> zs' -> (payload_distance b rm <= distance chips chips')%nat.
Proof.
  intros Hu Hu' Hs Hp Hp' Ha Ha' Ho Ho' Hl El E E' N.
  change (q_bytesToChips p a s) with (oq_send p (Octets a) s) in E. change (q_bytesToChips p a' s') with (oq_send p (Octets a') s') in E'.
  rewrite (octets_sent p b rm 0 sps s a zs) in E by (auto; lia). rewrite (octets_sent p b rm 0 sps' s' a' zs') in E' by (auto; lia).
  rewrite <- El in E'. assert (B1 : psdu_blocks (zlen zs) = 1) by (unfold psdu_blocks; Z.div_mod_to_equations; lia). rewrite B1 in E, E'. cbn [Z.odd] in E, E'.
  destruct (needs_pairs b rm 0) eqn:Hn; [discriminate|]. cbn [andb] in E, E'. injection E as <- _. injection E' as <- _.
  rewrite <- (needs_pairs_eq b rm 0 Hs) in Hn. unfold pairs_only in Hn. change (0 =? 0) with true in Hn. cbv iota in Hn.
  destruct (psdu_far b rm zs zs') as [L D]; auto; [apply Hs|].
  rewrite distance_app by reflexivity. rewrite distance_app by reflexivity. rewrite pilots_distance by assumption. lia.
Qed.
Print Assumptions C77_payload.
(** the receiver: fewer than half that many wrong chips, the frame sent is the closest one *)
Theorem C77_receiver p b rm sps s a zs chips f rm' sm' sps' s' a' zs' chips' f' received :
  oq_used p b rm 0 sps s -> oq_used p b rm' sm' sps' s' -> oq_supported b rm 0 -> oq_supported b rm' sm' -> 0 < sps -> 0 < sps' ->
  holds_octets a zs -> holds_octets a' zs' -> Forall is_octet zs -> Forall is_octet zs' -> 1 <= zlen zs <= 7 -> 1 <= zlen zs' <= 2047 ->
  snd (q_bytesToChips p a s) = Ok (chips, f) -> snd (q_bytesToChips p a' s') = Ok (chips', f') -> (rm, 0, zs) <> (rm', sm', zs') ->
  length received = length chips -> (2 * distance received chips < Nat.min (header_distance b) (payload_distance b rm))%nat ->
  (distance received chips < distance received chips')%nat.
Proof.
  intros Hu Hu' Hs Hs' Hp Hp' Ha Ha' Ho Ho' Hl Hl' E E' N Lr Hd.
  assert (D : (Nat.min (header_distance b) (payload_distance b rm) <= distance chips chips')%nat).
  { assert (Dec : {(rm, 0, zlen zs) = (rm', sm', zlen zs')} + {(rm, 0, zlen zs) <> (rm', sm', zlen zs')}) by (repeat decide equality; apply Z.eq_dec).
    destruct Dec as [K|K].
    - injection K as <- <- El. pose proof (C77_payload p b rm sps s a zs chips f sps' s' a' zs' chips' f') as P.
      assert (payload_distance b rm <= distance chips chips')%nat; [|lia]. apply P; auto. intros ->. now apply N.
    - pose proof (C77_header p b rm 0 sps s a zs chips f rm' sm' sps' s' a' zs' chips' f') as P.
      assert (header_distance b <= distance chips chips')%nat; [|lia]. apply P; auto; lia. }
  pose proof (distance_triangle chips chips' received ltac:(lia)). lia.
Qed.
Print Assumptions C77_receiver.
(** the numbers *)
Example C77_values : (header_distance Band_868MHz = 40 /\ header_distance Band_915MHz = 80 /\ header_distance Band_2450MHz = 80
  /\ payload_distance Band_868MHz 0 = 40 /\ payload_distance Band_2450MHz 0 = 160 /\ payload_distance Band_868MHz 2 = 10 /\ payload_distance Band_868MHz 3 = 10)%nat.
Proof. repeat split; reflexivity. Qed.
Example C77_case : exists s s' chips chips' f f', oq_used Wrapping Band_868MHz 2 0 10 s /\ oq_used Wrapping Band_868MHz 2 0 4 s'
  /\ snd (q_bytesToChips Wrapping (ABytes [x55; x0f]) s) = Ok (chips, f) /\ snd (q_bytesToChips Wrapping (ABytes [x55; x0e]) s') = Ok (chips', f') /\ chips <> chips'.
Proof.
  eexists. eexists. eexists. eexists. eexists. eexists. split; [eexists; exists []; split; reflexivity|]. split; [eexists; exists []; split; reflexivity|].
  split; [vm_compute; reflexivity|]. split; [vm_compute; reflexivity|]. vm_compute. discriminate.
Qed.
