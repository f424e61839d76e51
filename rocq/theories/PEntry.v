(** * Entry points of the three modulators: payload conversion and rejection *)
From Verif Require Import Py MBits PList SBits SEntry PBits MFsk MMrOfdm MOqpsk Tables.

Lemma map_Qtrunc_inject zs : map Qtrunc (map inject_Z zs) = zs.
Proof. rewrite map_map. rewrite <- (map_id zs) at 2. apply map_ext. apply Qtrunc_inject. Qed.

Lemma holds_octets_ok a zs :
  holds_octets a zs -> zs <> [] -> Forall is_octet zs -> to_binary_array a = Ok (octet_bits zs).
Proof.
  intros H Hne Ho. apply to_binary_array_ok; auto.
  destruct H; simpl; try rewrite map_Qtrunc_inject; reflexivity.
Qed.
Lemma octet_bits_nonnil zs : zs <> [] -> octet_bits zs <> [].
Proof. intros H E. apply (f_equal (@length bool)) in E. rewrite octet_bits_length in E.
  destruct zs; [congruence|]. simpl in E. lia. Qed.

Lemma octet_bits_nth zs i j :
  (i < length zs)%nat -> (j < 8)%nat ->
  nth (8 * i + j) (octet_bits zs) false = Z.testbit (nth i zs 0) (Z.of_nat j).
Proof.
  revert i. induction zs as [|z zs IH]; intros i Hi Hj; [simpl in Hi; lia|].
  change (octet_bits (z :: zs)) with (lsb_bits 8 z ++ octet_bits zs).
  destruct i as [|i].
  - rewrite app_nth1 by (rewrite lsb_bits_length; lia). unfold lsb_bits.
    rewrite Nat.mul_0_r, Nat.add_0_l. rewrite nth_map_seq by assumption. reflexivity.
  - rewrite app_nth2 by (rewrite lsb_bits_length; lia). rewrite lsb_bits_length.
    replace (8 * S i + j - 8)%nat with (8 * i + j)%nat by lia. apply IH; simpl in Hi; lia.
Qed.

(** ** bytesToIQ = bitsToIQ on the bits *)
Definition octet_bits_arg (zs : list Z) : arg :=
  AArr 1 (map (fun b : bool => if b then 1%Q else 0%Q) (octet_bits zs)).
Lemma octet_bits_arg_eq zs : bits_arg (octet_bits zs) = octet_bits_arg zs.
Proof. unfold bits_arg, octet_bits_arg. f_equal. apply map_ext. intros []; reflexivity. Qed.

Lemma fsk_bytes_bits a zs s :
  holds_octets a zs -> zs <> [] -> Forall is_octet zs ->
  k_bytesToIQ a s = k_bitsToIQ (octet_bits_arg zs) s.
Proof. intros. unfold k_bytesToIQ, sbind, slift. rewrite (holds_octets_ok a zs), octet_bits_arg_eq by assumption. reflexivity. Qed.
Lemma ofdm_bytes_bits a zs s :
  holds_octets a zs -> zs <> [] -> Forall is_octet zs ->
  m_bytes_symbols a s = m_bits_symbols (octet_bits_arg zs) s.
Proof. intros. unfold m_bytes_symbols, sbind, slift. rewrite (holds_octets_ok a zs), octet_bits_arg_eq by assumption. reflexivity. Qed.
Lemma oqpsk_bytes_bits p a zs s :
  holds_octets a zs -> zs <> [] -> Forall is_octet zs ->
  q_bytesToChips p a s = q_bitsToChips p (octet_bits_arg zs) s.
Proof. intros. unfold q_bytesToChips, sbind, slift. rewrite (holds_octets_ok a zs), octet_bits_arg_eq by assumption. reflexivity. Qed.

(** ** rejection *)
Lemma Qtrunc_out x : (x <= inject_Z (-1) \/ inject_Z 256 <= x)%Q -> ~ is_octet (Qtrunc x).
Proof.
  intros H Ho. unfold is_octet, Qtrunc in Ho. destruct (Qle_bool 0 x) eqn:E.
  - apply Qle_bool_iff in E. destruct H as [H|H].
    + apply (Qle_trans _ _ _ E) in H. apply H. reflexivity.
    + apply Qfloor_resp_le in H. rewrite Qfloor_Z in H. lia.
  - destruct H as [H|H].
    + apply Qceiling_resp_le in H. rewrite Qceiling_Z in H. lia.
    + assert (E2 : (0 <= x)%Q) by (eapply Qle_trans; [|exact H]; discriminate).
      apply Qle_bool_iff in E2. congruence.
Qed.

Lemma malformed_octets_err a : malformed_octets a -> exists e, to_binary_array a = Err e /\ rejection e.
Proof.
  intro H. unfold to_binary_array, rejection.
  assert (Hl : forall nd xs, xs = [] \/ nd <> 1%nat \/ (exists x, In x xs /\ (x <= inject_Z (-1) \/ inject_Z 256 <= x)%Q) ->
     exists e, match map Qtrunc xs with
      | [] => Err ValueError
      | _ :: _ => if existsb (fun x => x <? 0) (map Qtrunc xs) || existsb (fun x => 255 <? x) (map Qtrunc xs)
                  then Err ValueError else if negb (nd =? 1)%nat then Err TypeError
                  else Ok (flat_map (fun x => rev (binary_repr x 8)) (map Qtrunc xs))
      end = Err e /\ (e = TypeError \/ e = ValueError)).
  { intros nd xs Hx. destruct (map Qtrunc xs) as [|y ys] eqn:E; [eauto|]. rewrite range_test.
    destruct (octets_ok (y :: ys)) eqn:Eo; simpl negb; cbv iota; [|eauto].
    destruct (Nat.eqb_spec nd 1); [|simpl; eauto].
    exfalso. destruct Hx as [->|[Hx|(x & Hin & Hx)]]; [discriminate|congruence|].
    apply octets_ok_Forall in Eo. rewrite <- E in Eo. rewrite Forall_forall in Eo.
    apply (Qtrunc_out x Hx). apply Eo. now apply in_map. }
  destruct a; simpl in H |- *; try (subst; simpl; eauto; fail); try (apply Hl; assumption).
Qed.

Lemma malformed_bits_err a : malformed_bits a -> exists e, check_binary_array a = Err e /\ rejection e.
Proof.
  intro H. unfold rejection.
  destruct (check_binary_array a) eqn:E.
  - exfalso. apply check_binary_inv in E as (xs & Ha & Hne & Hu & _).
    assert (Hc : xs = [] \/ 1%nat <> 1%nat \/ exists x, In x xs /\ (x < 0 \/ 1 < x)%Q)
      by (destruct Ha as [-> | ->]; exact H).
    destruct Hc as [?|[?|(x & Hx & Hb)]]; try congruence.
    rewrite Forall_forall in Hu. specialize (Hu x Hx). destruct Hu as [H1 H2].
    destruct Hb as [Hb|Hb]; apply Qlt_not_le in Hb; contradiction.
  - destruct (check_binary_err a) as [Er|Er]; [congruence| |]; rewrite Er in E; inversion E; eauto.
Qed.

Lemma fsk_bits_err a e s : check_binary_array a = Err e -> k_bitsToIQ a s = (s, Err e).
Proof. intro H. unfold k_bitsToIQ, sbind at 1, slift. rewrite H. reflexivity. Qed.
Lemma ofdm_bits_err a e s : check_binary_array a = Err e -> m_bits_symbols a s = (s, Err e).
Proof. intro H. unfold m_bits_symbols, sbind at 1, slift. rewrite H. reflexivity. Qed.
Lemma oqpsk_bits_err p a e s : check_binary_array a = Err e -> q_bitsToChips p a s = (s, Err e).
Proof. intro H. unfold q_bitsToChips, sbind at 1, slift. rewrite H. reflexivity. Qed.
Lemma fsk_bytes_err a e s : to_binary_array a = Err e -> k_bytesToIQ a s = (s, Err e).
Proof. intro H. unfold k_bytesToIQ, sbind at 1, slift. rewrite H. reflexivity. Qed.
Lemma ofdm_bytes_err a e s : to_binary_array a = Err e -> m_bytes_symbols a s = (s, Err e).
Proof. intro H. unfold m_bytes_symbols, sbind at 1, slift. rewrite H. reflexivity. Qed.
Lemma oqpsk_bytes_err p a e s : to_binary_array a = Err e -> q_bytesToChips p a s = (s, Err e).
Proof. intro H. unfold q_bytesToChips, sbind at 1, slift. rewrite H. reflexivity. Qed.

(** an accepted bit payload behaves as its 0/1 reading *)
Lemma check_binary_value a bits :
  check_binary_array a = Ok bits -> check_binary_array (bits_arg bits) = Ok bits.
Proof.
  intro H. apply check_binary_bits_arg. apply check_binary_inv in H as (xs & _ & Hne & _ & ->).
  destruct xs; simpl; congruence.
Qed.
