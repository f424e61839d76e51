(** * Properties C82, C83, C84: the arguments of Ofdm_modulator *)
From Coq Require Import Reals.
From Coquelicot Require Import Complex.
From Verif Require Import Py MPn9 MModul MOfdm MTime MOfdmArgs SPn9 SOfdm SOfdmArgs STime STools PList PPn9 PModul POfdm PTime Prop_Ofdm Prop_Time.
Local Open Scope Z_scope.

(** ** C82: the constructor *)
Lemma integer_is v z : integer v z -> is_int v = true /\ int_of v = z.
Proof. intros [->|[[-> ->]|[-> ->]]]; split; reflexivity. Qed.
Lemma is_integer v : is_int v = true -> integer v (int_of v).
Proof. destruct v as [z|[|]|q|s|]; try discriminate; intros _; [now left|right; left; split; reflexivity|right; right; split; reflexivity]. Qed.
Lemma pow2_is e : 0 <= e -> is_pow2 (2 ^ e) = true.
Proof. intro H. unfold is_pow2. rewrite Z.log2_pow2, Z.eqb_refl by assumption. rewrite (proj2 (Z.ltb_lt _ _)); [reflexivity|]. apply Z.pow_pos_nonneg; lia. Qed.
Lemma is_pow2_exp n : is_pow2 n = true -> exists e, 0 <= e /\ n = 2 ^ e.
Proof. unfold is_pow2. intro H. apply andb_prop in H as [_ H]. apply Z.eqb_eq in H. exists (Z.log2 n). split; [apply Z.log2_nonneg|now symmetry]. Qed.
Lemma ordered_spec l : ordered l = true <-> forall k, (S k < length l)%nat -> nth k l 0 <= nth (S k) l 0.
Proof.
  induction l as [|x [|y r] IH]; [split; [intros _ k H; simpl in H; lia|reflexivity]|split; [intros _ k H; simpl in H; lia|reflexivity]|].
  change (ordered (x :: y :: r)) with ((x <=? y) && ordered (y :: r)). rewrite andb_true_iff, Z.leb_le, IH. split.
  - intros [H1 H2] [|k] Hk; [exact H1|]. exact (H2 k ltac:(cbn [length] in *; lia)).
  - intro H. split; [exact (H 0%nat ltac:(cbn [length]; lia))|]. intros k Hk. exact (H (S k) ltac:(cbn [length] in *; lia)).
Qed.
Lemma sets_ordered i : (exists l, i = I1 l) \/ (exists r c e, i = I2 r c e) -> (forallb ordered (idx_sets i) = true <-> indices_ok i (idx_rows i)).
Proof.
  intros [[l ->]|(r & c & e & ->)]; cbn [idx_sets idx_rows].
  - cbn [forallb]. rewrite andb_true_r, ordered_spec. split.
    + intro H. exists 1%nat, (fun k _ => nth k l 0). split; [constructor|]. intros j k _ Hk. now apply H.
    + intros (n & e & Hp & H) k Hk. inversion Hp; subst. exact (H 0%nat k ltac:(lia) Hk).
  - rewrite forallb_forall. split.
    + intro H. exists (S c), e. split; [constructor|]. intros j k Hj Hk.
      specialize (H (map (fun k => e k j) (seq 0 r)) ltac:(apply in_map_iff; exists j; split; [reflexivity|apply in_seq; lia])).
      rewrite ordered_spec in H. specialize (H k ltac:(rewrite map_length, seq_length; exact Hk)). rewrite !nth_map_seq in H by lia. exact H.
    + intros (n & e' & Hp & H) x Hx. inversion Hp; subst. apply in_map_iff in Hx as (j & <- & Hj). apply in_seq in Hj.
      rewrite ordered_spec, map_length, seq_length. intros k Hk. rewrite !nth_map_seq by lia. apply H; lia.
Qed.
Lemma indices_rows i P : indices_ok i P -> P = idx_rows i /\ ((exists l, i = I1 l) \/ (exists r c e, i = I2 r c e)).
Proof. intros (n & e & Hp & _). inversion Hp; subst; split; try reflexivity; [left|right]; eauto. Qed.
Lemma sets_rows i : (exists l, i = I1 l) \/ (exists r c e, i = I2 r c e) -> exists s r, idx_sets i = s :: r /\ length s = idx_rows i.
Proof. intros [[l ->]|(r & c & e & ->)]; (eexists; eexists; split; [reflexivity|]); [reflexivity|cbn [idx_rows]; now rewrite map_length, seq_length]. Qed.
Definition pilots_number (i : idx_arg) : Z := Z.of_nat (idx_rows i).
(** documented arguments are accepted; the new object has the documented symbol size, pilot set and PN9 value *)
Theorem C82_accepts_partial N modulation pl pr sf i v ips seed : plain_args_ok N modulation pl pr sf ips seed -> pilot_args_ok i v ->
  exists c st m, ofdm_init N modulation pl pr sf i v ips seed = Ok (c, st)
    /\ modulation = PStr (match m with BPSK => "BPSK" | QPSK => "QPSK" | QAM16 => "QAM16" end)
    /\ get_pilot_set_index st = int_of ips /\ get_pn9_value st = int_of seed
    /\ get_number_of_bits_per_symbol c
       = Z.quot ((int_of N - pilots_number i - int_of pl - int_of pr - 1) * Z.of_nat (group_size m)) (int_of sf).
Proof.
  intros (n & name & l & r & k & ii & s & H1 & (e & He & Hn) & H2 & H3 & H4 & H5 & H6 & H7 & H8 & H9) Hv.
  apply integer_is in H1 as [H1 E1], H4 as [H4 E4], H5 as [H5 E5], H6 as [H6 E6], H8 as [H8 E8], H9 as [H9 E9]. subst.
  unfold ofdm_init. rewrite H1, Hn, pow2_is, H4, H5, H6, H8, H9 by assumption. cbn [negb].
  assert (Hm : exists m, get_modulator name = Ok m /\ name = (match m with BPSK => "BPSK" | QPSK => "QPSK" | QAM16 => "QAM16" end)%string
     /\ bits_per_symbol m = Z.of_nat (group_size m)).
  { destruct H3 as [<-|[<-|[<-|[]]]]; [exists BPSK|exists QPSK|exists QAM16]; repeat split; reflexivity. }
  destruct Hm as (m & Em & Enm & Eb).
  assert (Hs : (int_of sf =? 1) || (int_of sf =? 2) || (int_of sf =? 4) = true) by (destruct H7 as [<-|[<-|[<-|[]]]]; reflexivity).
  rewrite Hs. cbn [negb].
  assert (Hp : exists pil, manage_pilots i v = Ok pil /\ is_inone i && negb (is_vnone v) = false /\ negb (is_inone i) && is_vnone v = false
     /\ match pil with Some (s :: _, _) => zlen s | _ => 0 end = pilots_number i).
  { destruct Hv as [[-> ->]|(P & Hi & Hv)]; [exists None; repeat split; reflexivity|].
    destruct (indices_rows i P Hi) as [-> Hk]. destruct (sets_rows i Hk) as (s0 & rest & Es & Ls).
    assert (Ho : forallb ordered (idx_sets i) = true) by (now apply sets_ordered).
    assert (Hnn : is_inone i = false) by (destruct Hk as [[? ->]|(? & ? & ? & ->)]; reflexivity).
    destruct Hv as [->|(vs & -> & Hl)].
    - exists (Some (idx_sets i, PvPn9)). rewrite Hnn. unfold manage_pilots, zlen, pilots_number. rewrite Ho, Es, Ls.
      destruct Hk as [[? ->]|(? & ? & ? & ->)]; repeat split; reflexivity.
    - exists (Some (idx_sets i, PvArray vs)). rewrite Hnn. unfold manage_pilots, zlen, pilots_number. rewrite Ho, Hl, Nat.eqb_refl, Es, Ls.
      destruct Hk as [[? ->]|(? & ? & ? & ->)]; repeat split; reflexivity. }
  destruct Hp as (pil & Ep & P1 & P2 & P3). rewrite P1, P2, Ep, Em. cbn [rbind].
  eexists. eexists. exists m. split; [reflexivity|]. split; [now rewrite <- Enm|]. split; [reflexivity|]. split; [reflexivity|].
  unfold get_number_of_bits_per_symbol, split_length, n_pilots. cbn [o_N o_pilots o_pl o_pr o_sf o_mod]. rewrite P3, Eb. reflexivity.
Qed.
Print Assumptions C82_accepts_partial.
(** everything else is refused with ValueError, when pilots_values is None, "pn9", a list, a 1-D array or an object of
    another type *)
Theorem C82_refuses_partial N modulation pl pr sf i v ips seed : ~ (plain_args_ok N modulation pl pr sf ips seed /\ pilot_args_ok i v) ->
  (forall s, v = VStr s -> s = "pn9"%string) -> (forall x, v <> V0 x) -> ofdm_init N modulation pl pr sf i v ips seed = Err ValueError.
Proof.
  intros Hn Hv H0. unfold ofdm_init.
  destruct (is_int N) eqn:H1; [|reflexivity]. destruct (is_pow2 (int_of N)) eqn:H2; [|reflexivity]. cbn [negb].
  destruct modulation as [z|b|q|name|]; try reflexivity.
  destruct (is_int pl) eqn:H3; [|reflexivity]. destruct (is_int pr) eqn:H4; [|reflexivity]. cbn [negb].
  destruct (is_inone i && negb (is_vnone v)) eqn:H5; [reflexivity|]. destruct (negb (is_inone i) && is_vnone v) eqn:H6; [reflexivity|].
  destruct (is_int sf) eqn:H7; [|reflexivity]. cbn [negb]. destruct ((int_of sf =? 1) || (int_of sf =? 2) || (int_of sf =? 4)) eqn:H8; [|reflexivity]. cbn [negb].
  destruct (is_int ips) eqn:H9; [|reflexivity]. destruct (is_int seed) eqn:H10; [|reflexivity]. cbn [negb].
  destruct (manage_pilots i v) as [pil|e] eqn:Ep; cbn [rbind].
  - destruct (get_modulator name) as [m|e] eqn:Em.
    + exfalso. apply Hn. split.
      * exists (int_of N), name, (int_of pl), (int_of pr), (int_of sf), (int_of ips), (int_of seed).
        repeat split; try (now apply is_integer); [now apply is_pow2_exp| |].
        -- unfold get_modulator in Em. destruct (String.eqb_spec name "BPSK"); [subst; simpl; tauto|]. destruct (String.eqb_spec name "QPSK"); [subst; simpl; tauto|].
           destruct (String.eqb_spec name "QAM16"); [subst; simpl; tauto|discriminate].
        -- rewrite !orb_true_iff, !Z.eqb_eq in H8. simpl. intuition.
      * destruct v as [|s|x|vs|]; try discriminate.
        -- left. destruct i; try discriminate H6. split; reflexivity.
        -- right. rewrite (Hv s eq_refl) in *. destruct i as [|l|r c e| |]; try discriminate Ep; unfold manage_pilots in Ep;
             (destruct (forallb ordered _) eqn:Ho; [|discriminate]); (eexists; split; [apply sets_ordered; [|exact Ho]; [left|right]; eauto|now left]) || idtac.
           ++ eexists. split; [apply sets_ordered; [left; eauto|exact Ho]|now left].
           ++ eexists. split; [apply sets_ordered; [right; eauto|exact Ho]|now left].
        -- now destruct (H0 x).
        -- right. destruct i as [|l|r c e| |]; try discriminate Ep; unfold manage_pilots in Ep; (destruct (forallb ordered _) eqn:Ho; [|discriminate]);
             cbn [negb] in Ep; (destruct (Nat.eqb (length vs) _) eqn:El; [|discriminate]); apply Nat.eqb_eq in El.
           ++ eexists. split; [apply sets_ordered; [left; eauto|exact Ho]|right; eauto].
           ++ eexists. split; [apply sets_ordered; [right; eauto|exact Ho]|right; eauto].
        -- destruct i; discriminate Ep || (unfold manage_pilots in Ep; destruct (forallb ordered _); discriminate).
    + unfold get_modulator in Em. destruct (String.eqb name "BPSK"); [discriminate|]. destruct (String.eqb name "QPSK"); [discriminate|].
      destruct (String.eqb name "QAM16"); [discriminate|]. injection Em as <-. reflexivity.
  - unfold manage_pilots in Ep. destruct v as [|s|x|vs|]; [discriminate| | | |].
    + rewrite (Hv s eq_refl) in Ep. destruct i as [|l|r c e0| |]; try (injection Ep as <-; reflexivity); destruct (forallb ordered _); cbn in Ep; congruence.
    + now destruct (H0 x).
    + destruct i as [|l|r c e0| |]; try (injection Ep as <-; reflexivity); destruct (forallb ordered _); cbn [negb] in Ep; try congruence; destruct (Nat.eqb _ _); congruence.
    + destruct i as [|l|r c e0| |]; try (injection Ep as <-; reflexivity); destruct (forallb ordered _); cbn in Ep; congruence.
Qed.
Print Assumptions C82_refuses_partial.
(** the documentation ("a single value in the array is valid") is not true of two pilots or more *)
Theorem C82_single_value_refuted N modulation pl pr sf i P x ips seed : plain_args_ok N modulation pl pr sf ips seed -> indices_ok i P -> (2 <= P)%nat ->
  ofdm_init N modulation pl pr sf i (V1 [x]) ips seed = Err ValueError.
Proof.
  intros Hp Hi HP. apply C82_refuses_partial; [|discriminate|discriminate]. intros [_ [[-> _]|(P' & Hi' & [Hv|(vs & Hv & Hl)])]].
  - destruct Hi as (n & e & Hi & _). inversion Hi.
  - discriminate.
  - injection Hv as <-. apply indices_rows in Hi as [-> _]. apply indices_rows in Hi' as [-> _]. cbn [length] in Hl. lia.
Qed.
Print Assumptions C82_single_value_refuted.
Lemma init_pilots N modulation pl pr sf i P v ips seed : plain_args_ok N modulation pl pr sf ips seed -> indices_ok i P -> v <> VNone ->
  ofdm_init N modulation pl pr sf i v ips seed
  = do pil <- manage_pilots i v;
    do m <- get_modulator (match modulation with PStr name => name | _ => EmptyString end);
    Ok ({| o_N := int_of N; o_mod := m; o_pl := int_of pl; o_pr := int_of pr; o_sf := int_of sf; o_pilots := pil |},
        {| o_col := int_of ips; o_pn9 := pn9_new (int_of seed) |}).
Proof.
  intros (n & name & l & r & k & ii & s & H1 & (e & He & Hn) & H2 & H3 & H4 & H5 & H6 & H7 & H8 & H9) Hi Hv.
  apply integer_is in H1 as [H1 E1], H4 as [H4 E4], H5 as [H5 E5], H6 as [H6 E6], H8 as [H8 E8], H9 as [H9 E9].
  assert (Hp2 : is_pow2 (int_of N) = true) by (rewrite E1, Hn; now apply pow2_is).
  unfold ofdm_init. rewrite H1, Hp2, H2, H4, H5, H6, H8, H9. cbn [negb].
  assert (Hs : (int_of sf =? 1) || (int_of sf =? 2) || (int_of sf =? 4) = true) by (rewrite E6; destruct H7 as [<-|[<-|[<-|[]]]]; reflexivity).
  rewrite Hs. cbn [negb]. apply indices_rows in Hi as [_ Hk].
  assert (Hnn : is_inone i = false) by (destruct Hk as [[? ->]|(? & ? & ? & ->)]; reflexivity). rewrite Hnn.
  destruct v; try reflexivity. congruence.
Qed.
Lemma name_ok N modulation pl pr sf ips seed : plain_args_ok N modulation pl pr sf ips seed ->
  exists m, get_modulator (match modulation with PStr name => name | _ => EmptyString end) = Ok m.
Proof.
  intros (n & name & l & r & k & ii & s & H1 & _ & H2 & H3 & _). subst modulation. destruct H3 as [<-|[<-|[<-|[]]]]; [exists BPSK|exists QPSK|exists QAM16]; reflexivity.
Qed.
(** any other string is refused with AttributeError instead of ValueError *)
Theorem C82_string_refuted N modulation pl pr sf i P s ips seed : plain_args_ok N modulation pl pr sf ips seed -> indices_ok i P -> s <> "pn9"%string ->
  ofdm_init N modulation pl pr sf i (VStr s) ips seed = Err AttributeError.
Proof.
  intros Hp Hi Hs. rewrite (init_pilots _ _ _ _ _ _ P) by (auto; discriminate). pose proof (indices_rows i P Hi) as [-> Hk].
  pose proof (proj2 (sets_ordered i Hk) Hi) as Ho. unfold manage_pilots. rewrite Ho. cbn [negb].
  destruct (String.eqb_spec s "pn9"); [contradiction|]. destruct Hk as [[? ->]|(? & ? & ? & ->)]; reflexivity.
Qed.
Print Assumptions C82_string_refuted.

(** what a successful call of at least one bit says *)
Lemma mapM_length {A B} (f : A -> res B) l r : mapM f l = Ok r -> length r = length l.
Proof.
  revert r. induction l as [|x l IH]; intros r H; cbn [mapM] in H; [injection H as <-; reflexivity|].
  destruct (f x); [|discriminate]. cbn [rbind] in H. destruct (mapM f l) as [ys|]; [|discriminate]. injection H as <-. cbn [length]. now rewrite (IH ys).
Qed.
Lemma mapM_In {A B} (f : A -> res B) l r : mapM f l = Ok r -> forall y, In y r -> exists x, In x l /\ f x = Ok y.
Proof.
  revert r. induction l as [|x l IH]; intros r H y Hy; cbn [mapM] in H; [injection H as <-; destruct Hy|].
  destruct (f x) as [b|] eqn:Ef; [|discriminate]. cbn [rbind] in H. destruct (mapM f l) as [ys|]; [|discriminate]. injection H as <-.
  destruct Hy as [<-|Hy]; [exists x; simpl; auto|]. destruct (IH ys eq_refl y Hy) as (z & Hz & E). exists z. simpl; auto.
Qed.
Lemma symbols_inv c st bits pad st' syms : ofdm_symbols c st bits pad = (st', Ok syms) -> bits <> [] ->
  exists d rest, (exists x, frequency_spread (o_sf c) x = Ok d) /\ add_pilots_and_padding c st (d :: rest) = (st', Ok syms).
Proof.
  unfold ofdm_symbols. cbv zeta. intros H Hb. destruct (split_length c <=? 0) eqn:Hs; [discriminate|]. apply Z.leb_gt in Hs.
  destruct (_ && _); [discriminate|]. set (bits1 := if pad then _ else _) in H.
  assert (Hb1 : bits1 <> []) by (unfold bits1; destruct pad; [destruct bits; [congruence|discriminate]|exact Hb]).
  destruct (reshape_rows (Z.to_nat (split_length c)) bits1) as [cols|] eqn:E1; [|discriminate]. cbn [rbind] in H.
  destruct (mapM (convert_column (o_mod c)) cols) as [mapped|] eqn:E2; [|discriminate]. cbn [rbind] in H.
  destruct (mapM (frequency_spread (o_sf c)) mapped) as [spr|] eqn:E3; [|discriminate].
  assert (Hc : cols <> []).
  { unfold reshape_rows in E1. destruct (Nat.eqb _ _); [|discriminate]. injection E1 as <-. destruct bits1 as [|b bs]; [congruence|]. discriminate. }
  apply mapM_length in E2. pose proof (mapM_length _ _ _ E3) as L3. destruct spr as [|d rest]; [destruct cols; [congruence|]; cbn [length] in *; lia|].
  exists d, rest. split; [|exact H]. destruct (mapM_In _ _ _ E3 d ltac:(simpl; auto)) as (x & _ & Ex). eauto.
Qed.
Lemma py_remove_len x l r : py_remove x l = Ok r -> length l = S (length r).
Proof.
  revert r. induction l as [|y l IH]; intros r H; cbn [py_remove] in H; [discriminate|]. destruct (y =? x); [injection H as <-; reflexivity|].
  destruct (py_remove x l) as [r'|]; [|discriminate]. injection H as <-. cbn [length]. now rewrite (IH r').
Qed.
Lemma place_len N pv pset : forall pn pvi avail col pn' pvi' a c, place_pilots N pv pset pn pvi avail col = (pn', pvi', Ok (a, c)) ->
  length avail = (length pset + length a)%nat.
Proof.
  induction pset as [|i pset IH]; intros pn pvi avail col pn' pvi' a c H; cbn [place_pilots] in H; [injection H as <- <- <- <-; reflexivity|].
  destruct (next_pilot pv pn pvi) as [[pn1 pvi1] [p|e]]; [|discriminate]. destruct (np_index N (i + N / 2)); [|discriminate].
  destruct (py_remove i avail) as [av|] eqn:Er; [|discriminate]. apply IH in H. apply py_remove_len in Er. cbn [length]. lia.
Qed.
Lemma glob_len c glob : 0 <= o_pl c -> 0 <= o_pr c -> o_pl c + o_pr c <= o_N c -> channels_global c = Ok glob ->
  zlen glob = o_N c - o_pl c - o_pr c - 1.
Proof.
  intros H1 H2 H3 E. unfold channels_global in E. cbv zeta in E. apply py_remove_len in E. unfold zlen.
  enough (L : forall l : list Z, length l = Z.to_nat (o_N c) ->
     length (if 0 <? o_pr c then firstn (length (if 0 <? o_pl c then skipn (Z.to_nat (o_pl c)) l else l) - Z.to_nat (o_pr c)) (if 0 <? o_pl c then skipn (Z.to_nat (o_pl c)) l else l)
             else if 0 <? o_pl c then skipn (Z.to_nat (o_pl c)) l else l) = Z.to_nat (o_N c - o_pl c - o_pr c)).
  { rewrite L in E by now rewrite map_length, seq_length. lia. }
  intros l L.
  set (l1 := if 0 <? o_pl c then skipn (Z.to_nat (o_pl c)) l else l).
  assert (L1 : length l1 = Z.to_nat (o_N c - o_pl c)).
  { unfold l1. destruct (Z.ltb_spec 0 (o_pl c)); [rewrite skipn_length|]; lia. }
  destruct (Z.ltb_spec 0 (o_pr c)); [rewrite firstn_length|]; lia.
Qed.
Lemma insert_len N avail data col col' : insert_data N avail data col = Ok col' -> length data = length avail \/ exists d, data = [d].
Proof.
  unfold insert_data. destruct (Nat.eqb_spec (length data) (length avail)); [left; assumption|]. destruct data as [|d [|d' r]]; try discriminate. right; eauto.
Qed.
Lemma spread_len sf x d : frequency_spread sf x = Ok d -> length d = (Z.to_nat sf * length x)%nat.
Proof.
  intro H. assert (Hs : sf = 1 \/ sf = 2 \/ sf = 4).
  { unfold frequency_spread in H. destruct (Z.eqb_spec sf 1); [auto|]. destruct (Z.eqb_spec sf 2); [auto|]. destruct (Z.eqb_spec sf 4); [auto|discriminate]. }
  destruct (C36_spread (Z.to_nat sf) x) as (out & E & L & _); [destruct Hs as [->|[->| ->]]; simpl; auto|].
  rewrite Z2Nat.id in E by lia. congruence.
Qed.
Lemma init_config N modulation pl pr sf i v ips seed c st : ofdm_init N modulation pl pr sf i v ips seed = Ok (c, st) ->
  o_N c = int_of N /\ o_pl c = int_of pl /\ o_pr c = int_of pr /\ o_sf c = int_of sf /\ (int_of sf = 1 \/ int_of sf = 2 \/ int_of sf = 4)
  /\ manage_pilots i v = Ok (o_pilots c) /\ n_pilots c = pilots_number i.
Proof.
  unfold ofdm_init. intro H. destruct (is_int N); [|discriminate]. destruct (is_pow2 (int_of N)); [|discriminate]. cbn [negb] in H.
  destruct modulation; try discriminate. destruct (is_int pl); [|discriminate]. destruct (is_int pr); [|discriminate]. cbn [negb] in H.
  destruct (is_inone i && negb (is_vnone v)) eqn:V1_; [discriminate|]. destruct (negb (is_inone i) && is_vnone v) eqn:V2_; [discriminate|].
  destruct (is_int sf); [|discriminate]. cbn [negb] in H. destruct ((int_of sf =? 1) || (int_of sf =? 2) || (int_of sf =? 4)) eqn:Hs; [|discriminate]. cbn [negb] in H.
  destruct (is_int ips); [|discriminate]. destruct (is_int seed); [|discriminate]. cbn [negb] in H.
  destruct (manage_pilots i v) as [pil|] eqn:Ep; [|discriminate]. cbn [rbind] in H. destruct (get_modulator s); [|discriminate]. cbn [rbind] in H.
  injection H as <- <-. cbn [o_N o_pl o_pr o_sf o_pilots]. repeat split.
  - rewrite !orb_true_iff, !Z.eqb_eq in Hs. tauto.
  - unfold n_pilots. cbn [o_pilots]. unfold manage_pilots in Ep. destruct v.
    + injection Ep as <-. destruct i; try discriminate V2_. reflexivity.
    + destruct i as [|l|r c0 e| |]; try discriminate; destruct (forallb ordered _); try discriminate; cbn [negb] in Ep; (destruct (String.eqb _ _); [|discriminate]); injection Ep as <-; [reflexivity|].
      unfold pilots_number, zlen. cbn. now rewrite map_length, seq_length.
    + destruct i as [|l|r c0 e| |]; try discriminate; destruct (forallb ordered _); try discriminate; cbn [negb] in Ep; injection Ep as <-; [reflexivity|].
      unfold pilots_number, zlen. cbn. now rewrite map_length, seq_length.
    + destruct i as [|l|r c0 e| |]; try discriminate; destruct (forallb ordered _); try discriminate; cbn [negb] in Ep; (destruct (Nat.eqb _ _); [|discriminate]); injection Ep as <-; [reflexivity|].
      unfold pilots_number, zlen. cbn. now rewrite map_length, seq_length.
    + destruct i as [|l|r c0 e| |]; try discriminate; destruct (forallb ordered _); discriminate.
Qed.
Lemma sets_all i v sets pv : manage_pilots i v = Ok (Some (sets, pv)) -> sets <> [] /\ Forall (fun s => length s = idx_rows i) sets.
Proof.
  intro Ep. assert (E : sets = idx_sets i /\ ((exists l, i = I1 l) \/ (exists r c e, i = I2 r c e))).
  { unfold manage_pilots in Ep. destruct v; try discriminate; destruct i as [|l|r c0 e| |]; try discriminate; destruct (forallb ordered _); try discriminate; cbn [negb] in Ep;
      try (destruct (String.eqb _ _); [|discriminate]); try (destruct (Nat.eqb _ _); [|discriminate]); try discriminate; injection Ep as <- _; split; try reflexivity; [left|right|left|right|left|right]; eauto. }
  destruct E as [-> [[l ->]|(r & c & e & ->)]]; cbn [idx_sets idx_rows]; (split; [discriminate|]); [repeat constructor|].
  apply Forall_forall. intros s Hs. apply in_map_iff in Hs as (j & <- & _). now rewrite map_length, seq_length.
Qed.
Lemma np_index_bound n i k : np_index n i = Ok k -> 0 <= n -> Z.of_nat k < n.
Proof. unfold np_index. destruct ((0 <=? i) && (i <? n)) eqn:E; [|destruct ((- n <=? i) && (i <? 0)) eqn:E2; [|discriminate]]; intro H; injection H as <-.
  - apply andb_prop in E as [E E']. apply Z.leb_le in E. apply Z.ltb_lt in E'. lia.
  - apply andb_prop in E2 as [E2 E']. apply Z.leb_le in E2. apply Z.ltb_lt in E'. lia.
Qed.
(** an object whose data tones (guards not overlapping) cannot be shared among the copies of frequency spreading is
    built, and then refuses every message *)
Theorem C82_spreading_refuted N modulation pl pr sf i v ips seed c st0 : ofdm_init N modulation pl pr sf i v ips seed = Ok (c, st0) ->
  0 <= int_of pl -> 0 <= int_of pr -> int_of pl + int_of pr <= int_of N ->
  (int_of N - pilots_number i - int_of pl - int_of pr - 1) mod int_of sf <> 0 ->
  forall st bits pad, bits <> [] -> exists e, snd (ofdm_symbols c st bits pad) = Err e.
Proof.
  intros H H1 H2 H3 Hm st bits pad Hb. destruct (ofdm_symbols c st bits pad) as [st' [syms|e]] eqn:E; [|exists e; reflexivity]. exfalso.
  destruct (symbols_inv _ _ _ _ _ _ E Hb) as (d & rest & (x & Ex) & Ea). apply init_config in H as (C1 & C2 & C3 & C4 & C5 & C6 & C7).
  apply spread_len in Ex. rewrite C4 in Ex. unfold add_pilots_and_padding in Ea.
  destruct (channels_global c) as [glob|] eqn:Eg; [|discriminate]. apply glob_len in Eg; [|rewrite ?C1, ?C2, ?C3; assumption..]. rewrite C1, C2, C3 in Eg.
  assert (K : forall avail : list Z, zlen avail = int_of N - pilots_number i - int_of pl - int_of pr - 1 -> length d = length avail \/ (exists g, d = [g]) -> False).
  { intros avail La [Ld|[g Ld]].
    - apply Hm. rewrite <- La. unfold zlen. rewrite <- Ld, Ex, Nat2Z.inj_mul, Z2Nat.id by lia. rewrite Z.mul_comm. apply Z.mod_mul. lia.
    - rewrite Ld in Ex. cbn [length] in Ex. destruct C5 as [C5|[C5|C5]]; rewrite C5 in Ex, Hm; [rewrite Z.mod_1_r in Hm; congruence| |]; lia. }
  assert (K0 : 0 <? n_pilots c = false -> forall r, mapM (fun d => insert_data (o_N c) glob d (repeat TZero (Z.to_nat (o_N c)))) (d :: rest) = Ok r -> False).
  { intros Hn r Er. cbn [mapM] in Er. destruct (insert_data _ glob d _) as [col|] eqn:Ei; [|discriminate]. apply insert_len in Ei.
    apply (K glob); [|exact Ei]. rewrite Eg. rewrite C7 in Hn. apply Z.ltb_ge in Hn. unfold pilots_number in *. lia. }
  destruct (o_pilots c) as [[sets pv]|] eqn:Ep.
  - destruct (0 <? n_pilots c) eqn:Hn.
    + cbn [add_pilots_loop] in Ea. destruct (np_index (zlen sets) (o_col st)) as [ci|] eqn:Ec; [|discriminate].
      destruct (place_pilots _ _ _ _ _ _ _) as [[pn1 pvi1] [[avail col]|]] eqn:Epp; [|discriminate]. apply place_len in Epp.
      destruct (insert_data _ avail d col) as [sym|] eqn:Ei; [|discriminate]. apply insert_len in Ei. apply (K avail); [|exact Ei].
      destruct (sets_all _ _ _ _ C6) as [_ Hf]. apply np_index_bound in Ec; [|unfold zlen; lia].
      rewrite Forall_forall in Hf. rewrite (Hf (nth ci sets [])) in Epp by (apply nth_In; unfold zlen in Ec; lia). unfold zlen in *. unfold pilots_number. lia.
    + injection Ea as _ Ea. exact (K0 eq_refl _ Ea).
  - injection Ea as _ Ea. refine (K0 _ _ Ea). unfold n_pilots. now rewrite Ep.
Qed.
Print Assumptions C82_spreading_refuted.
(** a 0-D array of values is accepted, and then every message refused *)
Theorem C82_scalar_refuted N modulation pl pr sf i P x ips seed : plain_args_ok N modulation pl pr sf ips seed -> indices_ok i P -> (1 <= P)%nat ->
  exists c st0, ofdm_init N modulation pl pr sf i (V0 x) ips seed = Ok (c, st0)
  /\ forall st bits pad, bits <> [] -> exists e, snd (ofdm_symbols c st bits pad) = Err e.
Proof.
  intros Hp Hi HP. rewrite (init_pilots _ _ _ _ _ _ P) by (auto; discriminate). pose proof (indices_rows i P Hi) as [E0 Hk].
  assert (Ho : forallb ordered (idx_sets i) = true) by (apply sets_ordered; [assumption|now rewrite <- E0]).
  assert (Em : manage_pilots i (V0 x) = Ok (Some (idx_sets i, PvArray []))) by (unfold manage_pilots; rewrite Ho; destruct Hk as [[? ->]|(? & ? & ? & ->)]; reflexivity).
  rewrite Em. cbn [rbind]. destruct (name_ok _ _ _ _ _ _ _ Hp) as [m ->]. cbn [rbind]. eexists. eexists. split; [reflexivity|].
  intros st bits pad Hb. match goal with |- exists e, snd (ofdm_symbols ?cc _ _ _) = _ => set (c := cc) end.
  destruct (ofdm_symbols c st bits pad) as [st' [syms|e]] eqn:E; [|exists e; reflexivity]. exfalso.
  destruct (symbols_inv _ _ _ _ _ _ E Hb) as (d & rest & _ & Ea). unfold add_pilots_and_padding in Ea.
  destruct (channels_global c) as [glob|] eqn:Eg; [|discriminate]. unfold c in Ea at 1. cbn [o_pilots] in Ea.
  destruct (sets_all _ _ _ _ Em) as [Hne Hf].
  assert (Hn : 0 <? n_pilots c = true).
  { unfold n_pilots, c. cbn [o_pilots]. destruct (idx_sets i) as [|s0 r0]; [congruence|]. inversion Hf; subst. apply Z.ltb_lt. unfold zlen. lia. }
  rewrite Hn in Ea. cbn [add_pilots_loop] in Ea. destruct (np_index _ (o_col st)) as [ci|] eqn:Ec; [|discriminate].
  apply np_index_bound in Ec; [|unfold zlen; lia]. rewrite Forall_forall in Hf.
  pose proof (Hf (nth ci (idx_sets i) []) ltac:(apply nth_In; unfold zlen in Ec; lia)) as L. destruct (nth ci (idx_sets i) []) as [|p ps]; [cbn [length] in L; lia|].
  cbn [place_pilots next_pilot nth_error] in Ea. discriminate Ea.
Qed.
Print Assumptions C82_scalar_refuted.
(** 16 channels, 2 sets of 2 pilots, values "pn9" or one for each pilot *)
Definition case_sets : idx_arg := I2 2 1 (fun k j => match k, j with O, O => -5 | O, _ => -3 | _, O => 2 | _, _ => 4 end).
Example C82_case : plain_args_ok (PInt 16) (PStr "QPSK") (PInt 1) (PInt 0) (PBool true) (PInt 0) (PInt 511)
  /\ pilot_args_ok case_sets (VStr "pn9") /\ pilot_args_ok case_sets (V1 [(1, 0)%Q; (0, -1)%Q]) /\ indices_ok case_sets 2
  /\ exists c st, ofdm_init (PInt 16) (PStr "QPSK") (PInt 1) (PInt 0) (PBool true) case_sets (VStr "pn9") (PInt 0) (PInt 511) = Ok (c, st)
     /\ get_number_of_bits_per_symbol c = 24 /\ is_ok (snd (ofdm_send c st (MArr [1; 48]%nat (repeat 1%Q 48)) false)) = true.
Proof.
  assert (Hi : indices_ok case_sets 2).
  { exists 2%nat. eexists. split; [constructor|]. intros j k Hj Hk. assert (k = 0%nat) as -> by lia. destruct j as [|[|j]]; [lia|lia|lia]. }
  split; [|split; [|split; [|split]]].
  - exists 16. eexists. do 5 eexists. split; [now left|]. split; [exists 4; split; [lia|reflexivity]|]. split; [reflexivity|]. split; [simpl; tauto|].
    split; [now left|]. split; [now left|]. split; [right; left; split; reflexivity|]. split; [simpl; tauto|]. split; now left.
  - right. exists 2%nat. split; [exact Hi|now left].
  - right. exists 2%nat. split; [exact Hi|right; eauto].
  - exact Hi.
  - eexists. eexists. split; [reflexivity|]. split; vm_compute; reflexivity.
Qed.
(** 13 data tones with spreading 2: accepted *)
Example C82_spreading_case : exists c st, ofdm_init (PInt 16) (PStr "QPSK") (PInt 1) (PInt 1) (PInt 2) INone VNone (PInt 0) (PInt 511) = Ok (c, st)
  /\ get_number_of_bits_per_symbol c = 13 /\ snd (ofdm_symbols c st (repeat true 26) false) = Err AssertionError.
Proof. eexists. eexists. split; [reflexivity|]. split; vm_compute; reflexivity. Qed.

(** ** C83: the message argument of bitsToIQ *)
(** one dimension of any size but 1, the others of size 1 *)
Definition one_row (dims : list nat) : Prop := exists a n b, dims = a ++ n :: b /\ n <> 1%nat /\ Forall (eq 1%nat) (a ++ b).
Lemma squeeze_ones l : Forall (eq 1%nat) l -> squeeze l = [].
Proof. induction 1 as [|x l <- _ IH]; [reflexivity|exact IH]. Qed.
Lemma squeeze_one_row dims : length (squeeze dims) = 1%nat <-> one_row dims.
Proof.
  split.
  - induction dims as [|d dims IH]; [discriminate|]. unfold squeeze in *. cbn [filter]. destruct (Nat.eqb_spec d 1) as [->|Hd]; cbn [negb].
    + intro H. destruct (IH H) as (a & n & b & -> & Hn & Hf). exists (1%nat :: a), n, b. split; [reflexivity|]. split; [assumption|]. now constructor.
    + intro H. cbn [length] in H. injection H as H. exists [], d, dims. split; [reflexivity|]. split; [assumption|]. cbn [app]. clear -H.
      induction dims as [|e dims IH]; [constructor|]. cbn [filter] in H. destruct (Nat.eqb_spec e 1) as [->|]; [constructor; [reflexivity|now apply IH]|discriminate].
  - intros (a & n & b & -> & Hn & Hf). apply Forall_app in Hf as [Ha Hb]. unfold squeeze. rewrite filter_app. cbn [filter].
    fold (squeeze a). fold (squeeze b). rewrite !squeeze_ones by assumption. destruct (Nat.eqb_spec n 1); [contradiction|reflexivity].
Qed.
(** a list or array with one row of bits is the message of these bits; anything else is refused, and nothing changes *)
Theorem C83_bits c st m pad bits :
  (forall dims xs, m = MArr dims xs -> one_row dims -> Forall2 (fun x (b : bool) => (x == if b then 1 else 0)%Q) xs bits ->
     ofdm_send c st m pad = ofdm_symbols c st bits pad)
  /\ ((forall dims xs, m = MArr dims xs -> ~ one_row dims) -> ofdm_send c st m pad = (st, Err ValueError)).
Proof.
  split.
  - intros dims xs -> Hd Hf. unfold ofdm_send. rewrite (proj2 (squeeze_one_row dims) Hd). cbn [Nat.eqb].
    assert (E : map one_bit xs = bits); [|now rewrite E]. clear -Hf. induction Hf as [|x b xs bits Hx Hf IH]; [reflexivity|]. cbn [map]. rewrite IH. f_equal.
    unfold one_bit. destruct b; rewrite Hx; reflexivity.
  - intro H. unfold ofdm_send. destruct m as [dims xs|]; [|reflexivity]. destruct (Nat.eqb_spec (length (squeeze dims)) 1) as [E|]; [|reflexivity].
    apply squeeze_one_row in E. now destruct (H dims xs eq_refl).
Qed.
Print Assumptions C83_bits.
(** numbers that are no bits are not refused: only the sign counts *)
Theorem C83_values_refuted c st dims xs pad : one_row dims ->
  ofdm_send c st (MArr dims xs) pad = ofdm_symbols c st (map positive xs) pad.
Proof.
  intro Hd. unfold ofdm_send. rewrite (proj2 (squeeze_one_row dims) Hd). cbn [Nat.eqb]. f_equal. apply map_ext. intro x. unfold one_bit, positive.
  destruct (0 ?= x)%Q eqn:E.
  - apply Qeq_alt in E. rewrite <- E. reflexivity.
  - apply Qlt_alt in E. destruct (Qle_bool x 0) eqn:F; [|reflexivity]. apply Qle_bool_iff in F. exfalso. apply (Qlt_not_le _ _ E F).
  - apply Qgt_alt in E. rewrite (proj2 (Qle_bool_iff x 0)); [reflexivity|]. now apply Qlt_le_weak.
Qed.
Print Assumptions C83_values_refuted.
(** a message of one bit is refused by every object, also where it fills a symbol or padding is requested *)
Theorem C83_single_refuted c st x k pad : ofdm_send c st (MArr (repeat 1%nat k) [x]) pad = (st, Err ValueError).
Proof. unfold ofdm_send. rewrite squeeze_ones; [reflexivity|]. apply Forall_forall. intros y Hy. apply repeat_spec in Hy. now symmetry. Qed.
Print Assumptions C83_single_refuted.
Example C83_case : exists c st, ofdm_init (PInt 2) (PStr "BPSK") (PInt 0) (PInt 0) (PInt 1) INone VNone (PInt 0) (PInt 511) = Ok (c, st)
  /\ get_number_of_bits_per_symbol c = 1
  /\ is_ok (snd (ofdm_send c st (MArr [2]%nat [1%Q; 0%Q]) false)) = true
  /\ is_ok (snd (ofdm_send c st (MArr [1; 3; 1]%nat [7%Q; (-1 # 2)%Q; 0%Q]) false)) = true
  /\ snd (ofdm_send c st (MArr [1]%nat [1%Q]) false) = Err ValueError.
Proof. eexists. eexists. split; [reflexivity|]. repeat split; vm_compute; reflexivity. Qed.

(** ** C84: length of the cyclic prefix *)
Lemma trunc_floor q : (0 < q)%Q -> Qtrunc q = Qfloor q.
Proof. intro H. unfold Qtrunc. rewrite (proj2 (Qle_bool_iff 0 q)); [reflexivity|]. now apply Qlt_le_weak. Qed.
Lemma scaled_pos n CP : (0 < CP)%Q -> 0 < n -> (0 < inject_Z n * CP)%Q.
Proof. intros H Hn. rewrite <- (Qmult_0_l CP). apply Qmult_lt_r; [assumption|]. change 0%Q with (inject_Z 0). rewrite <- Zlt_Qlt. exact Hn. Qed.
Lemma floor_pos q : (0 < q)%Q -> 0 <= Qfloor q.
Proof. intro H. change 0 with (Qfloor (inject_Z 0)). apply Qfloor_resp_le. now apply Qlt_le_weak. Qed.
Lemma prefix_run CP (s : list C) : (0 < CP)%Q -> s <> [] ->
  o_cyclic_prefix CP s = let n := Qfloor (inject_Z (zlen s) * CP) in
     if n =? 0 then s ++ s else prefixed (Z.to_nat (Z.min n (zlen s))) s.
Proof.
  intros H Hs. assert (Hl : 0 < zlen s) by (destruct s; [congruence|unfold zlen; cbn [length]; lia]). unfold o_cyclic_prefix.
  destruct (Qle_bool CP 0) eqn:E; [apply Qle_bool_iff in E; exfalso; apply (Qlt_not_le _ _ H E)|]. cbn [negb].
  pose proof (scaled_pos _ _ H Hl) as Hp. rewrite trunc_floor by assumption. pose proof (floor_pos _ Hp) as Hf. cbv zeta. set (n := Qfloor _) in *.
  unfold take_last, py_bound. destruct (Z.eqb_spec n 0) as [->|Hn].
  - cbn [Z.opp Z.ltb Z.compare]. rewrite Z.min_r by lia. reflexivity.
  - rewrite (proj2 (Z.ltb_lt (- n) 0)) by lia. unfold prefixed, tail_of. f_equal. f_equal. unfold zlen. lia.
Qed.
Lemma even_pow2 N : is_pow2 N = true -> 2 <= N -> N = 2 * Z.of_nat (Z.to_nat (N / 2)).
Proof.
  unfold is_pow2. intros H H2. apply andb_prop in H as [_ H]. apply Z.eqb_eq in H. assert (L : 1 <= Z.log2 N) by (apply Z.log2_le_pow2; lia).
  rewrite <- H. replace (Z.log2 N) with (Z.log2 N - 1 + 1) by lia. rewrite Z.pow_add_r by lia. change (2 ^ 1) with 2. rewrite Z.div_mul by lia.
  pose proof (Z.pow_nonneg 2 (Z.log2 N - 1)). lia.
Qed.
(** the N samples of a symbol with these subcarriers *)
Definition symbol_of (N : Z) (col body : list C) : Prop :=
  length body = Z.to_nat N /\ (forall f, - (N / 2) <= f < N / 2 -> analyse body f = nth (Z.to_nat (f + N / 2)) col (RtoC 0)) /\ energy body = energy col.
Lemma symbol_ifft N col : is_pow2 N = true -> 2 <= N -> zlen col = N -> symbol_of N col (o_ifft col).
Proof.
  intros Hp H2 L. pose proof (even_pow2 N Hp H2) as Hq. set (h := Z.to_nat (N / 2)) in *. unfold zlen in L.
  split; [rewrite o_ifft_length; lia|]. split; [|apply o_ifft_energy]. intros f Hf. assert (N2 : N / 2 = Z.of_nat h) by lia. rewrite N2 in *.
  set (r := Z.to_nat (f + Z.of_nat h)). replace f with (Z.of_nat r - Z.of_nat h) by lia. apply analyse_o_ifft; lia.
Qed.
(** a fraction CP of 1/N to 1: the last int(N CP) samples are repeated in front; none for CP <= 0 *)
Theorem C84_prefix_partial N CP col sig : is_pow2 N = true -> 2 <= N -> subcarriersToIQ N CP col = Ok sig ->
  exists body, symbol_of N col body
  /\ ((CP <= 0)%Q -> sig = body)
  /\ ((1 <= inject_Z N * CP)%Q -> (CP <= 1)%Q -> sig = prefixed (Z.to_nat (Qfloor (inject_Z N * CP))) body)
  /\ ((1 <= CP)%Q -> sig = body ++ body).
Proof.
  intros Hp H2 E. unfold subcarriersToIQ in E. destruct (Z.eqb_spec (zlen col) N) as [L|L]; [|discriminate]. injection E as <-.
  exists (o_ifft col). split; [now apply symbol_ifft|]. unfold symbol_samples.
  assert (Hz : zlen (o_ifft col) = N) by (unfold zlen in *; rewrite o_ifft_length; assumption).
  assert (Hne : o_ifft col <> []) by (intro E; rewrite E in Hz; unfold zlen in Hz; cbn [length] in Hz; lia).
  assert (Hq : (inject_Z 0 < inject_Z N)%Q) by (rewrite <- Zlt_Qlt; lia). change (inject_Z 0) with 0%Q in Hq.
  split; [|split].
  - intro H. unfold o_cyclic_prefix. rewrite (proj2 (Qle_bool_iff CP 0) H). reflexivity.
  - intros H1 H3. assert (Hc : (0 < CP)%Q).
    { destruct (Qlt_le_dec 0 CP) as [A|A]; [assumption|]. exfalso. apply (Qlt_not_le 0 1); [reflexivity|]. apply Qle_trans with (inject_Z N * CP)%Q; [assumption|].
      rewrite <- (Qmult_0_r (inject_Z N)). apply Qmult_le_l; assumption. }
    rewrite prefix_run by assumption. cbv zeta. rewrite Hz.
    assert (F1 : 1 <= Qfloor (inject_Z N * CP)) by (change 1 with (Qfloor (inject_Z 1)); apply Qfloor_resp_le; exact H1).
    assert (F2 : Qfloor (inject_Z N * CP) <= N).
    { rewrite <- (Qfloor_Z N) at 2. apply Qfloor_resp_le. rewrite <- (Qmult_1_r (inject_Z N)) at 2. apply Qmult_le_l; assumption. }
    destruct (Z.eqb_spec (Qfloor (inject_Z N * CP)) 0); [lia|]. now rewrite Z.min_l by lia.
  - intro H1. assert (Hc : (0 < CP)%Q) by (apply Qlt_le_trans with 1%Q; [reflexivity|assumption]). rewrite prefix_run by assumption. cbv zeta. rewrite Hz.
    assert (F2 : N <= Qfloor (inject_Z N * CP)).
    { rewrite <- (Qfloor_Z N) at 1. apply Qfloor_resp_le. rewrite <- (Qmult_1_r (inject_Z N)) at 1. apply Qmult_le_l; assumption. }
    destruct (Z.eqb_spec (Qfloor (inject_Z N * CP)) 0); [lia|]. rewrite Z.min_r by lia. unfold prefixed, tail_of. rewrite <- Hz. unfold zlen. rewrite Nat2Z.id, Nat.sub_diag. reflexivity.
Qed.
Print Assumptions C84_prefix_partial.
(** a positive fraction of less than one sample: instead of no sample the whole symbol is repeated *)
Theorem C84_short_refuted N CP col sig : is_pow2 N = true -> 2 <= N -> subcarriersToIQ N CP col = Ok sig ->
  (0 < CP)%Q -> (inject_Z N * CP < 1)%Q -> exists body, symbol_of N col body /\ sig = body ++ body /\ sig <> body.
Proof.
  intros Hp H2 E Hc H1. unfold subcarriersToIQ in E. destruct (Z.eqb_spec (zlen col) N) as [L|L]; [|discriminate]. injection E as <-.
  exists (o_ifft col). split; [now apply symbol_ifft|]. unfold symbol_samples.
  assert (Hz : zlen (o_ifft col) = N) by (unfold zlen in *; rewrite o_ifft_length; assumption).
  assert (Hne : o_ifft col <> []) by (intro E; rewrite E in Hz; unfold zlen in Hz; cbn [length] in Hz; lia).
  assert (Er : o_cyclic_prefix CP (o_ifft col) = o_ifft col ++ o_ifft col).
  { rewrite prefix_run by assumption. cbv zeta. rewrite Hz. replace (Qfloor (inject_Z N * CP)) with 0; [reflexivity|].
    pose proof (floor_pos _ (scaled_pos N CP Hc ltac:(lia))). pose proof (Qfloor_le (inject_Z N * CP)) as F.
    assert (inject_Z (Qfloor (inject_Z N * CP)) < inject_Z 1)%Q by (apply Qle_lt_trans with (inject_Z N * CP)%Q; assumption). rewrite <- Zlt_Qlt in H0. lia. }
  rewrite Er. split; [reflexivity|]. intro E. apply (f_equal (@length C)) in E. rewrite app_length in E. unfold zlen in Hz. lia.
Qed.
Print Assumptions C84_short_refuted.
Lemma init_pow2 N modulation pl pr sf i v ips seed c st : ofdm_init N modulation pl pr sf i v ips seed = Ok (c, st) -> 0 < int_of N.
Proof.
  unfold ofdm_init. intro H. destruct (is_int N); [|discriminate]. destruct (is_pow2 (int_of N)) eqn:Hp; [|discriminate].
  unfold is_pow2 in Hp. apply andb_true_iff in Hp as [Hp _]. lia.
Qed.
(** arrays: one symbol per column of an array of N rows (a 1-D array is one column), the others are refused *)
Theorem C84_columns N CP dims data : length data = fold_right Nat.mul 1%nat dims ->
  match dims with
  | [n] => subcarriersToIQ_array N CP dims data = do s <- subcarriersToIQ N CP data; Ok [s]
  | [r; c] =>
      (Z.of_nat r = N -> exists out, subcarriersToIQ_array N CP dims data = Ok out /\ length out = c
        /\ forall j, (j < c)%nat -> exists col, length col = r /\ (forall i, (i < r)%nat -> nth i col (RtoC 0) = nth (i * c + j) data (RtoC 0))
             /\ subcarriersToIQ N CP col = Ok (nth j out []))
      /\ (Z.of_nat r <> N -> subcarriersToIQ_array N CP dims data = Err ValueError)
  | _ => subcarriersToIQ_array N CP dims data = Err ValueError
  end.
Proof.
  intro L. unfold subcarriersToIQ_array, sub_columns, subcarriersToIQ. destruct dims as [|r [|c [|d dims]]]; try reflexivity; cbn [rbind hd].
  - unfold zlen. cbn [fold_right] in L. replace (length data) with r by lia. destruct (Z.of_nat r =? N); reflexivity.
  - split; intro H.
    + destruct (Z.eqb_spec (Z.of_nat r) N) as [_|]; [|contradiction]. eexists. split; [reflexivity|]. split; [now rewrite !map_length, seq_length|].
      intros j Hj. set (F := fun j => map (fun i => nth (i * c + j) data (RtoC 0)) (seq 0 r)). exists (F j).
      assert (LF : length (F j) = r) by (unfold F; now rewrite map_length, seq_length). split; [exact LF|]. split.
      * intros i Hi. unfold F. rewrite (nth_map _ _ _ 0%nat) by (rewrite seq_length; lia). rewrite seq_nth by lia. reflexivity.
      * unfold zlen. rewrite LF. replace (Z.of_nat r =? N) with true by (symmetry; now apply Z.eqb_eq). f_equal. rewrite map_map.
        rewrite (nth_map _ _ _ 0%nat) by (rewrite seq_length; lia). rewrite seq_nth by lia. reflexivity.
    + destruct (Z.eqb_spec (Z.of_nat r) N); [contradiction|reflexivity].
Qed.
Print Assumptions C84_columns.
Example C84_columns_case (data : list C) : length data = 32%nat -> exists out, subcarriersToIQ_array 16 (1 # 4) [16; 2]%nat data = Ok out /\ length out = 2%nat.
Proof. intro L. destruct (C84_columns 16 (1 # 4) [16; 2]%nat data L) as [H _]. destruct (H eq_refl) as (out & E & Lo & _). exists out. split; assumption. Qed.

(** the same for messages: every symbol is sent with its prefix *)
Theorem C84_messages N modulation pl pr sf i v ips seed c st0 k CP st m pad sig : ofdm_init N modulation pl pr sf i v ips seed = Ok (c, st0) ->
  snd (ofdm_send_iq c k CP st m pad) = Ok sig ->
  exists syms, snd (ofdm_send c st m pad) = Ok syms
  /\ exists parts, sig = concat parts /\ Forall2 (fun s p => subcarriersToIQ (int_of N) CP (map (amplitude k) s) = Ok p) syms parts.
Proof.
  intros Hi E. pose proof (init_pow2 _ _ _ _ _ _ _ _ _ _ _ Hi) as HP. apply init_config in Hi as (HN & _). unfold ofdm_send_iq in E. unfold ofdm_send. destruct m as [dims xs|]; [|discriminate].
  destruct (Nat.eqb _ 1); [|discriminate]. unfold ofdm_bitsToIQ in E. destruct (ofdm_symbols c st (map one_bit xs) pad) as [st' [syms|e]] eqn:ES; [|discriminate].
  cbn [snd rbind] in *. injection E as <-. exists syms. split; [reflexivity|]. apply ofdm_symbols_length in ES. rewrite HN in ES.
  exists (map (fun s => symbol_samples CP (map (tone_value k) s)) syms). split; [now rewrite flat_map_concat_map|].
  clear -ES HP. induction ES as [|s syms Hs F IH]; [constructor|]. cbn [map]. constructor; [|exact IH].
  rewrite (map_ext (amplitude k) (tone_value k)) by apply amplitude_value. unfold subcarriersToIQ. destruct (Z.eqb_spec (zlen (map (tone_value k) s)) (int_of N)) as [|D]; [reflexivity|].
  destruct D. unfold zlen. rewrite map_length, Hs. lia.
Qed.
Print Assumptions C84_messages.
(** 16 subcarriers, prefixes of a quarter of the symbol and of 1/64 (a quarter of a sample) *)
Example C84_case (col : list C) : length col = 16%nat -> is_pow2 16 = true /\ 2 <= 16
  /\ (1 <= inject_Z 16 * (1 # 4))%Q /\ (1 # 4 <= 1)%Q /\ Z.to_nat (Qfloor (inject_Z 16 * (1 # 4))) = 4%nat
  /\ (0 < 1 # 64)%Q /\ (inject_Z 16 * (1 # 64) < 1)%Q
  /\ exists s1 s2, subcarriersToIQ 16 (1 # 4) col = Ok s1 /\ subcarriersToIQ 16 (1 # 64) col = Ok s2.
Proof.
  intro L. do 7 (split; [first [reflexivity|discriminate|lia]|]). unfold subcarriersToIQ. assert (E : zlen col = 16) by (unfold zlen; rewrite L; reflexivity).
  rewrite E. cbn [Z.eqb Pos.eqb]. eauto.
Qed.
Example C84_messages_case : exists c st, ofdm_init (PInt 16) (PStr "QPSK") (PInt 1) (PInt 0) (PInt 1) case_sets (VStr "pn9") (PInt 0) (PInt 511) = Ok (c, st)
  /\ is_ok (snd (ofdm_send_iq c 1 (1 # 4) st (MArr [1; 48]%nat (repeat 1%Q 48)) false)) = true.
Proof.
  eexists. eexists. split; [reflexivity|]. unfold ofdm_send_iq. cbn [squeeze filter negb Nat.eqb length]. unfold ofdm_bitsToIQ.
  match goal with |- context [ofdm_symbols ?c ?s ?b ?p] => assert (E : is_ok (snd (ofdm_symbols c s b p)) = true) by (vm_compute; reflexivity); destruct (ofdm_symbols c s b p) as [st' [y|e]] end.
  - reflexivity.
  - discriminate.
Qed.
