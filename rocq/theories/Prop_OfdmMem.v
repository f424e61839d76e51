(** * C96: does an Ofdm_modulator keep its own settings? *)
From Verif Require Import Py PList MPn9 MModul SOfdm PModul MOfdm POfdm SMrOfdm PStd MOfdmArgs SOfdmArgs Prop_Ofdm Prop_OfdmArgs MOfdmMem SOfdmMem.
Open Scope Z_scope.

Lemma construct_inv h N modulation pl pr sf i v ips seed o st : construct h N modulation pl pr sf i v ips seed = Ok (o, st) ->
  exists c, ofdm_init N modulation pl pr sf (idx_now h i) (val_now h v) ips seed = Ok (c, st) /\ o = {| b_cfg := c; b_idx := i; b_val := v |}.
Proof. unfold construct. destruct (ofdm_init _ _ _ _ _ _ _ _ _) as [[c st']|]; [|discriminate]. cbn [rbind]. intro H. injection H as <- <-. eauto. Qed.
(** ** C96 *)
(** built from lists (or without pilots, or with the values "pn9" and a list): whatever the caller does with its arrays, the
    answers are those of the settings given *)
Theorem C96_lists_partial h N modulation pl pr sf i v ips seed o st : construct h N modulation pl pr sf (ICopy i) (VCopy v) ips seed = Ok (o, st) ->
  exists c, ofdm_init N modulation pl pr sf i v ips seed = Ok (c, st) /\ forall h' st' l, history o h' st' l = answers c st' (messages l).
Proof.
  intro H. apply construct_inv in H as (c & E & ->). exists c. split; [exact E|]. intros h' st' l. revert h' st'.
  induction l as [|s l IH]; intros h' st'; [reflexivity|]. destruct s; cbn [history messages]; try apply IH. cbn [answers].
  assert (K : obj_send h' {| b_cfg := c; b_idx := ICopy i; b_val := VCopy v |} st' m pad = ofdm_send c st' m pad).
  { unfold obj_send. f_equal. unfold config_now. cbn [b_cfg b_idx b_val]. destruct c as [a1 a2 a3 a4 a5 [[sets pv]|]]; reflexivity. }
  rewrite K. destruct (ofdm_send c st' m pad) as [st1 out]. now rewrite IH.
Qed.
Print Assumptions C96_lists_partial.
(** the settings of a later object: a history is answered from them until the next store *)
Lemma history_sends o h st c : (forall st m pad, obj_send h o st m pad = ofdm_send c st m pad) -> forall l, history o h st (map (fun mp : msg_arg * bool => Send (fst mp) (snd mp)) l) = answers c st l.
Proof.
  intros H l. revert st. induction l as [|[m pad] l IH]; intro st; [reflexivity|]. cbn [map history answers fst snd]. rewrite H. destruct (ofdm_send c st m pad) as [st1 out]. now rewrite IH.
Qed.
(** built from arrays: at any later time the object behaves as one built then from the arrays as they are, where these would
    be accepted *)
Theorem C96_present h N modulation pl pr sf i v ips seed o st : construct h N modulation pl pr sf i v ips seed = Ok (o, st) ->
  forall h' c' st0, ofdm_init N modulation pl pr sf (idx_now h' i) (val_now h' v) ips seed = Ok (c', st0) ->
  forall st' l, history o h' st' (map (fun mp : msg_arg * bool => Send (fst mp) (snd mp)) l) = answers c' st' l.
Proof.
  intros H h' c' st0 E' st'. apply history_sends. clear st'. intros st' m pad. apply construct_inv in H as (c & E & ->). unfold obj_send. f_equal.
  unfold ofdm_init in E, E'. destruct (is_int N); [|discriminate]. destruct (is_pow2 (int_of N)); [|discriminate]. cbn [negb] in E, E'.
  destruct modulation; try discriminate. destruct (is_int pl); [|discriminate]. destruct (is_int pr); [|discriminate]. cbn [negb] in E, E'.
  destruct (_ && _); [discriminate|]. destruct (negb _ && _); [discriminate|]. destruct (is_inone (idx_now h' i) && _); [discriminate|]. destruct (negb (is_inone (idx_now h' i)) && _); [discriminate|].
  destruct (is_int sf); [|discriminate]. cbn [negb] in E, E'. destruct (negb _); [discriminate|].
  destruct (is_int ips); [|discriminate]. destruct (is_int seed); [|discriminate]. cbn [negb] in E, E'.
  destruct (manage_pilots (idx_now h i) (val_now h v)) as [pil|] eqn:Ep; [|discriminate]. destruct (manage_pilots (idx_now h' i) (val_now h' v)) as [pil'|] eqn:Ep'; [|discriminate]. cbn [rbind] in E, E'.
  destruct (get_modulator s); [|discriminate]. cbn [rbind] in E, E'. injection E as <- _. injection E' as <- _. unfold config_now. cbn [b_cfg b_idx b_val o_N o_mod o_pl o_pr o_sf o_pilots]. f_equal.
  assert (M : forall i v p, manage_pilots i v = Ok p -> p = match v with VNone => None | V1 vs => Some (idx_sets i, PvArray vs) | V0 _ => Some (idx_sets i, PvArray []) | _ => Some (idx_sets i, PvPn9) end).
  { clear. intros i v p. unfold manage_pilots. destruct v; destruct i; try discriminate; try (intro H; now injection H as <-);
      destruct (negb _); try discriminate; try (destruct (String.eqb _ _); try discriminate); try (destruct (Nat.eqb _ _); try discriminate); intro H; now injection H as <-. }
  apply M in Ep, Ep'. subst pil pil'. destruct v as [v|va]; cbn [val_now]; [destruct v|]; destruct i; cbn [idx_now]; reflexivity.
Qed.
Print Assumptions C96_present.
Lemma set_nth_same {A} k (x d : A) l : (k < length l)%nat -> nth k (set_nth k x l) d = x.
Proof. intro H. rewrite nth_set_nth, Nat.eqb_refl. cbn [andb]. apply Nat.ltb_lt in H. now rewrite H. Qed.
(** pilots of the first symbol, from an array of values [vs] *)
Lemma first_symbol c (sf q : nat) sets vs st bits : good_cfg c sf q -> o_pilots c = Some (sets, PvArray vs) -> vs <> [] -> zlen vs = n_pilots c ->
  Forall (fun s => pset_ok (o_N c) (o_pl c) (o_pr c) s /\ zlen s = n_pilots c) sets -> 0 <= o_col st < zlen sets ->
  length bits <> 1%nat -> bits <> [] -> Nat.modulo (length bits) (q * group_size (o_mod c)) = 0%nat ->
  exists st' sym syms, ofdm_send c st (row_of bits) false = (st', Ok (sym :: syms)) /\ read_pilots (o_N c) (nth (Z.to_nat (o_col st)) sets []) sym = map TPilot vs.
Proof.
  intros Hg Ep Hv Hl Hs Hc H1 Hb Hm.
  assert (E : ofdm_send c st (row_of bits) false = ofdm_symbols c st bits false).
  { unfold row_of. apply (proj1 (C83_bits c st (row_of bits) false bits) [length bits] (map (fun b : bool => if b then 1%Q else 0%Q) bits)); [reflexivity| |].
    - exists [], (length bits), []. repeat split; [assumption|constructor].
    - clear. induction bits as [|b bits IH]; cbn [map]; constructor; [destruct b; reflexivity|exact IH]. }
  assert (Hn : 0 < n_pilots c) by (rewrite <- Hl; destruct vs; [congruence|unfold zlen; cbn [length]; lia]).
  pose proof (symbols_array c sf q sets vs st bits Hg Ep Hn Hl Hs Hc Hm) as S. cbv zeta in S. rewrite E, S.
  set (msg := map (symbol_data (o_mod c) sf) (chunks (q * group_size (o_mod c)) bits)).
  assert (L : exists n, length msg = Datatypes.S n).
  { unfold msg. rewrite map_length, chunks_length. 2:{ pose proof (group_size_pos (o_mod c)). pose proof (gc_q0 _ _ _ Hg). nia. }
    2:exact Hm. pose proof (group_size_pos (o_mod c)) as G. pose proof (gc_q0 _ _ _ Hg) as Q0. set (w := (q * group_size (o_mod c))%nat) in *.
    assert (0 < w)%nat by (unfold w; nia). pose proof (Nat.div_mod (length bits) w ltac:(lia)) as D. destruct bits; [congruence|]. destruct (length (b :: bits) / w)%nat eqn:Q; [cbn [length] in *; lia|eauto]. }
  destruct L as [n L]. rewrite L. cbn [seq map]. do 3 eexists. split; [reflexivity|]. unfold nth_symbol_fixed. cbn [Z.of_nat]. rewrite Z.add_0_r, Z.mod_small by lia.
  assert (In (nth (Z.to_nat (o_col st)) sets []) sets) as Hi by (apply nth_In; unfold zlen in Hc; lia). rewrite Forall_forall in Hs. destruct (Hs _ Hi) as [P1 P2].
  apply read_pilots_layout; [apply (gc_band _ _ _ Hg)|assumption|unfold zlen in *; lia].
Qed.
Lemma init_is_pow2 N modulation pl pr sf i v ips seed c st : ofdm_init N modulation pl pr sf i v ips seed = Ok (c, st) -> is_pow2 (int_of N) = true.
Proof. unfold ofdm_init. destruct (is_int N); [|discriminate]. destruct (is_pow2 (int_of N)); [reflexivity|discriminate]. Qed.
(** built from an array of values: a later store of the caller into that array changes the pilots of the messages sent after
    it; they are sent all the same *)
Theorem C96_values_refuted h N modulation pl pr sf i a ips seed o st0 (q : nat) : construct h N modulation pl pr sf i (VRef a) ips seed = Ok (o, st0) ->
  let n := int_of N in let sets := idx_sets (idx_now h i) in let vs := h_val h a in
  guards_fit n (int_of pl) (int_of pr) -> pilots_inside n (int_of pl) (int_of pr) (length vs) sets -> vs <> [] -> (0 < q)%nat ->
  n - zlen vs - int_of pl - int_of pr - 1 = int_of sf * Z.of_nat q ->
  forall st bits k x, 0 <= get_pilot_set_index st < zlen sets -> zlen bits mod get_number_of_bits_per_symbol (b_cfg o) = 0 -> 2 <= zlen bits -> (k < length vs)%nat ->
  exists sym syms sym' syms', history o h st [Send (row_of bits) false] = [Ok (sym :: syms)]
  /\ history o h st [StoreVal a k x; Send (row_of bits) false] = [Ok (sym' :: syms')]
  /\ let f := nth k (nth (Z.to_nat (get_pilot_set_index st)) sets []) 0 in tone_at n sym f = TPilot (nth k vs (0, 0)%Q) /\ tone_at n sym' f = TPilot x.
Proof.
  intros H n sets vs (HN & Hpl & Hpr) Hin Hv Hq Hd st bits k x Hc Hm Hb Hk. apply construct_inv in H as (c & E & ->). cbn [b_cfg] in Hm.
  destruct (init_config _ _ _ _ _ _ _ _ _ _ _ E) as (EN & Epl & Epr & Esf & Hsf & Emp & Enp).
  destruct (pow2_even n (init_is_pow2 _ _ _ _ _ _ _ _ _ _ _ E) HN) as [He Hh].
  assert (Hp : o_pilots c = Some (sets, PvArray vs)).
  { cbn [val_now] in Emp. unfold manage_pilots in Emp. fold sets in Emp. destruct (idx_now h i); try discriminate; destruct (negb _); try discriminate; destruct (Nat.eqb _ _); try discriminate; now injection Emp as <-. }
  assert (Hsets : sets <> [] /\ Forall (fun s => pset_ok n (int_of pl) (int_of pr) s /\ zlen s = zlen vs) sets).
  { split; [intro K; rewrite K in Hc; unfold zlen in Hc; cbn in Hc; lia|]. apply (sets_inside n (int_of pl) (int_of pr) (length vs) sets He Hin). }
  destruct Hsets as [Hne Hsets].
  assert (Hnp : n_pilots c = zlen vs). { unfold n_pilots. rewrite Hp. destruct sets as [|s r]; [congruence|]. inversion Hsets as [|? ? [_ P] _]. exact P. }
  assert (Hsf' : int_of sf = Z.of_nat (Z.to_nat (int_of sf))) by lia.
  assert (G : forall hh vs', h_val hh a = vs' -> length vs' = length vs -> idx_now hh i = idx_now h i ->
     let c' := config_now hh {| b_cfg := c; b_idx := i; b_val := VRef a |} in
     good_cfg c' (Z.to_nat (int_of sf)) q /\ o_pilots c' = Some (sets, PvArray vs') /\ n_pilots c' = zlen vs /\ o_N c' = n /\ o_pl c' = int_of pl /\ o_pr c' = int_of pr /\ o_mod c' = o_mod c).
  { intros hh vs' Ev Lv Ei c'. assert (P' : o_pilots c' = Some (sets, PvArray vs')).
    { unfold c', config_now. cbn [b_cfg b_idx b_val o_pilots]. rewrite Hp, Ev. f_equal. f_equal. destruct i as [i|ia]; [reflexivity|]. cbn [idx_now] in Ei. unfold sets. cbn [idx_now]. now rewrite Ei. }
    assert (NP : n_pilots c' = zlen vs). { unfold n_pilots. rewrite P'. destruct sets as [|s r]; [congruence|]. inversion Hsets as [|? ? [_ P] _]. exact P. }
    split; [|split; [exact P'|split; [exact NP|]]].
    - constructor; rewrite ?NP; unfold c', config_now; cbn [b_cfg o_N o_pl o_pr o_sf]; rewrite ?EN, ?Epl, ?Epr, ?Esf; fold n; try assumption; try lia.
      constructor; assumption.
    - unfold c', config_now. cbn [b_cfg o_N o_pl o_pr o_mod]. auto. }
  assert (Hw : forall c', good_cfg c' (Z.to_nat (int_of sf)) q -> o_mod c' = o_mod c -> o_N c' = o_N c -> o_pl c' = o_pl c -> o_pr c' = o_pr c -> n_pilots c' = n_pilots c -> o_sf c' = o_sf c ->
     Nat.modulo (length bits) (q * group_size (o_mod c')) = 0%nat).
  { intros c' Hg A1 A2 A3 A4 A5 A6. pose proof (split_good _ _ _ Hg) as S. unfold get_number_of_bits_per_symbol in Hm.
    assert (S' : split_length c = split_length c') by (unfold split_length; now rewrite A1, A2, A3, A4, A5, A6). rewrite S', S in Hm. unfold zlen in Hm.
    pose proof (group_size_pos (o_mod c')). pose proof (Nat2Z.inj_mod (length bits) (q * group_size (o_mod c'))) as D. lia. }
  assert (Hb0 : bits <> []) by (intro K; subst bits; unfold zlen in Hb; cbn in Hb; lia). assert (Hb1 : length bits <> 1%nat) by (unfold zlen in Hb; lia).
  assert (Sel : forall pset sym vv, read_pilots n pset sym = map TPilot vv -> (k < length vv)%nat -> length pset = length vv -> tone_at n sym (nth k pset 0) = TPilot (nth k vv (0, 0)%Q)).
  { intros pset sym vv R Hkv Lp. unfold read_pilots in R. apply (f_equal (fun l => nth k l TZero)) in R. rewrite (nth_map _ _ _ 0) in R by lia. rewrite (nth_map _ _ _ (0%Q, 0%Q)) in R by lia. exact R. }
  assert (Lset : length (nth (Z.to_nat (o_col st)) sets []) = length vs).
  { assert (In (nth (Z.to_nat (o_col st)) sets []) sets) as Hi by (apply nth_In; unfold zlen, get_pilot_set_index in Hc; lia). rewrite Forall_forall in Hsets. destruct (Hsets _ Hi) as [_ P]. unfold zlen in P. lia. }
  destruct (G h vs eq_refl eq_refl eq_refl) as (G1 & G2 & G3 & G4 & G5 & G6 & G7).
  destruct (first_symbol _ _ q sets vs st bits G1 G2 Hv ltac:(now rewrite G3) ltac:(now rewrite G3, G4, G5, G6) Hc Hb1 Hb0) as (s1 & sym & syms & R1 & R2).
  { apply Hw; (assumption || reflexivity || congruence). }
  destruct (G (store h (StoreVal a k x)) (set_nth k x vs)) as (K1 & K2 & K3 & K4 & K5 & K6 & K7).
  { cbn [store h_val]. now rewrite Nat.eqb_refl. } { apply set_nth_length. } { destruct i; reflexivity. }
  assert (Lv : length (set_nth k x vs) = length vs) by apply set_nth_length.
  destruct (first_symbol _ _ q sets (set_nth k x vs) st bits K1 K2 ltac:(intro K; rewrite K in Lv; destruct vs; [congruence|discriminate]) ltac:(rewrite K3; unfold zlen; now rewrite Lv) ltac:(now rewrite K3, K4, K5, K6) Hc Hb1 Hb0) as (s2 & sym' & syms' & R3 & R4).
  { apply Hw; (assumption || reflexivity || congruence). }
  exists sym, syms, sym', syms'. split; [cbn [history]; unfold obj_send; now rewrite R1|]. split; [cbn [history]; unfold obj_send; now rewrite R3|]. cbv zeta. unfold get_pilot_set_index. rewrite G4 in R2. rewrite K4 in R4. split.
  - apply Sel; [exact R2|assumption|exact Lset].
  - rewrite (Sel _ _ _ R4) by lia. f_equal. apply set_nth_same. assumption.
Qed.
Print Assumptions C96_values_refuted.
Lemma py_remove_in x l r : py_remove x l = Ok r -> In x l /\ incl r l.
Proof.
  revert r. induction l as [|y l IH]; intros r H; cbn [py_remove] in H; [discriminate|]. destruct (Z.eqb_spec y x) as [->|Ny]; [injection H as <-; split; [now left|now apply incl_tl]|].
  destruct (py_remove x l) as [r'|]; [|discriminate]. injection H as <-. destruct (IH r' eq_refl) as [A B]. split; [now right|]. intros z [->|Hz]; [now left|right; now apply B].
Qed.
Lemma place_in N pv pset : forall pn pvi avail col pn' pvi' a c, place_pilots N pv pset pn pvi avail col = (pn', pvi', Ok (a, c)) -> incl pset avail.
Proof.
  induction pset as [|i pset IH]; intros pn pvi avail col pn' pvi' a c H; cbn [place_pilots] in H; [intros z []|].
  destruct (next_pilot pv pn pvi) as [[pn1 pvi1] [p|e]]; [|discriminate]. destruct (np_index N (i + N / 2)); [|discriminate].
  destruct (py_remove i avail) as [av|] eqn:Er; [|discriminate]. apply py_remove_in in Er as [A B]. apply IH in H. intros z [<-|Hz]; [assumption|]. now apply B, H.
Qed.
Lemma skipn_incl {A} k (l : list A) : incl (skipn k l) l.
Proof. revert l. induction k as [|k IH]; intros [|x l] z Hz; try assumption. right. now apply IH. Qed.
Lemma firstn_incl' {A} k (l : list A) : incl (firstn k l) l.
Proof. revert l. induction k as [|k IH]; intros [|x l] z Hz; try assumption; [destruct Hz|]. destruct Hz as [->|Hz]; [now left|right; now apply IH]. Qed.
Lemma channels_below c glob : channels_global c = Ok glob -> 0 <= o_N c -> forall f, In f glob -> 2 * f < o_N c.
Proof.
  unfold channels_global. cbv zeta. intros H HN f Hf. apply py_remove_in in H as [_ H]. apply H in Hf.
  assert (K : In f (map (fun i => Z.of_nat i + - o_N c / 2) (seq 0 (Z.to_nat (o_N c))))).
  { destruct (0 <? o_pr c); [apply firstn_incl' in Hf|]; (destruct (0 <? o_pl c); [apply skipn_incl in Hf|]; assumption). }
  apply in_map_iff in K as (j & <- & Hj). apply in_seq in Hj. Z.div_mod_to_equations. lia.
Qed.
(** built from a 1-D array of indices: after a store of an index of no subcarrier (which the constructor would not use
    either) every message is refused *)
Theorem C96_indices_refuted h N modulation pl pr sf a l v ips seed o st0 : construct h N modulation pl pr sf (IRef a) v ips seed = Ok (o, st0) ->
  h_idx h a = I1 l -> forall k x, (k < length l)%nat -> int_of N <= 2 * x ->
  forall st bits pad, bits <> [] -> exists e, history o h st [StoreIdx a k 0 x; Send (row_of bits) pad] = [Err e].
Proof.
  intros H El k x Hk Hx st bits pad Hb. enough (exists e, snd (obj_send (store h (StoreIdx a k 0 x)) o st (row_of bits) pad) = Err e) as [e He].
  { exists e. cbn [history]. destruct (obj_send _ o st (row_of bits) pad) as [st1 out]. cbn [snd] in He. now subst out. } apply construct_inv in H as (c & E & ->). pose proof (init_pow2 _ _ _ _ _ _ _ _ _ _ _ E) as HN.
  destruct (init_config _ _ _ _ _ _ _ _ _ _ _ E) as (EN & Epl & Epr & Esf & Hsf & Emp & Enp). cbn [idx_now] in *. rewrite El in *.
  unfold obj_send. set (c' := config_now _ _).
  unfold ofdm_send, row_of. destruct (Nat.eqb _ 1); [|eexists; reflexivity]. rewrite map_map.
  replace (map (fun x0 : bool => one_bit (if x0 then 1%Q else 0%Q)) bits) with bits by (clear; induction bits as [|b bits IH]; [reflexivity|]; cbn [map]; rewrite <- IH; destruct b; reflexivity).
  destruct (ofdm_symbols c' st bits pad) as [st' [syms|e]] eqn:Es; [|exists e; reflexivity]. exfalso.
  destruct (symbols_inv _ _ _ _ _ _ Es Hb) as (d & rest & _ & Ea). unfold add_pilots_and_padding in Ea.
  destruct (channels_global c') as [glob|] eqn:Eg; [|discriminate].
  destruct (o_pilots c) as [[sets pv]|] eqn:Ep.
  - assert (P' : exists pv', o_pilots c' = Some ([set_nth k x l], pv')).
    { unfold c', config_now. cbn [b_cfg b_idx b_val o_pilots]. rewrite Ep. cbn [store h_idx]. rewrite Nat.eqb_refl, El. cbn [write_idx idx_sets]. eexists. reflexivity. }
    destruct P' as [pv' P']. rewrite P' in Ea. assert (Hn : 0 <? n_pilots c' = true).
    { unfold n_pilots. rewrite P'. apply Z.ltb_lt. unfold zlen. rewrite set_nth_length. lia. }
    rewrite Hn in Ea. cbn [add_pilots_loop] in Ea. destruct (np_index _ (o_col st)) as [ci|] eqn:Ec; [|discriminate].
    apply np_index_bound in Ec; [|unfold zlen; lia]. unfold zlen in Ec. cbn [length] in Ec. assert (ci = 0%nat) as -> by lia. cbn [nth] in Ea.
    destruct (place_pilots (o_N c') pv' (set_nth k x l) (o_pn9 st) 0 glob (repeat TZero (Z.to_nat (o_N c')))) as [[pn1 pvi1] [[av col]|e]] eqn:Epl'; [|discriminate].
    apply place_in in Epl'. assert (Hi : In x glob). { apply Epl'. rewrite <- (set_nth_same k x 0 l) at 1 by assumption. apply nth_In. now rewrite set_nth_length. }
    apply (channels_below c' glob Eg) in Hi; change (o_N c') with (o_N c) in *; rewrite EN in *; lia.
  - unfold manage_pilots in Emp. destruct (val_now h v) eqn:Ev.
    2-5: destruct (negb _); try discriminate; try (destruct (String.eqb _ _); discriminate); try (destruct (Nat.eqb _ _); discriminate); discriminate.
    unfold ofdm_init in E. destruct (is_int N); [|discriminate]. destruct (is_pow2 (int_of N)); [|discriminate]. destruct modulation; try discriminate. destruct (is_int pl); [|discriminate]. destruct (is_int pr); cbn in E; discriminate.
Qed.
Print Assumptions C96_indices_refuted.
(** 16 subcarriers, two pilots, 24 bits; the caller reuses its array of values, and its array of indices *)
Definition case_heap : heap := {| h_idx := fun _ => I1 [-5; 3]; h_val := fun _ => [(1, 0)%Q; (0, -1)%Q] |}.
Example C96_case : exists o st, construct case_heap (PInt 16) (PStr "QPSK") (PInt 1) (PInt 0) (PInt 1) (IRef 0) (VRef 1) (PInt 0) (PInt 511) = Ok (o, st)
  /\ guards_fit 16 1 0 /\ pilots_inside 16 1 0 2 (idx_sets (idx_now case_heap (IRef 0))) /\ 16 - 2 - 1 - 0 - 1 = 1 * Z.of_nat 12 /\ get_number_of_bits_per_symbol (b_cfg o) = 24
  /\ map is_ok (history o case_heap st [Send (row_of (repeat true 24)) false; StoreVal 1 0 (7, 0)%Q; Send (row_of (repeat true 24)) false; StoreIdx 0 1 0 8; Send (row_of (repeat true 24)) false]) = [true; true; false]
  /\ exists o', construct case_heap (PInt 16) (PStr "QPSK") (PInt 1) (PInt 0) (PInt 1) (ICopy (I1 [-5; 3])) (VCopy (V1 [(1, 0)%Q; (0, -1)%Q])) (PInt 0) (PInt 511) = Ok (o', st).
Proof.
  eexists. eexists. split; [reflexivity|]. split; [unfold guards_fit; cbn; lia|]. split.
  { unfold pilots_inside. repeat constructor; cbn; try lia; intros [K|K]; try lia; assumption. }
  split; [reflexivity|]. split; [reflexivity|]. split; [vm_compute; reflexivity|]. eexists. reflexivity.
Qed.
