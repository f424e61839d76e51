(** * Proofs about mr_o_qpsk_modulator.py: coding, spreading, pilots *)
From Verif Require Import Py MBits MFields MModul MOfdm Tables MRate MOqpsk PList SBits PBits SRate PConv PRate SOqpsk.

(** ** FEC *)
Definition chk_iter : bool :=
  forallb (fun u => forallb (fun b =>
    let '(u1, (x1, y1)) := q_iter u (b2z b) in let '(u2, (x2, y2)) := r12_single u (b2z b) in
    (u1 =? u2) && (x1 =? x2) && (y1 =? y2)) bools) (states 64).
Lemma q_iter_r12 u b : 0 <= u < 64 -> q_iter u (b2z b) = r12_single u (b2z b).
Proof.
  intro Hu. assert (C : chk_iter = true) by (vm_compute; reflexivity).
  pose proof (states_forall 64 _ C u Hu) as H. cbv beta in H. pose proof (bools_forall _ H b) as H'. cbv beta in H'.
  destruct (q_iter u (b2z b)) as [u1 [x1 y1]], (r12_single u (b2z b)) as [u2 [x2 y2]].
  apply andb_prop in H' as [H' H3]. apply andb_prop in H' as [H1 H2]. apply Z.eqb_eq in H1, H2, H3. congruence.
Qed.
Lemma q_fec_loop_enc x : forall u, 0 <= u < 64 -> q_fec_loop u (map b2z x) = map b2z (enc rstep u x).
Proof.
  induction x as [|b x IH]; intros u Hu; [reflexivity|]. cbn [map q_fec_loop]. rewrite q_iter_r12 by assumption.
  destruct (r_bits u b Hu) as (_ & _ & _ & _ & E). rewrite E, enc_cons. cbn [map]. rewrite IH by now apply r_range. reflexivity.
Qed.
Lemma q_FEC_code d b : q_FEC d b = code_12 0 (q_fec_pad d b).
Proof. unfold q_FEC. rewrite q_fec_loop_enc by lia. rewrite map_z2b_b2z. rewrite <- enc_code_12. reflexivity. Qed.
Lemma code_12_length s x : length (code_12 s x) = (2 * length x)%nat.
Proof. rewrite <- enc_code_12. apply enc_length. Qed.
Lemma code_12_inj s x y : code_12 s x = code_12 s y -> x = y.
Proof. rewrite <- !enc_code_12. apply r12_enc_inj. apply r12_new_range. Qed.
Lemma psdu_blocks_spec n : 0 <= n -> 8 * n + 6 <= 63 * psdu_blocks n < 8 * n + 69 /\ 0 < psdu_blocks n.
Proof. intro H. unfold psdu_blocks. Z.div_mod_to_equations. lia. Qed.
Lemma q_fec_pad_psdu d : let n := zlen d / 8 in
  q_fec_pad d true = d ++ repeat false (Z.to_nat (63 * psdu_blocks n - 8 * n)).
Proof.
  intro n. unfold q_fec_pad. fold n. change (ceil_div (8 * n + 6) 63) with (psdu_blocks n). do 2 f_equal. lia.
Qed.
Lemma q_FEC_psdu d : q_FEC d true = psdu_code (zlen d / 8) d.
Proof. rewrite q_FEC_code, q_fec_pad_psdu. reflexivity. Qed.
Lemma q_FEC_phr d : q_FEC d false = phr_code d.
Proof. apply q_FEC_code. Qed.
Lemma psdu_code_length n d : 0 <= n -> length d = Z.to_nat (8 * n) -> length (psdu_code n d) = Z.to_nat (126 * psdu_blocks n).
Proof.
  intros Hn Hd. unfold psdu_code. rewrite code_12_length, app_length, repeat_length, Hd. pose proof (psdu_blocks_spec n Hn). lia.
Qed.

(** ** BDE *)
Lemma bde_loop_length m : forall i M prev, length (bde_loop i M prev m) = length m.
Proof. induction m as [|b m IH]; intros; [reflexivity|]. cbn [bde_loop length]. now rewrite IH. Qed.
Lemma bde_loop_nth m : forall i M prev n, (n < length m)%nat ->
  nth n (bde_loop i M prev m) false =
  (if (0 <? M) && (Z.of_nat (i + n) mod M =? 0) then nth n m false
   else xorb (nth n m false) (match n with O => prev | S k => nth k (bde_loop i M prev m) false end)).
Proof.
  induction m as [|b m IH]; intros i M prev n Hn; [simpl in Hn; lia|]. cbn [bde_loop]. destruct n as [|n].
  - rewrite Nat.add_0_r. cbn [nth]. destruct ((0 <? M) && _); reflexivity.
  - cbn [nth]. rewrite IH by (simpl in Hn; lia). rewrite Nat.add_succ_r. cbn [Nat.add]. destruct ((0 <? M) && _); [reflexivity|].
    destruct n; reflexivity.
Qed.
Lemma bde_decode m : forall i prev, diff_decode prev (bde_loop i 0 prev m) = m.
Proof.
  induction m as [|b m IH]; intros i prev; [reflexivity|]. cbn [bde_loop diff_decode]. rewrite IH. f_equal.
  change (0 <? 0) with false. cbn [andb]. destruct b, prev; reflexivity.
Qed.
Lemma BDE_inj m m' ref : BDE m ref 0 = BDE m' ref 0 -> m = m'.
Proof. intro H. rewrite <- (bde_decode m 0 ref), <- (bde_decode m' 0 ref). unfold BDE in H. now rewrite H. Qed.
Lemma BDE_length m ref M : length (BDE m ref M) = length m.
Proof. apply bde_loop_length. Qed.

(** ** DSSS *)
Definition all_spreads : list (list string) :=
  [["(2,1)"]; ["(4,1)"]; ["(8,1)0"; "(8,1)1"]; ["(16,1)0"; "(16,1)1"]; ["(32,1)0"]; ["(32,1)0"; "(32,1)1"]; ["(64,1)"]; ["(128,1)"];
   ["(8,4)"]; ["(16,4)"]; ["(32,4)"]]%string.
Lemma in_use_all sp : in_use sp -> In sp all_spreads.
Proof.
  intros (b & [->|[->|(rm & H)]]); try (destruct b; cbn; tauto). revert H.
  destruct b; cbn [psdu_codes]; repeat (match goal with |- context [match ?x with _ => _ end] => destruct x end); intro H; try discriminate; injection H as <-; cbn; tauto.
Qed.
Lemma arr_digits g : arr_to_bitarray g = digits g.
Proof. induction g as [|b g IH]; [reflexivity|]. cbn [arr_to_bitarray digits]. now rewrite IH. Qed.
Lemma bit_strings_in k : forall g, length g = k -> In g (bit_strings k).
Proof.
  induction k as [|k IH]; intros g Hg; [destruct g; [left; reflexivity|discriminate]|].
  destruct g as [|b g]; [discriminate|]. cbn [bit_strings]. apply in_or_app. destruct b; [right|left]; apply in_map, IH; simpl in Hg; lia.
Qed.
Lemma bit_strings_length k g : In g (bit_strings k) -> length g = k.
Proof.
  revert g. induction k as [|k IH]; intros g H; [destruct H as [<-|[]]; reflexivity|]. cbn [bit_strings] in H.
  apply in_app_or in H as [H|H]; apply in_map_iff in H as (g' & <- & H); cbn [length]; now rewrite (IH g').
Qed.
Definition code_ok (sp : list string) (name : string) : bool :=
  match assoc String.eqb name DSSS with
  | Some t =>
      forallb (fun g => match assoc String.eqb (digits g) t with
                        | Some c => bits_eqb (from_bitstring c) (chip_code name g) && Nat.eqb (length (chip_code name g)) (spread_chips sp)
                        | None => false end) (bit_strings (spread_bits sp))
      && forallb (fun g => forallb (fun h => bits_eqb g h || negb (bits_eqb (chip_code name g) (chip_code name h)))
                           (bit_strings (spread_bits sp))) (bit_strings (spread_bits sp))
  | None => false
  end.
Lemma bits_eqb_spec a b : bits_eqb a b = true <-> a = b.
Proof. unfold bits_eqb. destruct (list_eq_dec _ a b); split; congruence. Qed.
Lemma codes_ok sp : In sp all_spreads -> (0 < length sp)%nat /\ (0 < spread_bits sp)%nat /\ (0 < spread_chips sp)%nat /\ forall name, In name sp -> code_ok sp name = true.
Proof.
  assert (C : forallb (fun sp => Nat.ltb 0 (length sp) && Nat.ltb 0 (spread_bits sp) && Nat.ltb 0 (spread_chips sp) && forallb (code_ok sp) sp) all_spreads = true) by (vm_compute; reflexivity).
  intro H. rewrite forallb_forall in C. specialize (C _ H). apply andb_prop in C as [C C4]. apply andb_prop in C as [C C3]. apply andb_prop in C as [C1 C2].
  apply Nat.ltb_lt in C1, C2, C3. repeat split; try assumption. now apply forallb_forall.
Qed.
Lemma table_for_in sp j : (0 < length sp)%nat -> In (table_for sp j) sp.
Proof. intro H. apply nth_In. apply Nat.mod_upper_bound. lia. Qed.
Lemma code_ok_get sp name g : code_ok sp name = true -> length g = spread_bits sp ->
  (do t <- dict_get String.eqb name DSSS; do c <- dict_get String.eqb (digits g) t; Ok (from_bitstring c)) = Ok (chip_code name g)
  /\ length (chip_code name g) = spread_chips sp.
Proof.
  unfold code_ok, dict_get. destruct (assoc String.eqb name DSSS) as [t|] eqn:E; [|discriminate]. intros H Hg. apply andb_prop in H as [H _].
  rewrite forallb_forall in H. specialize (H g (bit_strings_in _ _ Hg)). cbn [rbind].
  destruct (assoc String.eqb (digits g) t) as [c|]; [|discriminate]. apply andb_prop in H as [H1 H2].
  apply bits_eqb_spec in H1. apply Nat.eqb_eq in H2. cbn [rbind]. rewrite H1. split; [reflexivity|assumption].
Qed.
Lemma code_ok_inj sp name g h : code_ok sp name = true -> length g = spread_bits sp -> length h = spread_bits sp ->
  chip_code name g = chip_code name h -> g = h.
Proof.
  unfold code_ok. destruct (assoc String.eqb name DSSS) as [t|] eqn:E; [|discriminate]. intros H Hg Hh Ec. apply andb_prop in H as [_ H].
  rewrite forallb_forall in H. specialize (H g (bit_strings_in _ _ Hg)). rewrite forallb_forall in H. specialize (H h (bit_strings_in _ _ Hh)).
  rewrite Ec in H. apply orb_prop in H as [H|H]; [now apply bits_eqb_spec|].
  replace (bits_eqb (chip_code name h) (chip_code name h)) with true in H by (symmetry; now apply bits_eqb_spec). discriminate.
Qed.
(** the chips of a list of groups, from group number [i] on *)
Definition codes (sp : list string) (i : nat) (rows : list (list bool)) : list (list bool) :=
  map (fun j => chip_code (table_for sp (i + j)) (nth j rows [])) (seq 0 (length rows)).
Lemma codes_cons sp i row rows : codes sp i (row :: rows) = chip_code (table_for sp i) row :: codes sp (S i) rows.
Proof.
  unfold codes. cbn [length seq map nth]. rewrite Nat.add_0_r. f_equal. rewrite <- seq_shift, map_map. apply map_ext. intro j.
  cbn [nth]. now rewrite Nat.add_succ_r.
Qed.
Lemma dsss_loop_codes sp : In sp all_spreads -> forall rows i, Forall (fun g => length g = spread_bits sp) rows ->
  dsss_loop i sp rows = Ok (concat (codes sp i rows)).
Proof.
  intro Hs. destruct (codes_ok sp Hs) as (Hn & Hb & Hc & Hok).
  induction rows as [|row rows IH]; intros i H; [reflexivity|]. inversion H; subst.
  rewrite codes_cons. cbn [dsss_loop concat].
  pose proof (code_ok_get sp (table_for sp i) row (Hok _ (table_for_in sp i Hn)) ltac:(assumption)) as [G _].
  unfold table_for in G at 1. rewrite arr_digits. destruct (dict_get String.eqb (nth (i mod length sp) sp EmptyString) DSSS) as [t|e]; [|discriminate].
  cbn [rbind] in G |- *. destruct (dict_get String.eqb (digits row) t) as [c|e]; [|discriminate]. cbn [rbind] in G |- *.
  injection G as G. rewrite G. rewrite IH by assumption. reflexivity.
Qed.
Lemma codes_all_length sp : In sp all_spreads -> forall rows i, Forall (fun g => length g = spread_bits sp) rows ->
  Forall (fun c => length c = spread_chips sp) (codes sp i rows).
Proof.
  intros Hs rows i H. destruct (codes_ok sp Hs) as (Hn & Hb & Hc & Hok). apply Forall_forall. intros c Hi.
  apply in_map_iff in Hi as (j & <- & Hj). apply in_seq in Hj. rewrite Forall_forall in H.
  apply (code_ok_get sp); [apply Hok, table_for_in, Hn|]. apply H, nth_In. lia.
Qed.
Lemma codes_inj sp : In sp all_spreads -> forall r1 r2 i, Forall (fun g => length g = spread_bits sp) r1 -> Forall (fun g => length g = spread_bits sp) r2 ->
  concat (codes sp i r1) = concat (codes sp i r2) -> r1 = r2.
Proof.
  intro Hs. destruct (codes_ok sp Hs) as (Hn & Hb & Hc & Hok).
  induction r1 as [|a r1 IH]; intros r2 i H1 H2 E.
  - destruct r2 as [|b r2]; [reflexivity|]. exfalso. pose proof (codes_all_length sp Hs _ i H2) as L. rewrite codes_cons in *. inversion L; subst.
    apply (f_equal (@length bool)) in E. cbn [concat codes length map] in E. rewrite app_length in E. unfold codes in E. simpl in E. lia.
  - destruct r2 as [|b r2].
    + exfalso. pose proof (codes_all_length sp Hs _ i H1) as L. rewrite codes_cons in *. inversion L; subst.
      apply (f_equal (@length bool)) in E. cbn [concat codes length map] in E. rewrite app_length in E. unfold codes in E. simpl in E. lia.
    + pose proof (codes_all_length sp Hs _ i H1) as L1. pose proof (codes_all_length sp Hs _ i H2) as L2.
      rewrite !codes_cons in *. inversion L1; subst. inversion L2; subst. inversion H1; subst. inversion H2; subst.
      cbn [concat] in E. apply app_inj_len in E as [E1 E2]; [|congruence].
      f_equal; [|now apply (IH r2 (S i))]. apply (code_ok_inj sp (table_for sp i)); auto. apply Hok, table_for_in, Hn.
Qed.
Definition key_ok (sp : list string) : bool :=
  match dict_get String.eqb (nth 0 sp EmptyString) DSSS with
  | Ok t => Nat.eqb (String.length (fst (hd (EmptyString, EmptyString) t))) (spread_bits sp)
  | Err _ => false
  end.
Lemma spread_ok sp m : In sp all_spreads ->
  DSSS_spread m sp = if Nat.eqb (Nat.modulo (length m) (spread_bits sp)) 0 then Ok (concat (codes sp 0 (chunks (spread_bits sp) m))) else Err ValueError.
Proof.
  intro Hs. destruct (codes_ok sp Hs) as (Hn & Hb & Hc & Hok).
  assert (K : key_ok sp = true).
  { assert (C : forallb key_ok all_spreads = true) by (vm_compute; reflexivity). rewrite forallb_forall in C. now apply C. }
  unfold DSSS_spread, key_ok in *. destruct (dict_get String.eqb (nth 0 sp EmptyString) DSSS) as [t|e]; [|discriminate]. cbn [rbind].
  apply Nat.eqb_eq in K. rewrite K. unfold reshape_rows. destruct (Nat.eqb _ 0) eqn:E; [|reflexivity]. cbn [rbind].
  apply dsss_loop_codes; [assumption|]. apply chunks_length_all; [assumption|]. now apply Nat.eqb_eq.
Qed.
Definition spread (sp : list string) (m : list bool) : list bool := concat (codes sp 0 (chunks (spread_bits sp) m)).
Lemma spread_inj sp m1 m2 : In sp all_spreads -> Nat.modulo (length m1) (spread_bits sp) = 0%nat -> Nat.modulo (length m2) (spread_bits sp) = 0%nat ->
  spread sp m1 = spread sp m2 -> m1 = m2.
Proof.
  intros Hs L1 L2 E. destruct (codes_ok sp Hs) as (Hn & Hb & Hc & Hok). apply codes_inj in E; try assumption; try now apply chunks_length_all.
  rewrite <- (concat_chunks (spread_bits sp) m1), <- (concat_chunks (spread_bits sp) m2) by assumption. now rewrite E.
Qed.
Lemma spread_length sp m : In sp all_spreads -> Nat.modulo (length m) (spread_bits sp) = 0%nat ->
  length (spread sp m) = (length m / spread_bits sp * spread_chips sp)%nat.
Proof.
  intros Hs L. destruct (codes_ok sp Hs) as (Hn & Hb & Hc & Hok). unfold spread.
  rewrite (concat_length_const (spread_chips sp)) by (apply codes_all_length; [assumption|now apply chunks_length_all]).
  unfold codes. rewrite map_length, seq_length, chunks_length by assumption. apply Nat.mul_comm.
Qed.
Lemma concat_slice {A} n (ls : list (list A)) j : Forall (fun l => length l = n) ls -> (j < length ls)%nat ->
  firstn n (skipn (j * n) (concat ls)) = nth j ls [].
Proof.
  intros H. revert j. induction H as [|l ls Hl H IH]; intros j Hj; [simpl in Hj; lia|]. cbn [concat]. destruct j as [|j].
  - rewrite Nat.mul_0_l, skipn_O, firstn_app, Hl, Nat.sub_diag, firstn_O, app_nil_r. cbn [nth]. now apply firstn_all2; lia.
  - cbn [nth]. rewrite skipn_app, Hl. rewrite (skipn_all2 l) by lia. cbn [app].
    replace (S j * n - n)%nat with (j * n)%nat by lia. apply IH. simpl in Hj. lia.
Qed.
Lemma spread_slice sp m j : In sp all_spreads -> Nat.modulo (length m) (spread_bits sp) = 0%nat -> (j < length m / spread_bits sp)%nat ->
  slice (j * spread_chips sp) (spread_chips sp) (spread sp m) = chip_code (table_for sp j) (slice (j * spread_bits sp) (spread_bits sp) m).
Proof.
  intros Hs L Hj. destruct (codes_ok sp Hs) as (Hn & Hb & Hc & Hok). unfold slice, spread.
  rewrite concat_slice.
  - unfold codes. rewrite nth_map_seq by (rewrite chunks_length by assumption; exact Hj). cbn [Nat.add]. f_equal.
    rewrite chunks_as_map by assumption. now rewrite nth_map_seq.
  - apply codes_all_length; [assumption|now apply chunks_length_all].
  - unfold codes. rewrite map_length, seq_length, chunks_length by assumption. exact Hj.
Qed.
Lemma find_first {A} (f : A -> bool) l x : In x l -> f x = true -> (forall y, In y l -> f y = true -> y = x) -> find f l = Some x.
Proof.
  intros Hi Hx Hu. destruct (find f l) as [y|] eqn:E; [apply find_some in E as [E1 E2]; now rewrite (Hu y)|].
  pose proof (find_none _ _ E x Hi). congruence.
Qed.
Lemma despread_spread sp m : In sp all_spreads -> Nat.modulo (length m) (spread_bits sp) = 0%nat ->
  despread sp (length m / spread_bits sp) (spread sp m) = m.
Proof.
  intros Hs L. destruct (codes_ok sp Hs) as (Hn & Hb & Hc & Hok). unfold despread.
  rewrite <- (concat_chunks (spread_bits sp) m) at 2 by assumption. rewrite chunks_as_map by assumption. rewrite flat_map_concat_map. f_equal.
  apply map_ext_in. intros j Hj. apply in_seq in Hj. rewrite spread_slice by (try assumption; lia). unfold despread_block.
  assert (Lg : length (slice (j * spread_bits sp) (spread_bits sp) m) = spread_bits sp).
  { unfold slice. rewrite firstn_length, skipn_length. assert (S j * spread_bits sp <= length m)%nat; [|lia].
    transitivity (length m / spread_bits sp * spread_bits sp)%nat; [apply Nat.mul_le_mono_r; lia|].
    pose proof (Nat.div_mod (length m) (spread_bits sp)). lia. }
  rewrite (find_first _ _ (slice (j * spread_bits sp) (spread_bits sp) m)).
  - reflexivity.
  - now apply bit_strings_in.
  - now apply bits_eqb_spec.
  - intros g Hg Hx. apply bits_eqb_spec in Hx. apply (code_ok_inj sp (table_for sp j)); auto; [apply Hok, table_for_in, Hn|now apply bit_strings_length].
Qed.
