(** * MR-OFDM: the configurations of the standard and the symbols they produce *)
From Verif Require Import Py PList SBits MPn9 SPn9 PPn9 MModul MOfdm SOfdm SMrOfdm PModul POfdm MMrOfdm Tables PBits.

Lemma sets_inside N pl pr P sets : N = 2 * (N / 2) -> pilots_inside N pl pr P sets ->
  Forall (fun s => pset_ok N pl pr s /\ zlen s = Z.of_nat P) sets.
Proof.
  intros He H. unfold pilots_inside in H. rewrite Forall_forall in *. intros s Hs. destruct (H s Hs) as (H1 & H2 & H3).
  split; [|unfold zlen; now rewrite H1]. split; [assumption|]. rewrite Forall_forall in *. intros f Hf.
  apply usable_In. destruct (H3 f Hf) as [H4 H5]. split; [lia|assumption].
Qed.
Fixpoint nodupb (l : list Z) : bool := match l with [] => true | x :: r => negb (memb x r) && nodupb r end.
Lemma nodupb_NoDup l : nodupb l = true -> NoDup l.
Proof.
  induction l as [|x l IH]; intro H; [constructor|]. cbn [nodupb] in H. apply andb_true_iff in H as [H1 H2].
  apply negb_true_iff in H1. constructor; [now apply memb_false|now apply IH].
Qed.
Definition insideb (N pl pr : Z) (P : nat) (sets : list (list Z)) : bool :=
  forallb (fun s => Nat.eqb (length s) P && nodupb s
     && forallb (fun f => (- (N / 2) <=? f) && (f <? N / 2) && negb (guard_or_dc N pl pr f)) s) sets.
Lemma insideb_ok N pl pr P sets : insideb N pl pr P sets = true -> pilots_inside N pl pr P sets.
Proof.
  unfold insideb, pilots_inside. rewrite forallb_forall, Forall_forall. intros H s Hs. specialize (H s Hs).
  apply andb_true_iff in H as [H H3]. apply andb_true_iff in H as [H1 H2]. apply Nat.eqb_eq in H1.
  split; [assumption|]. split; [now apply nodupb_NoDup|]. rewrite Forall_forall. rewrite forallb_forall in H3.
  intros f Hf. specialize (H3 f Hf). apply andb_true_iff in H3 as [H3 H4]. apply andb_true_iff in H3 as [H3 H5].
  apply Z.leb_le in H3. apply Z.ltb_lt in H5. apply negb_true_iff in H4. auto.
Qed.
Lemma supported_cases opt mcs : supported opt mcs ->
  In (opt, mcs) [(1,0);(1,1);(1,2);(1,3);(2,0);(2,1);(2,2);(2,3);(2,4);(2,5);(3,1);(3,2);(3,3);(3,4);(3,5);(3,6);(4,2);(4,3);(4,4);(4,5);(4,6)].
Proof.
  intro H. assert (E : mcs = 0 \/ mcs = 1 \/ mcs = 2 \/ mcs = 3 \/ mcs = 4 \/ mcs = 5 \/ mcs = 6) by (unfold supported in H; lia).
  unfold supported in H.
  destruct E as [E|[E|[E|[E|[E|[E|E]]]]]]; subst mcs; destruct H as [[E H]|[[E H]|[[E H]|[E H]]]]; subst opt;
    try (exfalso; lia); simpl; tauto.
Qed.

Ltac each := let H := fresh in intro H; apply supported_cases in H; cbn [In] in H;
  repeat match goal with H : _ \/ _ |- _ => destruct H as [H|H] end;
  match goal with H : False |- _ => destruct H | H : (_, _) = (_, _) |- _ => inversion H; subst end.

Definition all_supported : list (Z * Z) :=
  [(1,0);(1,1);(1,2);(1,3);(2,0);(2,1);(2,2);(2,3);(2,4);(2,5);(3,1);(3,2);(3,3);(3,4);(3,5);(3,6);(4,2);(4,3);(4,4);(4,5);(4,6)].
Lemma supported_forall (P : Z -> Z -> bool) : forallb (fun c => P (fst c) (snd c)) all_supported = true ->
  forall opt mcs, supported opt mcs -> P opt mcs = true.
Proof. intros H opt mcs Hs. rewrite forallb_forall in H. apply (H (opt, mcs)). now apply supported_cases. Qed.
Lemma supported_low opt mcs : supported opt mcs -> supported opt (lowest_mcs opt).
Proof. unfold supported. each; cbn [lowest_mcs]; lia. Qed.

(** ** the OFDM modulators built for the header and for the payload *)
Definition std_sets (opt : Z) : list (list Z) :=
  match opt with 1 => PILOTS_INDICES_OPTION_1 | 2 => PILOTS_INDICES_OPTION_2 | 3 => PILOTS_INDICES_OPTION_3 | _ => PILOTS_INDICES_OPTION_4 end.
Definition std_cfg (opt mcs : Z) : ofdm_cfg :=
  {| o_N := fft_size opt; o_mod := mcs_modulation mcs; o_pl := guard_left opt; o_pr := guard_right opt;
     o_sf := Z.of_nat (mcs_spreading mcs); o_pilots := Some (std_sets opt, PvPn9) |}.
Definition points (opt mcs : Z) : nat := (Z.to_nat (data_tones opt) / mcs_spreading mcs)%nat.
Definition npil (opt : Z) : nat := Z.to_nat (pilot_tones opt).

Lemma make_std opt mcs ips seed : supported opt mcs ->
  make_ofdm opt mcs ips seed = Ok (std_cfg opt mcs, {| o_col := ips; o_pn9 := pn9_new seed |}).
Proof. each; reflexivity. Qed.
Lemma std_band opt mcs : supported opt mcs -> band_ok (fft_size opt) (guard_left opt) (guard_right opt).
Proof. each; constructor; vm_compute; first [reflexivity | split; first [reflexivity | discriminate]]. Qed.
Definition opt_ok (opt : Z) : Prop := opt = 1 \/ opt = 2 \/ opt = 3 \/ opt = 4.
Lemma supported_opt opt mcs : supported opt mcs -> opt_ok opt.
Proof. unfold supported, opt_ok. lia. Qed.
Lemma std_inside opt : opt_ok opt -> pilots_inside (fft_size opt) (guard_left opt) (guard_right opt) (npil opt) (std_sets opt).
Proof. intros [E|[E|[E|E]]]; subst opt; apply insideb_ok; vm_compute; reflexivity. Qed.
Lemma std_sets_pos opt : opt_ok opt -> 0 < zlen (std_sets opt).
Proof. intros [E|[E|[E|E]]]; subst opt; reflexivity. Qed.
Lemma std_pilots opt : opt_ok opt ->
  Forall (fun s => pset_ok (fft_size opt) (guard_left opt) (guard_right opt) s /\ zlen s = Z.of_nat (npil opt)) (std_sets opt).
Proof.
  intro H. apply sets_inside; [|now apply std_inside].
  destruct H as [E|[E|[E|E]]]; subst opt; reflexivity.
Qed.
Lemma std_np opt mcs : supported opt mcs -> n_pilots (std_cfg opt mcs) = Z.of_nat (npil opt).
Proof. each; reflexivity. Qed.
Lemma npil_pos opt : (0 < npil opt)%nat.
Proof. unfold npil, pilot_tones. destruct opt as [|[[[]|[]|]|[[]|[]|]|]|]; vm_compute; lia. Qed.
Lemma std_good opt mcs : supported opt mcs -> good_cfg (std_cfg opt mcs) (mcs_spreading mcs) (points opt mcs).
Proof.
  intro H. pose proof (std_band opt mcs H). revert H. each; constructor; try assumption; try reflexivity; try (vm_compute; auto; lia).
Qed.
Lemma coded_points opt mcs : supported opt mcs ->
  coded_bits opt mcs = (points opt mcs * group_size (mcs_modulation mcs))%nat.
Proof. each; reflexivity. Qed.
Lemma coded_pos opt mcs : supported opt mcs -> (0 < coded_bits opt mcs)%nat.
Proof. each; vm_compute; lia. Qed.
Lemma points_tones opt mcs : supported opt mcs -> Z.of_nat (mcs_spreading mcs * points opt mcs) = data_tones opt.
Proof. each; reflexivity. Qed.

(** data part of symbol [n] of the bit stream [bits] *)
Definition block (opt mcs : Z) (bits : list bool) (n : nat) : list bool :=
  firstn (coded_bits opt mcs) (skipn (n * coded_bits opt mcs) bits).
(** symbol [n] of a run started with pilot set [col] and PN9 register [v] *)
Definition sym (opt mcs : Z) (col : Z) (v : Z) (bits : list bool) (n : nat) : list tone :=
  layout (fft_size opt) (guard_left opt) (guard_right opt)
         (nth (Z.to_nat ((col + Z.of_nat n) mod zlen (std_sets opt))) (std_sets opt) [])
         (map (fun j => pn_pilot v (n * npil opt + j)%nat) (seq 0 (npil opt)))
         (symbol_data (mcs_modulation mcs) (mcs_spreading mcs) (block opt mcs bits n)).

Lemma run_symbols opt mcs col v bits k : supported opt mcs -> 0 <= col < zlen (std_sets opt) ->
  length bits = (k * coded_bits opt mcs)%nat ->
  ofdm_symbols (std_cfg opt mcs) {| o_col := col; o_pn9 := pn9_new v |} bits false
  = ({| o_col := (col + Z.of_nat k) mod zlen (std_sets opt);
        o_pn9 := {| pn_seed := v; pn_value := pn_iter (k * npil opt) v |} |},
     Ok (map (sym opt mcs col v bits) (seq 0 k))).
Proof.
  intros H Hc Hl. pose proof (std_good opt mcs H) as Hg. pose proof (coded_points opt mcs H) as Ec.
  pose proof (coded_pos opt mcs H) as Hp. pose proof (supported_opt opt mcs H) as Ho.
  assert (Hm : Nat.modulo (length bits) (coded_bits opt mcs) = 0%nat) by (rewrite Hl; apply mod_mult; lia).
  pose proof (symbols_pn9 (std_cfg opt mcs) _ _ (std_sets opt) {| o_col := col; o_pn9 := pn9_new v |} bits Hg eq_refl) as E.
  rewrite (std_np opt mcs H) in E. pose proof (npil_pos opt). specialize (E ltac:(lia) (std_pilots opt Ho) Hc).
  change (o_mod (std_cfg opt mcs)) with (mcs_modulation mcs) in E. rewrite <- Ec in E. specialize (E Hm). cbv zeta in E.
  rewrite E. clear E.
  assert (Hk : length (chunks (coded_bits opt mcs) bits) = k).
  { rewrite chunks_length, Hl by assumption. apply Nat.div_mul. lia. }
  unfold zlen at 1. rewrite map_length, Hk. rewrite Nat2Z.id. cbn [o_col o_pn9 pn9_new pn_seed pn_value].
  do 2 f_equal. apply map_ext_in. intros n Hn. apply in_seq in Hn.
  unfold nth_symbol, sym. cbn [o_N o_pl o_pr std_cfg]. f_equal.
  rewrite (nth_map _ _ _ []) by lia. f_equal. unfold block.
  rewrite chunks_as_map by assumption. rewrite nth_map_seq by (rewrite Hl, Nat.div_mul by lia; lia). reflexivity.
Qed.
