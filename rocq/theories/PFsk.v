(** * Proofs about the MR-FSK modulator *)
From Verif Require Import Py MBits MPn9 Tables MFsk PList SBits SEntry PBits PEntry SPn9 PPn9 SFsk PConv PFskFec.

(** ** constructor *)
Lemma Qtrunc_pos q : (Qtrunc q <=? 0) = negb (Qle_bool 1 q).
Proof.
  unfold Qtrunc. destruct (Qle_bool 0 q) eqn:E0.
  - apply Qle_bool_iff in E0. destruct (Qle_bool 1 q) eqn:E1.
    + apply Qle_bool_iff in E1. apply Z.leb_gt. change 0 with (Z.pred 1). apply Z.lt_pred_le.
      apply Qfloor_resp_le in E1. exact E1.
    + apply Z.leb_le. assert (~ (1 <= q)%Q) by (intro H; apply Qle_bool_iff in H; congruence).
      apply Qnot_le_lt in H. pose proof (Qfloor_le q). assert (inject_Z (Qfloor q) < 1)%Q by (eapply Qle_lt_trans; eauto).
      change 1%Q with (inject_Z 1) in H1. rewrite <- Zlt_Qlt in H1. lia.
  - assert (Hn : ~ (0 <= q)%Q) by (intro H; apply Qle_bool_iff in H; congruence).
    apply Qnot_le_lt in Hn.
    assert (E1 : Qle_bool 1 q = false).
    { destruct (Qle_bool 1 q) eqn:E; [|reflexivity]. apply Qle_bool_iff in E. exfalso.
      apply (Qlt_irrefl 0). apply Qlt_trans with q; [|assumption].
      apply Qlt_le_trans with 1%Q; [reflexivity|assumption]. }
    rewrite E1. apply Z.leb_le. cbn [negb].
    apply Qlt_le_weak in Hn. apply Qceiling_resp_le in Hn. exact Hn.
Qed.
Lemma index_int z : Qle_bool (1 # 4) (inject_Z z) && Qle_bool (inject_Z z) (5 # 2) = (1 <=? z) && (z <=? 2).
Proof.
  unfold Qle_bool, inject_Z. cbn [Qnum Qden]. apply Bool.eq_true_iff_eq. rewrite !andb_true_iff, !Z.leb_le. lia.
Qed.
Lemma reads_int_Z z : reads_int (PInt z) z. Proof. now left. Qed.
Lemma reads_int_b b : reads_int (PBool b) (if b then 1 else 0). Proof. right. eauto. Qed.

Lemma fsk_new_outcome rate h sfdg modulation fec scheme fcs white il preamble :
  match first_bad [rate_arg rate; index_arg h; zero_or_one sfdg;
                   integer_arg preamble (fun z => (4 <=? z) && (z <=? 1000)); modulation_arg modulation;
                   bool_arg fec; zero_or_one scheme; zero_or_one fcs;
                   integer_arg white (fun _ => true); bool_arg il] with
  | Good => exists s, fsk_new rate h sfdg modulation fec scheme fcs white il preamble = Ok s
      /\ reads_rate rate (k_rate s) /\ 0 < k_rate s
      /\ reads_num h (k_h s) /\ (1 # 4 <= k_h s <= 5 # 2)%Q
      /\ reads_int sfdg (k_sfd s) /\ (k_sfd s = 0 \/ k_sfd s = 1)
      /\ reads_int preamble (k_preamble s) /\ 4 <= k_preamble s <= 1000
      /\ modulation = PStr (if k_fsk4 s then "4FSK" else "2FSK")
      /\ fec = PBool (k_fec s)
      /\ reads_int scheme (k_scheme s) /\ (k_scheme s = 0 \/ k_scheme s = 1)
      /\ reads_int fcs (k_fcs s) /\ (k_fcs s = 0 \/ k_fcs s = 1)
      /\ (exists z, reads_int white z /\ k_white s = negb (z =? 0))
      /\ il = PBool (k_il s)
      /\ k_phr_psdu s = None /\ k_encoded s = None /\ k_interleaved s = None
      /\ k_scrambled s = None /\ k_binary s = None
  | BadType => fsk_new rate h sfdg modulation fec scheme fcs white il preamble = Err TypeError
  | BadValue => fsk_new rate h sfdg modulation fec scheme fcs white il preamble = Err ValueError
  end.
Proof.
  unfold fsk_new.
  assert (ER : match rate_arg rate with
    | Good => exists r, (if is_float rate then Ok (Qtrunc (num_of rate)) else if is_int rate then Ok (int_of rate) else Err TypeError) = Ok r
              /\ 0 < r /\ reads_rate rate r
    | BadType => (if is_float rate then Ok (Qtrunc (num_of rate)) else if is_int rate then Ok (int_of rate) else Err TypeError) = Err TypeError
    | BadValue => exists r, (if is_float rate then Ok (Qtrunc (num_of rate)) else if is_int rate then Ok (int_of rate) else Err TypeError) = Ok r
              /\ r <= 0 end).
  { destruct rate as [z|b|q|s|]; cbn -[Qtrunc Qle_bool Z.ltb]; auto.
    - destruct (Z.ltb_spec 0 z); exists z; split; auto; try lia. split; [lia|]. left. apply reads_int_Z.
    - destruct b; cbn; [|exists 0; split; [reflexivity|lia]].
      exists 1. split; [reflexivity|]. split; [lia|]. left. apply (reads_int_b true).
    - pose proof (Qtrunc_pos q) as HQ. destruct (Qle_bool 1 q) eqn:E1; cbn [negb] in HQ.
      + exists (Qtrunc q). split; [reflexivity|]. apply Z.leb_gt in HQ. split; [lia|]. right. exists q.
        split; [reflexivity|]. apply Qle_bool_iff in E1. unfold Qtrunc.
        assert (E0 : Qle_bool 0 q = true). { apply Qle_bool_iff. apply Qle_trans with 1%Q; [discriminate|assumption]. }
        rewrite E0. split; [apply Qfloor_le|apply Qlt_floor].
      + exists (Qtrunc q). split; [reflexivity|]. now apply Z.leb_le in HQ. }
  destruct (rate_arg rate) eqn:VR; cbn [first_bad].
  2: now rewrite ER.
  2: { destruct ER as (r & E & Hr). rewrite E. cbn [rbind]. apply Z.leb_le in Hr. now rewrite Hr. }
  destruct ER as (r & E & Hr & Hrd). rewrite E. cbn [rbind]. clear E.
  replace (r <=? 0) with false by (symmetry; apply Z.leb_gt; lia).
  destruct (index_arg h) eqn:VH.
  2: { destruct h as [z|b|q|s|]; cbn in VH |- *; auto; exfalso.
       - destruct ((1 <=? z) && (z <=? 2)); discriminate.
       - destruct b; discriminate.
       - destruct (Qle_bool (1 # 4) q && Qle_bool q (5 # 2)); discriminate. }
  2: { destruct h as [z|b|q|s|]; cbn [is_float is_int orb negb num_of int_of]; cbn in VH; try discriminate.
       - rewrite index_int. destruct ((1 <=? z) && (z <=? 2)); [discriminate|reflexivity].
       - destruct b; [discriminate|reflexivity].
       - destruct (Qle_bool (1 # 4) q && Qle_bool q (5 # 2)); [discriminate|reflexivity]. }
  assert (EH : (is_float h || is_int h) = true /\ Qle_bool (1 # 4) (num_of h) && Qle_bool (num_of h) (5 # 2) = true
               /\ reads_num h (num_of h)).
  { destruct h as [z|b|q|s|]; cbn [is_float is_int orb num_of int_of]; cbn in VH; try discriminate.
    - rewrite index_int. destruct ((1 <=? z) && (z <=? 2)) eqn:E; [|discriminate]. repeat split; auto.
      right. exists z. split; [apply reads_int_Z|reflexivity].
    - destruct b; [|discriminate]. repeat split. right. exists 1. split; [apply (reads_int_b true)|reflexivity].
    - destruct (Qle_bool (1 # 4) q && Qle_bool q (5 # 2)) eqn:E; [|discriminate]. repeat split; auto. now left. }
  destruct EH as (E1 & E2 & Hh). rewrite E1, E2. cbn [negb first_bad]. clear E1.
  apply andb_prop in E2 as [E2a E2b]. apply Qle_bool_iff in E2a, E2b.
  assert (I : forall v ok, match integer_arg v ok with
      | Good => is_int v = true /\ ok (int_of v) = true /\ reads_int v (int_of v)
      | BadType => is_int v = false
      | BadValue => is_int v = true /\ ok (int_of v) = false end).
  { intros v ok. destruct v as [z|b|q|s|]; cbn; auto.
    - destruct (ok z) eqn:E; repeat split; auto. apply reads_int_Z.
    - destruct (ok (if b then 1 else 0)) eqn:E; repeat split; auto. apply reads_int_b. }
  assert (D : forall z, (z =? 0) || (z =? 1) = true -> z = 0 \/ z = 1) by (intro; lia).
  pose proof (I sfdg (fun z => (z =? 0) || (z =? 1))) as Is. fold (zero_or_one sfdg) in Is.
  destruct (zero_or_one sfdg); cbn [first_bad].
  2: now rewrite Is.
  2: { destruct Is as [-> Is]. cbv beta in Is. now rewrite Is. }
  destruct Is as (-> & Es & Hs). cbv beta in Es. rewrite Es. cbn [negb].
  pose proof (I preamble (fun z => (4 <=? z) && (z <=? 1000))) as Ip.
  destruct (integer_arg preamble (fun z => (4 <=? z) && (z <=? 1000))); cbn [first_bad].
  2: now rewrite Ip.
  2: { destruct Ip as [-> Ip]. cbv beta in Ip. now rewrite Ip. }
  destruct Ip as (-> & Ep & Hp). cbv beta in Ep. rewrite Ep. cbn [negb].
  destruct modulation as [z|b|q|m|]; cbn [modulation_arg first_bad]; try reflexivity.
  destruct (String.eqb m "2FSK" || String.eqb m "4FSK") eqn:EM; cbn [negb first_bad]; [|reflexivity].
  destruct fec as [z|fe|q|x|]; cbn [bool_arg is_bool negb first_bad]; try reflexivity.
  pose proof (I scheme (fun z => (z =? 0) || (z =? 1))) as Ic. fold (zero_or_one scheme) in Ic.
  destruct (zero_or_one scheme); cbn [first_bad].
  2: now rewrite Ic.
  2: { destruct Ic as [-> Ic]. cbv beta in Ic. now rewrite Ic. }
  destruct Ic as (-> & Ec & Hc). cbv beta in Ec. rewrite Ec. cbn [negb].
  pose proof (I fcs (fun z => (z =? 0) || (z =? 1))) as If. fold (zero_or_one fcs) in If.
  destruct (zero_or_one fcs); cbn [first_bad].
  2: now rewrite If.
  2: { destruct If as [-> If]. cbv beta in If. now rewrite If. }
  destruct If as (-> & Ef & Hf). cbv beta in Ef. rewrite Ef. cbn [negb].
  pose proof (I white (fun _ => true)) as Iw.
  destruct (integer_arg white (fun _ => true)) eqn:VW; cbn [first_bad].
  2: now rewrite Iw.
  2: { exfalso. destruct Iw as [_ Iw]. discriminate. }
  destruct Iw as (-> & _ & Hw). cbn [negb].
  destruct il as [z|ile|q|x|]; cbn [bool_arg is_bool negb first_bad]; try reflexivity.
  eexists. split; [reflexivity|]. cbn [k_rate k_h k_sfd k_preamble k_fsk4 k_fec k_scheme k_fcs k_white k_il
     k_phr_psdu k_encoded k_interleaved k_scrambled k_binary int_of].
  repeat match goal with |- _ /\ _ => split end; auto; try lia.
  - destruct (String.eqb_spec m "2FSK") as [->|]; [reflexivity|]. destruct (String.eqb_spec m "4FSK") as [->|]; [reflexivity|discriminate].
  - now destruct fe.
  - exists (int_of white). split; [assumption|reflexivity].
  - now destruct ile.
Qed.

(** ** the frame as a function of the configuration and the payload *)
Definition f_body (s : fsk) (d : list bool) : res (list bool) :=
  if k_fec s then do e <- k_FEC (k_scheme s) d; if k_il s then k_interleaver e else Ok e else Ok d.
Definition f_start (s : fsk) : nat := if k_fec s then 32%nat else 16%nat.
Definition f_white (s : fsk) (d : list bool) : list bool :=
  if k_white s then firstn (f_start s) d ++ scrambler (skipn (f_start s) d) 511 else d.
Definition f_frame (s : fsk) (bits : list bool) : res (list bool) :=
  do phr <- k_PHR s (zlen bits / 8);
  do d <- f_body s (phr ++ bits);
  do shr <- k_SHR s;
  Ok (shr ++ f_white s d).
Definition f_call (s : fsk) (a : arg) : res fsk_signal :=
  do bits <- check_binary_array a; do fr <- f_frame s bits; FSKModulator s fr 20.

(** same construction parameters *)
Definition same_config (s t : fsk) : Prop :=
  k_rate s = k_rate t /\ k_h s = k_h t /\ k_fcs s = k_fcs t /\ k_fec s = k_fec t /\ k_sfd s = k_sfd t
  /\ k_preamble s = k_preamble t /\ k_fsk4 s = k_fsk4 t /\ k_white s = k_white t /\ k_il s = k_il t
  /\ k_scheme s = k_scheme t.
Lemma same_config_refl s : same_config s s.
Proof. repeat split. Qed.
Lemma same_config_trans s t u : same_config s t -> same_config t u -> same_config s u.
Proof. unfold same_config. intuition congruence. Qed.
Lemma same_config_sym s t : same_config s t -> same_config t s.
Proof. unfold same_config. intuition congruence. Qed.
Lemma f_frame_config s t bits : same_config s t -> f_frame s bits = f_frame t bits.
Proof.
  intros (A & B & C & D & E & F & G & H & I & J). unfold f_frame, f_body, f_white, f_start, k_PHR, k_SHR.
  now rewrite C, D, E, F, G, H, I, J.
Qed.
Lemma FSKModulator_config s t m n : same_config s t -> FSKModulator s m n = FSKModulator t m n.
Proof.
  intros (A & B & C & D & E & F & G & H & I & J). unfold FSKModulator. now rewrite A, B, G.
Qed.
Lemma f_call_config s t a : same_config s t -> f_call s a = f_call t a.
Proof.
  intro H. unfold f_call. destruct (check_binary_array a); [cbn [rbind]|reflexivity].
  rewrite (f_frame_config s t) by assumption. destruct (f_frame t a0); [|reflexivity].
  now apply FSKModulator_config.
Qed.

Lemma bits_master a s :
  let '(t, r) := k_bitsToIQ a s in
  same_config s t /\ r = f_call s a
  /\ forall bits fr, check_binary_array a = Ok bits -> f_frame s bits = Ok fr -> k_binary t = Some fr.
Proof.
  unfold k_bitsToIQ, f_call, f_frame.
  unfold sbind, slift, smod, sget, sattr, sret.
  destruct (check_binary_array a) as [bits|e]; [|repeat split; discriminate]. cbn [rbind].
  change (k_PHR s (zlen bits / 8)) with (k_PHR s (zlen bits / 8)).
  destruct (k_PHR s (zlen bits / 8)) as [phr|e] eqn:EP; [|repeat split; auto; intros b fr E; inversion E; subst; rewrite EP; discriminate].
  cbn [rbind].
  assert (K : forall b fr, Ok bits = Ok b -> (do phr <- k_PHR s (zlen b / 8); do d <- f_body s (phr ++ b); do shr <- k_SHR s; Ok (shr ++ f_white s d)) = Ok fr ->
     (do d <- f_body s (phr ++ bits); do shr <- k_SHR s; Ok (shr ++ f_white s d)) = Ok fr).
  { intros b fr E H. inversion E; subst. rewrite EP in H. exact H. }
  destruct s as [rate h fcs fec sfdg pre fsk4 white il scheme x1 x2 x3 x4 x5].
  unfold f_body, f_white, f_start in *. cbn [kset_phr_psdu kset_encoded kset_interleaved kset_scrambled kset_binary
    k_rate k_h k_fcs k_fec k_sfd k_preamble k_fsk4 k_white k_il k_scheme k_phr_psdu k_encoded k_interleaved k_scrambled k_binary k_SHR] in *.
  unfold same_config.
  assert (EF : exists e, k_FEC scheme (phr ++ bits) = Ok e) by (rewrite k_FEC_spec; eauto).
  destruct EF as [e EF].
  assert (T : (if fec then do e <- k_FEC scheme (phr ++ bits); if il then k_interleaver e else Ok e else Ok (phr ++ bits))
            = if fec then if il then k_interleaver e else Ok e else Ok (phr ++ bits)) by (destruct fec; rewrite ?EF; reflexivity).
  rewrite T in *. clear T.
  destruct fec.
  - cbn [kset_phr_psdu kset_encoded kset_interleaved kset_scrambled kset_binary k_rate k_h k_fcs k_fec k_sfd k_preamble k_fsk4 k_white k_il k_scheme k_phr_psdu k_encoded k_interleaved k_scrambled k_binary k_SHR] in *. rewrite ?EF.
    destruct il.
    + cbn [kset_phr_psdu kset_encoded kset_interleaved kset_scrambled kset_binary k_rate k_h k_fcs k_fec k_sfd k_preamble k_fsk4 k_white k_il k_scheme k_phr_psdu k_encoded k_interleaved k_scrambled k_binary k_SHR] in *. destruct (k_interleaver e) as [i|i] eqn:EI; rewrite ?EI; cbn [rbind] in *; cbn [kset_phr_psdu kset_encoded kset_interleaved kset_scrambled kset_binary k_rate k_h k_fcs k_fec k_sfd k_preamble k_fsk4 k_white k_il k_scheme k_phr_psdu k_encoded k_interleaved k_scrambled k_binary k_SHR] in *;
      [|repeat split; auto; intros b fr E H; specialize (K b fr E H); discriminate].
    unfold k_SHR in *; cbn [kset_phr_psdu kset_encoded kset_interleaved kset_scrambled kset_binary k_rate k_h k_fcs k_fec k_sfd k_preamble k_fsk4 k_white k_il k_scheme k_phr_psdu k_encoded k_interleaved k_scrambled k_binary k_SHR] in *;
    destruct (dict_get sfd_key_eqb (fsk4, sfdg, true) FSK_SFD) as [sf|sf] eqn:ES; cbn [rbind] in *; cbn [kset_phr_psdu kset_encoded kset_interleaved kset_scrambled kset_binary k_rate k_h k_fcs k_fec k_sfd k_preamble k_fsk4 k_white k_il k_scheme k_phr_psdu k_encoded k_interleaved k_scrambled k_binary k_SHR] in *;
    destruct white; cbn [kset_phr_psdu kset_encoded kset_interleaved kset_scrambled kset_binary k_rate k_h k_fcs k_fec k_sfd k_preamble k_fsk4 k_white k_il k_scheme k_phr_psdu k_encoded k_interleaved k_scrambled k_binary k_SHR] in *; rewrite ?ES; cbn [rbind]; cbn [kset_phr_psdu kset_encoded kset_interleaved kset_scrambled kset_binary k_rate k_h k_fcs k_fec k_sfd k_preamble k_fsk4 k_white k_il k_scheme k_phr_psdu k_encoded k_interleaved k_scrambled k_binary k_SHR] in *;
    repeat split; auto; try (intros b fr E H; specialize (K b fr E H); try discriminate; inversion K; subst; reflexivity).
    + cbn [kset_phr_psdu kset_encoded kset_interleaved kset_scrambled kset_binary k_rate k_h k_fcs k_fec k_sfd k_preamble k_fsk4 k_white k_il k_scheme k_phr_psdu k_encoded k_interleaved k_scrambled k_binary k_SHR] in *. cbn [rbind] in *. cbn [kset_phr_psdu kset_encoded kset_interleaved kset_scrambled kset_binary k_rate k_h k_fcs k_fec k_sfd k_preamble k_fsk4 k_white k_il k_scheme k_phr_psdu k_encoded k_interleaved k_scrambled k_binary k_SHR] in *. unfold k_SHR in *; cbn [kset_phr_psdu kset_encoded kset_interleaved kset_scrambled kset_binary k_rate k_h k_fcs k_fec k_sfd k_preamble k_fsk4 k_white k_il k_scheme k_phr_psdu k_encoded k_interleaved k_scrambled k_binary k_SHR] in *;
    destruct (dict_get sfd_key_eqb (fsk4, sfdg, true) FSK_SFD) as [sf|sf] eqn:ES; cbn [rbind] in *; cbn [kset_phr_psdu kset_encoded kset_interleaved kset_scrambled kset_binary k_rate k_h k_fcs k_fec k_sfd k_preamble k_fsk4 k_white k_il k_scheme k_phr_psdu k_encoded k_interleaved k_scrambled k_binary k_SHR] in *;
    destruct white; cbn [kset_phr_psdu kset_encoded kset_interleaved kset_scrambled kset_binary k_rate k_h k_fcs k_fec k_sfd k_preamble k_fsk4 k_white k_il k_scheme k_phr_psdu k_encoded k_interleaved k_scrambled k_binary k_SHR] in *; rewrite ?ES; cbn [rbind]; cbn [kset_phr_psdu kset_encoded kset_interleaved kset_scrambled kset_binary k_rate k_h k_fcs k_fec k_sfd k_preamble k_fsk4 k_white k_il k_scheme k_phr_psdu k_encoded k_interleaved k_scrambled k_binary k_SHR] in *;
    repeat split; auto; try (intros b fr E H; specialize (K b fr E H); try discriminate; inversion K; subst; reflexivity).
  - unfold k_SHR in *; cbn [kset_phr_psdu kset_encoded kset_interleaved kset_scrambled kset_binary k_rate k_h k_fcs k_fec k_sfd k_preamble k_fsk4 k_white k_il k_scheme k_phr_psdu k_encoded k_interleaved k_scrambled k_binary k_SHR] in *;
    destruct (dict_get sfd_key_eqb (fsk4, sfdg, false) FSK_SFD) as [sf|sf] eqn:ES; cbn [rbind] in *; cbn [kset_phr_psdu kset_encoded kset_interleaved kset_scrambled kset_binary k_rate k_h k_fcs k_fec k_sfd k_preamble k_fsk4 k_white k_il k_scheme k_phr_psdu k_encoded k_interleaved k_scrambled k_binary k_SHR] in *;
    destruct white; cbn [kset_phr_psdu kset_encoded kset_interleaved kset_scrambled kset_binary k_rate k_h k_fcs k_fec k_sfd k_preamble k_fsk4 k_white k_il k_scheme k_phr_psdu k_encoded k_interleaved k_scrambled k_binary k_SHR] in *; rewrite ?ES; cbn [rbind]; cbn [kset_phr_psdu kset_encoded kset_interleaved kset_scrambled kset_binary k_rate k_h k_fcs k_fec k_sfd k_preamble k_fsk4 k_white k_il k_scheme k_phr_psdu k_encoded k_interleaved k_scrambled k_binary k_SHR] in *;
    repeat split; auto; try (intros b fr E H; specialize (K b fr E H); try discriminate; inversion K; subst; reflexivity).
Qed.

(** ** header, SHR *)
Definition valid_fsk (s : fsk) : Prop :=
  0 < k_rate s /\ (1 # 4 <= k_h s <= 5 # 2)%Q /\ (k_sfd s = 0 \/ k_sfd s = 1) /\ 4 <= k_preamble s <= 1000
  /\ (k_scheme s = 0 \/ k_scheme s = 1) /\ (k_fcs s = 0 \/ k_fcs s = 1).
Lemma fsk_new_valid rate h sfdg modulation fec scheme fcs white il preamble s :
  fsk_new rate h sfdg modulation fec scheme fcs white il preamble = Ok s -> valid_fsk s.
Proof.
  intro H. pose proof (fsk_new_outcome rate h sfdg modulation fec scheme fcs white il preamble) as K.
  destruct (first_bad _).
  - destruct K as (s' & E & K). rewrite E in H. inversion H; subst s'. unfold valid_fsk. intuition.
  - rewrite K in H. discriminate.
  - rewrite K in H. discriminate.
Qed.
Lemma k_PHR_ok s n : (k_fcs s = 0 \/ k_fcs s = 1) -> 0 <= n < 2048 -> k_PHR s n = Ok (fsk_header (k_fcs s) (k_white s) n).
Proof.
  intros Hf Hn. unfold k_PHR, k_bin. rewrite binary_repr_msb by (change (2 ^ Z.of_nat 11) with 2048; lia).
  rewrite msb_bits_length. cbn [Nat.eqb]. unfold fsk_header. destruct Hf as [-> | ->]; reflexivity.
Qed.
Lemma k_PHR_err s n : 2048 <= n -> k_PHR s n = Err ValueError.
Proof.
  intros Hn. unfold k_PHR, k_bin. pose proof (binary_repr_long n 11 ltac:(lia)) as H.
  change (2 ^ Z.of_nat 11) with 2048 in H. specialize (H Hn). apply Nat.lt_neq in H. apply Nat.neq_sym in H.
  apply Nat.eqb_neq in H. now rewrite H.
Qed.
Lemma fsk_header_length f w n : length (fsk_header f w n) = 16%nat.
Proof. unfold fsk_header. rewrite app_length, msb_bits_length. reflexivity. Qed.
Lemma k_SHR_ok s : valid_fsk s ->
  k_SHR s = Ok (tile (Z.to_nat (k_preamble s)) (preamble_unit (k_fsk4 s)) ++ sfd (k_fsk4 s) (k_sfd s) (k_fec s)).
Proof.
  intros (_ & _ & Hs & _). unfold k_SHR, tile. destruct (k_fsk4 s), (k_fec s), Hs as [-> | ->]; reflexivity.
Qed.
Definition shr_bits (s : fsk) : list bool :=
  tile (Z.to_nat (k_preamble s)) (preamble_unit (k_fsk4 s)) ++ sfd (k_fsk4 s) (k_sfd s) (k_fec s).
Lemma tile_length {A} n (l : list A) : length (tile n l) = (n * length l)%nat.
Proof. unfold tile. induction n; simpl; [reflexivity|]. rewrite app_length, IHn. lia. Qed.
Lemma sfd_length f g c : length (sfd f g c) = if f then 32%nat else 16%nat.
Proof. unfold sfd, bits_of. rewrite map_length. destruct f, (g =? 0), c; reflexivity. Qed.
Definition shr_len (s : fsk) : nat :=
  Z.to_nat (k_preamble s * (if k_fsk4 s then 16 else 8) + (if k_fsk4 s then 32 else 16)).
Lemma shr_bits_length s : valid_fsk s -> length (shr_bits s) = shr_len s.
Proof.
  intros (_ & _ & _ & H & _). unfold shr_bits, shr_len. rewrite app_length, tile_length, sfd_length.
  destruct (k_fsk4 s); cbn [preamble_unit bits_of map length]; lia.
Qed.

(** ** coded part *)
Lemma whiten_scrambler l : scrambler l 511 = whiten l.
Proof. 
  apply list_eq_nth with false.
  - rewrite scrambler_length. unfold whiten. now rewrite map_length, seq_length.
  - rewrite scrambler_length. intros i Hi. rewrite scrambler_nth by assumption. unfold whiten. now rewrite nth_map_seq.
Qed.
Definition chk_dec scheme : bool :=
  forallb (fun s => forallb (fun b =>
    let '(s', (u1, u0)) := fstep scheme s b in
    let m1 := Z.testbit s 2 in let m2 := Z.testbit s 1 in let m3 := Z.testbit s 0 in
    Bool.eqb (if scheme =? 0 then xorb (negb u0) (xorb m1 (xorb m2 m3)) else u0) b
    && Bool.eqb (Z.testbit s' 2) (if scheme =? 0 then b else xorb b (xorb m1 (xorb m2 m3)))
    && Bool.eqb (Z.testbit s' 1) m1 && Bool.eqb (Z.testbit s' 0) m2) bools) (states 8).
Lemma fec_decode_enc scheme s x : scheme = 0 \/ scheme = 1 -> 0 <= s < 8 ->
  fec_decode scheme (Z.testbit s 2) (Z.testbit s 1) (Z.testbit s 0) (enc (fstep scheme) s x) = x.
Proof.
  intro Hsc. revert s. induction x as [|b x IH]; intros s Hs; [reflexivity|].
  rewrite enc_cons. pose proof (f_range scheme s b Hs) as Hr. specialize (IH _ Hr).
  assert (Hc : chk_dec scheme = true) by (destruct Hsc as [-> | ->]; vm_compute; reflexivity).
  pose proof (states_forall 8 _ Hc s Hs) as H1. cbv beta in H1. pose proof (bools_forall _ H1 b) as H2. cbv beta in H2.
  destruct (fstep scheme s b) as [s' [u1 u0]]. cbn [fst snd] in *. cbv zeta in H2.
  rewrite !andb_true_iff in H2. destruct H2 as (((A & B) & C) & D).
  apply eqb_prop in A, B, C, D. cbn [fec_decode]. rewrite C, D in IH.
  destruct Hsc as [-> | ->]; cbn [Z.eqb] in *; cbv zeta; rewrite ?A in *; rewrite B in IH; now rewrite IH.
Qed.
Lemma fec_decode_enc0 scheme x : scheme = 0 \/ scheme = 1 ->
  fec_decode scheme false false false (enc (fstep scheme) 0 x) = x.
Proof. intro H. apply (fec_decode_enc scheme 0 x H). lia. Qed.

Lemma source_pair_il j : (j < 32)%nat -> (2 * source_pair (j / 2) + Nat.modulo j 2 = il_pos j)%nat.
Proof.
  intro H. assert (E : forallb (fun j => Nat.eqb (2 * source_pair (j / 2) + Nat.modulo j 2) (il_pos j)) (seq 0 32) = true) by (vm_compute; reflexivity).
  rewrite forallb_forall in E. apply Nat.eqb_eq, E, in_seq. lia.
Qed.
Lemma deinterleave_spec l : Nat.modulo (length l) 32 = 0%nat -> deinterleave l = f_interleave l.
Proof.
  intro H. apply list_eq_nth with false.
  - rewrite f_interleave_length by assumption. unfold deinterleave. now rewrite map_length, seq_length.
  - unfold deinterleave at 1. rewrite map_length, seq_length. intros i Hi. unfold deinterleave.
    rewrite nth_map_seq by assumption. cbv zeta.
    pose proof (Nat.div_mod i 32 ltac:(lia)) as Hd. pose proof (Nat.mod_upper_bound i 32 ltac:(lia)).
    rewrite Hd at 4. rewrite f_interleave_nth; try assumption; [|lia].
    f_equal. rewrite <- source_pair_il by assumption.
    replace (Nat.modulo (Nat.modulo i 32) 2) with (Nat.modulo i 2); [lia|].
    rewrite Hd at 1. replace (32 * (i / 32) + Nat.modulo i 32)%nat with (Nat.modulo i 32 + (16 * (i / 32)) * 2)%nat by lia.
    now rewrite Nat.mod_add.
Qed.

(** the coded stream of header and payload fills whole blocks iff the payload is whole octets *)
Lemma coded_length scheme x :
  length (enc (fstep scheme) 0 (f_input scheme x)) = (2 * (length x + 3 + length (f_pad (length x))))%nat.
Proof. now rewrite enc_length, f_input_length. Qed.
Lemma coded_blocks scheme x :
  Nat.modulo (length (enc (fstep scheme) 0 (f_input scheme x))) 32 = 0%nat <-> Nat.modulo (length x) 8 = 0%nat.
Proof.
  rewrite coded_length, f_pad_length.
  pose proof (Nat.div_mod (length x) 8 ltac:(lia)) as Hd. pose proof (Nat.mod_upper_bound (length x) 8 ltac:(lia)).
  replace (Z.of_nat (length x) / 8) with (Z.of_nat (length x / 8)) by (rewrite Nat2Z.inj_div; reflexivity).
  set (q := (length x / 8)%nat) in *. set (r := Nat.modulo (length x) 8) in *. rewrite Hd.
  destruct (Z.even (Z.of_nat q)) eqn:E; rewrite Z.even_spec in E || (rewrite <- Z.negb_odd, Bool.negb_false_iff, Z.odd_spec in E).
  - destruct E as [k E]. replace (2 * (8 * q + r + 3 + 13))%nat with (2 * r + (Z.to_nat k + 1) * 32)%nat by lia.
    rewrite Nat.mod_add, Nat.mod_small by lia. lia.
  - destruct E as [k E]. replace (2 * (8 * q + r + 3 + 5))%nat with (2 * r + (Z.to_nat k + 1) * 32)%nat by lia.
    rewrite Nat.mod_add, Nat.mod_small by lia. lia.
Qed.

(** header and payload before whitening, for a payload the configuration can carry *)
Definition carries (s : fsk) (bits : list bool) : Prop :=
  zlen bits / 8 < 2048 /\ (k_fec s = true -> k_il s = true -> Nat.modulo (length bits) 8 = 0%nat).
Definition hdr (s : fsk) (bits : list bool) := fsk_header (k_fcs s) (k_white s) (zlen bits / 8).
Definition body (s : fsk) (bits : list bool) : list bool :=
  if k_fec s then
    let e := enc (fstep (k_scheme s)) 0 (f_input (k_scheme s) (hdr s bits ++ bits)) in
    if k_il s then f_interleave e else e
  else hdr s bits ++ bits.
Lemma hdr_app_mod s bits : Nat.modulo (length (hdr s bits ++ bits)) 8 = Nat.modulo (length bits) 8.
Proof.
  unfold hdr. rewrite app_length, fsk_header_length. replace (16 + length bits)%nat with (length bits + 2 * 8)%nat by lia.
  apply Nat.mod_add. lia.
Qed.
Lemma f_frame_ok s bits : valid_fsk s -> carries s bits ->
  f_frame s bits = Ok (shr_bits s ++ f_white s (body s bits)).
Proof.
  intros Hv [Hn Hi]. pose proof Hv as (_ & _ & _ & _ & _ & Hf). unfold f_frame.
  pose proof (zlen_nonneg bits). assert (0 <= zlen bits / 8) by (apply Z.div_pos; lia).
  rewrite k_PHR_ok by (auto; lia). cbn [rbind]. fold (hdr s bits).
  assert (E : f_body s (hdr s bits ++ bits) = Ok (body s bits)).
  { unfold f_body, body. destruct (k_fec s); [|reflexivity]. rewrite k_FEC_spec. cbn [rbind].
    destruct (k_il s); [|reflexivity]. apply k_interleaver_ok. apply coded_blocks. rewrite hdr_app_mod. auto. }
  rewrite E. cbn [rbind]. rewrite k_SHR_ok by assumption. reflexivity.
Qed.
Lemma f_frame_err s bits : valid_fsk s -> ~ carries s bits -> f_frame s bits = Err ValueError.
Proof.
  intros Hv H. pose proof Hv as (_ & _ & _ & _ & _ & Hf). unfold f_frame.
  pose proof (zlen_nonneg bits). assert (0 <= zlen bits / 8) by (apply Z.div_pos; lia).
  destruct (Z.ltb_spec (zlen bits / 8) 2048).
  - rewrite k_PHR_ok by (auto; lia). cbn [rbind]. fold (hdr s bits). unfold f_body.
    destruct (k_fec s) eqn:E1; [|exfalso; apply H; split; [assumption|congruence]].
    rewrite k_FEC_spec. cbn [rbind].
    destruct (k_il s) eqn:E2; [|exfalso; apply H; split; [assumption|congruence]].
    rewrite k_interleaver_err; [reflexivity|]. rewrite coded_blocks, hdr_app_mod. intro E. apply H. split; auto.
  - rewrite k_PHR_err by lia. reflexivity.
Qed.
Lemma carries_dec s bits : {carries s bits} + {~ carries s bits}.
Proof.
  unfold carries. destruct (Z_lt_dec (zlen bits / 8) 2048); [|right; tauto].
  destruct (k_fec s), (k_il s), (Nat.eq_dec (Nat.modulo (length bits) 8) 0); first [left; split; [assumption|intros; congruence]|right; intros [_ H]; specialize (H eq_refl eq_refl); congruence].
Qed.
Lemma f_frame_inv s bits fr : valid_fsk s -> f_frame s bits = Ok fr ->
  carries s bits /\ fr = shr_bits s ++ f_white s (body s bits).
Proof.
  intros Hv H. destruct (carries_dec s bits) as [C|C].
  - rewrite f_frame_ok in H by assumption. inversion H. auto.
  - rewrite f_frame_err in H by assumption. discriminate.
Qed.

Lemma skipn_exact {A} (a b : list A) n : length a = n -> skipn n (a ++ b) = b.
Proof. intros <-. now rewrite skipn_app, skipn_all, Nat.sub_diag. Qed.
Lemma firstn_exact {A} (a b : list A) n : length a = n -> firstn n (a ++ b) = a.
Proof. intros <-. now rewrite firstn_app, firstn_all, Nat.sub_diag, app_nil_r. Qed.

Lemma body_length s bits : carries s bits ->
  length (body s bits) = if k_fec s
    then (2 * (16 + length bits + 3 + if Z.even (zlen bits / 8) then 13 else 5))%nat
    else (16 + length bits)%nat.
Proof.
  intros [_ C]. unfold body, hdr. destruct (k_fec s); [|now rewrite app_length, fsk_header_length]. cbv zeta.
  assert (L : length (enc (fstep (k_scheme s)) 0 (f_input (k_scheme s) (fsk_header (k_fcs s) (k_white s) (zlen bits / 8) ++ bits)))
     = (2 * (16 + length bits + 3 + (if Z.even (zlen bits / 8) then 13 else 5)))%nat).
  { rewrite coded_length, f_pad_length, app_length, fsk_header_length.
    replace (Z.of_nat (16 + length bits) / 8) with (zlen bits / 8 + 2).
    - rewrite Z.even_add. change (Z.even 2) with true. destruct (Z.even (zlen bits / 8)); reflexivity.
    - unfold zlen. rewrite Nat2Z.inj_add. replace (Z.of_nat 16 + Z.of_nat (length bits)) with (Z.of_nat (length bits) + 2 * 8) by lia.
      rewrite Z.div_add by lia. reflexivity. }
  destruct (k_il s); [|exact L]. rewrite f_interleave_length; [exact L|].
  apply coded_blocks. fold (hdr s bits). rewrite hdr_app_mod. auto.
Qed.

(** the part before the payload is the (coded) header alone *)
Definition hdr_part (s : fsk) (h : list bool) : list bool :=
  if k_fec s then let e := enc (fstep (k_scheme s)) 0 h in if k_il s then il_block e else e else h.
Lemma body_split s bits : carries s bits ->
  exists rest, body s bits = hdr_part s (hdr s bits) ++ rest /\ length (hdr_part s (hdr s bits)) = f_start s.
Proof.
  intros [_ C]. unfold body, hdr_part, f_start. destruct (k_fec s) eqn:E1; [|exists bits; split; [reflexivity|apply fsk_header_length]].
  cbv zeta. set (h := hdr s bits).
  assert (Lh : length (enc (fstep (k_scheme s)) 0 h) = 32%nat) by (unfold h, hdr; now rewrite enc_length, fsk_header_length).
  assert (E : enc (fstep (k_scheme s)) 0 (f_input (k_scheme s) (h ++ bits)) =
     enc (fstep (k_scheme s)) 0 h ++ enc (fstep (k_scheme s)) (fin (fstep (k_scheme s)) 0 h)
        (bits ++ f_tail (k_scheme s) (fin (fstep (k_scheme s)) 0 (h ++ bits)) ++ f_pad (length (h ++ bits)))).
  { unfold f_input. rewrite <- (app_assoc h), enc_app. reflexivity. }
  rewrite E. destruct (k_il s).
  - rewrite f_interleave_app by assumption. eexists. split; [reflexivity|]. now apply il_block_length.
  - eexists. split; [reflexivity|assumption].
Qed.

(** ** the receiver *)
Lemma il_block_single a : length a = 32%nat -> deinterleave (il_block a) = a.
Proof.
  intro H. rewrite deinterleave_spec by now rewrite il_block_length.
  replace (il_block a) with (f_interleave a).
  - apply f_interleave_inv. now rewrite H.
  - rewrite <- (app_nil_r a) at 1. rewrite f_interleave_app by assumption. apply app_nil_r.
Qed.
Lemma f_white_split s p q : length p = f_start s ->
  f_white s (p ++ q) = p ++ (if k_white s then whiten q else q).
Proof.
  intro H. unfold f_white. destruct (k_white s); [|reflexivity].
  rewrite firstn_exact, skipn_exact by assumption. now rewrite whiten_scrambler.
Qed.
Lemma whiten_inv l : whiten (whiten l) = l.
Proof. rewrite <- !whiten_scrambler. apply scrambler_involutive. Qed.

Definition unpack (s : fsk) (l : list bool) : list bool :=
  if k_fec s then fec_decode (k_scheme s) false false false (if k_il s then deinterleave l else l) else l.
Lemma unpack_hdr s h : valid_fsk s -> length h = 16%nat -> unpack s (hdr_part s h) = h.
Proof.
  intros (_ & _ & _ & _ & Hs & _) H. unfold unpack, hdr_part. destruct (k_fec s); [|reflexivity]. cbv zeta.
  destruct (k_il s); [rewrite il_block_single by now rewrite enc_length, H|]; now apply fec_decode_enc0.
Qed.
Lemma unpack_body s bits : valid_fsk s -> carries s bits ->
  unpack s (body s bits) = if k_fec s then f_input (k_scheme s) (hdr s bits ++ bits) else hdr s bits ++ bits.
Proof.
  intros (_ & _ & _ & _ & Hs & _) [_ C]. unfold unpack, body. destruct (k_fec s); [|reflexivity]. cbv zeta.
  destruct (k_il s); [|now apply fec_decode_enc0].
  assert (M : Nat.modulo (length (enc (fstep (k_scheme s)) 0 (f_input (k_scheme s) (hdr s bits ++ bits)))) 32 = 0%nat)
    by (apply coded_blocks; rewrite hdr_app_mod; auto).
  rewrite deinterleave_spec by (rewrite f_interleave_length; assumption).
  rewrite f_interleave_inv by assumption. now apply fec_decode_enc0.
Qed.
Lemma msb_value_hdr f w n : 0 <= n < 2048 -> msb_value (skipn 5 (fsk_header f w n)) = n.
Proof. intro H. unfold fsk_header. cbn [skipn app]. apply msb_value_msb_bits. exact H. Qed.

Lemma receiver_spec s bits fr : valid_fsk s -> f_frame s bits = Ok fr ->
  fsk_receiver (k_fsk4 s) (k_preamble s) (k_fec s) (k_il s) (k_scheme s) fr
  = {| rx_fcs := k_fcs s; rx_white := k_white s; rx_octets := zlen bits / 8; rx_payload := bits |}.
Proof.
  intros Hv Hfr. destruct (f_frame_inv s bits fr Hv Hfr) as [C E]. subst fr.
  unfold fsk_receiver. fold (shr_len s). rewrite skipn_exact by now apply shr_bits_length.
  change (if k_fec s then 32%nat else 16%nat) with (f_start s).
  destruct (body_split s bits C) as (rest & Eb & Lp).
  rewrite Eb, f_white_split by assumption. rewrite firstn_exact, skipn_exact by assumption. cbv zeta.
  fold (unpack s (hdr_part s (hdr s bits))).
  rewrite unpack_hdr by (auto; apply fsk_header_length).
  assert (N4 : nth 4 (hdr s bits) false = k_white s) by reflexivity.
  assert (N3 : (if nth 3 (hdr s bits) false then 1 else 0) = k_fcs s).
  { pose proof Hv as (_ & _ & _ & _ & _ & Hf). unfold hdr, fsk_header. cbn [nth app]. destruct Hf as [-> | ->]; reflexivity. }
  pose proof (zlen_nonneg bits). assert (0 <= zlen bits / 8) by (apply Z.div_pos; lia).
  assert (NV : msb_value (skipn 5 (hdr s bits)) = zlen bits / 8) by (apply msb_value_hdr; destruct C; lia).
  rewrite N4, N3, NV.
  replace (if k_white s then whiten (if k_white s then whiten rest else rest) else if k_white s then whiten rest else rest)
    with rest by (destruct (k_white s); [now rewrite whiten_inv|reflexivity]).
  rewrite <- Eb. fold (unpack s (body s bits)). rewrite unpack_body by assumption.
  f_equal.
  destruct (k_fec s) eqn:E1.
  - rewrite f_input_length. unfold f_input. rewrite <- app_assoc.
    rewrite skipn_exact by apply fsk_header_length.
    apply firstn_exact. rewrite f_pad_length, app_length. unfold hdr. rewrite fsk_header_length.
    replace (Z.of_nat (16 + length bits) / 8) with (zlen bits / 8 + 2).
    + rewrite Z.even_add. change (Z.even 2) with true. destruct (Z.even (zlen bits / 8)); cbn [Bool.eqb]; lia.
    + unfold zlen. rewrite Nat2Z.inj_add. replace (Z.of_nat 16 + Z.of_nat (length bits)) with (Z.of_nat (length bits) + 2 * 8) by lia.
      rewrite Z.div_add by lia. reflexivity.
  - rewrite skipn_exact by apply fsk_header_length. rewrite app_length. unfold hdr. rewrite fsk_header_length.
    replace (16 + length bits - 16 - 0)%nat with (length bits) by lia. apply firstn_all.
Qed.

(** ** modulation *)
Definition phases (s : fsk) (fr : list bool) : list Q :=
  map (fun i => inject_Z (symbol_tone (k_fsk4 s) fr (i / 20)) * k_h s * (Z.of_nat i # 40))%Q
      (seq 0 (20 * symbols (k_fsk4 s) fr)).
Definition whole_symbols (s : fsk) (fr : list bool) : bool := negb (k_fsk4 s) || Nat.even (length fr).
Lemma skipn_cons_nth {A} n (l : list A) d : (n < length l)%nat -> skipn n l = nth n l d :: skipn (S n) l.
Proof. revert n. induction l; intros [|n] H; simpl in *; try lia; auto. apply IHl. lia. Qed.
Lemma freqs_ok s fr rows : reshape_rows (if k_fsk4 s then 2 else 1) fr = Ok rows ->
  mapM (fsk_freq (k_fsk4 s)) rows = Ok (map (symbol_tone (k_fsk4 s) fr) (seq 0 (symbols (k_fsk4 s) fr))).
Proof.
  unfold symbols. intro H. destruct (Nat.eq_dec (Nat.modulo (length fr) (if k_fsk4 s then 2 else 1)) 0) as [M|M].
  2: { rewrite reshape_rows_err in H by assumption. discriminate. }
  rewrite reshape_rows_ok in H by assumption. inversion H; subst rows. clear H.
  rewrite chunks_as_map by (auto; destruct (k_fsk4 s); lia).
  assert (D : forall k, mapM (fsk_freq (k_fsk4 s)) (map (fun j => firstn (if k_fsk4 s then 2 else 1) (skipn (j * (if k_fsk4 s then 2 else 1)) fr)) k)
     = mapM (fun j => fsk_freq (k_fsk4 s) (firstn (if k_fsk4 s then 2 else 1) (skipn (j * (if k_fsk4 s then 2 else 1)) fr))) k).
  { induction k as [|j k IH]; [reflexivity|]. cbn [map mapM]. now rewrite IH. }
  rewrite D. destruct (k_fsk4 s).
  - rewrite mapM_map with (g := symbol_tone true fr); [reflexivity|]. intros j Hj. apply in_seq in Hj.
    pose proof (Nat.div_mod (length fr) 2 ltac:(lia)).
    rewrite (skipn_cons_nth (j * 2) fr false) by lia. rewrite (skipn_cons_nth (S (j * 2)) fr false) by lia.
    unfold symbol_tone. replace (2 * j)%nat with (j * 2)%nat by lia. rewrite Nat.add_1_r.
    cbn [firstn]. destruct (nth (j * 2) fr false), (nth (S (j * 2)) fr false); reflexivity.
  - rewrite Nat.div_1_r. rewrite mapM_map with (g := symbol_tone false fr); [reflexivity|]. intros j Hj. apply in_seq in Hj.
    rewrite Nat.mul_1_r. rewrite (skipn_cons_nth j fr false) by lia. cbn [firstn].
    unfold symbol_tone. destruct (nth j fr false); reflexivity.
Qed.
Lemma whole_mod s fr : whole_symbols s fr = true <-> Nat.modulo (length fr) (if k_fsk4 s then 2 else 1) = 0%nat.
Proof.
  unfold whole_symbols. destruct (k_fsk4 s); cbn [negb orb]; [|rewrite Nat.mod_1_r; tauto].
  rewrite Nat.even_spec. split.
  - intros [k E]. rewrite E, Nat.mul_comm. apply Nat.mod_mul. lia.
  - intro E. apply Nat.mod_divides in E; [|lia]. destruct E as [k E]. now exists k.
Qed.
Lemma FSKModulator_spec s fr :
  FSKModulator s fr 20 =
  if whole_symbols s fr then
    let n := 20 * Z.of_nat (symbols (k_fsk4 s) fr) in
    match arange_size (k_rate s) 20 n with
    | Some m => if m =? n then Ok {| sig_phase := phases s fr; sig_f := k_rate s * 20 |} else Err ValueError
    | None => Err ValueError
    end
  else Err ValueError.
Proof.
  unfold FSKModulator. destruct (whole_symbols s fr) eqn:W.
  - apply whole_mod in W. destruct (reshape_rows (if k_fsk4 s then 2 else 1) fr) as [rows|] eqn:E; [|rewrite reshape_rows_ok in E by assumption; discriminate].
    cbn [rbind]. rewrite (freqs_ok s fr rows E). cbn [rbind]. change (Z.to_nat 20) with 20%nat.
    set (fl := flat_map _ _).
    assert (L : length fl = (20 * symbols (k_fsk4 s) fr)%nat)
      by (unfold fl; rewrite flat_map_repeat_length, map_length, seq_length; lia).
    assert (LZ : zlen fl = 20 * Z.of_nat (symbols (k_fsk4 s) fr)) by (unfold zlen; lia).
    rewrite LZ. cbv zeta. destruct (arange_size (k_rate s) 20 _) as [m|]; [|reflexivity].
    destruct (m =? _); [|reflexivity]. do 2 f_equal.
    rewrite L. unfold phases. apply list_eq_nth with 0%Q.
    + rewrite map2_length, map_length, !seq_length. lia.
    + rewrite map2_length, seq_length, L, Nat.min_id. intros i Hi.
      rewrite map2_nth with (da := 0) (db := 0%nat) by (rewrite ?seq_length; lia).
      rewrite nth_map_seq by assumption. rewrite seq_nth by assumption. rewrite Nat.add_0_l.
      unfold fl. rewrite flat_map_repeat_nth by lia. reflexivity.
  - rewrite reshape_rows_err; [reflexivity|]. rewrite <- whole_mod. congruence.
Qed.
Lemma phases_length s fr : length (phases s fr) = (20 * symbols (k_fsk4 s) fr)%nat.
Proof. unfold phases. now rewrite map_length, seq_length. Qed.
Lemma phases_nth s fr j i : (j < symbols (k_fsk4 s) fr)%nat -> (i < 20)%nat ->
  nth (20 * j + i) (phases s fr) 0%Q = (inject_Z (symbol_tone (k_fsk4 s) fr j) * k_h s * (Z.of_nat (20 * j + i) # 40))%Q.
Proof.
  intros Hj Hi. unfold phases. rewrite nth_map_seq by lia.
  replace ((20 * j + i) / 20)%nat with j; [reflexivity|].
  rewrite Nat.mul_comm, Nat.div_add_l by lia. rewrite Nat.div_small by lia. lia.
Qed.
Lemma symbol_tone_cases f fr j : symbol_tone f fr j = -3 \/ symbol_tone f fr j = -1 \/ symbol_tone f fr j = 1 \/ symbol_tone f fr j = 3.
Proof.
  unfold symbol_tone, tone2, tone4. destruct f.
  - destruct (nth (2 * j) fr false), (nth (2 * j + 1) fr false); cbn; auto.
  - destruct (nth j fr false); auto.
Qed.
(** the tones give the frame back *)
Lemma tones_inj f a b : (f = true -> Nat.even (length a) = true /\ Nat.even (length b) = true) ->
  symbols f a = symbols f b -> (forall j, (j < symbols f a)%nat -> symbol_tone f a j = symbol_tone f b j) -> a = b.
Proof.
  intros He Hs Ht. unfold symbols, symbol_tone in *. destruct f.
  - destruct (He eq_refl) as [Ea Eb]. apply Nat.even_spec in Ea as [ka Ka], Eb as [kb Kb].
    rewrite Ka, Kb in Hs. rewrite (Nat.mul_comm 2 ka), (Nat.mul_comm 2 kb), !Nat.div_mul in Hs by lia. subst kb.
    apply list_eq_nth with false; [lia|]. intros i Hi.
    assert (J : (i / 2 < length a / 2)%nat).
    { rewrite Ka, Nat.mul_comm, Nat.div_mul by lia. apply Nat.div_lt_upper_bound; lia. }
    specialize (Ht (i / 2)%nat J). unfold tone4 in Ht.
    pose proof (Nat.div_mod i 2 ltac:(lia)) as Hd. pose proof (Nat.mod_upper_bound i 2 ltac:(lia)).
    destruct (Nat.eq_dec (Nat.modulo i 2) 0) as [M|M].
    + replace i with (2 * (i / 2))%nat by lia.
      destruct (nth (2 * (i / 2)) a false), (nth (2 * (i / 2) + 1) a false), (nth (2 * (i / 2)) b false), (nth (2 * (i / 2) + 1) b false); cbn in Ht; try reflexivity; lia.
    + replace i with (2 * (i / 2) + 1)%nat by lia.
      destruct (nth (2 * (i / 2)) a false), (nth (2 * (i / 2) + 1) a false), (nth (2 * (i / 2)) b false), (nth (2 * (i / 2) + 1) b false); cbn in Ht; try reflexivity; lia.
  - apply list_eq_nth with false; [assumption|]. intros i Hi. specialize (Ht i Hi). unfold tone2 in Ht.
    destruct (nth i a false), (nth i b false); auto; lia.
Qed.
(** equal samples carry equal tones *)
Lemma tone_of_samples h x y n : (1 # 4 <= h <= 5 # 2)%Q ->
  x = -3 \/ x = -1 \/ x = 1 \/ x = 3 -> y = -3 \/ y = -1 \/ y = 1 \/ y = 3 ->
  same_sample (inject_Z x * h * (Z.of_nat n # 40)) (inject_Z y * h * (Z.of_nat n # 40)) ->
  same_sample (inject_Z x * h * (Z.of_nat (n + 1) # 40)) (inject_Z y * h * (Z.of_nat (n + 1) # 40)) -> x = y.
Proof.
  intros Hh Hx Hy [k1 H1] [k2 H2].
  assert (E : (inject_Z (x - y) * h * (1 # 40) == inject_Z (k2 - k1))%Q).
  { unfold Z.sub. rewrite !inject_Z_plus, !inject_Z_opp. rewrite <- H1, <- H2.
    assert (A : (Z.of_nat (n + 1) # 40 == (Z.of_nat n # 40) + (1 # 40))%Q).
    { rewrite Nat2Z.inj_add. unfold Qeq, Qplus. cbn [Qnum Qden]. lia. }
    rewrite A. ring. }
  destruct (Z.eq_dec x y) as [|D]; [assumption|exfalso].
  assert (B : exists d, (x - y = 2 * d) /\ d <> 0 /\ -3 <= d <= 3).
  { intuition subst; try congruence; eexists; (split; [|split]);
    match goal with |- _ = 2 * ?d => (instantiate (1 := 3); lia) || (instantiate (1 := 2); lia) || (instantiate (1 := 1); lia)
       || (instantiate (1 := -1); lia) || (instantiate (1 := -2); lia) || (instantiate (1 := -3); lia) | _ => lia end. }
  destruct B as (d & Ed & Hd & Rd). rewrite Ed in E.
  destruct h as [hn hd]. destruct Hh as [Ha Hb]. unfold Qle in Ha, Hb. cbn [Qnum Qden] in Ha, Hb.
  unfold Qeq, Qmult, inject_Z in E. cbn [Qnum Qden] in E. rewrite !Pos2Z.inj_mul in E.
  set (k := k2 - k1) in *. set (D0 := Z.pos hd) in *.
  assert (0 < D0) by (unfold D0; lia).
  assert (E2 : 2 * d * hn = k * (40 * D0)) by lia.
  assert (k <> 0) by (intro; subst k; nia).
  assert (-3 <= d <= 3) by assumption. 
  assert (4 * hn >= D0) by lia. assert (2 * hn <= 5 * D0) by lia.
  assert (k <= -1 \/ 1 <= k) by lia. destruct H4; nia.
Qed.
Lemma samples_inj s a b : (1 # 4 <= k_h s <= 5 # 2)%Q ->
  whole_symbols s a = true -> whole_symbols s b = true ->
  Forall2 same_sample (phases s a) (phases s b) -> a = b.
Proof.
  intros Hh Wa Wb F.
  assert (N : forall i, (i < length (phases s a))%nat -> same_sample (nth i (phases s a) 0%Q) (nth i (phases s b) 0%Q)).
  { intros i Hi. clear -F Hi. revert i Hi. induction F; intros i Hi; cbn in Hi; [lia|]. destruct i; [assumption|]. cbn. apply IHF. lia. }
  assert (L : length (phases s a) = length (phases s b)) by (clear -F; induction F; cbn; auto).
  rewrite phases_length in N. rewrite !phases_length in L.
  apply tones_inj with (f := k_fsk4 s).
  - intro E. unfold whole_symbols in *. rewrite E in *. auto.
  - lia.
  - intros j Hj.
    pose proof (N (20 * j + 0)%nat ltac:(lia)) as N0. pose proof (N (20 * j + 1)%nat ltac:(lia)) as N1.
    rewrite !phases_nth in N0, N1 by lia.
    apply (tone_of_samples (k_h s) _ _ (20 * j + 0)%nat Hh); try apply symbol_tone_cases.
    + exact N0.
    + replace (20 * j + 0 + 1)%nat with (20 * j + 1)%nat by lia. exact N1.
Qed.

(** ** histories *)
Inductive fsk_call := CallBits (a : arg) | CallBytes (a : arg) | CallSwitch (entry fec : pyval).
Definition fsk_do (c : fsk_call) (s : fsk) : fsk :=
  match c with
  | CallBits a => fst (k_bitsToIQ a s)
  | CallBytes a => fst (k_bytesToIQ a s)
  | CallSwitch e f => fst (k_modeSwitchToIQ e f s)
  end.
Definition fsk_history (cs : list fsk_call) (s : fsk) : fsk := fold_left (fun s c => fsk_do c s) cs s.
(** an object built by the constructor and then used in any way *)
Definition fsk_object (s : fsk) : Prop :=
  exists rate h sfdg modulation fec scheme fcs white il preamble s0 calls,
    fsk_new rate h sfdg modulation fec scheme fcs white il preamble = Ok s0 /\ s = fsk_history calls s0.

Lemma bits_config a s : same_config s (fst (k_bitsToIQ a s)).
Proof. pose proof (bits_master a s) as H. destruct (k_bitsToIQ a s). cbn. tauto. Qed.
Lemma bits_result a s : snd (k_bitsToIQ a s) = f_call s a.
Proof. pose proof (bits_master a s) as H. destruct (k_bitsToIQ a s). cbn. tauto. Qed.
Lemma bytes_config a s : same_config s (fst (k_bytesToIQ a s)).
Proof.
  unfold k_bytesToIQ, sbind, slift. destruct (to_binary_array a); [apply bits_config|apply same_config_refl].
Qed.
Lemma bytes_result a s : snd (k_bytesToIQ a s) = do bits <- to_binary_array a; f_call s (bits_arg bits).
Proof.
  unfold k_bytesToIQ, sbind, slift. destruct (to_binary_array a); [apply bits_result|reflexivity].
Qed.
Lemma history_config cs s : same_config s (fsk_history cs s).
Proof.
  revert s. induction cs as [|c cs IH]; intro s; [apply same_config_refl|]. cbn [fsk_history fold_left].
  eapply same_config_trans; [|apply IH]. destruct c; cbn [fsk_do]; [apply bits_config|apply bytes_config|].
  unfold k_modeSwitchToIQ, slift. apply same_config_refl.
Qed.
Lemma valid_config s t : same_config s t -> valid_fsk s -> valid_fsk t.
Proof.
  intros (A & B & C & D & E & F & G & H & I & J). unfold valid_fsk. now rewrite <- A, <- B, <- C, <- E, <- F, <- J.
Qed.
Lemma object_valid s : fsk_object s -> valid_fsk s.
Proof.
  intros (? & ? & ? & ? & ? & ? & ? & ? & ? & ? & s0 & cs & E & ->).
  apply valid_config with s0; [apply history_config|]. now apply fsk_new_valid in E.
Qed.

(** ** the codes as recurrences *)
Section Codes.
  Variable x : list bool.
  Let b (n : nat) : bool := nth n x false.
  Definition nr_state (n : nat) : Z := 4 * b2z (at_ b n 1) + 2 * b2z (at_ b n 2) + b2z (at_ b n 3).
  Lemma at_S w n k : at_ w (S n) (S k) = at_ w n k.
  Proof. reflexivity. Qed.
  Lemma at_0 w n : at_ w n 0 = w n.
  Proof. unfold at_. cbn [Nat.leb]. now rewrite Nat.sub_0_r. Qed.
  Lemma nrnsc_step c m1 m2 m3 :
    fstep 0 (4 * b2z m1 + 2 * b2z m2 + b2z m3) c =
    (4 * b2z c + 2 * b2z m1 + b2z m2, (negb (xorb c (xorb m2 m3)), negb (xorb c (xorb m1 (xorb m2 m3))))).
  Proof. destruct c, m1, m2, m3; vm_compute; reflexivity. Qed.
  Lemma rsc_step c m1 m2 m3 :
    fstep 1 (4 * b2z m1 + 2 * b2z m2 + b2z m3) c =
    let w := xorb c (xorb m1 (xorb m2 m3)) in
    (4 * b2z w + 2 * b2z m1 + b2z m2, (xorb w (xorb m2 m3), c)).
  Proof. destruct c, m1, m2, m3; vm_compute; reflexivity. Qed.
  Lemma firstn_S_nth {A} n (l : list A) d : (n < length l)%nat -> firstn (S n) l = firstn n l ++ [nth n l d].
  Proof. revert n. induction l; intros [|n] H; simpl in *; try lia; auto. f_equal. apply IHl. lia. Qed.
  Lemma nr_fin n : (n <= length x)%nat -> fin (fstep 0) 0 (firstn n x) = nr_state n.
  Proof.
    induction n as [|n IH]; intro H; [reflexivity|].
    rewrite (firstn_S_nth n x false) by lia. rewrite fin_app, IH by lia. cbn [fin].
    unfold nr_state at 1. rewrite nrnsc_step. cbn [fst]. unfold nr_state. rewrite !at_S, at_0. reflexivity.
  Qed.
  Lemma nrnsc_code : enc (fstep 0) 0 x = flat_map (nrnsc_pair b) (seq 0 (length x)).
  Proof.
    rewrite enc_out_at. apply flat_map_ext_in'. intros n Hn. apply in_seq in Hn. unfold out_at. rewrite nr_fin by lia.
    unfold nr_state. rewrite nrnsc_step. cbn [fst snd]. reflexivity.
  Qed.
  (** register contents of the recursive encoder; the input is 0 past the end *)
  Fixpoint rsc_fin (n : nat) : Z := match n with O => 0 | S m => fst (fstep 1 (rsc_fin m) (b m)) end.
  Definition rsc_w (n : nat) : bool := Z.testbit (rsc_fin (S n)) 2.
  Lemma rsc_fin_range n : 0 <= rsc_fin n < 8.
  Proof. induction n; cbn [rsc_fin]; [lia|]. now apply f_range. Qed.
  Lemma state3 s : 0 <= s < 8 -> s = 4 * b2z (Z.testbit s 2) + 2 * b2z (Z.testbit s 1) + b2z (Z.testbit s 0).
  Proof.
    intro H. apply Z.eqb_eq. revert s H. apply (states_forall 8 (fun s => s =? 4 * b2z (Z.testbit s 2) + 2 * b2z (Z.testbit s 1) + b2z (Z.testbit s 0))).
    vm_compute. reflexivity.
  Qed.
  Lemma testbit3 c m1 m2 : Z.testbit (4 * b2z c + 2 * b2z m1 + b2z m2) 2 = c.
  Proof. destruct c, m1, m2; reflexivity. Qed.
  Lemma rsc_state n : rsc_fin n = 4 * b2z (at_ rsc_w n 1) + 2 * b2z (at_ rsc_w n 2) + b2z (at_ rsc_w n 3).
  Proof.
    induction n as [|n IH]; [reflexivity|]. rewrite !at_S, at_0. unfold rsc_w at 1. cbn [rsc_fin]. rewrite IH.
    rewrite rsc_step. cbv zeta. cbn [fst]. rewrite testbit3. reflexivity.
  Qed.
  Lemma rsc_w_rec : rsc_memory b rsc_w.
  Proof.
    intro n. unfold rsc_w at 1. cbn [rsc_fin]. rewrite rsc_state, rsc_step. cbv zeta. cbn [fst]. apply testbit3.
  Qed.
  Lemma rsc_fin_firstn n : (n <= length x)%nat -> fin (fstep 1) 0 (firstn n x) = rsc_fin n.
  Proof.
    induction n as [|n IH]; intro H; [reflexivity|].
    rewrite (firstn_S_nth n x false) by lia. rewrite fin_app, IH by lia. reflexivity.
  Qed.
  Lemma rsc_code : enc (fstep 1) 0 x = flat_map (rsc_pair b rsc_w) (seq 0 (length x)).
  Proof.
    rewrite enc_out_at. apply flat_map_ext_in'. intros n Hn. apply in_seq in Hn. unfold out_at. rewrite rsc_fin_firstn by lia.
    rewrite rsc_state, rsc_step. cbv zeta. cbn [fst snd].
    unfold rsc_pair. pose proof (rsc_w_rec n) as R. unfold b in R |- *. rewrite <- R. reflexivity.
  Qed.
  Lemma rsc_memory_unique w1 w2 : rsc_memory b w1 -> rsc_memory b w2 -> forall n, w1 n = w2 n.
  Proof.
    intros H1 H2. intro n. induction n as [n IH] using (well_founded_induction Wf_nat.lt_wf).
    rewrite (H1 n), (H2 n). unfold at_.
    destruct (Nat.leb_spec 1 n), (Nat.leb_spec 2 n), (Nat.leb_spec 3 n); rewrite ?(IH (n - 1)%nat), ?(IH (n - 2)%nat), ?(IH (n - 3)%nat) by lia; reflexivity.
  Qed.
End Codes.

(** ** octet payloads *)
Lemma zlen_octets zs : zlen (octet_bits zs) / 8 = zlen zs.
Proof. unfold zlen. rewrite octet_bits_length, Nat2Z.inj_mul, Z.mul_comm. apply Z.div_mul. lia. Qed.
Lemma octets_carried s zs : (length zs <= 2047)%nat -> carries s (octet_bits zs).
Proof.
  intro H. split; [rewrite zlen_octets; unfold zlen; lia|]. intros _ _.
  rewrite octet_bits_length, Nat.mul_comm. apply Nat.mod_mul. lia.
Qed.
Lemma whiten_length l : length (whiten l) = length l.
Proof. unfold whiten. now rewrite map_length, seq_length. Qed.
Lemma f_white_length s d : (f_start s <= length d)%nat -> length (f_white s d) = length d.
Proof.
  intro H. unfold f_white. destruct (k_white s); [|reflexivity].
  rewrite app_length, scrambler_length, firstn_length, skipn_length. lia.
Qed.
Lemma frame_length s bits : valid_fsk s -> carries s bits ->
  length (shr_bits s ++ f_white s (body s bits)) = (shr_len s + length (body s bits))%nat.
Proof.
  intros Hv C. rewrite app_length, shr_bits_length by assumption. f_equal. apply f_white_length.
  destruct (body_split s bits C) as (r & E & L). rewrite E, app_length. lia.
Qed.
Lemma octet_frame_bits s zs : valid_fsk s -> (length zs <= 2047)%nat ->
  Z.of_nat (length (shr_bits s ++ f_white s (body s (octet_bits zs)))) = fsk_frame_bits (k_fsk4 s) (k_preamble s) (k_fec s) (zlen zs).
Proof.
  intros Hv L. pose proof (octets_carried s zs L) as C. rewrite frame_length, body_length by assumption.
  rewrite zlen_octets, octet_bits_length. pose proof Hv as (_ & _ & _ & Hp & _).
  unfold fsk_frame_bits, shr_len, zlen. destruct (k_fsk4 s), (k_fec s); try (destruct (Z.even (Z.of_nat (length zs)))); lia.
Qed.
Lemma octet_frame_even s zs : valid_fsk s -> (length zs <= 2047)%nat ->
  whole_symbols s (shr_bits s ++ f_white s (body s (octet_bits zs))) = true.
Proof.
  intros Hv L. pose proof (octet_frame_bits s zs Hv L) as E. unfold whole_symbols.
  destruct (k_fsk4 s); [|reflexivity]. cbn [negb orb]. apply Nat.even_spec.
  unfold fsk_frame_bits in E. destruct (k_fec s).
  - exists (Z.to_nat (k_preamble s * 8 + 16 + (16 + 8 * zlen zs + 3 + (if Z.even (zlen zs) then 13 else 5)))).
    pose proof (zlen_nonneg zs). pose proof Hv as (_ & _ & _ & Hp & _). destruct (Z.even (zlen zs)); lia.
  - exists (Z.to_nat (k_preamble s * 8 + 16 + 8 + 4 * zlen zs)).
    pose proof (zlen_nonneg zs). pose proof Hv as (_ & _ & _ & Hp & _). lia.
Qed.
Definition fsk_symbols (fsk4 : bool) (preamble : Z) (fec : bool) (n : Z) : Z :=
  fsk_frame_bits fsk4 preamble fec n / (if fsk4 then 2 else 1).
Lemma octet_symbols s zs : valid_fsk s -> (length zs <= 2047)%nat ->
  Z.of_nat (symbols (k_fsk4 s) (shr_bits s ++ f_white s (body s (octet_bits zs)))) = fsk_symbols (k_fsk4 s) (k_preamble s) (k_fec s) (zlen zs).
Proof.
  intros Hv L. pose proof (octet_frame_bits s zs Hv L) as E. unfold symbols, fsk_symbols. rewrite <- E.
  destruct (k_fsk4 s); [now rewrite Nat2Z.inj_div|now rewrite Z.div_1_r].
Qed.
Lemma bytes_octets s a zs : valid_fsk s -> holds_octets a zs -> zs <> [] -> Forall is_octet zs -> (length zs <= 2047)%nat ->
  let fr := shr_bits s ++ f_white s (body s (octet_bits zs)) in
  let n := 20 * fsk_symbols (k_fsk4 s) (k_preamble s) (k_fec s) (zlen zs) in
  f_frame s (octet_bits zs) = Ok fr
  /\ snd (k_bytesToIQ a s) =
     match arange_size (k_rate s) 20 n with
     | Some m => if m =? n then Ok {| sig_phase := phases s fr; sig_f := k_rate s * 20 |} else Err ValueError
     | None => Err ValueError
     end
  /\ Z.of_nat (length (phases s fr)) = n.
Proof.
  intros Hv H Hne Ho L. cbv zeta. pose proof (octets_carried s zs L) as C.
  split; [now apply f_frame_ok|]. split.
  - rewrite bytes_result. rewrite (holds_octets_ok a zs) by assumption. cbn [rbind].
    unfold f_call. rewrite check_binary_bits_arg by now apply octet_bits_nonnil. cbn [rbind].
    rewrite f_frame_ok by assumption. cbn [rbind]. rewrite FSKModulator_spec, octet_frame_even by assumption.
    cbv zeta. rewrite octet_symbols by assumption. reflexivity.
  - rewrite phases_length, <- (octet_symbols s zs) by assumption. lia.
Qed.
