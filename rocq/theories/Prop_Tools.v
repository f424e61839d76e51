(** * C67-C69: the modulators of tools/modulations.py on every kind of argument *)
From Verif Require Import Py MBits MModul MTools STools PList.
Local Open Scope Z_scope.

Lemma high_positive x : high x = ((if positive x then 1 else -1), 0).
Proof.
  unfold high, positive, Qltb. destruct (0 ?= x)%Q eqn:E.
  - apply Qeq_alt in E. assert (H : Qle_bool x 0 = true) by (apply Qle_bool_iff; rewrite <- E; apply Qle_refl). now rewrite H.
  - apply Qlt_alt in E. destruct (Qle_bool x 0) eqn:F; [|reflexivity]. apply Qle_bool_iff in F. exfalso. apply (Qlt_not_le _ _ E F).
  - apply Qgt_alt in E. assert (H : Qle_bool x 0 = true) by (apply Qle_bool_iff, Qlt_le_weak; exact E). now rewrite H.
Qed.
Lemma qpsk_sum (msb : bool) x y :
  gadd (gmul (high x) (if msb then (1, 0) else (0, 1))) (gmul (high y) (if msb then (0, 1) else (1, 0)))
  = if msb then qpsk_table (positive x) (positive y) else qpsk_table (positive y) (positive x).
Proof. rewrite !high_positive. destruct msb, (positive x), (positive y); reflexivity. Qed.
Lemma qam_sum x0 x1 x2 x3 :
  let two_minus (g : gauss) := (2 - fst g, - snd g) in
  let b x := gmul (high x) (1, 0) in
  In (positive x0, positive x1, positive x2, positive x3,
      gadd (gmul (b x0) (two_minus (b x1))) (gmul (gmul (b x2) (two_minus (b x3))) (0, 1))) qam16_table.
Proof. cbv beta zeta. rewrite !high_positive. destruct (positive x0), (positive x1), (positive x2), (positive x3); cbn; tauto. Qed.

Lemma half2 k : (((2 * k - 0 + 2 - 1) / 2 = k) /\ ((2 * k - 1 + 2 - 1) / 2 = k))%nat.
Proof.
  split; [|destruct k; [reflexivity|]]; symmetry; [apply Nat.div_unique with 1%nat; lia|apply Nat.div_unique with 0%nat; lia].
Qed.
Lemma quarter4 k j : (j < 4)%nat -> ((4 * k - j + 4 - 1) / 4 = k)%nat.
Proof.
  intro H. destruct k; [replace (4 * 0 - j + 4 - 1)%nat with 3%nat by lia; reflexivity|].
  symmetry. apply Nat.div_unique with (3 - j)%nat; lia.
Qed.

Lemma even2 k : Nat.eqb (Nat.modulo (2 * k) 2) 0 = true.
Proof. rewrite Nat.mul_comm, Nat.mod_mul by lia. reflexivity. Qed.

(** ** C67: QPSK *)
Theorem C67_one_dim : forall msb axis (a : arr Q) k, shape a = [(2 * k)%nat] ->
  exists o, md_convert {| md_mod := QPSK; md_msb := msb; md_axis := axis |} (SArr a) = Ok (OArr o)
    /\ shape o = [k]
    /\ forall i, (i < k)%nat ->
         let b0 := positive (at_ a [2 * i]%nat) in let b1 := positive (at_ a [2 * i + 1]%nat) in
         at_ o [i] = if msb then qpsk_table b0 b1 else qpsk_table b1 b0.
Proof.
  intros msb axis a k S. unfold md_convert, qpsk_convert. cbn [md_mod md_msb md_axis]. rewrite S.
  unfold bop, bpsk_times, slice_axis, amap. cbn [shape at_]. rewrite S. cbn [nth set_nth bshape rbind].
  destruct (half2 k) as [-> ->]. cbn [rbind]. rewrite Nat.eqb_refl. cbn [rbind].
  eexists. split; [reflexivity|]. split; [reflexivity|]. intros i Hi. cbn [at_ shape bindex map2 nth set_nth]. cbv zeta.
  assert (E : (if Nat.eqb k 1 then 0%nat else i) = i) by (destruct (Nat.eqb_spec k 1); lia). rewrite E.
  rewrite qpsk_sum. replace (0 + 2 * i)%nat with (2 * i)%nat by lia. replace (1 + 2 * i)%nat with (2 * i + 1)%nat by lia. reflexivity.
Qed.
Print Assumptions C67_one_dim.
Theorem C67_two_dim : forall msb axis (a : arr Q) r c, shape a = [r; c] ->
  (axis = 0 -> forall k, r = (2 * k)%nat ->
    exists o, md_convert {| md_mod := QPSK; md_msb := msb; md_axis := axis |} (SArr a) = Ok (OArr o)
      /\ shape o = [k; c]
      /\ forall i j, (i < k)%nat -> (j < c)%nat ->
           let b0 := positive (at_ a [2 * i; j]%nat) in let b1 := positive (at_ a [2 * i + 1; j]%nat) in
           at_ o [i; j] = if msb then qpsk_table b0 b1 else qpsk_table b1 b0)
  /\ (axis = 1 -> forall k, c = (2 * k)%nat ->
    exists o, md_convert {| md_mod := QPSK; md_msb := msb; md_axis := axis |} (SArr a) = Ok (OArr o)
      /\ shape o = [r; k]
      /\ forall i j, (i < r)%nat -> (j < k)%nat ->
           let b0 := positive (at_ a [i; 2 * j]%nat) in let b1 := positive (at_ a [i; 2 * j + 1]%nat) in
           at_ o [i; j] = if msb then qpsk_table b0 b1 else qpsk_table b1 b0)
  /\ (axis = 0 /\ Nat.odd r = true \/ axis = 1 /\ Nat.odd c = true ->
      md_convert {| md_mod := QPSK; md_msb := msb; md_axis := axis |} (SArr a) = Err AssertionError)
  /\ (2 <= axis -> md_convert {| md_mod := QPSK; md_msb := msb; md_axis := axis |} (SArr a) = Err ValueError).
Proof.
  intros msb axis a r c S. unfold md_convert, qpsk_convert. cbn [md_mod md_msb md_axis]. rewrite S.
  assert (O : forall n, Nat.odd n = true -> Nat.eqb (Nat.modulo n 2) 0 = false).
  { intros n H. apply Nat.odd_spec in H as [q ->]. apply Nat.eqb_neq. rewrite Nat.add_comm, Nat.mul_comm, Nat.mod_add by lia. discriminate. }
  repeat split.
  - intros -> k ->. cbn [Z.eqb]. rewrite even2.
    unfold bop, bpsk_times, slice_axis, amap. cbn [shape at_]. rewrite S. cbn [nth set_nth bshape rbind].
    destruct (half2 k) as [-> ->]. cbn [rbind]. rewrite !Nat.eqb_refl. cbn [rbind].
    eexists. split; [reflexivity|]. split; [reflexivity|]. intros i j Hi Hj. cbn [at_ shape bindex map2 nth set_nth]. cbv zeta.
    assert (E : (if Nat.eqb k 1 then 0%nat else i) = i) by (destruct (Nat.eqb_spec k 1); lia). rewrite E.
    assert (F : (if Nat.eqb c 1 then 0%nat else j) = j) by (destruct (Nat.eqb_spec c 1); lia). rewrite F.
    rewrite qpsk_sum. replace (0 + 2 * i)%nat with (2 * i)%nat by lia. replace (1 + 2 * i)%nat with (2 * i + 1)%nat by lia. reflexivity.
  - intros -> k ->. cbn [Z.eqb Pos.eqb]. rewrite even2.
    unfold bop, bpsk_times, slice_axis, amap. cbn [shape at_]. rewrite S. cbn [nth set_nth bshape rbind].
    destruct (half2 k) as [-> ->]. cbn [rbind]. rewrite ?Nat.eqb_refl. cbn [rbind]. rewrite ?Nat.eqb_refl. cbn [rbind].
    eexists. split; [reflexivity|]. split; [reflexivity|]. intros i j Hi Hj. cbn [at_ shape bindex map2 nth set_nth]. cbv zeta.
    assert (E : (if Nat.eqb k 1 then 0%nat else j) = j) by (destruct (Nat.eqb_spec k 1); lia). rewrite E.
    assert (F : (if Nat.eqb r 1 then 0%nat else i) = i) by (destruct (Nat.eqb_spec r 1); lia). rewrite F.
    rewrite qpsk_sum. replace (0 + 2 * j)%nat with (2 * j)%nat by lia. replace (1 + 2 * j)%nat with (2 * j + 1)%nat by lia. reflexivity.
  - intros [[-> H]|[-> H]]; cbn [Z.eqb Pos.eqb]; now rewrite O.
  - intro H. destruct (Z.eqb_spec axis 0); [lia|]. destruct (Z.eqb_spec axis 1); [lia|reflexivity].
Qed.
Print Assumptions C67_two_dim.
Theorem C67_other_arguments : forall msb axis s,
  (forall a, s = SArr a -> length (shape a) <> 1%nat /\ length (shape a) <> 2%nat) ->
  md_convert {| md_mod := QPSK; md_msb := msb; md_axis := axis |} s = Err ValueError
  /\ md_convert {| md_mod := QAM16; md_msb := msb; md_axis := axis |} s = Err ValueError.
Proof.
  intros msb axis s H. unfold md_convert, qpsk_convert, qam16_convert. cbn [md_mod md_msb md_axis]. destruct s as [x|a|l|]; try (split; reflexivity).
  destruct (H a eq_refl) as [H1 H2]. destruct (shape a) as [|x [|y [|z r]]]; cbn in H1, H2; try lia; split; reflexivity.
Qed.
Print Assumptions C67_other_arguments.
(** an odd number of bits should be refused; a single bit gives no symbol at all, three bits give two *)
Theorem C67_odd_refuted : forall msb axis (a : arr Q) k, shape a = [(2 * k + 1)%nat] ->
  let r := md_convert {| md_mod := QPSK; md_msb := msb; md_axis := axis |} (SArr a) in
  (k = 0%nat -> exists o, r = Ok (OArr o) /\ shape o = [0%nat])
  /\ (k = 1%nat -> exists o, r = Ok (OArr o) /\ shape o = [2%nat])
  /\ ((2 <= k)%nat -> r = Err ValueError).
Proof.
  intros msb axis a k S. unfold md_convert, qpsk_convert. cbn [md_mod md_msb md_axis]. rewrite S.
  unfold bop, bpsk_times, slice_axis, amap. cbn [shape at_]. rewrite S. cbn [nth set_nth bshape rbind].
  assert (A : ((2 * k + 1 - 0 + 2 - 1) / 2 = k + 1)%nat) by (symmetry; apply Nat.div_unique with 0%nat; lia).
  assert (B : ((2 * k + 1 - 1 + 2 - 1) / 2 = k)%nat) by (symmetry; apply Nat.div_unique with 1%nat; lia).
  rewrite A, B. cbv zeta. repeat split.
  - intros ->. eexists. split; reflexivity.
  - intros ->. eexists. split; reflexivity.
  - intro H. destruct (Nat.eqb_spec (k + 1) k); [lia|]. destruct (Nat.eqb_spec (k + 1) 1); [lia|]. destruct (Nat.eqb_spec k 1); [lia|]. reflexivity.
Qed.
Print Assumptions C67_odd_refuted.
Example C67_case : exists o, md_convert {| md_mod := QPSK; md_msb := true; md_axis := 0 |}
   (SArr {| shape := [4%nat]; at_ := fun i => nth (nth 0 i 0%nat) [0; 1; 1; 1]%Q 0%Q |}) = Ok (OArr o)
   /\ shape o = [2%nat] /\ at_ o [0%nat] = (-1, 1) /\ at_ o [1%nat] = (1, 1).
Proof. eexists. split; [reflexivity|]. repeat split. Qed.

(** ** C68: 16-QAM *)
Lemma qam_columns (a : arr Q) k c : shape a = [(4 * k)%nat; c] ->
  exists o, qam16_columns a = Ok (OArr o) /\ shape o = [k; c]
    /\ forall i j, (i < k)%nat -> (j < c)%nat ->
         In (positive (at_ a [4 * i; j]%nat), positive (at_ a [4 * i + 1; j]%nat), positive (at_ a [4 * i + 2; j]%nat),
             positive (at_ a [4 * i + 3; j]%nat), at_ o [i; j]) qam16_table.
Proof.
  intro S. unfold qam16_columns. unfold bop, bpsk_times, slice_axis, amap. cbn [shape at_]. rewrite S. cbn [nth set_nth].
  rewrite !quarter4 by lia. cbn [bshape rbind]. rewrite ?Nat.eqb_refl. cbn [rbind shape]. rewrite ?Nat.eqb_refl. cbn [rbind shape at_ bshape].
  rewrite ?Nat.eqb_refl. cbn [rbind]. rewrite ?Nat.eqb_refl. cbn [rbind].
  eexists. split; [reflexivity|]. split; [reflexivity|]. intros i j Hi Hj. cbn [at_ shape bindex map2 nth set_nth].
  assert (E : (if Nat.eqb k 1 then 0%nat else i) = i) by (destruct (Nat.eqb_spec k 1); lia). rewrite !E.
  assert (F : (if Nat.eqb c 1 then 0%nat else j) = j) by (destruct (Nat.eqb_spec c 1); lia). rewrite !F.
  replace (0 + 4 * i)%nat with (4 * i)%nat by lia. rewrite (Nat.add_comm (4 * i) 1), (Nat.add_comm (4 * i) 2), (Nat.add_comm (4 * i) 3).
  exact (qam_sum _ _ _ _).
Qed.
Theorem C68_one_dim_partial : forall msb axis (a : arr Q) k, shape a = [(4 * k)%nat] ->
  exists o, md_convert {| md_mod := QAM16; md_msb := msb; md_axis := axis |} (SArr a) = Ok (OArr o)
    /\ shape o = [k; 1%nat]
    /\ forall i, (i < k)%nat ->
         In (positive (at_ a [4 * i]%nat), positive (at_ a [4 * i + 1]%nat), positive (at_ a [4 * i + 2]%nat),
             positive (at_ a [4 * i + 3]%nat), at_ o [i; 0%nat]) qam16_table.
Proof.
  intros msb axis a k S. unfold md_convert, qam16_convert. cbn [md_mod md_axis]. rewrite S.
  destruct (qam_columns {| shape := [(4 * k)%nat; 1%nat]; at_ := fun i => at_ a [nth 0 i 0%nat] |} k 1 eq_refl) as (o & E & So & H).
  exists o. split; [exact E|]. split; [exact So|]. intros i Hi. apply (H i 0%nat); lia.
Qed.
Print Assumptions C68_one_dim_partial.
Theorem C68_two_dim_partial : forall msb (a : arr Q) k c, shape a = [(4 * k)%nat; c] ->
  exists o, md_convert {| md_mod := QAM16; md_msb := msb; md_axis := 0 |} (SArr a) = Ok (OArr o)
    /\ shape o = [k; c]
    /\ forall i j, (i < k)%nat -> (j < c)%nat ->
         In (positive (at_ a [4 * i; j]%nat), positive (at_ a [4 * i + 1; j]%nat), positive (at_ a [4 * i + 2; j]%nat),
             positive (at_ a [4 * i + 3; j]%nat), at_ o [i; j]) qam16_table.
Proof. intros msb a k c S. unfold md_convert, qam16_convert. cbn [md_mod md_axis]. rewrite S. cbn [Z.eqb]. now apply qam_columns. Qed.
Print Assumptions C68_two_dim_partial.
(** each group of bits has exactly one point in the table *)
Theorem C68_table_partial : forall b0 b1 b2 b3, exists z, In (b0, b1, b2, b3, z) qam16_table
  /\ forall c0 c1 c2 c3 w, In (c0, c1, c2, c3, w) qam16_table -> (w = z <-> (c0, c1, c2, c3) = (b0, b1, b2, b3)).
Proof.
  intros b0 b1 b2 b3. destruct b0, b1, b2, b3;
  (eexists; split; [cbn; tauto|]); intros c0 c1 c2 c3 w H; cbn in H;
  repeat (destruct H as [H|H]; [inversion H; subst; split; intro E; first [reflexivity|discriminate E]|]); destruct H.
Qed.
Print Assumptions C68_table_partial.
(** along axis 1 the result comes out transposed (QPSK keeps the rows: C67_two_dim) *)
Theorem C68_axis_refuted : forall msb (a : arr Q) r k, shape a = [r; (4 * k)%nat] ->
  exists o, md_convert {| md_mod := QAM16; md_msb := msb; md_axis := 1 |} (SArr a) = Ok (OArr o)
    /\ shape o = [k; r]
    /\ (r <> k -> shape o <> [r; k])
    /\ forall i j, (i < r)%nat -> (j < k)%nat ->
         In (positive (at_ a [i; 4 * j]%nat), positive (at_ a [i; 4 * j + 1]%nat), positive (at_ a [i; 4 * j + 2]%nat),
             positive (at_ a [i; 4 * j + 3]%nat), at_ o [j; i]) qam16_table.
Proof.
  intros msb a r k S. unfold md_convert, qam16_convert. cbn [md_mod md_axis]. rewrite S. cbn [Z.eqb Pos.eqb].
  destruct (qam_columns {| shape := [(4 * k)%nat; r]; at_ := fun i => at_ a (rev i) |} k r eq_refl) as (o & E & So & H).
  exists o. split; [exact E|]. split; [exact So|]. split; [rewrite So; congruence|]. intros i j Hi Hj. exact (H j i Hj Hi).
Qed.
Print Assumptions C68_axis_refuted.
(** the bit order asked for has no effect, so LSB-first groups are not mapped by the table *)
Theorem C68_order_refuted : forall axis s,
  md_convert {| md_mod := QAM16; md_msb := false; md_axis := axis |} s = md_convert {| md_mod := QAM16; md_msb := true; md_axis := axis |} s
  /\ exists a o, shape a = [4%nat] /\ md_convert {| md_mod := QAM16; md_msb := false; md_axis := axis |} (SArr a) = Ok (OArr o)
     /\ ~ In (positive (at_ a [3]%nat), positive (at_ a [2]%nat), positive (at_ a [1]%nat), positive (at_ a [0]%nat), at_ o [0; 0]%nat) qam16_table.
Proof.
  intros axis s. split; [reflexivity|]. exists {| shape := [4%nat]; at_ := fun i => nth (nth 0 i 0%nat) [1; 0; 0; 0]%Q 0%Q |}.
  eexists. split; [reflexivity|]. split; [reflexivity|]. cbn. intro H. repeat (destruct H as [H|H]; [discriminate H|]). exact H.
Qed.
Print Assumptions C68_order_refuted.
(** sizes that are not multiples of 4 should be refused: below 8 they give 0 or 2 symbols *)
Theorem C68_size_refuted : forall msb axis (a : arr Q) n, shape a = [n] -> Nat.modulo n 4 <> 0%nat ->
  let r := md_convert {| md_mod := QAM16; md_msb := msb; md_axis := axis |} (SArr a) in
  ((n < 4)%nat -> exists o, r = Ok (OArr o) /\ shape o = [0%nat; 1%nat])
  /\ ((4 < n < 8)%nat -> exists o, r = Ok (OArr o) /\ shape o = [2%nat; 1%nat])
  /\ ((8 < n)%nat -> r = Err ValueError).
Proof.
  intros msb axis a n S M. unfold md_convert, qam16_convert. cbn [md_mod md_axis]. rewrite S. cbv zeta.
  split; [|split].
  - intro H. destruct n as [|[|[|[|n]]]]; try lia; [exfalso; apply M; reflexivity|..]; eexists; split; reflexivity.
  - intro H. do 5 (destruct n as [|n]; [lia|]). destruct n as [|[|[|n]]]; try lia; eexists; split; reflexivity.
  - intro H. clear S. pose proof (Nat.div_mod n 4 ltac:(lia)) as D. pose proof (Nat.mod_upper_bound n 4 ltac:(lia)) as U.
    set (k := Nat.div n 4) in *. set (r := Nat.modulo n 4) in *.
    unfold qam16_columns, bop, bpsk_times, slice_axis, amap. cbn [shape at_ nth set_nth].
    assert (K : (2 <= k)%nat) by lia.
    assert (s0 : ((n - 0 + 4 - 1) / 4 = k + 1)%nat) by (symmetry; apply Nat.div_unique with (r - 1)%nat; lia).
    assert (s3 : ((n - 3 + 4 - 1) / 4 = k)%nat) by (symmetry; apply Nat.div_unique with r; lia).
    assert (s1 : ((n - 1 + 4 - 1) / 4 = if Nat.leb 2 r then k + 1 else k)%nat).
    { destruct (Nat.leb_spec 2 r); symmetry; [apply Nat.div_unique with (r - 2)%nat|apply Nat.div_unique with 3%nat]; lia. }
    assert (s2 : ((n - 2 + 4 - 1) / 4 = if Nat.leb 3 r then k + 1 else k)%nat).
    { destruct (Nat.leb_spec 3 r); symmetry; [apply Nat.div_unique with 0%nat|apply Nat.div_unique with (r + 1)%nat]; lia. }
    rewrite s0, s1, s2, s3. clearbody k r. clear D s0 s1 s2 s3 H.
    assert (E : Nat.eqb (k + 1) k = false) by (apply Nat.eqb_neq; lia). assert (E1 : Nat.eqb (k + 1) 1 = false) by (apply Nat.eqb_neq; lia).
    assert (E2 : Nat.eqb k 1 = false) by (apply Nat.eqb_neq; lia).
    destruct r as [|[|[|[|r]]]]; try lia; cbn [Nat.leb bshape rbind shape Nat.eqb];
      repeat (rewrite ?E, ?E1, ?E2, ?Nat.eqb_refl; cbn [rbind bshape shape Nat.eqb]); reflexivity.
Qed.
Print Assumptions C68_size_refuted.
Example C68_case : exists o, md_convert {| md_mod := QAM16; md_msb := true; md_axis := 0 |}
   (SArr {| shape := [8%nat; 1%nat]; at_ := fun i => nth (nth 0 i 0%nat) [0; 1; 1; 1; 1; 0; 0; 1]%Q 0%Q |}) = Ok (OArr o)
   /\ shape o = [2%nat; 1%nat] /\ at_ o [0%nat; 0%nat] = (-1, 1) /\ at_ o [1%nat; 0%nat] = (3, -1).
Proof. eexists. split; [reflexivity|]. repeat split; vm_compute; reflexivity. Qed.

(** ** C69: BPSK and construction *)
Definition bpsk_point (x : Q) : Z * Z := if positive x then (1, 0) else (-1, 0).
Theorem C69_bpsk : forall msb axis s,
  let r := md_convert {| md_mod := BPSK; md_msb := msb; md_axis := axis |} s in
  match s with
  | SNum x => r = Ok (OOne (bpsk_point x))
  | SArr a => exists o, r = Ok (OArr o) /\ shape o = shape a /\ forall i, at_ o i = bpsk_point (at_ a i)
  | SList l => r = Ok (OList (map bpsk_point l))
  | SOther => r = Err ValueError
  end.
Proof.
  intros msb axis s. assert (H : forall x, high x = bpsk_point x) by (intro x; rewrite high_positive; unfold bpsk_point; destruct (positive x); reflexivity).
  cbv zeta. unfold md_convert. cbn [md_mod]. destruct s as [x|a|l|]; cbn [bpsk_convert].
  - now rewrite H.
  - eexists. split; [reflexivity|]. split; [reflexivity|]. intro i. cbn [amap at_]. apply H.
  - now rewrite (map_ext _ _ H).
  - reflexivity.
Qed.
Print Assumptions C69_bpsk.
Theorem C69_construction : forall name msb axis,
  match modulator_get name msb axis with
  | Ok m => exists b, msb = PBool b /\ md_msb m = b /\ (axis = PInt (md_axis m) \/ exists c, axis = PBool c /\ md_axis m = if c then 1 else 0)
      /\ 0 <= md_axis m
      /\ name = (match md_mod m with BPSK => "BPSK" | QPSK => "QPSK" | QAM16 => "QAM16" end)%string
      /\ md_bits_per_symbol m = (match md_mod m with BPSK => 1 | QPSK => 2 | QAM16 => 4 end)
  | Err e => e = ValueError
      /\ ((name <> "BPSK" /\ name <> "QPSK" /\ name <> "QAM16")%string \/ (forall b, msb <> PBool b)
          \/ ((forall z, 0 <= z -> axis <> PInt z) /\ forall b, axis <> PBool b))
  end.
Proof.
  intros name msb axis. unfold modulator_get, get_modulator.
  assert (K : forall m, match modulator_new m msb axis with
              | Ok x => exists b, msb = PBool b /\ md_msb x = b /\ (axis = PInt (md_axis x) \/ exists c, axis = PBool c /\ md_axis x = if c then 1 else 0) /\ 0 <= md_axis x /\ md_mod x = m
              | Err e => e = ValueError /\ ((forall b, msb <> PBool b) \/ ((forall z, 0 <= z -> axis <> PInt z) /\ forall b, axis <> PBool b)) end).
  { intro m. unfold modulator_new. destruct msb as [z|b|q|t|]; cbn [is_bool negb]; try (split; [reflexivity|left; discriminate]).
    destruct axis as [z|c|q|t|]; cbn [is_int negb]; try (split; [reflexivity|right; split; discriminate]); cbn [int_of].
    - destruct (Z.ltb_spec z 0).
      + split; [reflexivity|]. right. split; [|discriminate]. intros y Hy E. inversion E. lia.
      + exists b. cbn. split; [reflexivity|]. split; [destruct b; reflexivity|]. split; [left; reflexivity|]. split; [lia|reflexivity].
    - destruct (Z.ltb_spec (if c then 1 else 0) 0); [destruct c; lia|]. exists b. cbn. split; [reflexivity|]. split; [destruct b; reflexivity|].
      split; [right; exists c; split; reflexivity|]. split; [assumption|reflexivity]. }
  destruct (String.eqb_spec name "BPSK"); [|destruct (String.eqb_spec name "QPSK"); [|destruct (String.eqb_spec name "QAM16")]]; cbn [rbind].
  4:{ split; [reflexivity|]. left. auto. }
  1: specialize (K BPSK). 2: specialize (K QPSK). 3: specialize (K QAM16).
  all: destruct (modulator_new _ msb axis) as [md|err]; [destruct K as (b & E1 & E2 & E3 & E4 & E5); exists b; unfold md_bits_per_symbol; rewrite E5; repeat (split; [assumption || reflexivity|]); reflexivity|destruct K as [-> K]; split; [reflexivity|tauto]].
Qed.
Print Assumptions C69_construction.
Example C69_case : exists m, modulator_get "QAM16" (PBool false) (PInt 1) = Ok m /\ modulator_get "QAM64" (PBool false) (PInt 1) = Err ValueError /\ modulator_get "BPSK" (PInt 1) (PInt 0) = Err ValueError
  /\ md_convert {| md_mod := BPSK; md_msb := true; md_axis := 0 |} (SList [1; 0]%Q) = Ok (OList [bpsk_point 1; bpsk_point 0]).
Proof. eexists. split; [reflexivity|]. repeat split. Qed.

(** ** the column form used by the OFDM model is this one *)
From Verif Require Import SOfdm Prop_Ofdm.
Definition bit_matrix (r : nat) (cols : list (list bool)) : arr Q :=
  {| shape := [r; length cols]; at_ := fun i => if nth (nth 0 i 0%nat) (nth (nth 1 i 0%nat) cols []) false then 1%Q else 0%Q |}.
Lemma firstn_skipn_nth {A} (d : A) n i l : (n * S i <= length l)%nat -> firstn n (skipn (i * n) l) = map (fun k => nth (n * i + k) l d) (seq 0 n).
Proof.
  intro H. apply list_eq_nth with d.
  - rewrite firstn_length, skipn_length, map_length, seq_length. nia.
  - intros k Hk. rewrite firstn_length, skipn_length in Hk. rewrite nth_firstn by lia. rewrite nth_skipn, nth_map_seq by lia. f_equal. lia.
Qed.
Theorem C67_columns_agree : forall m k (cols : list (list bool)),
  (forall col, In col cols -> length col = (group_size m * k)%nat) ->
  exists o, md_convert {| md_mod := m; md_msb := true; md_axis := 0 |} (SArr (bit_matrix (group_size m * k) cols)) = Ok (OArr o)
    /\ shape o = [k; length cols]
    /\ forall j, (j < length cols)%nat ->
         convert_column m (nth j cols []) = Ok (map (fun i => at_ o [i; j]) (seq 0 k)).
Proof.
  intros m k cols Hc.
  assert (L : forall j, (j < length cols)%nat -> length (nth j cols []) = (group_size m * k)%nat) by (intros j Hj; apply Hc, nth_In; exact Hj).
  assert (C : forall j, (j < length cols)%nat -> convert_column m (nth j cols [])
              = Ok (map (fun i => point m (map (fun n => nth (group_size m * i + n) (nth j cols []) false) (seq 0 (group_size m)))) (seq 0 k))).
  { intros j Hj. pose proof (L j Hj) as Lj. assert (G : (0 < group_size m)%nat) by (destruct m; cbn; lia).
    assert (M : Nat.modulo (length (nth j cols [])) (group_size m) = 0%nat) by (rewrite Lj, Nat.mul_comm, Nat.mod_mul; lia).
    rewrite C35_mapping by exact M. f_equal. rewrite chunks_as_map by assumption. rewrite Lj, Nat.mul_comm, Nat.div_mul by lia. rewrite map_map.
    apply map_ext_in. intros i Hi. apply in_seq in Hi. f_equal. apply firstn_skipn_nth. rewrite Lj. nia. }
  assert (P : forall j n, positive (at_ (bit_matrix (group_size m * k) cols) [n; j]) = nth n (nth j cols []) false).
  { intros j n. cbn [bit_matrix at_ nth]. destruct (nth n (nth j cols []) false); reflexivity. }
  destruct m; cbn [group_size] in *.
  - destruct (C69_bpsk true 0 (SArr (bit_matrix (1 * k) cols))) as (o & E & S & H). exists o. split; [exact E|]. split; [rewrite S; cbn; f_equal; lia|].
    intros j Hj. rewrite (C j Hj). f_equal. apply map_ext_in. intros i Hi. apply in_seq in Hi. rewrite H. unfold bpsk_point. rewrite P.
    cbn [map seq point level]. replace (1 * i + 0)%nat with i by lia. unfold level. destruct (nth i (nth j cols []) false); reflexivity.
  - destruct (C67_two_dim true 0 (bit_matrix (2 * k) cols) (2 * k)%nat (length cols) eq_refl) as (T & _). destruct (T eq_refl k eq_refl) as (o & E & S & H). exists o. split; [exact E|]. split; [exact S|].
    intros j Hj. rewrite (C j Hj). f_equal. apply map_ext_in. intros i Hi. apply in_seq in Hi. rewrite H by lia. rewrite !P. cbn [map seq point].
    replace (2 * i + 0)%nat with (2 * i)%nat by lia. unfold level. destruct (nth (2 * i) _ false), (nth (2 * i + 1) _ false); reflexivity.
  - destruct (C68_two_dim_partial true (bit_matrix (4 * k) cols) k (length cols) eq_refl) as (o & E & S & H). exists o. split; [exact E|]. split; [exact S|].
    intros j Hj. rewrite (C j Hj). f_equal. apply map_ext_in. intros i Hi. apply in_seq in Hi. specialize (H i j ltac:(lia) Hj). rewrite !P in H. cbn [map seq point].
    replace (4 * i + 0)%nat with (4 * i)%nat by lia.
    destruct (nth (4 * i) _ false), (nth (4 * i + 1) _ false), (nth (4 * i + 2) _ false), (nth (4 * i + 3) _ false);
      cbn in H; repeat (destruct H as [H|H]; [first [discriminate H|inversion H; reflexivity]|]); destruct H.
Qed.
Print Assumptions C67_columns_agree.
