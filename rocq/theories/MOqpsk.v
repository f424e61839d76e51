(** * Model of sun_phy/mr_o_qpsk/mr_o_qpsk_modulator.py up to the chip sequence
    (the pulse-shaped waveform is in [MWave]).
    frequency_band is a member of the Enum, rate_mode, spreading_mode and samples_per_symbol are ints. *)
From Verif Require Import Py MBits MFields MModul MOfdm Tables.

(** float64 -> uint8 conversion of an integral float outside 0..255 is left to the platform by C and numpy:
    x86-64 wraps modulo 256, AArch64 saturates. *)
Inductive platform := Wrapping | Saturating.
Definition u8cast (p : platform) (z : Z) : Z :=
  match p with Wrapping => z mod 256 | Saturating => Z.max 0 (Z.min 255 z) end.

(** Attributes: construction parameters, and the dictionary of the attributes assigned by bitsToIQ
    (bit/chip arrays, by name). *)
Record oqpsk := {
  q_sps : Z;                              (* _samples_per_symbol *)
  q_SM : Z;                               (* _SM *)
  q_band : Frequency_band;                (* _frequency_band *)
  q_RM : Z;                               (* _RM *)
  q_mem : list (string * list bool)       (* attributes assigned later *)
}.
Definition setattr (name : string) (v : list bool) : SM oqpsk unit :=
  smod (fun s => {| q_sps := q_sps s; q_SM := q_SM s; q_band := q_band s; q_RM := q_RM s;
                    q_mem := (name, v) :: q_mem s |}).
Definition getattr (name : string) : SM oqpsk (list bool) :=
  sattr (fun s => assoc String.eqb name (q_mem s)).

Definition bget {V} (d : list (Frequency_band * V)) (b : Frequency_band) : res V := dict_get band_eqb b d.
Definition zdict {V} (d : list (Z * V)) (k : Z) : res V := dict_get Z.eqb k d.

(** __init__ (mr_o_qpsk_modulator.py:546-558); SpreadingMode.DSSS.value = 0, MDSSS.value = 1 (248-250) *)
Definition oqpsk_new (frequency_band : Frequency_band) (rate_mode spreading_mode samples_per_symbol : Z)
  : res oqpsk :=
  do _ <- (if spreading_mode =? 1 then
             do sup <- bget MDSSS_SUPPORTED_FREQUENCY_BANDS frequency_band;
             if sup then Ok tt else Err UnsupportedError
           else Ok tt);
  Ok {| q_sps := samples_per_symbol; q_SM := spreading_mode; q_band := frequency_band; q_RM := rate_mode;
        q_mem := [] |}.

(** _BDE (mr_o_qpsk_modulator.py:580-591) *)
Fixpoint bde_loop (i : nat) (M : Z) (prev : bool) (message : list bool) : list bool :=
  match message with
  | [] => []
  | m :: r =>
      let e := if (0 <? M) && (Z.of_nat i mod M =? 0) then m else xorb m prev in
      e :: bde_loop (S i) M e r
  end.
Definition BDE (message : list bool) (Eprevious : bool) (M : Z) : list bool := bde_loop 0 M Eprevious message.

(** arr_to_bitarray (mr_o_qpsk_modulator.py:618-623) *)
Fixpoint arr_to_bitarray (l : list bool) : string :=
  match l with [] => EmptyString | b :: r => String (if b then "1" else "0")%char (arr_to_bitarray r) end.

(** loop of _DSSS (mr_o_qpsk_modulator.py:638-641) *)
Fixpoint dsss_loop (i : nat) (spreading : list string) (rows : list (list bool)) : res (list bool) :=
  match rows with
  | [] => Ok []
  | row :: r =>
      do table <- dict_get String.eqb (nth (i mod length spreading) spreading EmptyString) DSSS;
      do code <- dict_get String.eqb (arr_to_bitarray row) table;
      do rest <- dsss_loop (S i) spreading r;
      Ok (from_bitstring code ++ rest)
  end.
(** _DSSS (mr_o_qpsk_modulator.py:611-643) *)
Definition DSSS_spread (message : list bool) (spreading : list string) : res (list bool) :=
  do table <- dict_get String.eqb (nth 0 spreading EmptyString) DSSS;
  let N := String.length (fst (hd (EmptyString, EmptyString) table)) in
  do rows <- reshape_rows N message;
  dsss_loop 0 spreading rows.

(** _hadamard_matrix (mr_o_qpsk_modulator.py:176-181), [iters] = log2 N *)
Fixpoint hadamard (iters : nat) : list (list Z) :=
  match iters with
  | O => [[1]]
  | S m => let H := hadamard m in
           map (fun r => r ++ r) H ++ map (fun r => r ++ map Z.opp r) H
  end.
Definition hadamard_matrix (N : Z) : list (list Z) := hadamard (Z.to_nat (Z.log2 N)).

(** cw of _hadamard_codeword (mr_o_qpsk_modulator.py:203-211) with M = 3; np.logical_not of a row of +-1 *)
Definition hadamard_cw (H : list (list Z)) (i : Z) : list Z :=
  if i <? 4 then nth (Z.to_nat i) H []
  else map (fun x => if x =? 0 then 1 else 0) (nth (Z.to_nat (7 - i)) H []).

(** _hadamard_encoder (mr_o_qpsk_modulator.py:663-670) on the list of rows *)
Definition hadamard_row (N : Z) (bs : list bool) : res (list Z) :=
  do groups <- reshape_rows 3 bs;
  do indices <- mapM (fun g => to_int g true) groups;
  Ok (concat (map (hadamard_cw (hadamard_matrix N)) indices)).
Definition hadamard_encoder (bitstreams : list (list bool)) (N : Z) : res (list (list Z)) :=
  mapM (hadamard_row N) bitstreams.

(** _SPC_encoder (mr_o_qpsk_modulator.py:692-703): the three rows stored as uint8 (integers wrap modulo 256)
    and a parity row; column 1 of each 4-column block is used for the four columns; a last partial block stays 0. *)
Definition SPC_encoder (t : list (list Z)) : list (list Z) :=
  let r0 := nth 0 t [] in let r1 := nth 1 t [] in let r2 := nth 2 t [] in
  let cols := length r0 in
  let nb := Nat.div cols 4 in
  let full := (4 * nb)%nat in
  let store r := map (fun x => x mod 256) (firstn full r) ++ repeat 0 (cols - full) in
  let parity i := let x := Z.lxor (Z.lxor (nth (4 * i + 1) r0 0) (nth (4 * i + 1) r1 0)) (nth (4 * i + 1) r2 0) in
                  if x =? 0 then 1 else 0 in
  [store r0; store r1; store r2;
   flat_map (fun i => repeat (parity i) 4) (seq 0 nb) ++ repeat 0 (cols - full)].

(** np.insert(message, (arange(size//8)+1)*8, 0) (mr_o_qpsk_modulator.py:739): a 0 after each whole octet *)
Definition insert_p (m : list bool) : list bool :=
  let n8 := (8 * (length m / 8))%nat in
  flat_map (fun c => c ++ [false]) (chunks 8 (firstn n8 m)) ++ skipn n8 m.

(** _TPC (mr_o_qpsk_modulator.py:731-752); reshape(3, -1, order='F') puts element 3j+i in row i *)
Definition TPC (message_binary : list bool) (N : Z) : res (list (list Z)) :=
  let pad := Nat.modulo (length message_binary) 8 in
  let m := message_binary ++ repeat false pad in
  let mp := insert_p m in
  do cols <- reshape_rows 3 mp;
  let row i := map (fun c => nth i c false) cols in
  do t <- hadamard_encoder [row 0%nat; row 1%nat; row 2%nat] N;
  Ok (SPC_encoder t).

(** COVERING_CODE (mr_o_qpsk_modulator.py:153-158) *)
Definition COVERING_CODE (n : Z) : res (list bool) :=
  do (k1, k2) <- zdict COVERING_CODE_KEY n;
  do table <- dict_get String.eqb k1 DSSS;
  do code <- dict_get String.eqb k2 table;
  Ok (from_bitstring code).

(** _spreading_multiplexing (mr_o_qpsk_modulator.py:770-788).  The array ci filled by the loop is never used:
    the output indexes c, which still holds the zeros it was created with. *)
Definition spreading_multiplexing (bitstreams : list (list Z)) (n : Z) : res (list bool) :=
  let size := (4 * length (nth 0 bitstreams []))%nat in
  let c := repeat false size in
  do mi <- COVERING_CODE n;
  do cs <- mapM (fun i => do j <- np_index (Z.of_nat size) ((Z.of_nat i mod 4 + Z.of_nat i / n * 4) mod 256);
                          Ok (nth j c false)) (seq 0 (Z.to_nat (4 * n)));
  if Nat.eqb (length cs) (length mi) then Ok (map2 xorb cs mi) else Err ValueError.

(** _MDSSS (mr_o_qpsk_modulator.py:807-815) *)
Definition MDSSS (message : list bool) (spreading_factor : Z) : res (list bool) :=
  let N := spreading_factor / 4 in
  do bitstreams <- TPC message N;
  spreading_multiplexing bitstreams N.

(** _SHR (mr_o_qpsk_modulator.py:827-829) *)
Definition q_SHR (s : oqpsk) : res (list bool) :=
  do n <- bget PREAMPLE_LENGTH (q_band s);
  Ok (repeat false (Z.to_nat n) ++ from_bitstring OQPSK_SFD).

(** _PHR (mr_o_qpsk_modulator.py:847-871) *)
Definition q_G8 : list Z := [1; 0; 0; 0; 0; 0; 1; 1; 1].
Definition q_x8 : list Z := [1; 0; 0; 0; 0; 0; 0; 0; 0].
Definition q_HCS (p : platform) (M : list bool) : list Z :=
  let M2 := map (fun x => (u8cast p x) mod 2) (polymul (map b2z M) q_x8) in
  map (fun x => (u8cast p x) mod 2) (polydiv_rem M2 q_G8).
Definition q_PHR (p : platform) (s : oqpsk) (message_length : Z) : res (list bool) :=
  let s0 := set_nth 0 (negb (q_SM s =? 0)) (repeat false 24) in
  do s1 <- assign_slice 1 3 (to_bin (q_RM s) 2 true) s0;
  do s2 <- assign_slice 5 16 (to_bin message_length 11 true) s1;
  let R := q_HCS p (firstn 16 s2) in
  if Nat.ltb 8 (length R) then Err ValueError
  else assign_slice 16 24 (map z2b (repeat 0 (8 - length R) ++ R)) s2.

(** _insert_pilots (mr_o_qpsk_modulator.py:887-901) *)
Definition insert_pilots (band : Frequency_band) (psdu : list bool) : res (list bool) :=
  do MP <- bget PILOT_SPACING band;
  do pilot <- bget PILOT_SEQUENCES band;
  Ok (flat_map (fun c => from_bitstring pilot ++ c) (chunks (Z.to_nat MP) psdu)).

(** iter of _FEC (mr_o_qpsk_modulator.py:934-942): (u_next, ak0, ak1) *)
Definition q_iter (u u_new : Z) : Z * (Z * Z) :=
  let bit k := Z.land (Z.shiftr u k) 1 in
  let ak0 := Z.lxor (Z.lxor (Z.lxor (Z.lxor u_new (bit 4)) (bit 3)) (bit 1)) (Z.land u 1) in
  let ak1 := Z.lxor (Z.lxor (Z.lxor (Z.lxor u_new (bit 5)) (bit 4)) (bit 3)) (Z.land u 1) in
  (Z.lor (Z.shiftr u 1) (Z.shiftl u_new 5), (ak0, ak1)).
Fixpoint q_fec_loop (u : Z) (bits : list Z) : list Z :=
  match bits with
  | [] => []
  | b :: r => let '(u', (a0, a1)) := q_iter u b in a0 :: a1 :: q_fec_loop u' r
  end.
(** padding of _FEC (mr_o_qpsk_modulator.py:919-932) *)
Definition q_fec_pad (data : list bool) (isPSDU : bool) : list bool :=
  if isPSDU then
    let LENGTH := zlen data / 8 in
    let NB := ceil_div (8 * LENGTH + 6) 63 in
    let ND := NB * 63 in
    let N_PAD := ND - (8 * LENGTH + 6) in
    data ++ repeat false (Z.to_nat (6 + N_PAD))
  else data ++ repeat false 6.
(** _FEC (mr_o_qpsk_modulator.py:919-952) *)
Definition q_FEC (data : list bool) (isPSDU : bool) : list bool :=
  map z2b (q_fec_loop 0 (map b2z (q_fec_pad data isPSDU))).

(** _interleaver (mr_o_qpsk_modulator.py:971-985): output[k] = data[i(k)], negative i counting from the end *)
Definition q_il_index (isPSDU : bool) (k : Z) : Z :=
  let Lambda := if isPSDU then 7 else 6 in
  let N := if isPSDU then 126 else 60 in
  N / Lambda * ((N - 1 - k) mod Lambda) + (N - 1 - k) / Lambda.
Definition q_interleaver (data : list bool) (isPSDU : bool) : res (list bool) :=
  mapM (fun k => do i <- np_index (zlen data) (q_il_index isPSDU (Z.of_nat k)); Ok (nth i data false))
       (seq 0 (length data)).

(** PSDU part of bitsToIQ (mr_o_qpsk_modulator.py:1103-1126): chips before pilot insertion.
    Indexing the string "not supported" (bands without MDSSS) gives a character, and str // int a TypeError. *)
Definition q_psdu (bits : list bool) : SM oqpsk (list bool) :=
  sdo RM <- sget q_RM;
  sdo SM_ <- sget q_SM;
  sdo band <- sget q_band;
  sdo _ <- (if ((0 <=? RM) && (RM <=? 1)) || (SM_ =? 0) then
              sdo _ <- setattr "_PSDU_encoded" (q_FEC bits true);
              sdo e <- getattr "_PSDU_encoded";
              sdo int <- slift (q_interleaver e true);
              sdo _ <- setattr "_PSDU_interleaved" int;
              sdo i <- getattr "_PSDU_interleaved";
              setattr "_PSDU_temp" i
            else setattr "_PSDU_temp" bits);
  if SM_ =? 0 then
    sdo use_bde <- slift (do d <- bget PSDU_BDE_DSSS band; zdict d RM);
    sdo t <- getattr "_PSDU_temp";
    sdo _ <- setattr "_PSDU_BDE" (if (use_bde : bool) then BDE t false 0 else t);
    sdo sp <- slift (do d <- bget PSDU_SPREADING_DSSS band; zdict d RM);
    sdo x <- getattr "_PSDU_BDE";
    match sp with
    | Some spreading => slift (DSSS_spread x spreading)
    | None => sret x
    end
  else
    sdo t <- getattr "_PSDU_temp";
    sdo sf <- slift (do d <- bget PSDU_SPREADING_FACTOR_MDSSS band;
                     match d with
                     | Some d' => zdict d' RM
                     | None => if (-13 <=? RM) && (RM <=? 12) then Err TypeError else Err IndexError
                     end);
    slift (MDSSS t sf).

(** chip rate lookup of _o_qpsk_modulator (mr_o_qpsk_modulator.py:1041) *)
Definition q_chip_rate (s : oqpsk) : res Z :=
  do d <- zdict DATA_RATE (q_SM s);
  do e <- bget d (q_band s);
  match e with
  | Some f => zdict f (q_RM s)
  | None => if (-13 <=? q_RM s) && (q_RM s <=? 12) then Err TypeError else Err IndexError
  end.

(** bitsToIQ (mr_o_qpsk_modulator.py:1083-1140): the chip sequence _cPPDU handed to the pulse shaper and the
    sampling frequency chip_rate * samples_per_symbol.  A non-positive samples_per_symbol raises ValueError
    (np.zeros of a negative size, or a zero slice step). *)
Definition q_bitsToChips (p : platform) (a : arg) : SM oqpsk (list bool * Z) :=
  sdo bits <- slift (check_binary_array a);
  sdo band <- sget q_band;
  sdo shr <- (fun s => (s, q_SHR s));
  sdo _ <- setattr "_shr_bde" (BDE shr false 0);
  sdo shr_bde <- getattr "_shr_bde";
  sdo cshr <- slift (do sp <- bget SHR_SPREADING band; DSSS_spread shr_bde sp);
  sdo _ <- setattr "_cSHR" cshr;
  sdo phr <- (fun s => (s, q_PHR p s (zlen bits / 8)));
  sdo _ <- setattr "_phr_encoded" (q_FEC phr false);
  sdo pe <- getattr "_phr_encoded";
  sdo int <- slift (q_interleaver pe false);
  sdo _ <- setattr "_phr_interleaved" int;
  sdo pi <- getattr "_phr_interleaved";
  sdo sb <- getattr "_shr_bde";
  sdo _ <- setattr "_phr_bde" (BDE pi (last sb false) 0);
  sdo pb <- getattr "_phr_bde";
  sdo cphr <- slift (do sp <- bget PHR_SPREADING band; DSSS_spread pb sp);
  sdo _ <- setattr "_cPHR" cphr;
  sdo spread <- q_psdu bits;
  sdo cpsdu <- slift (insert_pilots band spread);
  sdo _ <- setattr "_cPSDU" cpsdu;
  sdo c1 <- getattr "_cSHR";
  sdo c2 <- getattr "_cPHR";
  sdo c3 <- getattr "_cPSDU";
  sdo _ <- setattr "_cPPDU" (c1 ++ c2 ++ c3);
  sdo c <- getattr "_cPPDU";
  sdo rate <- (fun s => (s, q_chip_rate s));
  sdo sps <- sget q_sps;
  if sps <=? 0 then slift (Err ValueError) else sret (c, rate * sps).

(** bytesToIQ (mr_o_qpsk_modulator.py:1160-1162) *)
Definition q_bytesToChips (p : platform) (a : arg) : SM oqpsk (list bool * Z) :=
  sdo bits <- slift (to_binary_array a); q_bitsToChips p (bits_arg bits).
