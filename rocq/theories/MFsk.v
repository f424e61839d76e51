(** * Model of sun_phy/mr_fsk/mr_fsk_modulator.py *)
From Verif Require Import Py MBits MPn9 Tables.
From Coq Require Import SpecFloat.

(** Attributes of Mr_fsk_modulator: first group assigned by __init__, second one by bitsToIQ. *)
Record fsk := {
  k_rate : Z;                    (* _symbol_rate *)
  k_h : Q;                       (* _FSKModulationIndex *)
  k_fcs : Z;                     (* _macFCSType *)
  k_fec : bool;                  (* _phyFSKFECEnabled *)
  k_sfd : Z;                     (* _phyMRFSKSFD *)
  k_preamble : Z;                (* _phyFSKPreambleLength *)
  k_fsk4 : bool;                 (* _modulation = Modulation.FSK4 *)
  k_white : bool;                (* _phyFSKScramblePSDU *)
  k_il : bool;                   (* _phyFSKFECInterleavingRSC *)
  k_scheme : Z;                  (* _phyFSKFECScheme *)
  k_phr_psdu : option (list bool);     (* _PHR_PSDU *)
  k_encoded : option (list bool);      (* _PHR_PSDU_encoded *)
  k_interleaved : option (list bool);  (* _PHR_PSDU_interleaved *)
  k_scrambled : option (list bool);    (* _PHR_PSDU_scrambled *)
  k_binary : option (list bool)        (* _binarySignal *)
}.
Definition kset_phr_psdu v s := {| k_rate := k_rate s; k_h := k_h s; k_fcs := k_fcs s; k_fec := k_fec s; k_sfd := k_sfd s; k_preamble := k_preamble s; k_fsk4 := k_fsk4 s; k_white := k_white s; k_il := k_il s; k_scheme := k_scheme s; k_phr_psdu := Some v; k_encoded := k_encoded s; k_interleaved := k_interleaved s; k_scrambled := k_scrambled s; k_binary := k_binary s |}.
Definition kset_encoded v s := {| k_rate := k_rate s; k_h := k_h s; k_fcs := k_fcs s; k_fec := k_fec s; k_sfd := k_sfd s; k_preamble := k_preamble s; k_fsk4 := k_fsk4 s; k_white := k_white s; k_il := k_il s; k_scheme := k_scheme s; k_phr_psdu := k_phr_psdu s; k_encoded := Some v; k_interleaved := k_interleaved s; k_scrambled := k_scrambled s; k_binary := k_binary s |}.
Definition kset_interleaved v s := {| k_rate := k_rate s; k_h := k_h s; k_fcs := k_fcs s; k_fec := k_fec s; k_sfd := k_sfd s; k_preamble := k_preamble s; k_fsk4 := k_fsk4 s; k_white := k_white s; k_il := k_il s; k_scheme := k_scheme s; k_phr_psdu := k_phr_psdu s; k_encoded := k_encoded s; k_interleaved := Some v; k_scrambled := k_scrambled s; k_binary := k_binary s |}.
Definition kset_scrambled v s := {| k_rate := k_rate s; k_h := k_h s; k_fcs := k_fcs s; k_fec := k_fec s; k_sfd := k_sfd s; k_preamble := k_preamble s; k_fsk4 := k_fsk4 s; k_white := k_white s; k_il := k_il s; k_scheme := k_scheme s; k_phr_psdu := k_phr_psdu s; k_encoded := k_encoded s; k_interleaved := k_interleaved s; k_scrambled := Some v; k_binary := k_binary s |}.
Definition kset_binary v s := {| k_rate := k_rate s; k_h := k_h s; k_fcs := k_fcs s; k_fec := k_fec s; k_sfd := k_sfd s; k_preamble := k_preamble s; k_fsk4 := k_fsk4 s; k_white := k_white s; k_il := k_il s; k_scheme := k_scheme s; k_phr_psdu := k_phr_psdu s; k_encoded := k_encoded s; k_interleaved := k_interleaved s; k_scrambled := k_scrambled s; k_binary := Some v |}.

(** __init__ (mr_fsk_modulator.py:98-162); checks in the order of the code.  NaN and infinities are not
    modelled ([pyval] has finite floats only). *)
Definition fsk_new (symbolRate FSKModulationIndex phyMRFSKSFD modulation phyFSKFECEnabled phyFSKFECScheme
                    macFCSType phyFSKScramblePSDU phyFSKFECInterleavingRSC phyFSKPreambleLength : pyval)
  : res fsk :=
  do rate <- (if is_float symbolRate then Ok (Qtrunc (num_of symbolRate))
              else if is_int symbolRate then Ok (int_of symbolRate) else Err TypeError);
  if rate <=? 0 then Err ValueError
  else if negb (is_float FSKModulationIndex || is_int FSKModulationIndex) then Err TypeError
  else if negb (Qle_bool (1 # 4) (num_of FSKModulationIndex) && Qle_bool (num_of FSKModulationIndex) (5 # 2))
  then Err ValueError
  else if negb (is_int phyMRFSKSFD) then Err TypeError
  else if negb ((int_of phyMRFSKSFD =? 0) || (int_of phyMRFSKSFD =? 1)) then Err ValueError
  else if negb (is_int phyFSKPreambleLength) then Err TypeError
  else if negb ((4 <=? int_of phyFSKPreambleLength) && (int_of phyFSKPreambleLength <=? 1000))
  then Err ValueError
  else match modulation with
  | PStr m =>
    if negb (String.eqb m "2FSK" || String.eqb m "4FSK") then Err ValueError
    else if negb (is_bool phyFSKFECEnabled) then Err TypeError
    else if negb (is_int phyFSKFECScheme) then Err TypeError
    else if negb ((int_of phyFSKFECScheme =? 0) || (int_of phyFSKFECScheme =? 1)) then Err ValueError
    else if negb (is_int macFCSType) then Err TypeError
    else if negb ((int_of macFCSType =? 0) || (int_of macFCSType =? 1)) then Err ValueError
    else if negb (is_int phyFSKScramblePSDU) then Err TypeError
    else if negb (is_bool phyFSKFECInterleavingRSC) then Err TypeError
    else Ok {| k_rate := rate; k_h := num_of FSKModulationIndex; k_fcs := int_of macFCSType;
               k_fec := z2b (int_of phyFSKFECEnabled); k_sfd := int_of phyMRFSKSFD;
               k_preamble := int_of phyFSKPreambleLength; k_fsk4 := negb (String.eqb m "2FSK");
               k_white := z2b (int_of phyFSKScramblePSDU);
               k_il := z2b (int_of phyFSKFECInterleavingRSC); k_scheme := int_of phyFSKFECScheme;
               k_phr_psdu := None; k_encoded := None; k_interleaved := None; k_scrambled := None;
               k_binary := None |}
  | _ => Err TypeError
  end.

(** _bin (mr_fsk_modulator.py:164-178), MSB first *)
Definition k_bin (number : Z) (width : nat) : list bool := binary_repr number width.

Definition sfd_key_eqb (a b : bool * Z * bool) : bool :=
  let '(a1, a2, a3) := a in let '(b1, b2, b3) := b in Bool.eqb a1 b1 && (a2 =? b2) && Bool.eqb a3 b3.
(** PREAMBLE_SEQUENCE (mr_fsk_modulator.py:35-38): np.tile of the pattern *)
Definition preamble_sequence (fsk4 : bool) : list bool :=
  let '(p, n) := nth (if fsk4 then 1 else 0) FSK_PREAMBLE_SEQUENCE ([], 0) in
  concat (repeat (map z2b p) (Z.to_nat n)).

(** _SHR (mr_fsk_modulator.py:190-195) *)
Definition k_SHR (s : fsk) : res (list bool) :=
  do sfd <- dict_get sfd_key_eqb (k_fsk4 s, k_sfd s, k_fec s) FSK_SFD;
  Ok (concat (repeat (preamble_sequence (k_fsk4 s)) (Z.to_nat (k_preamble s))) ++ from_bitstring sfd).

(** _PHR (mr_fsk_modulator.py:243-251): the assignment to signal[5:] (11 places) raises ValueError on a
    longer binary representation. *)
Definition k_PHR (s : fsk) (message_length : Z) : res (list bool) :=
  let l := k_bin message_length 11 in
  if Nat.eqb (length l) 11
  then Ok ([false; false; false; z2b (k_fcs s); k_white s] ++ l)
  else Err ValueError.

(** M_iter_RSC (mr_fsk_modulator.py:267-277): new memory, (ui0, ui1) *)
Definition M_iter_RSC (M bi : Z) : Z * (Z * Z) :=
  let M0 := Z.land (Z.shiftr M 2) 1 in
  let M1 := Z.land (Z.shiftr M 1) 1 in
  let M2 := Z.land M 1 in
  let ui0 := bi in
  let fb := Z.lxor (Z.lxor (Z.lxor bi M0) M1) M2 in
  let ui1 := Z.lxor (Z.lxor fb M1) M2 in
  (Z.lor (Z.lor (Z.shiftl fb 2) (Z.shiftl M0 1)) M1, (ui0, ui1)).

(** M_iter_NRNSC (mr_fsk_modulator.py:279-288); [not x] is 1 - truth value *)
Definition py_not (x : Z) : Z := if x =? 0 then 1 else 0.
Definition M_iter_NRNSC (M bi : Z) : Z * (Z * Z) :=
  let M0 := Z.land (Z.shiftr M 2) 1 in
  let M1 := Z.land (Z.shiftr M 1) 1 in
  let M2 := Z.land M 1 in
  let ui0 := py_not (Z.lxor (Z.lxor (Z.lxor bi M0) M1) M2) in
  let ui1 := py_not (Z.lxor (Z.lxor bi M1) M2) in
  (Z.lor (Z.lor (Z.shiftl bi 2) (Z.shiftl M0 1)) M1, (ui0, ui1)).

Definition M_iter (scheme : Z) (M bi : Z) : Z * (Z * Z) :=
  if scheme =? 0 then M_iter_NRNSC M bi else M_iter_RSC M bi.

(** encoding loops (mr_fsk_modulator.py:303-312): appends ui1 then ui0 *)
Fixpoint fec_loop (scheme M : Z) (bits : list Z) : Z * list Z :=
  match bits with
  | [] => (M, [])
  | bi :: r =>
      let '(M1, (ui0, ui1)) := M_iter scheme M bi in
      let '(M2, out) := fec_loop scheme M1 r in
      (M2, ui1 :: ui0 :: out)
  end.

(** PAD_BITS (mr_fsk_modulator.py:292-298) *)
Definition pad_bits (data_size : Z) : list Z :=
  if (data_size / 8) mod 2 =? 0 then [0; 1; 0; 1; 1; 0; 0; 0; 0; 1; 0; 1; 1] else [0; 1; 0; 1; 1].

(** _FEC (mr_fsk_modulator.py:291-335) with its default arguments tail = pad = True *)
Definition k_FEC (scheme : Z) (data : list bool) : res (list bool) :=
  let '(M, enc) := fec_loop scheme 0 (map b2z data) in
  do tail <- (if scheme =? 0 then Ok NRNSC_TAIL_BITS else dict_get Z.eqb M RSC_TAIL_BITS);
  let '(M1, enc_tail) := fec_loop scheme M tail in
  let '(_, enc_pad) := fec_loop scheme M1 (pad_bits (zlen data)) in
  Ok (map z2b (enc ++ enc_tail ++ enc_pad)).

(** _interleaver (mr_fsk_modulator.py:350-365): pair k of each 32-bit block goes to pair t(k);
    data.reshape(-1, 32) raises ValueError on a partial block *)
Definition il_t (k : Z) : Z := 15 - 4 * (k mod 4) - k / 4.
Definition il_block (block : list bool) : list bool :=
  fold_left (fun new ki =>
               let ti := Z.to_nat (il_t (Z.of_nat ki)) in
               set_slice (ti * 2) (firstn 2 (skipn (ki * 2) block)) new)
            (seq 0 16) (repeat false (length block)).
Definition k_interleaver (data : list bool) : res (list bool) :=
  do blocks <- reshape_rows 32 data; Ok (concat (map il_block blocks)).

(** np.arange(0, dt * n, dt).size with dt = (1 / symbol_rate) / 20 (mr_fsk_modulator.py:426-430), in IEEE
    binary64: numpy's length is ceil((stop - start) / step), here ceil((dt * n) / dt).  Exact for
    symbol_rate and n below 2^53 (conversion of a larger int to float would itself round). *)
Definition sf_of_Z (z : Z) : spec_float := binary_normalize 53 1024 z 0 false.
Definition sf_ceil (x : spec_float) : option Z :=
  match x with
  | S754_zero _ => Some 0
  | S754_finite s m e =>
      let v := if s then Z.neg m else Z.pos m in
      Some (if 0 <=? e then v * 2 ^ e else ceil_div v (2 ^ (- e)))
  | _ => None
  end.
Definition k_dt (rate samplesPerSymbol : Z) : spec_float :=
  SFdiv 53 1024 (SFdiv 53 1024 (sf_of_Z 1) (sf_of_Z rate)) (sf_of_Z samplesPerSymbol).
Definition arange_size (rate samplesPerSymbol n : Z) : option Z :=
  let dt := k_dt rate samplesPerSymbol in
  sf_ceil (SFdiv 53 1024 (SFmul 53 1024 dt (sf_of_Z n)) dt).

(** frequency of a symbol in units of deltaF = symbol_rate * h / 2 (mr_fsk_modulator.py:398-421);
    fdev/3 with fdev = 3*deltaF is taken as deltaF *)
Definition fsk_freq (fsk4 : bool) (sym : list bool) : res Z :=
  match fsk4, sym with
  | false, [false] => Ok (-1)
  | false, [true] => Ok 1
  | true, [false; true] => Ok (-3)
  | true, [false; false] => Ok (-1)
  | true, [true; false] => Ok 1
  | true, [true; true] => Ok 3
  | _, _ => Err KeyError
  end.

(** signal returned by _FSKModulator: sample n is exp(2*pi*i*phase_n), with the phases in turns; and the
    sampling frequency 1/dt (exact value; the float rounding of 1/dt is not modelled). *)
Record fsk_signal := { sig_phase : list Q; sig_f : Z }.

(** _FSKModulator (mr_fsk_modulator.py:398-434).  phase_n = f_n * t_n with
    f_n = freq * (rate * h / 2), t_n = n / (rate * samplesPerSymbol).  When np.arange's size differs
    from f.size the product f*1j*t raises ValueError. *)
Definition FSKModulator (s : fsk) (message : list bool) (samplesPerSymbol : Z) : res fsk_signal :=
  do rows <- reshape_rows (if k_fsk4 s then 2 else 1) message;
  do freqs <- mapM (fsk_freq (k_fsk4 s)) rows;
  let f := flat_map (fun x => repeat x (Z.to_nat samplesPerSymbol)) freqs in
  match arange_size (k_rate s) samplesPerSymbol (zlen f) with
  | None => Err ValueError
  | Some n =>
      if n =? zlen f then
        Ok {| sig_phase := map2 (fun x i => (inject_Z x * k_h s * (Z.of_nat i # Z.to_pos (2 * samplesPerSymbol)))%Q)
                                f (seq 0 (length f));
              sig_f := k_rate s * samplesPerSymbol |}
      else Err ValueError
  end.

(** bitsToIQ (mr_fsk_modulator.py:454-495) *)
Definition k_bitsToIQ (a : arg) : SM fsk fsk_signal :=
  sdo bits <- slift (check_binary_array a);
  sdo phr <- (fun s => (s, k_PHR s (zlen bits / 8)));
  sdo _ <- smod (kset_phr_psdu (phr ++ bits));
  sdo fec <- sget k_fec;
  sdo symbol_length <-
    (if fec then
       sdo d <- sattr k_phr_psdu;
       sdo scheme <- sget k_scheme;
       sdo enc <- slift (k_FEC scheme d);
       sdo _ <- smod (kset_encoded enc);
       sdo il <- sget k_il;
       sdo _ <- (if il then
                   sdo e <- sattr k_encoded;
                   sdo int <- slift (k_interleaver e);
                   sdo _ <- smod (kset_interleaved int);
                   smod (kset_phr_psdu int)
                 else smod (kset_phr_psdu enc));
       sret 2
     else sret 1);
  sdo white <- sget k_white;
  sdo _ <- (if white then
              let start := Z.to_nat (2 * symbol_length * 8) in
              sdo d <- sattr k_phr_psdu;
              let d' := firstn start d ++ scrambler (skipn start d) 511 in
              sdo _ <- smod (kset_scrambled d');
              smod (kset_phr_psdu d')
            else sret tt);
  sdo shr <- (fun s => (s, k_SHR s));
  sdo d <- sattr k_phr_psdu;
  sdo _ <- smod (kset_binary (shr ++ d));
  sdo b <- sattr k_binary;
  fun s => (s, FSKModulator s b 20).

(** bytesToIQ (mr_fsk_modulator.py:513-514) *)
Definition k_bytesToIQ (a : arg) : SM fsk fsk_signal :=
  sdo bits <- slift (to_binary_array a); k_bitsToIQ (bits_arg bits).

(** modeSwitchToIQ (mr_fsk_modulator.py:516-532): only checks its first argument and returns None. *)
Definition k_modeSwitchToIQ (modeSwitchParameterEntry new_mode_fec : pyval) : SM fsk (option fsk_signal) :=
  slift (if is_int modeSwitchParameterEntry then
           if negb ((0 <=? int_of modeSwitchParameterEntry) && (int_of modeSwitchParameterEntry <=? 3))
           then Err ValueError else Ok None
         else Err TypeError).

(** numpy assignments to an integer array: signal[lo:hi] = v (v broadcast if it has one element), signal[i] = v with an array v *)
Definition np_assign_slice (lo hi : nat) (v signal : list Z) : res (list Z) :=
  if Nat.eqb (length v) (hi - lo) then Ok (set_slice lo v signal)
  else match v with [x] => Ok (set_slice lo (repeat x (hi - lo)) signal) | _ => Err ValueError end.
Definition np_assign_item (i : nat) (v signal : list Z) : res (list Z) :=
  match v with [x] => Ok (set_slice i [x] signal) | _ => Err ValueError end.
(** _PHR_mode_switch (mr_fsk_modulator.py:197-225), integer arguments; the printed warning is dropped.  np.binary_repr of the
    array B raises TypeError (operator.index) *)
Definition k_PHR_mode_switch (modeSwitchParameterEntry new_mode_fec PAGE MOD MD : Z) : res (list Z) :=
  let signal := repeat 0 16 in
  do signal <- np_assign_item 0 [1] signal;
  do signal <- np_assign_slice 1 3 (map b2z (k_bin modeSwitchParameterEntry 2)) signal;
  do signal <- np_assign_item 3 [new_mode_fec] signal;
  do signal <- np_assign_item 4 [PAGE] signal;
  do signal <- np_assign_item 5 (map b2z (k_bin MOD 2)) signal;
  do signal <- np_assign_slice 7 11 (map b2z (k_bin MD 4)) signal;
  Err TypeError.
