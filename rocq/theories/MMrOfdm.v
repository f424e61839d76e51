(** * Model of sun_phy/mr_ofdm/mr_ofdm_modulator.py up to the frequency domain
    (the time-domain part - STF, LTF, IFFT, cyclic prefix - is in [MTime]). *)
From Verif Require Import Py MBits MPn9 MRate MFields MModul MOfdm Tables.

(** PILOTS_INDICES (mr_ofdm_modulator.py:80-85) *)
Definition PILOTS_INDICES : list (Z * list (list Z)) :=
  [(1, PILOTS_INDICES_OPTION_1); (2, PILOTS_INDICES_OPTION_2);
   (3, PILOTS_INDICES_OPTION_3); (4, PILOTS_INDICES_OPTION_4)].

Definition zget {V} (d : list (Z * V)) (k : Z) : res V := dict_get Z.eqb k d.

(** Attributes of Mr_ofdm_modulator.  The first group is assigned by __init__, the second one by
    bitsToIQ and the methods it calls (None: not assigned yet). *)
Record mr_ofdm := {
  m_il : Z;                       (* _phyOFDMInterleaving *)
  m_scr : Z;                      (* _scrambler_seed_index *)
  m_opt : Z;                      (* _OFDM_Option *)
  m_mcs : Z;                      (* _MCS *)
  m_low : Z;                      (* _lowest_MCS *)
  m_nfft : Z;                     (* _N_FFT *)
  m_ncbps_low : Z;                (* _N_cbps_lowest_mcs *)
  m_ncbps : Z;                    (* _N_cbps *)
  m_rate : Q;                     (* _rate *)
  m_ndbps : Z;                    (* _N_dbps *)
  m_ij : option (list Z);         (* _ij *)
  m_npad : option Z;              (* _N_PAD *)
  m_header : option (list bool);      (* _PHY_header *)
  m_header_enc : option (list bool);  (* _PHY_header_encoded *)
  m_header_int : option (list bool);  (* _PHY_header_interleaved *)
  m_pay_pad : option (list bool);     (* _payload_pad *)
  m_pay_scr : option (list bool);     (* _payload_scrambled *)
  m_pay_enc : option (list bool);     (* _payload_encoded *)
  m_pay_int : option (list bool);     (* _payload_interleaved *)
  m_mod_phy : option (ofdm_cfg * ofdm_st) (* _mod_phy *)
}.

Definition upd_ij v s := {| m_il := m_il s; m_scr := m_scr s; m_opt := m_opt s; m_mcs := m_mcs s; m_low := m_low s; m_nfft := m_nfft s; m_ncbps_low := m_ncbps_low s; m_ncbps := m_ncbps s; m_rate := m_rate s; m_ndbps := m_ndbps s; m_ij := Some v; m_npad := m_npad s; m_header := m_header s; m_header_enc := m_header_enc s; m_header_int := m_header_int s; m_pay_pad := m_pay_pad s; m_pay_scr := m_pay_scr s; m_pay_enc := m_pay_enc s; m_pay_int := m_pay_int s; m_mod_phy := m_mod_phy s |}.
Definition upd_npad v s := {| m_il := m_il s; m_scr := m_scr s; m_opt := m_opt s; m_mcs := m_mcs s; m_low := m_low s; m_nfft := m_nfft s; m_ncbps_low := m_ncbps_low s; m_ncbps := m_ncbps s; m_rate := m_rate s; m_ndbps := m_ndbps s; m_ij := m_ij s; m_npad := Some v; m_header := m_header s; m_header_enc := m_header_enc s; m_header_int := m_header_int s; m_pay_pad := m_pay_pad s; m_pay_scr := m_pay_scr s; m_pay_enc := m_pay_enc s; m_pay_int := m_pay_int s; m_mod_phy := m_mod_phy s |}.
Definition upd_header v s := {| m_il := m_il s; m_scr := m_scr s; m_opt := m_opt s; m_mcs := m_mcs s; m_low := m_low s; m_nfft := m_nfft s; m_ncbps_low := m_ncbps_low s; m_ncbps := m_ncbps s; m_rate := m_rate s; m_ndbps := m_ndbps s; m_ij := m_ij s; m_npad := m_npad s; m_header := Some v; m_header_enc := m_header_enc s; m_header_int := m_header_int s; m_pay_pad := m_pay_pad s; m_pay_scr := m_pay_scr s; m_pay_enc := m_pay_enc s; m_pay_int := m_pay_int s; m_mod_phy := m_mod_phy s |}.
Definition upd_header_enc v s := {| m_il := m_il s; m_scr := m_scr s; m_opt := m_opt s; m_mcs := m_mcs s; m_low := m_low s; m_nfft := m_nfft s; m_ncbps_low := m_ncbps_low s; m_ncbps := m_ncbps s; m_rate := m_rate s; m_ndbps := m_ndbps s; m_ij := m_ij s; m_npad := m_npad s; m_header := m_header s; m_header_enc := Some v; m_header_int := m_header_int s; m_pay_pad := m_pay_pad s; m_pay_scr := m_pay_scr s; m_pay_enc := m_pay_enc s; m_pay_int := m_pay_int s; m_mod_phy := m_mod_phy s |}.
Definition upd_header_int v s := {| m_il := m_il s; m_scr := m_scr s; m_opt := m_opt s; m_mcs := m_mcs s; m_low := m_low s; m_nfft := m_nfft s; m_ncbps_low := m_ncbps_low s; m_ncbps := m_ncbps s; m_rate := m_rate s; m_ndbps := m_ndbps s; m_ij := m_ij s; m_npad := m_npad s; m_header := m_header s; m_header_enc := m_header_enc s; m_header_int := Some v; m_pay_pad := m_pay_pad s; m_pay_scr := m_pay_scr s; m_pay_enc := m_pay_enc s; m_pay_int := m_pay_int s; m_mod_phy := m_mod_phy s |}.
Definition upd_pay_pad v s := {| m_il := m_il s; m_scr := m_scr s; m_opt := m_opt s; m_mcs := m_mcs s; m_low := m_low s; m_nfft := m_nfft s; m_ncbps_low := m_ncbps_low s; m_ncbps := m_ncbps s; m_rate := m_rate s; m_ndbps := m_ndbps s; m_ij := m_ij s; m_npad := m_npad s; m_header := m_header s; m_header_enc := m_header_enc s; m_header_int := m_header_int s; m_pay_pad := Some v; m_pay_scr := m_pay_scr s; m_pay_enc := m_pay_enc s; m_pay_int := m_pay_int s; m_mod_phy := m_mod_phy s |}.
Definition upd_pay_scr v s := {| m_il := m_il s; m_scr := m_scr s; m_opt := m_opt s; m_mcs := m_mcs s; m_low := m_low s; m_nfft := m_nfft s; m_ncbps_low := m_ncbps_low s; m_ncbps := m_ncbps s; m_rate := m_rate s; m_ndbps := m_ndbps s; m_ij := m_ij s; m_npad := m_npad s; m_header := m_header s; m_header_enc := m_header_enc s; m_header_int := m_header_int s; m_pay_pad := m_pay_pad s; m_pay_scr := Some v; m_pay_enc := m_pay_enc s; m_pay_int := m_pay_int s; m_mod_phy := m_mod_phy s |}.
Definition upd_pay_enc v s := {| m_il := m_il s; m_scr := m_scr s; m_opt := m_opt s; m_mcs := m_mcs s; m_low := m_low s; m_nfft := m_nfft s; m_ncbps_low := m_ncbps_low s; m_ncbps := m_ncbps s; m_rate := m_rate s; m_ndbps := m_ndbps s; m_ij := m_ij s; m_npad := m_npad s; m_header := m_header s; m_header_enc := m_header_enc s; m_header_int := m_header_int s; m_pay_pad := m_pay_pad s; m_pay_scr := m_pay_scr s; m_pay_enc := Some v; m_pay_int := m_pay_int s; m_mod_phy := m_mod_phy s |}.
Definition upd_pay_int v s := {| m_il := m_il s; m_scr := m_scr s; m_opt := m_opt s; m_mcs := m_mcs s; m_low := m_low s; m_nfft := m_nfft s; m_ncbps_low := m_ncbps_low s; m_ncbps := m_ncbps s; m_rate := m_rate s; m_ndbps := m_ndbps s; m_ij := m_ij s; m_npad := m_npad s; m_header := m_header s; m_header_enc := m_header_enc s; m_header_int := m_header_int s; m_pay_pad := m_pay_pad s; m_pay_scr := m_pay_scr s; m_pay_enc := m_pay_enc s; m_pay_int := Some v; m_mod_phy := m_mod_phy s |}.
Definition upd_mod_phy v s := {| m_il := m_il s; m_scr := m_scr s; m_opt := m_opt s; m_mcs := m_mcs s; m_low := m_low s; m_nfft := m_nfft s; m_ncbps_low := m_ncbps_low s; m_ncbps := m_ncbps s; m_rate := m_rate s; m_ndbps := m_ndbps s; m_ij := m_ij s; m_npad := m_npad s; m_header := m_header s; m_header_enc := m_header_enc s; m_header_int := m_header_int s; m_pay_pad := m_pay_pad s; m_pay_scr := m_pay_scr s; m_pay_enc := m_pay_enc s; m_pay_int := m_pay_int s; m_mod_phy := Some v |}.

(** __init__ (mr_ofdm_modulator.py:272-311); the checks in the order of the code. *)
Definition mr_ofdm_new (MCS OFDM_Option phyOFDMInterleaving scrambler : pyval) : res mr_ofdm :=
  if negb (is_int MCS) then Err ValueError
  else if negb ((0 <=? int_of MCS) && (int_of MCS <=? 7)) then Err ValueError
  else if negb (is_int OFDM_Option) then Err ValueError
  else if negb ((1 <=? int_of OFDM_Option) && (int_of OFDM_Option <=? 4)) then Err ValueError
  else
    match nth_error VALID_MCS_OFDM_COMBINATIONS (Z.to_nat (int_of MCS)) with
    | None => Err IndexError
    | Some row =>
        match nth_error row (Z.to_nat (int_of OFDM_Option - 1)) with
        | None => Err IndexError
        | Some false => Err UnsupportedError
        | Some true =>
            if negb (is_int phyOFDMInterleaving) then Err ValueError
            else if negb ((int_of phyOFDMInterleaving =? 0) || (int_of phyOFDMInterleaving =? 1))
            then Err ValueError
            else if negb (is_int scrambler) then Err ValueError
            else if negb ((0 <=? int_of scrambler) && (int_of scrambler <=? 3)) then Err ValueError
            else
              let mcs := int_of MCS in
              let opt := int_of OFDM_Option in
              do low <- zget LOWEST_MCS_VALUE opt;
              do nfft <- zget FFT_SIZE opt;
              do dt <- zget DATA_TONES opt;
              do bl <- zget N_BPSC low;
              do bm <- zget N_BPSC mcs;
              do rs <- zget RATE mcs;
              let rate := if String.eqb rs "1/2" then (1 # 2)%Q else (3 # 4)%Q in
              Ok {| m_il := int_of phyOFDMInterleaving; m_scr := int_of scrambler; m_opt := opt;
                    m_mcs := mcs; m_low := low; m_nfft := nfft; m_ncbps_low := dt * bl; m_ncbps := dt * bm;
                    m_rate := rate; m_ndbps := Qtrunc (inject_Z (dt * bm) * rate);
                    m_ij := None; m_npad := None; m_header := None; m_header_enc := None;
                    m_header_int := None; m_pay_pad := None; m_pay_scr := None; m_pay_enc := None;
                    m_pay_int := None; m_mod_phy := None |}
        end
    end.

(** _encoder (mr_ofdm_modulator.py:430-439) *)
Definition encoder (x : list bool) (rate : string) : res (list bool) :=
  if String.eqb rate "1/2" then
    let '(_, (_, _, out)) := r12_sequence (r12_new 0) (map b2z x) in Ok (map z2b out)
  else
    let '(_, r) := r34_sequence (r12_new 0) (map b2z x) in
    do (_, _, out) <- r; Ok (map z2b out).

(** Block length of _interleaver (mr_ofdm_modulator.py:459-468).  np.round of an exact integer. *)
Definition il_ncbps (il nfft SF N_bpsc : Z) : Z :=
  if il =? 0 then (nfft * N_bpsc * 3) / (4 * SF) else (nfft * N_bpsc * 3) / 4.

(** _interleaver index computation (mr_ofdm_modulator.py:470-486): the array self._ij.  The float quotients
    are exact (all operands are small integers), so floor and truncation are integer divisions. *)
Definition il_first (N_cbps N_row k : Z) : Z := (N_cbps * (k mod N_row)) / N_row + k / N_row.
Definition il_second (N_cbps N_row s i : Z) : Z := s * (i / s) + (i + N_cbps - (N_row * i) / N_cbps) mod s.
Definition il_ij (N_cbps SF N_bpsc : Z) : list Z :=
  let N_row := 12 / SF in
  let s := Z.max 1 (N_bpsc / 2) in
  let k := map Z.of_nat (seq 0 (Z.to_nat N_cbps)) in
  let i_store := map (il_first N_cbps N_row) k in
  let j := map (il_second N_cbps N_row s) k in
  map (fun a => nth (Z.to_nat a) i_store 0) j.

(** loop over the blocks (mr_ofdm_modulator.py:488-490): x_interleaved[s*n + ij] = x[s*n + k];
    positions after the last whole block keep 0. *)
Fixpoint il_blocks (nb : nat) (ij : list Z) (x out : list bool) (base : nat) : list bool :=
  match nb with
  | O => out
  | S m =>
      let out' := scatter (map (fun i => (base + Z.to_nat i)%nat) ij) (firstn (length ij) x) out in
      il_blocks m ij (skipn (length ij) x) out' (base + length ij)
  end.
Definition il_apply (ij : list Z) (x : list bool) : list bool :=
  il_blocks (length x / length ij) ij x (repeat false (length x)) 0.

(** _interleaver (mr_ofdm_modulator.py:441-492) *)
Definition interleaver (x : list bool) (MCS : Z) : SM mr_ofdm (list bool) :=
  sdo SF <- slift (zget FREQUENCY_SPREADING MCS);
  sdo nb <- slift (zget N_BPSC MCS);
  sdo il <- sget m_il;
  sdo nfft <- sget m_nfft;
  let ij := il_ij (il_ncbps il nfft SF nb) SF nb in
  sdo _ <- smod (upd_ij ij);
  sret (il_apply ij x).

(** _padding (mr_ofdm_modulator.py:510-520) *)
Definition padding (message : list bool) : SM mr_ofdm (list bool) :=
  sdo ndbps <- sget m_ndbps;
  let N_SYM := ceil_div (zlen message + 6) ndbps in
  let N_DATA := N_SYM * ndbps in
  let N_PAD := N_DATA - (zlen message + 6) in
  sdo _ <- smod (upd_npad N_PAD);
  sret (message ++ repeat false (Z.to_nat N_PAD) ++ repeat false 6).

(** the Ofdm_modulator built for PHR (mr_ofdm_modulator.py:538-554) and payload (615-630) *)
Definition make_ofdm (opt mcs pilot_set pn9_seed : Z) : res (ofdm_cfg * ofdm_st) :=
  do fft <- zget FFT_SIZE opt;
  do act <- zget ACTIVE_TONES opt;
  let pad := (fft - act) / 2 in
  do mname <- zget MODULATION_AND_CODING_SCHEME mcs;
  do sf <- zget FREQUENCY_SPREADING mcs;
  do pil <- zget PILOTS_INDICES opt;
  ofdm_new fft mname pad (pad - 1) sf (Some pil) (Some PvPn9) pilot_set pn9_seed.

(** _PHR (mr_ofdm_modulator.py:538-582): header symbols in the frequency domain (_phr_subcarriers) and the
    modulator object used. *)
Definition m_PHR (message_length : Z) : SM mr_ofdm (list (list tone) * (ofdm_cfg * ofdm_st)) :=
  sdo opt <- sget m_opt;
  sdo low <- sget m_low;
  let frame_length := message_length / 8 in
  sdo (cfg, st0) <- slift (make_ofdm opt low 0 0x1FF);
  sdo rate <- sget m_rate;
  let original_bits_per_symbol := Qtrunc (inject_Z (get_number_of_bits_per_symbol cfg) * rate) in
  sdo il <- sget m_il;
  sdo nsym <- slift (do row <- zget PHR_N_SYMBOLS il; zget row opt);
  let phr_length := original_bits_per_symbol * nsym in
  sdo mcs <- sget m_mcs;
  sdo scr <- sget m_scr;
  sdo header <- slift (do p <- phr_new mcs frame_length scr (Z.to_nat phr_length); phr_value p);
  sdo _ <- smod (upd_header header);
  sdo enc <- slift (do r <- zget RATE low; encoder header r);
  sdo _ <- smod (upd_header_enc enc);
  sdo int <- interleaver enc low;
  sdo _ <- smod (upd_header_int int);
  let '(st1, r) := ofdm_symbols cfg st0 int false in
  sdo syms <- slift r;
  sret (syms, (cfg, st1)).

(** _payload (mr_ofdm_modulator.py:601-634) *)
Definition m_payload (message : list bool) (mod_phy : ofdm_cfg * ofdm_st) : SM mr_ofdm (list (list tone)) :=
  sdo pad <- padding message;
  sdo _ <- smod (upd_pay_pad pad);
  sdo scr <- sget m_scr;
  sdo seed <- slift (zget SCRAMBLING_SEED scr);
  let scrambled0 := scrambler pad seed in
  sdo npad <- sattr m_npad;
  let scrambled := py_fill (- 6 - npad) (- npad) false scrambled0 in
  sdo _ <- smod (upd_pay_scr scrambled);
  sdo mcs <- sget m_mcs;
  sdo enc <- slift (do r <- zget RATE mcs; encoder scrambled r);
  sdo _ <- smod (upd_pay_enc enc);
  sdo int <- interleaver enc mcs;
  sdo _ <- smod (upd_pay_int int);
  sdo opt <- sget m_opt;
  sdo (cfg, st0) <- slift (make_ofdm opt mcs (get_pilot_set_index (snd mod_phy)) (get_pn9_value (snd mod_phy)));
  slift (snd (ofdm_symbols cfg st0 int false)).

(** bitsToIQ (mr_ofdm_modulator.py:652-665) without the training fields: PHR and payload symbols.
    _STF and _LTF read only self._OFDM_Option, write nothing and cannot fail. *)
Definition m_bits_symbols (a : arg) : SM mr_ofdm (list (list tone) * list (list tone)) :=
  sdo bits <- slift (check_binary_array a);
  sdo (phr, mod_phy) <- m_PHR (zlen bits);
  sdo _ <- smod (upd_mod_phy mod_phy);
  sdo payload <- m_payload bits mod_phy;
  sret (phr, payload).

(** bytesToIQ (mr_ofdm_modulator.py:694-697) *)
Definition m_bytes_symbols (a : arg) : SM mr_ofdm (list (list tone) * list (list tone)) :=
  sdo bits <- slift (to_binary_array a);
  m_bits_symbols (bits_arg bits).

(** bits_per_symbol (mr_ofdm_modulator.py:700-701) *)
Definition m_bits_per_symbol (s : mr_ofdm) : Z := m_ndbps s.
