(** * Time domain of the MR-OFDM transmitter: model of the rest of sun_phy/mr_ofdm/ofdm_modulator.py (IFFT, cyclic
    prefix) and mr_ofdm_modulator.py (STF, LTF, frame assembly).
    numpy complex128 numbers are complex numbers: arithmetic is exact, rounding is not modelled. *)
From Coq Require Import Reals.
From Coquelicot Require Import Complex.
From Verif Require Import Py MBits MPn9 MModul MOfdm Tables MMrOfdm.

Local Open Scope C_scope.

(** exp(1j*x) *)
Definition cis (x : R) : C := (cos x, sin x).
(** sum of f 0 .. f (n-1) *)
Fixpoint Csum (f : nat -> C) (n : nat) : C := match n with O => RtoC 0 | S m => (Csum f m + f m)%C end.

(** numpy.fft.ifftshift along an axis: roll by -(n//2) *)
Definition ifftshift {A} (l : list A) : list A := skipn (length l / 2) l ++ firstn (length l / 2) l.
(** numpy.fft.ifft(x, norm='ortho'): x[n] = 1/sqrt(N) sum_k X[k] exp(2 pi i k n / N) *)
Definition ifft_ortho (X : list C) : list C :=
  let N := length X in
  map (fun n => / RtoC (sqrt (INR N)) * Csum (fun k => nth k X (RtoC 0) * cis (2 * PI * (INR k * INR n / INR N))) N)%C (seq 0 N).
(** _ifft (ofdm_modulator.py:384-387) on one column *)
Definition o_ifft (col : list C) : list C := ifft_ortho (ifftshift col).

(** signal[-n:] on a 1-D array *)
Definition take_last {A} (n : Z) (l : list A) : list A := skipn (Z.to_nat (py_bound (zlen l) (- n))) l.
(** _cyclic_prefix (ofdm_modulator.py:403-412) on one column: signal[-int(N*CP):] in front when CP > 0.
    When int(N*CP) = 0 the slice [-0:] is the whole symbol. *)
Definition o_cyclic_prefix (CP : Q) (signal : list C) : list C :=
  if negb (Qle_bool CP 0) then take_last (Qtrunc (inject_Z (zlen signal) * CP)) signal ++ signal else signal.

(** value of a subcarrier: data points are multiplied by modulation_factor (ofdm_modulator.py:211-212) *)
Definition tone_value (factor : R) (t : tone) : C :=
  match t with
  | TZero => RtoC 0
  | TPilot v => (Q2R (fst v), Q2R (snd v))
  | TData g => (RtoC factor * (IZR (fst g), IZR (snd g)))%C
  end.

(** IFFT and cyclic prefix of one symbol *)
Definition symbol_samples (CP : Q) (col : list C) : list C := o_cyclic_prefix CP (o_ifft col).

(** bitsToIQ of the OFDM modulator (ofdm_modulator.py:459-466): symbols, IFFT, cyclic prefix, reshape(-1, order='F') *)
Definition ofdm_bitsToIQ (c : ofdm_cfg) (factor : R) (CP : Q) (st : ofdm_st) (bits : list bool) (pad : bool) : ofdm_st * res (list C) :=
  let '(st', r) := ofdm_symbols c st bits pad in
  (st', do syms <- r; Ok (flat_map (fun s => symbol_samples CP (map (tone_value factor) s)) syms)).

(** subcarriersToIQ (ofdm_modulator.py:484-500) with a 1-D argument; the result is the only column of the array *)
Definition subcarriersToIQ (N : Z) (CP : Q) (col : list C) : res (list C) :=
  if (zlen col =? N)%Z then Ok (symbol_samples CP col) else Err ValueError.
(** the same with an array of any shape, its elements in row-major order: reshape(-1, 1) of a 1-D array, the check of
    the dimensions, then IFFT and prefix along axis 0.  The result is a 2-D array, given as the list of its columns *)
Definition sub_columns (dims : list nat) (data : list C) : res (list (list C)) :=
  match dims with
  | [_] => Ok [data]
  | [r; c] => Ok (map (fun j => map (fun i => nth (i * c + j) data (RtoC 0)) (seq 0 r)) (seq 0 c))
  | _ => Err ValueError
  end.
Definition subcarriersToIQ_array (N : Z) (CP : Q) (dims : list nat) (data : list C) : res (list (list C)) :=
  do cols <- sub_columns dims data;
  if (Z.of_nat (hd 0%nat dims) =? N)%Z then Ok (map (symbol_samples CP) cols) else Err ValueError.

(** STF_OPTION_x (mr_ofdm_modulator.py:88-107): np.zeros(FFT_SIZE), then indexed assignments *)
Definition stf_assign (N : Z) (col : list C) (e : list Z * Z * (Z * Z)) : list C :=
  let '(idx, sgn, (a, b)) := e in
  fold_left (fun l i => set_nth (Z.to_nat (i + N / 2)) (RtoC (IZR sgn * sqrt (IZR a / IZR b))) l) idx col.
Definition stf_tones (N : Z) (entries : list (list Z * Z * (Z * Z))) : list C :=
  fold_left (stf_assign N) entries (repeat (RtoC 0) (Z.to_nat N)).
(** STF (mr_ofdm_modulator.py:111-116) *)
Definition STF_ENTRIES : list (Z * list (list Z * Z * (Z * Z))) := [(1, STF_ENTRIES_1); (2, STF_ENTRIES_2); (3, STF_ENTRIES_3); (4, STF_ENTRIES_4)]%Z.
(** LTF (mr_ofdm_modulator.py:218-223) *)
Definition LTF_TABLE : list (Z * list Z) := [(1, LTF_1); (2, LTF_2); (3, LTF_3); (4, LTF_4)]%Z.

(** x * np.block([np.ones(n1), -np.ones(n2)]): ValueError if the sizes differ *)
Definition flip_end (n1 n2 : nat) (x : list C) : res (list C) :=
  if Nat.eqb (length x) (n1 + n2) then Ok (firstn n1 x ++ map Copp (skipn n1 x)) else Err ValueError.

(** _STF (mr_ofdm_modulator.py:346-372) *)
Definition m_STF (opt : Z) : res (list C) :=
  do fft <- zget FFT_SIZE opt;
  do _ <- ofdm_new fft "BPSK" 0 0 1 None None 0 0x1FF;
  do entries <- zget STF_ENTRIES opt;
  do s <- subcarriersToIQ fft (1 # 4) (stf_tones fft entries);
  let n := length s in
  do fourth <- flip_end (n / 5 * 3) (n / 5 * 2) s;
  Ok (map (fun z => z * RtoC (5 / 4))%C (s ++ s ++ s ++ fourth)).

(** _LTF (mr_ofdm_modulator.py:389-410) *)
Definition m_LTF (opt : Z) : res (list C) :=
  do fft <- zget FFT_SIZE opt;
  do _ <- ofdm_new fft "BPSK" 0 0 1 None None 0 0x1FF;
  do tones <- zget LTF_TABLE opt;
  do s <- subcarriersToIQ fft 0 (map (fun z => RtoC (IZR z)) tones);
  Ok (skipn (length s / 2) s ++ s ++ s).

(** K_MOD (mr_ofdm_modulator.py:149-153) *)
Definition K_MOD : list (string * R) := [("BPSK"%string, 1%R); ("QPSK"%string, (1 / sqrt 2)%R); ("QAM16"%string, (1 / sqrt 10)%R)].
Definition k_mod (mcs : Z) : res R := do m <- zget MODULATION_AND_CODING_SCHEME mcs; dict_get String.eqb m K_MOD.

(** samples of symbols with CP = self._CP = 1/4 *)
Definition m_samples (factor : R) (syms : list (list tone)) : list C :=
  flat_map (fun s => symbol_samples (1 # 4) (map (tone_value factor) s)) syms.

(** bitsToIQ (mr_ofdm_modulator.py:652-675): samples and sampling frequency *)
Definition m_bitsToIQ (a : arg) : SM mr_ofdm (list C * R) :=
  sdo bits <- slift (check_binary_array a);
  sdo opt <- sget m_opt;
  sdo stf <- slift (m_STF opt);
  sdo ltf <- slift (m_LTF opt);
  sdo low <- sget m_low;
  sdo klow <- slift (k_mod low);
  sdo (phr, mod_phy) <- m_PHR (zlen bits);
  sdo _ <- smod (upd_mod_phy mod_phy);
  sdo mcs <- sget m_mcs;
  sdo kpay <- slift (k_mod mcs);
  sdo payload <- m_payload bits mod_phy;
  sdo fft <- slift (zget FFT_SIZE opt);
  sret (stf ++ ltf ++ m_samples klow phr ++ m_samples kpay payload, (IZR fft * (1 + 1 / 4) / (120 / 1000000))%R).

(** bytesToIQ (mr_ofdm_modulator.py:694-697) *)
Definition m_bytesToIQ (a : arg) : SM mr_ofdm (list C * R) :=
  sdo bits <- slift (to_binary_array a);
  m_bitsToIQ (bits_arg bits).
