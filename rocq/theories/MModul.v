(** * Model of sun_phy/tools/modulations.py
    Complex values are Gaussian integers (re, im).  Matrices are lists of columns: the OFDM modulator only
    uses 2-D signals with axis = 0, on which every modulator works column by column. *)
From Verif Require Import Py.

Definition gauss := (Z * Z)%type.
Definition gmul (a b : gauss) : gauss :=
  (fst a * fst b - snd a * snd b, fst a * snd b + snd a * fst b).
Definition gadd (a b : gauss) : gauss := (fst a + fst b, snd a + snd b).

(** BPSK.convert (modulations.py:61-74): > 0 -> 1, else -1 (real part; the imaginary part is 0) *)
Definition bpsk (x : bool) : Z := if x then 1 else -1.

(** signal[i::n] *)
Definition stride {A} (i n : nat) (l : list A) : list A :=
  concat (map (fun c => firstn 1 (skipn i c)) (chunks n l)).

(** QPSK.convert on a column (modulations.py:89-121), MSB_first = True: first = 1, second = 1j *)
Definition qpsk_column (col : list bool) : res (list gauss) :=
  if negb (Nat.eqb (Nat.modulo (length col) 2) 0) then Err AssertionError
  else Ok (map2 (fun a b => (bpsk a, bpsk b)) (stride 0 2 col) (stride 1 2 col)).

(** QAM16.convert on a column (modulations.py:139-184): real = b0*(2-b1), imag = b2*(2-b3).
    A column size that is not a multiple of 4 makes the numpy products ill-shaped (ValueError; numpy's
    broadcasting would accept some degenerate sizes below 8, which is not modelled). *)
Definition qam16_column (col : list bool) : res (list gauss) :=
  if negb (Nat.eqb (Nat.modulo (length col) 4) 0) then Err ValueError
  else
    let b0 := map bpsk (stride 0 4 col) in
    let b1 := map bpsk (stride 1 4 col) in
    let b2 := map bpsk (stride 2 4 col) in
    let b3 := map bpsk (stride 3 4 col) in
    let real := map2 (fun x y => x * (2 - y)) b0 b1 in
    let imag := map2 (fun x y => x * (2 - y)) b2 b3 in
    Ok (map2 pair real imag).

Definition bpsk_column (col : list bool) : res (list gauss) := Ok (map (fun b => (bpsk b, 0)) col).

Inductive modulation := BPSK | QPSK | QAM16.

(** get_modulator (modulations.py:197-213): unknown names raise ValueError *)
Definition get_modulator (name : string) : res modulation :=
  if String.eqb name "BPSK" then Ok BPSK
  else if String.eqb name "QPSK" then Ok QPSK
  else if String.eqb name "QAM16" then Ok QAM16
  else Err ValueError.

(** bits_per_symbol (modulations.py:76, 123, 186) *)
Definition bits_per_symbol (m : modulation) : Z := match m with BPSK => 1 | QPSK => 2 | QAM16 => 4 end.

Definition convert_column (m : modulation) (col : list bool) : res (list gauss) :=
  match m with BPSK => bpsk_column col | QPSK => qpsk_column col | QAM16 => qam16_column col end.
