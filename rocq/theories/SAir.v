(** * Specification: data rates and airtime of MR-OFDM *)
From Coq Require Import Reals.
From Verif Require Import Py.

(** data rate of an MR-OFDM option and MCS in bit/s (802.15.4g table 148) *)
Definition ofdm_data_rate (opt mcs : Z) : Z := 1000 *
  match opt with
  | 1 => match mcs with 0 => 100 | 1 => 200 | 2 => 400 | _ => 800 end
  | 2 => match mcs with 0 => 50 | 1 => 100 | 2 => 200 | 3 => 400 | 4 => 600 | _ => 800 end
  | 3 => match mcs with 1 => 50 | 2 => 100 | 3 => 200 | 4 => 300 | 5 => 400 | _ => 600 end
  | _ => match mcs with 2 => 50 | 3 => 100 | 4 => 150 | 5 => 200 | _ => 300 end
  end.
(** duration of an OFDM symbol *)
Definition symbol_seconds : R := (120 / 1000000)%R.
(** symbols of the short and of the long training field *)
Definition training_symbols : Z := 6.
