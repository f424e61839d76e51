(** * Pulse shaping of the MR-O-QPSK transmitter: model of half_sine, raised_cosine and _o_qpsk_modulator of
    sun_phy/mr_o_qpsk/mr_o_qpsk_modulator.py, and of the samples returned by bitsToIQ / bytesToIQ.
    numpy floats are real numbers: arithmetic is exact, rounding is not modelled. *)
From Coq Require Import Reals.
From Coquelicot Require Import Complex.
From Verif Require Import Py MBits MModul MOfdm Tables MOqpsk MTime.

Local Open Scope R_scope.

(** half_sine (mr_o_qpsk_modulator.py:501-507) at one instant *)
Definition half_sine (t Tc : R) : R :=
  if Rle_dec 0 t then if Rle_dec t (2 * Tc) then sin (PI * t / (2 * Tc)) else 0 else 0.
(** raised_cosine (mr_o_qpsk_modulator.py:509-517) at one instant, r = 0.8 = 4/5.  Where the denominator
    1 - 4 r^2 t^2/Tc^2 is 0 (the function has a limit there, the formula has no value) numpy gives a huge or
    rounding-dependent number: [glitch t Tc], a parameter of the model about which nothing is assumed.
    (A division by exactly 0 in floating point gives an infinity; that one is not modelled, nor what np.convolve does
    with it.) *)
Definition raised_cosine (glitch : R -> R -> R) (t Tc : R) : R :=
  if Req_EM_T t 0 then 1
  else if Req_EM_T (1 - 4 * (4 / 5) ^ 2 * t ^ 2 / Tc ^ 2) 0 then glitch t Tc
  else sin (PI * t / Tc) / (PI * t / Tc) * cos (4 / 5 * PI * t / Tc) / (1 - 4 * (4 / 5) ^ 2 * t ^ 2 / Tc ^ 2).
(** np.linspace(-2*Tc, 2*Tc, sps, endpoint=False) (mr_o_qpsk_modulator.py:1057) *)
Definition linspace_open (a b : R) (n : nat) : list R := map (fun k => a + (b - a) / INR n * INR k) (seq 0 n).

(** message[::2] and message[1::2] *)
Fixpoint every_other {A} (l : list A) : list A :=
  match l with a :: _ :: r => a :: every_other r | _ => l end.
Definition evens {A} (l : list A) : list A := every_other l.
Definition odds {A} (l : list A) : list A := every_other (tl l).
(** BPSK().convert on an array (tools/modulations.py:66-69) *)
Definition bpsk_values (l : list bool) : list C := map (fun b : bool => if b then RtoC 1 else RtoC (-1)) l.
(** a + b of two 1-D arrays: equal sizes, or one of size 1 (broadcast) *)
Definition np_add (a b : list C) : res (list C) :=
  if Nat.eqb (length a) (length b) then Ok (map2 Cplus a b)
  else match a, b with
       | [x], _ => Ok (map (Cplus x) b)
       | _, [y] => Ok (map (fun x => Cplus x y) a)
       | _, _ => Err ValueError
       end.
(** a[::step] = vals, step > 0: as many values as slots, or one for all *)
Definition stride_assign (step : nat) (vals a : list C) : res (list C) :=
  let idx := map (fun j => (j * step)%nat) (seq 0 ((length a + step - 1) / step)) in
  if Nat.eqb (length vals) (length idx) then Ok (scatter idx vals a)
  else match vals with [v] => Ok (scatter idx (repeat v (length idx)) a) | _ => Err ValueError end.
(** np.convolve(a, v), mode 'full': ValueError when one of them is empty *)
Definition convolve (a v : list C) : res (list C) :=
  match a, v with
  | [], _ | _, [] => Err ValueError
  | _, _ => Ok (map (fun n => Csum (fun m => if Nat.leb m n then Cmult (nth m a (RtoC 0)) (nth (n - m) v (RtoC 0)) else RtoC 0) (length a))
                    (seq 0 (length a + length v - 1)))
  end.

(** 'p = half_sine' / 'p = raised_cosine' (mr_o_qpsk_modulator.py:1051-1054) *)
Definition uses_half_sine (b : Frequency_band) : bool :=
  match b with Band_915MHz | Band_2450MHz => true | _ => false end.
(** the pulse: _pulse (mr_o_qpsk_modulator.py:1051-1058) *)
Definition pulse_samples (glitch : R -> R -> R) (b : Frequency_band) (Tc : R) (sps : nat) : list C :=
  map (fun t => RtoC (if uses_half_sine b then half_sine t Tc else raised_cosine glitch t Tc)) (linspace_open (-2 * Tc) (2 * Tc) sps).

(** _o_qpsk_modulator (mr_o_qpsk_modulator.py:1038-1065).  The attributes _s, _s_t, _pulse_t and _pulse, never read
    elsewhere, are not kept. *)
Definition o_qpsk_modulator (glitch : R -> R -> R) (cPPDU : list bool) (samples_per_symbol : Z) : SM oqpsk (list C * R) :=
  sdo chip_rate <- (fun s => (s, q_chip_rate s));
  sdo band <- sget q_band;
  slift
    (let Tc := 1 / IZR chip_rate in
     let size := (zlen cPPDU * samples_per_symbol / 2)%Z in
     if (size <? 0)%Z then Err ValueError else
     do symbols <- np_add (bpsk_values (evens cPPDU)) (map (Cmult Ci) (bpsk_values (odds cPPDU)));
     if (samples_per_symbol =? 0)%Z then Err ValueError else
     do s <- stride_assign (Z.to_nat samples_per_symbol) symbols (repeat (RtoC 0) (Z.to_nat size));
     do output <- convolve s (pulse_samples glitch band Tc (Z.to_nat samples_per_symbol));
     Ok (output, IZR chip_rate * IZR samples_per_symbol)).

(** bitsToIQ (mr_o_qpsk_modulator.py:1083-1140).  [q_bitsToChips] already raises the exception of a missing chip rate
    and of samples_per_symbol <= 0 (with at least one chip, so the model below repeats and does not change it). *)
Definition q_bitsToIQ (glitch : R -> R -> R) (p : platform) (a : arg) : SM oqpsk (list C * R) :=
  sdo (chips, _) <- q_bitsToChips p a;
  sdo sps <- sget q_sps;
  o_qpsk_modulator glitch chips sps.
(** bytesToIQ (mr_o_qpsk_modulator.py:1160-1162) *)
Definition q_bytesToIQ (glitch : R -> R -> R) (p : platform) (a : arg) : SM oqpsk (list C * R) :=
  sdo bits <- slift (to_binary_array a); q_bitsToIQ glitch p (bits_arg bits).
