(** * Time domain: what the receiver sees.  Independent of the model's IFFT. *)
From Coq Require Import Reals.
From Coquelicot Require Import Complex.
From Verif Require Import Py MModul MOfdm SOfdm SMrOfdm.

(** sum of f 0 .. f (n-1) *)
Fixpoint csum (f : nat -> C) (n : nat) : C := match n with O => RtoC 0 | S m => Cplus (csum f m) (f m) end.
(** exp(i x) *)
Definition unit_at (x : R) : C := (cos x, sin x).
(** forward DFT of the samples s at (signed) frequency f, unitary scaling *)
Definition analyse (s : list C) (f : Z) : C :=
  Cmult (Cinv (RtoC (sqrt (INR (length s)))))
        (csum (fun n => Cmult (nth n s (RtoC 0)) (unit_at (- (2 * PI * (IZR f * INR n / INR (length s)))))) (length s)).
(** sum of the squared moduli *)
Fixpoint energy (l : list C) : R := match l with [] => 0%R | z :: r => (Cmod z ^ 2 + energy r)%R end.
(** the last n elements *)
Definition tail_of {A} (n : nat) (l : list A) : list A := skipn (length l - n) l.
(** modulation factors of the standard (table 149) *)
Definition norm_factor (m : modulation) : R :=
  match m with BPSK => 1%R | QPSK => (1 / sqrt 2)%R | QAM16 => (1 / sqrt 10)%R end.
(** all bit groups of a given size *)
Fixpoint all_groups (n : nat) : list (list bool) :=
  match n with O => [[]] | S m => flat_map (fun g => [false :: g; true :: g]) (all_groups m) end.

(** complex value of a subcarrier, data points being scaled by k *)
Definition amplitude (k : R) (t : tone) : C :=
  match t with TZero => RtoC 0 | TPilot (a, b) => (Q2R a, Q2R b) | TData (x, y) => ((k * IZR x)%R, (k * IZR y)%R) end.
(** [body] is the time-domain form of the subcarriers [sym]: its DFT gives them back, the energy is the same *)
Definition carries (N : Z) (k : R) (sym : list tone) (body : list C) : Prop :=
  length body = Z.to_nat N
  /\ (forall f, - (N / 2) <= f < N / 2 -> analyse body f = amplitude k (tone_at N sym f))
  /\ energy body = energy (map (amplitude k) sym).
(** a symbol as sent: its last n samples first *)
Definition prefixed (n : nat) (body : list C) : list C := tail_of n body ++ body.

(** amplitude of the STF at frequency f (tables 140-143): sqrt(active tones / used tones), with these signs *)
Definition stf_step (opt : Z) : Z := match opt with 1 => 8 | 2 | 3 => 4 | _ => 2 end.
Definition stf_edge (opt : Z) : Z := match opt with 1 => 48 | 2 => 24 | 3 => 12 | _ => 6 end.
Definition active_tones (opt : Z) : Z := data_tones opt + pilot_tones opt.
Definition stf_negative (opt f : Z) : bool := (opt =? 2) && memb f [-24; -20; -16; 8; 20].
Definition stf_amplitude (opt f : Z) : R :=
  if (f mod stf_step opt =? 0) && negb (f =? 0) && (Z.abs f <=? stf_edge opt)
  then ((if stf_negative opt f then -1 else 1) * sqrt (IZR (active_tones opt) / IZR (2 * (stf_edge opt / stf_step opt))))%R
  else 0%R.

(** signs of the LTF (tables 144-147), from the lowest frequency up *)
Definition ltf_text (opt : Z) : string :=
  match opt with
  | 1 => "000000000000-++----++--+++--++-----++-----++-+--+-++++--++-++-++0+-+-++--+-++++-+++++-+-+-+-++-+---++++++------+-++-+00000000000"
  | 2 => "000000----+++-+-+-++---++-+++---0+-++-+--+-++--++-----+---+00000"
  | 3 => "000+-+-++++++++-0--+-++--++--+00"
  | _ => "0+-++-++0-+++---"
  end%string.
Fixpoint signs (s : string) : list Z :=
  match s with
  | EmptyString => []
  | String c r => (if Ascii.eqb c "+" then 1 else if Ascii.eqb c "-" then -1 else 0) :: signs r
  end.
Definition ltf_sign (opt f : Z) : Z := nth (Z.to_nat (f + fft_size opt / 2)) (signs (ltf_text opt)) 0.
