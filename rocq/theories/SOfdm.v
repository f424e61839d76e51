(** * Specification: constellations, frequency spreading and OFDM symbol layout (IEEE 802.15.4g 18.2.3) *)
From Verif Require Import Py MModul MOfdm.

(** BPSK / QPSK / 16-QAM point (in units of the modulation factor) of a group of bits *)
Definition level (b : bool) : Z := if b then 1 else -1.
(** 4-level Gray axis: 00 -> -3, 01 -> -1, 11 -> +1, 10 -> +3 *)
Definition level4 (b0 b1 : bool) : Z :=
  match b0, b1 with false, false => -3 | false, true => -1 | true, true => 1 | true, false => 3 end.
Definition group_size (m : modulation) : nat := match m with BPSK => 1 | QPSK => 2 | QAM16 => 4 end.
Definition point (m : modulation) (g : list bool) : gauss :=
  match m, g with
  | BPSK, [b] => (level b, 0)
  | QPSK, [b0; b1] => (level b0, level b1)
  | QAM16, [b0; b1; b2; b3] => (level4 b0 b1, level4 b2 b3)
  | _, _ => (0, 0)
  end.
Definition dist2 (a b : gauss) : Z := (fst a - fst b) ^ 2 + (snd a - snd b) ^ 2.
Definition power (a : gauss) : Z := fst a ^ 2 + snd a ^ 2.

(** quarter turns *)
Definition turn (n : Z) (g : gauss) : gauss :=
  match n mod 4 with
  | 0 => g
  | 1 => (- snd g, fst g)
  | 2 => (- fst g, - snd g)
  | _ => (snd g, - fst g)
  end.

(** Layout of one OFDM symbol.  Frequencies run from -N/2 to N/2-1. *)
Definition freqs (N : Z) : list Z := map (fun i => Z.of_nat i - N / 2) (seq 0 (Z.to_nat N)).
Definition memb (x : Z) (l : list Z) : bool := existsb (Z.eqb x) l.
Definition guard_or_dc (N pl pr f : Z) : bool := (f =? 0) || (f <? - (N / 2) + pl) || (N / 2 - pr <=? f).
Definition is_data (N pl pr : Z) (pset : list Z) (f : Z) : bool :=
  negb (memb f pset) && negb (guard_or_dc N pl pr f).
(** number of data tones below frequency f *)
Definition rank (N pl pr : Z) (pset : list Z) (f : Z) : nat :=
  length (filter (fun g => (g <? f) && is_data N pl pr pset g) (freqs N)).
(** position of f among the pilots *)
Fixpoint position (f : Z) (l : list Z) : nat :=
  match l with [] => 0%nat | x :: r => if x =? f then 0%nat else S (position f r) end.

Definition layout_tone (N pl pr : Z) (pset : list Z) (pvals : list (Q * Q)) (data : list gauss) (f : Z) : tone :=
  if memb f pset then TPilot (nth (position f pset) pvals (0%Q, 0%Q))
  else if guard_or_dc N pl pr f then TZero
  else TData (nth (rank N pl pr pset f) data (0, 0)).
(** the whole symbol, lowest frequency first *)
Definition layout (N pl pr : Z) (pset : list Z) (pvals : list (Q * Q)) (data : list gauss) : list tone :=
  map (layout_tone N pl pr pset pvals data) (freqs N).

(** ** Frequency spreading (802.15.4g 18.2.3.6): copy [j] (lowest tones first) of data point [k] (from 0) is the
    point turned by this many quarter turns; the copy with phase 0 is the plain one *)
Definition spread_phase (sf j k : Z) : Z :=
  if sf =? 2 then (if j =? 0 then 2 * k + 1 else 0)
  else if sf =? 4 then
    (if j =? 0 then 2 * k + 1 else if j =? 1 then 3 * k + 2 else if j =? 2 then 0 else k)
  else 0.
Definition spread (sf : nat) (data : list gauss) : list gauss :=
  flat_map (fun j => map (fun k => turn (spread_phase (Z.of_nat sf) (Z.of_nat j) (Z.of_nat k)) (nth k data (0, 0)))
                         (seq 0 (length data))) (seq 0 sf).

(** ** A receiver of one frequency-domain symbol *)
(** tone at frequency f of a symbol (lowest frequency first) *)
Definition tone_at (N : Z) (sym : list tone) (f : Z) : tone := nth (Z.to_nat (f + N / 2)) sym TZero.
Definition tone_data (t : tone) : gauss := match t with TData g => g | _ => (0, 0) end.
(** contents of the data tones in increasing frequency order *)
Definition read_data (N pl pr : Z) (pset : list Z) (sym : list tone) : list gauss :=
  map (fun f => tone_data (tone_at N sym f)) (filter (is_data N pl pr pset) (freqs N)).
(** contents of the pilot tones *)
Definition read_pilots (N : Z) (pset : list Z) (sym : list tone) : list tone := map (tone_at N sym) pset.

(** the data part of a symbol carrying the bits [blk] *)
Definition symbol_data (m : modulation) (sf : nat) (blk : list bool) : list gauss :=
  spread sf (map (point m) (chunks (group_size m) blk)).

(** pilots sets that lie on usable tones (neither guard nor DC), one tone per pilot, all sets of [P] pilots *)
Definition pilots_inside (N pl pr : Z) (P : nat) (sets : list (list Z)) : Prop :=
  Forall (fun s => length s = P /\ NoDup s
                   /\ Forall (fun f => - (N / 2) <= f < N / 2 /\ guard_or_dc N pl pr f = false) s) sets.
(** guard bands that leave DC usable *)
Definition guards_fit (N pl pr : Z) : Prop := 1 < N /\ 0 <= pl <= N / 2 /\ 0 <= pr < N / 2.

(** successive calls on one object *)
Fixpoint feed (c : ofdm_cfg) (st : ofdm_st) (pieces : list (list bool)) : option (ofdm_st * list (list tone)) :=
  match pieces with
  | [] => Some (st, [])
  | p :: r => match ofdm_symbols c st p false with
              | (st1, Ok y) => match feed c st1 r with Some (st2, ys) => Some (st2, y ++ ys) | None => None end
              | (_, Err _) => None
              end
  end.
