(** * Specification: an MR-FSK receiver that corrects errors (Viterbi algorithm).
    Nothing here refers to the transmitter's functions or tables.  The receiver knows the modulation, the preamble length,
    the FEC scheme, and whether interleaving and whitening are used. *)
From Coq Require Import Reals.
From Coquelicot Require Import Complex.
From Verif Require Import Py SBits SPn9 SFsk SGap SFskRx.

(** ** the Viterbi decoder of the two codes of [SFsk] (NRNSC: scheme 0, RSC) *)
(** register: its last three contents, the most recent first *)
Definition reg : Type := bool * bool * bool.
Definition reg_in (scheme : Z) (m : reg) (b : bool) : bool := let '(m1, m2, m3) := m in if scheme =? 0 then b else xorb b (xorb m1 (xorb m2 m3)).
Definition reg_next (scheme : Z) (m : reg) (b : bool) : reg := let '(m1, m2, m3) := m in (reg_in scheme m b, m1, m2).
(** u1, u0 *)
Definition reg_out (scheme : Z) (m : reg) (b : bool) : bool * bool :=
  let '(m1, m2, m3) := m in
  if scheme =? 0 then (negb (xorb b (xorb m2 m3)), negb (xorb b (xorb m1 (xorb m2 m3))))
  else (xorb (reg_in scheme m b) (xorb m2 m3), b).
Definition all_regs : list reg :=
  [(false, false, false); (false, false, true); (false, true, false); (false, true, true); (true, false, false); (true, false, true); (true, true, false); (true, true, true)].
Definition same_reg (m n : reg) : bool := let '(a, b, c) := m in let '(d, e, f) := n in Bool.eqb a d && Bool.eqb b e && Bool.eqb c f.
(** what is known of an input bit: nothing; its value; that it brings the register back to 0 *)
Inductive choice := Free | Known (b : bool) | Flush.
Definition candidates (scheme : Z) (m : reg) (c : choice) : list bool :=
  match c with
  | Free => [false; true]
  | Known b => [b]
  | Flush => [if scheme =? 0 then false else let '(m1, m2, m3) := m in xorb m1 (xorb m2 m3)]
  end.
(** a path: where it is, what it costs, its bits (last one first) *)
Record fpath := { v_reg : reg; v_cost : R; v_bits : list bool }.
(** [cost i u1 u0]: how unlike the pair (u1, u0) what was received for pair i is *)
Definition lengthened (scheme : Z) (cost : bool -> bool -> R) (v : fpath) (b : bool) : fpath :=
  {| v_reg := reg_next scheme (v_reg v) b;
     v_cost := (v_cost v + cost (fst (reg_out scheme (v_reg v) b)) (snd (reg_out scheme (v_reg v) b)))%R;
     v_bits := b :: v_bits v |}.
Fixpoint cheapest (l : list fpath) : option fpath :=
  match l with
  | [] => None
  | v :: r => match cheapest r with Some w => if Rlt_dec (v_cost w) (v_cost v) then Some w else Some v | None => Some v end
  end.
Definition kept (l : list fpath) : list fpath :=
  flat_map (fun m => match cheapest (filter (fun v => same_reg (v_reg v) m) l) with Some v => [v] | None => [] end) all_regs.
Fixpoint fsk_trellis (scheme : Z) (known : list choice) (cost : nat -> bool -> bool -> R) (i : nat) (l : list fpath) : list fpath :=
  match known with
  | [] => l
  | c :: r => fsk_trellis scheme r cost (S i) (kept (flat_map (fun v => map (lengthened scheme (cost i) v) (candidates scheme (v_reg v) c)) l))
  end.
Definition fsk_viterbi (scheme : Z) (known : list choice) (cost : nat -> bool -> bool -> R) : list bool :=
  match cheapest (fsk_trellis scheme known cost 0 [{| v_reg := (false, false, false); v_cost := 0; v_bits := [] |}]) with
  | Some v => rev (v_bits v)
  | None => []
  end.

(** ** from what was received after the delimiter to pairs of coded bits *)
(** where coded pair i is sent *)
Definition sent_at (il : bool) (i : nat) : nat := if il then (16 * (i / 16) + source_pair (Nat.modulo i 16))%nat else i.
(** whitening of bit j: from the end of the header on *)
Definition white_bit (white : bool) (j : nat) : bool := if white then if Nat.ltb j 32 then false else pn9_bit 511 (j - 32) else false.
Definition coded_cost (il white : bool) (cost : nat -> bool -> bool -> R) (i : nat) (u1 u0 : bool) : R :=
  let k := sent_at il i in cost k (xorb u1 (white_bit white (2 * k))) (xorb u0 (white_bit white (2 * k + 1))).
(** [cost k u1 u0]: how unlike u1, u0 are bits 2k and 2k+1 after the delimiter *)
Definition fsk_corrector (il white : bool) (scheme : Z) (cost : nat -> bool -> bool -> R) : rx_frame :=
  let c := coded_cost il white cost in
  let h := firstn 16 (fsk_viterbi scheme (repeat Free 32) c) in
  let octets := msb_value (skipn 5 h) in
  let n := Z.to_nat (8 * octets) in
  let x := fsk_viterbi scheme (map Known h ++ repeat Free n ++ repeat Flush 3 ++ map Known (fec_padding octets)) c in
  {| rx_fcs := if nth 3 h false then 1 else 0; rx_white := nth 4 h false; rx_octets := octets; rx_payload := firstn n (skipn 16 x) |}.

(** ** costs *)
(** of received bits: number of bits that differ *)
Definition bit_cost (received : list bool) (k : nat) (u1 u0 : bool) : R :=
  ((if xorb (nth (2 * k) received false) u1 then 1 else 0) + (if xorb (nth (2 * k + 1) received false) u0 then 1 else 0))%R.
(** of received samples: energy of the difference with the tones; [first]: number of the first symbol after the delimiter *)
Definition tone_cost (h : R) (x : list C) (j : nat) (t : Z) : R := gap (block x j) (tone_samples h t j).
Definition sample_cost (fsk4 : bool) (h : R) (first : nat) (x : list C) (k : nat) (u1 u0 : bool) : R :=
  (if fsk4 then tone_cost h x (first + k) (tone4 u1 u0)
   else tone_cost h x (first + 2 * k) (tone2 u1) + tone_cost h x (first + 2 * k + 1) (tone2 u0))%R.
(** preamble and delimiter, in symbols *)
Definition first_symbol (preamble : Z) : nat := Z.to_nat (8 * preamble + 16).

Definition fsk_bit_corrector (fsk4 il white : bool) (scheme preamble : Z) (received : list bool) : rx_frame :=
  fsk_corrector il white scheme (bit_cost (skipn (first_symbol preamble * symbol_bits fsk4) received)).
Definition fsk_soft_receiver (fsk4 il white : bool) (scheme preamble : Z) (h : R) (x : list C) : rx_frame :=
  fsk_corrector il white scheme (sample_cost fsk4 h (first_symbol preamble) x).

(** ** what the decoder is for: inputs allowed, and their cost *)
Fixpoint follows (scheme : Z) (m : reg) (known : list choice) (x : list bool) : Prop :=
  match known, x with
  | [], [] => True
  | c :: known', b :: x' => In b (candidates scheme m c) /\ follows scheme (reg_next scheme m b) known' x'
  | _, _ => False
  end.
Fixpoint spent (scheme : Z) (cost : nat -> bool -> bool -> R) (i : nat) (m : reg) (x : list bool) : R :=
  match x with
  | [] => 0%R
  | b :: r => (cost i (fst (reg_out scheme m b)) (snd (reg_out scheme m b)) + spent scheme cost (S i) (reg_next scheme m b) r)%R
  end.

(** ** a receiver that hunts for the frame (as [hunting_receiver] of SFskRx) and corrects errors in coded frames *)
Definition hunting_corrector (fsk4 il white : bool) (scheme : Z) (tol : nat) (l : list bool) : option (Z * bool * rx_frame) :=
  match find_frame fsk4 tol l with
  | Some (g, c, rest) => Some (g, c, if c then fsk_bit_corrector fsk4 il white scheme 0 rest else fsk_receiver fsk4 0 c il scheme rest)
  | None => None
  end.
