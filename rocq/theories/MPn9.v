(** * Model of sun_phy/tools/pn9.py and sun_phy/tools/operations.py *)
From Verif Require Import Py.

(** class Pn9 (pn9.py:1-12): construction seed and current value of the register. *)
Record pn9 := { pn_seed : Z; pn_value : Z }.
Definition pn9_new (seed : Z) : pn9 := {| pn_seed := seed; pn_value := seed |}.

(** reset (pn9.py:14-26) *)
Definition pn9_reset (p : pn9) (seed : option Z) : pn9 :=
  match seed with
  | None => {| pn_seed := pn_seed p; pn_value := pn_seed p |}
  | Some s => {| pn_seed := pn_seed p; pn_value := s |}
  end.

(** next (pn9.py:28-38): register update *)
Definition pn9_step (v : Z) : Z :=
  Z.lor (Z.land (Z.shiftr v 1) 0xFF)
        (Z.shiftl (Z.lxor (Z.shiftr (Z.land v 0x032) 0x05) (Z.land v 0x001)) 8).
Definition pn9_out (v : Z) : Z := Z.shiftr (Z.land v 0x100) 8.
Definition pn9_next (p : pn9) : pn9 * Z :=
  let v := pn9_step (pn_value p) in ({| pn_seed := pn_seed p; pn_value := v |}, pn9_out v).

(** nextN (pn9.py:40-52) *)
Fixpoint pn9_nextN (p : pn9) (n : nat) : pn9 * list Z :=
  match n with
  | O => (p, [])
  | S m => let '(p1, x) := pn9_next p in let '(p2, xs) := pn9_nextN p1 m in (p2, x :: xs)
  end.

(** get_current_value (pn9.py:54-63) *)
Definition pn9_current (p : pn9) : Z := pn_value p.

(** operations.scrambler (operations.py:10-30) on a 0/1 message; the PN9 values are 0/1 too. *)
Definition scrambler (message : list bool) (pn9_seed : Z) : list bool :=
  let sequence := snd (pn9_nextN (pn9_new pn9_seed) (length message)) in
  map2 (fun s m => xorb (z2b s) m) sequence message.
