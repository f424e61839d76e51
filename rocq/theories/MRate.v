(** * Model of sun_phy/mr_ofdm/rate_encoder.py *)
From Verif Require Import Py.

(** Rate_one_half.__init__ (rate_encoder.py:6-16): register value, masked. *)
Definition r12_new (seed : Z) : Z := Z.land seed 0x3F.
(** Rate_one_half.reset (rate_encoder.py:18-22): register value, NOT masked. *)
Definition r12_reset (seed : Z) : Z := seed.

(** Rate_one_half.single (rate_encoder.py:24-45): (new register, A, B); input_bit is any int. *)
Definition r12_single (v : Z) (input_bit : Z) : Z * (Z * Z) :=
  let i := if 0 <? input_bit then 1 else 0 in
  let A := Z.lxor (Z.lxor (Z.lxor (Z.lxor i (Z.shiftr (Z.land v 0x10) 4)) (Z.shiftr (Z.land v 0x08) 3))
                          (Z.shiftr (Z.land v 0x02) 1)) (Z.land v 0x01) in
  let B := Z.lxor (Z.lxor (Z.lxor (Z.lxor i (Z.shiftr (Z.land v 0x20) 5)) (Z.shiftr (Z.land v 0x10) 4))
                          (Z.shiftr (Z.land v 0x08) 3)) (Z.land v 0x01) in
  let v' := Z.lor (Z.shiftr v 1) (if i =? 0 then 0 else 0x20) in
  (v', (A, B)).

(** Rate_one_half.sequence (rate_encoder.py:47-73): (new register, A, B, out). *)
Fixpoint r12_sequence (v : Z) (bits : list Z) : Z * (list Z * list Z * list Z) :=
  match bits with
  | [] => (v, ([], [], []))
  | b :: r =>
      let '(v1, (a, b')) := r12_single v b in
      let '(v2, (As, Bs, out)) := r12_sequence v1 r in
      (v2, (a :: As, b' :: Bs, a :: b' :: out))
  end.

(** loop of Rate_three_quarter.sequence (rate_encoder.py:103-108) over the rows of reshape(-1, 3);
    returns the register, the last row's (A, B) if any, and out. *)
Fixpoint r34_rows (v : Z) (last : option (list Z * list Z)) (rows : list (list Z))
  : Z * option (list Z * list Z) * list Z :=
  match rows with
  | [] => (v, last, [])
  | row :: r =>
      let '(v1, (A, B, _)) := r12_sequence v row in
      let '(v2, l2, out) := r34_rows v1 (Some (A, B)) r in
      (v2, l2, [nth 0 A 0; nth 0 B 0; nth 1 A 0; nth 2 B 0] ++ out)
  end.

(** Rate_three_quarter.sequence (rate_encoder.py:86-110): size must be a multiple of 3; with an empty input
    the returned names A and B are unbound (UnboundLocalError).  The register lives in the object. *)
Definition r34_sequence (v : Z) (bits : list Z) : Z * res (list Z * list Z * list Z) :=
  if negb (Nat.eqb (Nat.modulo (length bits) 3) 0) then (v, Err ValueError)
  else let '(v', l, out) := r34_rows v None (chunks 3 bits) in
       match l with
       | None => (v', Err UnboundLocalError)
       | Some (A, B) => (v', Ok (A, B, out))
       end.
