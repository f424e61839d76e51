(** * Model of the argument handling of sun_phy/mr_ofdm/ofdm_modulator.py: the public constructor and bitsToIQ over Python
    values.  [MOfdm.ofdm_new] and [MOfdm.ofdm_symbols] are the same functions after the type checks. *)
From Coq Require Import Reals.
From Coquelicot Require Import Complex.
From Verif Require Import Py MPn9 MModul MOfdm MTime.
Local Open Scope Z_scope.

(** pilots_indices.  Lists are converted with np.asarray, so a list and the array of the same shape are one case.
    Integer entries (an array of floats is not modelled). *)
Inductive idx_arg :=
| INone
| I1 (l : list Z)                                 (* 1-D *)
| I2 (rows more : nat) (entry : nat -> nat -> Z)  (* 2-D, 1 + more columns (an array without columns is not modelled) *)
| INd                                             (* array of 0 or more than 2 dimensions *)
| IOther.                                         (* neither a list nor an array *)
(** pilots_values.  Arrays of more than one dimension are not modelled. *)
Inductive val_arg :=
| VNone | VStr (s : string)
| V0 (v : Q * Q)                                  (* 0-D array *)
| V1 (vs : list (Q * Q))                          (* list or 1-D array *)
| VOther.
(** columns of the 2-D array of indices (ofdm_modulator.py:125-129: a 1-D array is one column) *)
Definition idx_sets (i : idx_arg) : list (list Z) :=
  match i with
  | I1 l => [l]
  | I2 r c e => map (fun j => map (fun k => e k j) (seq 0 r)) (seq 0 (S c))
  | _ => []
  end.
(** pilots_indices.shape[0] *)
Definition idx_rows (i : idx_arg) : nat := match i with I1 l => length l | I2 r _ _ => r | _ => 0%nat end.
Definition is_inone (i : idx_arg) : bool := match i with INone => true | _ => false end.
Definition is_vnone (v : val_arg) : bool := match v with VNone => true | _ => false end.

(** "Manage pilots" (ofdm_modulator.py:92-131).  np.diff of a 0-D array raises ValueError.  A 0-D array of values passes
    the shape test (ndim > 0 is false); indexing it later raises IndexError, as indexing an empty 1-D array does, hence
    [PvArray []]. *)
Definition manage_pilots (i : idx_arg) (v : val_arg) : res (option (list (list Z) * pilot_values)) :=
  match v with
  | VNone => Ok None
  | _ =>
      match i with
      | I1 _ | I2 _ _ _ =>
          if negb (forallb ordered (idx_sets i)) then Err ValueError
          else match v with
               | VStr s => if String.eqb s "pn9" then Ok (Some (idx_sets i, PvPn9)) else Err AttributeError  (* str.ndim *)
               | V0 _ => Ok (Some (idx_sets i, PvArray []))
               | V1 vs => if Nat.eqb (length vs) (idx_rows i) then Ok (Some (idx_sets i, PvArray vs)) else Err ValueError
               | _ => Err ValueError
               end
      | _ => Err ValueError
      end
  end.

(** __init__ (ofdm_modulator.py:65-152).  modulation_factor, CP and verbose are stored without any check.
    math.log(N, 2).is_integer() as in [ofdm_new]. *)
Definition ofdm_init (N modulation pl pr sf : pyval) (i : idx_arg) (v : val_arg) (ips seed : pyval) : res (ofdm_cfg * ofdm_st) :=
  if negb (is_int N) then Err ValueError
  else if negb (is_pow2 (int_of N)) then Err ValueError
  else match modulation with
  | PStr name =>
      if negb (is_int pl) then Err ValueError
      else if negb (is_int pr) then Err ValueError
      else if is_inone i && negb (is_vnone v) then Err ValueError
      else if negb (is_inone i) && is_vnone v then Err ValueError
      else if negb (is_int sf) then Err ValueError
      else if negb ((int_of sf =? 1) || (int_of sf =? 2) || (int_of sf =? 4)) then Err ValueError
      else if negb (is_int ips) then Err ValueError
      else if negb (is_int seed) then Err ValueError
      else
        do pil <- manage_pilots i v;
        do m <- get_modulator name;
        Ok ({| o_N := int_of N; o_mod := m; o_pl := int_of pl; o_pr := int_of pr; o_sf := int_of sf; o_pilots := pil |},
            {| o_col := int_of ips; o_pn9 := pn9_new (int_of seed) |})
  | _ => Err ValueError
  end.

(** argument of bitsToIQ: a list or array of finite numbers with its shape, or something else *)
Inductive msg_arg := MArr (dims : list nat) (xs : list Q) | MOther.
(** np.squeeze: the dimensions of size 1 disappear *)
Definition squeeze (dims : list nat) : list nat := filter (fun d => negb (Nat.eqb d 1)) dims.
(** the modulators compare with 0: value > 0 is a one (modulations.py:61-74) *)
Definition one_bit (x : Q) : bool := negb (Qle_bool x 0).
(** bitsToIQ (ofdm_modulator.py:432-466) up to the IFFT *)
Definition ofdm_send (c : ofdm_cfg) (st : ofdm_st) (m : msg_arg) (pad : bool) : ofdm_st * res (list (list tone)) :=
  match m with
  | MOther => (st, Err ValueError)
  | MArr dims xs =>
      if Nat.eqb (length (squeeze dims)) 1 then ofdm_symbols c st (map one_bit xs) pad else (st, Err ValueError)
  end.
(** and the whole of it *)
Definition ofdm_send_iq (c : ofdm_cfg) (factor : R) (CP : Q) (st : ofdm_st) (m : msg_arg) (pad : bool) : ofdm_st * res (list C) :=
  match m with
  | MOther => (st, Err ValueError)
  | MArr dims xs =>
      if Nat.eqb (length (squeeze dims)) 1 then ofdm_bitsToIQ c factor CP st (map one_bit xs) pad else (st, Err ValueError)
  end.
