(** * Model of the arrays kept by reference by sun_phy/mr_ofdm/ofdm_modulator.py.
    Lists are copied by np.asarray (ofdm_modulator.py:95, 101); numpy arrays are stored as they are (line 123) or through
    reshape(-1, 1), a view (lines 125-128): later stores of the caller into its array are seen by the object.
    No function of the class stores into these arrays. *)
From Verif Require Import Py MPn9 MModul MOfdm MOfdmArgs.
Local Open Scope Z_scope.

(** the arrays of the caller, by address.  Values: 1-D arrays. *)
Record heap := { h_idx : nat -> idx_arg; h_val : nat -> list (Q * Q) }.
(** argument: a list (or None, a string, another object), or an array of the caller *)
Inductive idx_source := ICopy (i : idx_arg) | IRef (a : nat).
Inductive val_source := VCopy (v : val_arg) | VRef (a : nat).
Definition idx_now (h : heap) (s : idx_source) : idx_arg := match s with ICopy i => i | IRef a => h_idx h a end.
Definition val_now (h : heap) (s : val_source) : val_arg := match s with VCopy v => v | VRef a => V1 (h_val h a) end.

(** the object: what __init__ computed, and which arrays it refers to (ofdm_modulator.py:122-131) *)
Record ofdm_obj := { b_cfg : ofdm_cfg; b_idx : idx_source; b_val : val_source }.
(** __init__ (ofdm_modulator.py:65-152) on the present contents of the arrays *)
Definition construct (h : heap) (N modulation pl pr sf : pyval) (i : idx_source) (v : val_source) (ips seed : pyval) : res (ofdm_obj * ofdm_st) :=
  do (c, st) <- ofdm_init N modulation pl pr sf (idx_now h i) (val_now h v) ips seed;
  Ok ({| b_cfg := c; b_idx := i; b_val := v |}, st).
(** self._pilots_indices and self._pilots_values read at a later time *)
Definition config_now (h : heap) (o : ofdm_obj) : ofdm_cfg :=
  let c := b_cfg o in
  {| o_N := o_N c; o_mod := o_mod c; o_pl := o_pl c; o_pr := o_pr c; o_sf := o_sf c;
     o_pilots := match o_pilots c with
                 | None => None
                 | Some (sets, pv) => Some (match b_idx o with ICopy _ => sets | IRef a => idx_sets (h_idx h a) end,
                                            match b_val o with VCopy _ => pv | VRef a => PvArray (h_val h a) end)
                 end |}.
(** bitsToIQ (ofdm_modulator.py:432-466) up to the IFFT.  _N_pilots and _message_split_length, computed by __init__, are
    those of the present arrays too: stores do not change their shapes (assignment to a.shape is not modelled). *)
Definition obj_send (h : heap) (o : ofdm_obj) (st : ofdm_st) (m : msg_arg) (pad : bool) : ofdm_st * res (list (list tone)) :=
  ofdm_send (config_now h o) st m pad.

(** what the caller may do: a[k] = x or a[k, j] = x on an array of indices, a[k] = x on an array of values, bitsToIQ.
    Stores outside of the array raise IndexError in the caller and change nothing. *)
Inductive step := StoreIdx (a k j : nat) (x : Z) | StoreVal (a k : nat) (x : Q * Q) | Send (m : msg_arg) (pad : bool).
Definition write_idx (k j : nat) (x : Z) (i : idx_arg) : idx_arg :=
  match i with
  | I1 l => I1 (set_nth k x l)
  | I2 r c e => I2 r c (fun k' j' => if Nat.eqb k k' && Nat.eqb j j' then x else e k' j')
  | _ => i
  end.
Definition store (h : heap) (s : step) : heap :=
  match s with
  | StoreIdx a k j x => {| h_idx := fun b => if Nat.eqb b a then write_idx k j x (h_idx h b) else h_idx h b; h_val := h_val h |}
  | StoreVal a k x => {| h_idx := h_idx h; h_val := fun b => if Nat.eqb b a then set_nth k x (h_val h b) else h_val h b |}
  | Send _ _ => h
  end.
(** a history: what the calls of bitsToIQ return *)
Fixpoint history (o : ofdm_obj) (h : heap) (st : ofdm_st) (l : list step) : list (res (list (list tone))) :=
  match l with
  | [] => []
  | Send m pad :: r => let (st1, out) := obj_send h o st m pad in out :: history o h st1 r
  | s :: r => history o (store h s) st r
  end.
