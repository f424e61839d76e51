(** * Python/numpy substrate used by every model file.
    Exceptions are values; numpy array operations used by the code become list functions.
    No proofs here. *)
From Coq Require Export Ascii String Strings.Byte ZArith Bool QArith Qround Lia List.
Export ListNotations.
#[global] Open Scope Z_scope.
#[global] Open Scope list_scope.

(** Exceptions that the modelled code (or the numpy/Python primitives it calls) raises.
    [UnsupportedError]: sun_phy/tools/errors.py:1-2.  [AttributeError]: reading an attribute
    of [self] that was never assigned. *)
Inductive exn :=
| ValueError | TypeError | KeyError | IndexError | UnsupportedError
| UnboundLocalError | AttributeError | NotImplementedError | ZeroDivisionError | AssertionError.

Inductive res (A : Type) := Ok (a : A) | Err (e : exn).
Arguments Ok {A} a.
Arguments Err {A} e.

Definition rbind {A B} (r : res A) (f : A -> res B) : res B :=
  match r with Ok a => f a | Err e => Err e end.
Definition rmap {A B} (f : A -> B) (r : res A) : res B :=
  match r with Ok a => Ok (f a) | Err e => Err e end.
Notation "'do' x <- r ; k" := (rbind r (fun x => k))
  (at level 200, x pattern, r at level 100, k at level 200).
Definition is_ok {A} (r : res A) : bool := match r with Ok _ => true | Err _ => false end.

Fixpoint mapM {A B} (f : A -> res B) (l : list A) : res (list B) :=
  match l with
  | [] => Ok []
  | x :: r => do y <- f x; do ys <- mapM f r; Ok (y :: ys)
  end.

(** Python values that can be given to the constructors.  [PFloat] carries the exact rational value
    of a finite float; NaN and infinities are not modelled.  [POther]: any other object. *)
Inductive pyval := PInt (z : Z) | PBool (b : bool) | PFloat (q : Q) | PStr (s : string) | POther.

(** isinstance(v, int): bool is a subclass of int. *)
Definition is_int (v : pyval) : bool := match v with PInt _ | PBool _ => true | _ => false end.
Definition is_bool (v : pyval) : bool := match v with PBool _ => true | _ => false end.
Definition is_float (v : pyval) : bool := match v with PFloat _ => true | _ => false end.
(** integer value of an int/bool (0 on others; only used after [is_int]). *)
Definition int_of (v : pyval) : Z :=
  match v with PInt z => z | PBool b => if b then 1 else 0 | _ => 0 end.
(** rational value of a number. *)
Definition num_of (v : pyval) : Q :=
  match v with PFloat q => q | _ => inject_Z (int_of v) end.
(** truncation toward zero: Python int(float), numpy astype(int). *)
Definition Qtrunc (q : Q) : Z := if Qle_bool 0 q then Qfloor q else Qceiling q.

(** [len l] as a Z: array.size *)
Definition zlen {A} (l : list A) : Z := Z.of_nat (length l).

(** a.reshape(-1, n) for n > 0 read row by row: groups of n consecutive elements. *)
Fixpoint chunks_aux {A} (fuel n : nat) (l : list A) : list (list A) :=
  match fuel with
  | O => []
  | S f => match l with [] => [] | _ => firstn n l :: chunks_aux f n (skipn n l) end
  end.
Definition chunks {A} (n : nat) (l : list A) : list (list A) := chunks_aux (length l) n l.
(** reshape raises ValueError unless the size is a multiple of n. *)
Definition reshape_rows {A} (n : nat) (l : list A) : res (list (list A)) :=
  if Nat.eqb (Nat.modulo (length l) n) 0 then Ok (chunks n l) else Err ValueError.

(** a[i] = v for an in-range non-negative index. *)
Fixpoint set_nth {A} (i : nat) (v : A) (l : list A) : list A :=
  match l, i with
  | [], _ => []
  | _ :: r, O => v :: r
  | x :: r, S j => x :: set_nth j v r
  end.
(** a[lo:lo+len(vs)] = vs *)
Fixpoint set_slice {A} (lo : nat) (vs : list A) (l : list A) : list A :=
  match vs with [] => l | v :: r => set_slice (S lo) r (set_nth lo v l) end.

(** element-wise binary operation on equal-length arrays *)
Fixpoint map2 {A B C} (f : A -> B -> C) (l1 : list A) (l2 : list B) : list C :=
  match l1, l2 with x :: r1, y :: r2 => f x y :: map2 f r1 r2 | _, _ => [] end.

(** numeric view of a bit *)
Definition b2z (b : bool) : Z := if b then 1 else 0.
(** truth value of an int *)
Definition z2b (z : Z) : bool := negb (z =? 0).

(** arange n *)
Definition arange (n : nat) : list nat := seq 0 n.

(** association-list lookup (Python dict) *)
Fixpoint assoc {K V} (eqb : K -> K -> bool) (k : K) (l : list (K * V)) : option V :=
  match l with
  | [] => None
  | (k', v) :: r => if eqb k k' then Some v else assoc eqb k r
  end.
Definition dict_get {K V} (eqb : K -> K -> bool) (k : K) (l : list (K * V)) : res V :=
  match assoc eqb k l with Some v => Ok v | None => Err KeyError end.

(** Methods of an object: functions of its attributes returning the new attributes and a result.
    The attributes reached when an exception is raised are kept (Python does not roll back). *)
Definition SM (S A : Type) : Type := S -> S * res A.
Definition sret {S A} (a : A) : SM S A := fun s => (s, Ok a).
Definition slift {S A} (r : res A) : SM S A := fun s => (s, r).
Definition sget {S A} (f : S -> A) : SM S A := fun s => (s, Ok (f s)).
(** reading an attribute that may not have been assigned yet *)
Definition sattr {S A} (f : S -> option A) : SM S A :=
  fun s => (s, match f s with Some a => Ok a | None => Err AttributeError end).
Definition smod {S} (f : S -> S) : SM S unit := fun s => (f s, Ok tt).
Definition sbind {S A B} (m : SM S A) (k : A -> SM S B) : SM S B :=
  fun s => let '(s', r) := m s in match r with Ok a => k a s' | Err e => (s', Err e) end.
Notation "'sdo' x <- m ; k" := (sbind m (fun x => k))
  (at level 200, x pattern, m at level 100, k at level 200).

(** Python slice bound: negative counts from the end, clipped to [0, n] *)
Definition py_bound (n i : Z) : Z := if i <? 0 then Z.max 0 (n + i) else Z.min n i.
(** a[start:stop] = v (one value) *)
Definition py_fill {A} (start stop : Z) (v : A) (l : list A) : list A :=
  let lo := py_bound (zlen l) start in
  let hi := py_bound (zlen l) stop in
  set_slice (Z.to_nat lo) (repeat v (Z.to_nat (hi - lo))) l.
(** out[idx] = vals, in order *)
Fixpoint scatter {A} (idx : list nat) (vals : list A) (out : list A) : list A :=
  match idx, vals with
  | i :: ir, v :: vr => scatter ir vr (set_nth i v out)
  | _, _ => out
  end.
(** ceiling division: int(np.ceil(a / b)) for b > 0 *)
Definition ceil_div (a b : Z) : Z := - ((- a) / b).
