(** Model of tools/modulations.py as a public module: every argument type, dimension, axis and bit order.
    ([MModul] keeps the column form used inside the OFDM modulator; [PTools] relates the two.) *)
From Coq Require Export List Bool ZArith QArith Lia String.
From Verif Require Export Py MBits MModul.
Export ListNotations.
Local Open Scope Z_scope.

(** numpy array: shape and element at an index *)
Record arr (A : Type) := { shape : list nat; at_ : list nat -> A }.
Arguments shape {A} _. Arguments at_ {A} _ _. Arguments Build_arr {A} _ _.

(** a[..., start::step, ...] along an axis *)
Definition slice_axis {A} (ax start step : nat) (a : arr A) : arr A :=
  {| shape := set_nth ax ((nth ax (shape a) 0 - start + step - 1) / step)%nat (shape a);
     at_ := fun i => at_ a (set_nth ax (start + step * nth ax i 0)%nat i) |}.
Definition amap {A B} (f : A -> B) (a : arr A) : arr B := {| shape := shape a; at_ := fun i => f (at_ a i) |}.
(** broadcasting of two shapes of the same dimension *)
Fixpoint bshape (s t : list nat) : res (list nat) :=
  match s, t with
  | [], [] => Ok []
  | x :: s', y :: t' =>
      do r <- bshape s' t';
      if Nat.eqb x y then Ok (x :: r) else if Nat.eqb x 1 then Ok (y :: r) else if Nat.eqb y 1 then Ok (x :: r)
      else Err ValueError
  | _, _ => Err ValueError
  end.
Definition bindex (s i : list nat) : list nat := map2 (fun d k => if Nat.eqb d 1 then 0%nat else k) s i.
Definition bop {A B C} (f : A -> B -> C) (a : arr A) (b : arr B) : res (arr C) :=
  do s <- bshape (shape a) (shape b);
  Ok {| shape := s; at_ := fun i => f (at_ a (bindex (shape a) i)) (at_ b (bindex (shape b) i)) |}.

(** argument of convert.  Array and list elements: finite real numbers. *)
Inductive signal :=
| SNum (x : Q)               (* int, bool or float *)
| SArr (a : arr Q)           (* ndarray *)
| SList (l : list Q)         (* list of numbers *)
| SOther.                    (* anything else *)
(** returned value *)
Inductive points :=
| OOne (g : gauss) | OArr (a : arr gauss) | OList (l : list gauss).

(** Modulator.__init__ (modulations.py:13-34) *)
Record modulator := { md_mod : modulation; md_msb : bool; md_axis : Z }.
Definition modulator_new (m : modulation) (MSB_first axis : pyval) : res modulator :=
  if negb (is_bool MSB_first) then Err ValueError
  else if negb (is_int axis) then Err ValueError
  else if int_of axis <? 0 then Err ValueError
  else Ok {| md_mod := m; md_msb := z2b (int_of MSB_first); md_axis := int_of axis |}.
(** get_modulator (modulations.py:197-213) *)
Definition modulator_get (name : string) (MSB_first axis : pyval) : res modulator :=
  do m <- get_modulator name; modulator_new m MSB_first axis.

(** HIGH if a > 0 else -HIGH *)
Definition high (x : Q) : gauss := if Qltb 0 x then (1, 0) else (-1, 0).
(** BPSK.convert (modulations.py:61-74) *)
Definition bpsk_convert (s : signal) : res points :=
  match s with
  | SNum x => Ok (OOne (high x))
  | SArr a => Ok (OArr (amap high a))
  | SList l => Ok (OList (map high l))
  | SOther => Err ValueError
  end.
(** BPSK_mod.convert(a) * c on arrays *)
Definition bpsk_times (c : gauss) (a : arr Q) : arr gauss := amap (fun x => gmul (high x) c) a.

(** QPSK.convert (modulations.py:89-121) *)
Definition qpsk_convert (msb : bool) (axis : Z) (s : signal) : res points :=
  match s with
  | SArr a =>
      let first := if msb then (1, 0) else (0, 1) in
      let second := if msb then (0, 1) else (1, 0) in
      let go ax := do r <- bop gadd (bpsk_times first (slice_axis ax 0 2 a)) (bpsk_times second (slice_axis ax 1 2 a));
                   Ok (OArr r) in
      match shape a with
      | [_] => go 0%nat
      | [r; c] =>
          if axis =? 0 then if Nat.eqb (Nat.modulo r 2) 0 then go 0%nat else Err AssertionError
          else if axis =? 1 then if Nat.eqb (Nat.modulo c 2) 0 then go 1%nat else Err AssertionError
          else Err ValueError
      | _ => Err ValueError
      end
  | _ => Err ValueError
  end.

(** QAM16.convert (modulations.py:139-184): self.MSB_first is not read *)
Definition qam16_columns (a : arr Q) : res points :=
  let b k := bpsk_times (1, 0) (slice_axis 0 k 4 a) in
  let two_minus := amap (fun g : gauss => (2 - fst g, - snd g)) in
  do real <- bop gmul (b 0%nat) (two_minus (b 1%nat));
  do imag <- bop gmul (b 2%nat) (two_minus (b 3%nat));
  do out <- bop gadd real (amap (fun g => gmul g (0, 1)) imag);
  Ok (OArr out).
Definition qam16_convert (axis : Z) (s : signal) : res points :=
  match s with
  | SArr a =>
      match shape a with
      | [n] => qam16_columns {| shape := [n; 1]%nat; at_ := fun i => at_ a [nth 0 i 0%nat] |}      (* reshape(-1, 1) *)
      | [r; c] =>
          if axis =? 1 then qam16_columns {| shape := [c; r]; at_ := fun i => at_ a (rev i) |}     (* signal.T *)
          else if axis =? 0 then qam16_columns a
          else Err ValueError
      | _ => Err ValueError
      end
  | _ => Err ValueError
  end.

(** convert of a modulator object *)
Definition md_convert (m : modulator) (s : signal) : res points :=
  match md_mod m with
  | BPSK => bpsk_convert s
  | QPSK => qpsk_convert (md_msb m) (md_axis m) s
  | QAM16 => qam16_convert (md_axis m) s
  end.
(** bits_per_symbol of a modulator object *)
Definition md_bits_per_symbol (m : modulator) : Z := bits_per_symbol (md_mod m).
