(** * Model of sun_phy/tools/bits.py *)
From Verif Require Import Py.

(** binary digits of a positive number, least significant first *)
Fixpoint pos_digits (p : positive) : list bool :=
  match p with xH => [true] | xO q => false :: pos_digits q | xI q => true :: pos_digits q end.

(** bin(z) without prefix, most significant digit first, for z >= 0; '0' for 0. *)
Definition bin_digits (z : Z) : list bool :=
  match z with Zpos p => rev (pos_digits p) | _ => [false] end.

(** np.binary_repr(num, width) as a list of digits, most significant first (numpy/core/numeric.py).
    An insufficient width yields the longer string (numpy < 2: DeprecationWarning; numpy >= 2 raises
    ValueError instead; every caller in sun_phy then raises ValueError on the length mismatch, so the
    observable outcome is the same). Negative numbers: two's complement. *)
Definition binary_repr (num : Z) (width : nat) : list bool :=
  if num =? 0 then repeat false (Nat.max width 1)
  else if 0 <? num then
    let d := bin_digits num in repeat false (width - length d) ++ d
  else
    let poswidth0 := length (bin_digits (- num)) in
    let poswidth := if (2 ^ (Z.of_nat poswidth0 - 1) =? - num)%Z then (poswidth0 - 1)%nat else poswidth0 in
    let d := bin_digits (2 ^ (Z.of_nat poswidth + 1) + num) in
    repeat true (width - length d) ++ d.

(** to_bin (bits.py:4-18): np.binary_repr digits, optionally reversed. *)
Definition to_bin (number : Z) (width : nat) (MSB_first : bool) : list bool :=
  let d := binary_repr number width in if MSB_first then d else rev d.

(** value of a little-endian bit list *)
Fixpoint le_value (l : list bool) : Z :=
  match l with [] => 0 | b :: r => b2z b + 2 * le_value r end.

(** to_int (bits.py:21-34): np.packbits(array[::+-1], bitorder='little')[0] - the first 8 elements,
    padded with zeros, little-endian.  (IndexError on an empty array.)  The [width] argument is unused. *)
Definition to_int (a : list bool) (MSB_first : bool) : res Z :=
  let a' := if MSB_first then a else rev a in
  match a' with [] => Err IndexError | _ => Ok (le_value (firstn 8 a')) end.

(** from_bitstring (bits.py:37-44): remove spaces, int() each character.
    Other characters than digits would raise ValueError; the code only passes literals made of
    0, 1 and spaces, other characters are mapped to false here. *)
Fixpoint from_bitstring (s : string) : list bool :=
  match s with
  | EmptyString => []
  | String c r =>
      if Ascii.eqb c " "%char then from_bitstring r
      else Ascii.eqb c "1"%char :: from_bitstring r
  end.

(** Arguments given to bitsToIQ / bytesToIQ.  [AList nd xs]: a list (of lists...) that np.asarray turns
    into an [nd]-dimensional array with elements [xs]; [AArr nd xs]: an ndarray; elements are finite numbers
    (int, bool or float) given by their exact rational value. *)
Inductive arg :=
| AList (ndim : nat) (xs : list Q)
| AArr (ndim : nat) (xs : list Q)
| ABytes (bs : list byte)
| ABytearray (bs : list byte)
| AStr (s : string)
| AOther.

Definition Qltb (a b : Q) : bool := negb (Qle_bool b a).

(** check_binary_array (bits.py:46-74).  A 1-D array with min >= 0 and max <= 1 is accepted and cast with
    astype(uint8), i.e. truncated: only the value 1 gives a one.  min() of an empty array raises ValueError. *)
Definition check_binary_array (a : arg) : res (list bool) :=
  match a with
  | AList nd xs | AArr nd xs =>
      if negb (Nat.eqb nd 1) then Err ValueError
      else match xs with
           | [] => Err ValueError
           | _ => if existsb (fun x => Qltb x 0) xs || existsb (fun x => Qltb 1 x) xs
                  then Err ValueError
                  else Ok (map (fun x => z2b (Qtrunc x)) xs)
           end
  | ABytes _ | ABytearray _ | AStr _ | AOther => Err TypeError
  end.

Definition byte_z (b : byte) : Z := Z.of_N (Byte.to_N b).

(** to_binary_array, phase 1 (bits.py:97-106): conversion to an array of ints with its dimension. *)
Definition to_int_array (a : arg) : res (nat * list Z) :=
  match a with
  | AList nd xs => Ok (nd, map Qtrunc xs)           (* np.asarray(arr, dtype=int) *)
  | ABytearray bs | ABytes bs => Ok (1%nat, map byte_z bs)
  | AArr nd xs => Ok (nd, map Qtrunc xs)            (* arr.astype(int) *)
  | AStr _ => Err TypeError
  | AOther => Err TypeError
  end.

(** to_binary_array (bits.py:79-120): range check (min() of an empty array raises ValueError), then the 8
    reversed (LSB first) digits of each octet.  For ndim <> 1 the loop variable is not an integer and
    np.binary_repr raises TypeError. *)
Definition to_binary_array (a : arg) : res (list bool) :=
  do (nd, xs) <- to_int_array a;
  match xs with
  | [] => Err ValueError
  | _ => if existsb (fun x => x <? 0) xs || existsb (fun x => 255 <? x) xs then Err ValueError
         else if negb (Nat.eqb nd 1) then Err TypeError
         else Ok (flat_map (fun x => rev (binary_repr x 8)) xs)
  end.

(** np.array(list of bits) handed to bitsToIQ by bytesToIQ *)
Definition bits_arg (l : list bool) : arg := AArr 1 (map (fun b => inject_Z (b2z b)) l).
