(** * Specification: payload arguments of bytesToIQ / bitsToIQ *)
From Verif Require Import Py MBits SBits.

(** ways to hand over the octets [zs] *)
Inductive holds_octets : arg -> list Z -> Prop :=
| HO_list zs : holds_octets (AList 1 (map inject_Z zs)) zs
| HO_arr zs : holds_octets (AArr 1 (map inject_Z zs)) zs
| HO_bytes bs : holds_octets (ABytes bs) (map byte_z bs)
| HO_bytearray bs : holds_octets (ABytearray bs) (map byte_z bs).

(** an argument bytesToIQ must refuse: not a container of numbers, empty, not 1-dimensional, or holding a number
    whose integer part is outside 0..255 *)
Definition malformed_octets (a : arg) : Prop :=
  match a with
  | AStr _ | AOther => True
  | ABytes bs | ABytearray bs => bs = []
  | AList nd xs | AArr nd xs =>
      xs = [] \/ nd <> 1%nat \/ exists x, In x xs /\ (x <= inject_Z (-1) \/ inject_Z 256 <= x)%Q
  end.
(** an argument bitsToIQ must refuse *)
Definition malformed_bits (a : arg) : Prop :=
  match a with
  | AList nd xs | AArr nd xs => xs = [] \/ nd <> 1%nat \/ exists x, In x xs /\ (x < 0 \/ 1 < x)%Q
  | _ => True
  end.
Definition rejection (e : exn) : Prop := e = TypeError \/ e = ValueError.

(** a call of bytesToIQ / bitsToIQ *)
Inductive request := Octets (a : arg) | Bits (a : arg).
