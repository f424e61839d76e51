(** * Specification: what the documentation of Ofdm_modulator asks of its arguments *)
From Verif Require Import Py MOfdmArgs.
Local Open Scope Z_scope.

(** an int (True and False are ints in Python) *)
Definition integer (v : pyval) (z : Z) : Prop := v = PInt z \/ (v = PBool true /\ z = 1) \/ (v = PBool false /\ z = 0).
(** pilot set number [j] of the array of indices, [P] pilots *)
Inductive pilot_table : idx_arg -> nat -> nat -> (nat -> nat -> Z) -> Prop :=
| PT1 l : pilot_table (I1 l) (length l) 1 (fun k _ => nth k l 0)
| PT2 r c e : pilot_table (I2 r c e) r (S c) e.
(** indices given, in increasing order within each set *)
Definition indices_ok (i : idx_arg) (P : nat) : Prop :=
  exists sets e, pilot_table i P sets e /\ forall j k, (j < sets)%nat -> (S k < P)%nat -> e k j <= e (S k) j.
(** the arguments that do not concern pilots *)
Definition plain_args_ok (N modulation pl pr sf ips seed : pyval) : Prop :=
  exists n name l r k i s, integer N n /\ (exists e, 0 <= e /\ n = 2 ^ e)
    /\ modulation = PStr name /\ In name ["BPSK"; "QPSK"; "QAM16"]%string
    /\ integer pl l /\ integer pr r /\ integer sf k /\ In k [1; 2; 4] /\ integer ips i /\ integer seed s.
(** pilots: neither indices nor values, or indices with the values "pn9" or an array of one value for each pilot *)
Definition pilot_args_ok (i : idx_arg) (v : val_arg) : Prop :=
  i = INone /\ v = VNone
  \/ exists P, indices_ok i P /\ (v = VStr "pn9" \/ exists vs, v = V1 vs /\ length vs = P).
