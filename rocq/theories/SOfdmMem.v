(** * Specification for C96: a modulator that keeps its own settings *)
From Verif Require Import Py MModul MOfdm MOfdmArgs MOfdmMem.

(** the calls of bitsToIQ in a history *)
Fixpoint messages (l : list step) : list (msg_arg * bool) :=
  match l with [] => [] | Send m pad :: r => (m, pad) :: messages r | _ :: r => messages r end.
(** what a modulator with the settings [c] answers to them *)
Fixpoint answers (c : ofdm_cfg) (st : ofdm_st) (l : list (msg_arg * bool)) : list (res (list (list tone))) :=
  match l with [] => [] | (m, pad) :: r => let (st1, out) := ofdm_send c st m pad in out :: answers c st1 r end.
(** a row of bits as an array *)
Definition row_of (bits : list bool) : msg_arg := MArr [length bits] (map (fun b : bool => if b then 1%Q else 0%Q) bits).
