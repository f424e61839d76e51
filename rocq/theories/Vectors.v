(** * Regression: the model reproduces the tables of 802.15.4g shipped in sun_phy/tests/tables.
    Generated by tools/gen_vectors.py (do not edit).  These are tests of the model, not properties. *)
From Verif Require Import Py MBits MPn9 MRate MFields MModul MOfdm Tables MMrOfdm MFsk MOqpsk.

Definition bs := from_bitstring.
Definition octets_L1 : list byte := [x46; x72; x65; x75; x64; x65; x2c; x20; x73; x63; x68; xf6; x6e; x65; x72; x20; x47; xf6; x74; x74; x65; x72; x66; x75; x6e; x6b; x65; x6e; x2c; x0a; x54; x6f; x63; x68; x74; x65; x72; x20; x61; x75; x73; x20; x45; x6c; x79; x73; x69; x75; x6d; x2c; x0a; x57; x69; x72; x20; x62; x65; x74; x72; x65; x74; x65; x6e; x20; x66; x65; x75; x65; x72; x74; x72; x75; x33; x3c; x69; x7c].
Definition octets_N1 : list byte := [x02; x00; x6a; xba; x94; x5f; x14].
Definition run {S A} (o : res S) (m : SM S A) : option S :=
  match o with Ok s => let '(s', r) := m s in if is_ok r then Some s' else None | Err _ => None end.
Definition out {S A} (o : res S) (m : SM S A) : option A :=
  match o with Ok s => match snd (m s) with Ok a => Some a | _ => None end | Err _ => None end.
Definition attr {S A} (o : option S) (f : S -> option A) : option A := match o with Some s => f s | None => None end.
Definition ends (o : option (list bool)) : option (list bool * list bool) :=
  match o with Some l => Some (firstn 48 l, skipn (length l - 48) l) | None => None end.
Definition sgn (z : Z) : Z := Z.sgn z.
Definition tone_sign (t : tone) : Z * Z :=
  match t with TZero => (0, 0) | TPilot (a, b) => (sgn (Qnum a), sgn (Qnum b)) | TData (a, b) => (sgn a, sgn b) end.

Definition ofdm_L := mr_ofdm_new (PInt 3) (PInt 2) (PBool false) (PInt 0).
Definition ran_L := run ofdm_L (m_bytes_symbols (ABytes octets_L1)).
Example L_header : attr ran_L m_header = Some (bs "000110000010011000000011111101000000").
Proof. vm_compute. reflexivity. Qed.

Example L_header_enc : attr ran_L m_header_enc = Some (bs "000000111010001110010001110010001111100111001110011010000010111010111011").
Proof. vm_compute. reflexivity. Qed.

Example L_header_int : attr ran_L m_header_int = Some (bs "001000110010010001101001100111010011110101010110000011011000101011111011").
Proof. vm_compute. reflexivity. Qed.

Example L_pay_scr : ends (attr ran_L m_pay_scr) = Some (bs "100001000101110010001101000000010000001101101000", bs "001001100110110010111100100000000000000000011011").
Proof. vm_compute. reflexivity. Qed.

Example L_pay_enc : ends (attr ran_L m_pay_enc) = Some (bs "110111110001101111111111010111111000100011000111", bs "010010000010110000000000000000000000001110101101").
Proof. vm_compute. reflexivity. Qed.

Example L_pay_int : ends (attr ran_L m_pay_int) = Some (bs "110110101010000101000110111011101111101111110110", bs "000000010010000010110001001000011111100011100001").
Proof. vm_compute. reflexivity. Qed.

Definition syms_L := match out ofdm_L (m_bytes_symbols (ABytes octets_L1)) with Some (a, b) => map (map tone_sign) (a ++ b) | None => [] end.
Example L_freq : syms_L = [[(0, 0); (0, 0); (0, 0); (0, 0); (0, 0); (0, 0); (0, -1); (0, 1); (0, 1); (0, 1); (0, -1); (0, 1); (0, 1); (0, -1); (0, -1); (0, 1); (0, 1); (0, 1); (-1, 0); (1, 0); (0, -1); (1, 0); (0, 1); (1, 0); (0, -1); (1, 0); (0, -1); (1, 0); (0, -1); (1, 0); (-1, 0); (0, 1); (0, 0); (-1, 0); (-1, 0); (1, 0); (-1, 0); (-1, 0); (-1, 0); (1, 0); (1, 0); (-1, 0); (-1, 0); (-1, 0); (1, 0); (-1, 0); (-1, 0); (0, -1); (-1, 0); (0, 1); (-1, 0); (0, -1); (-1, 0); (0, -1); (-1, 0); (-1, 0); (0, -1); (-1, 0); (0, 1); (0, 0); (0, 0); (0, 0); (0, 0); (0, 0)];
 [(0, 0); (0, 0); (0, 0); (0, 0); (0, 0); (0, 0); (0, -1); (0, -1); (0, -1); (0, 1); (1, 0); (0, -1); (0, -1); (0, 1); (0, 1); (0, 1); (0, 1); (0, -1); (0, -1); (1, 0); (0, 1); (-1, 0); (1, 0); (0, 1); (1, 0); (0, 1); (1, 0); (0, 1); (-1, 0); (0, -1); (-1, 0); (0, -1); (0, 0); (-1, 0); (1, 0); (1, 0); (-1, 0); (-1, 0); (-1, 0); (1, 0); (1, 0); (-1, 0); (1, 0); (-1, 0); (-1, 0); (1, 0); (1, 0); (-1, 0); (0, 1); (1, 0); (0, 1); (-1, 0); (0, 1); (-1, 0); (0, 1); (1, 0); (0, -1); (1, 0); (0, -1); (0, 0); (0, 0); (0, 0); (0, 0); (0, 0)];
 [(0, 0); (0, 0); (0, 0); (0, 0); (0, 0); (0, 0); (0, 1); (0, 1); (0, -1); (0, -1); (0, 1); (0, -1); (0, -1); (0, -1); (-1, 0); (0, -1); (0, 1); (0, 1); (0, -1); (-1, 0); (0, -1); (-1, 0); (0, -1); (-1, 0); (0, 1); (-1, 0); (1, 0); (0, -1); (1, 0); (0, -1); (1, 0); (0, -1); (0, 0); (1, 0); (-1, 0); (-1, 0); (1, 0); (1, 0); (1, 0); (1, 0); (-1, 0); (1, 0); (-1, 0); (-1, 0); (1, 0); (1, 0); (1, 0); (0, -1); (1, 0); (0, -1); (1, 0); (1, 0); (0, 1); (1, 0); (0, -1); (-1, 0); (0, -1); (-1, 0); (0, -1); (0, 0); (0, 0); (0, 0); (0, 0); (0, 0)];
 [(0, 0); (0, 0); (0, 0); (0, 0); (0, 0); (0, 0); (-1, 0); (0, 1); (0, -1); (0, -1); (0, -1); (0, -1); (0, -1); (0, -1); (0, -1); (0, -1); (0, -1); (0, 1); (-1, 0); (0, 1); (-1, 0); (0, 1); (-1, 0); (0, -1); (1, 0); (0, 1); (-1, 0); (0, -1); (1, 0); (0, 1); (-1, 0); (1, 0); (0, 0); (0, 1); (1, 0); (1, 0); (-1, 0); (1, 0); (-1, 0); (1, 0); (-1, 0); (1, 0); (-1, 0); (1, 0); (1, 0); (-1, 0); (1, 0); (0, 1); (1, 0); (0, -1); (-1, 0); (0, 1); (1, 0); (0, -1); (-1, 0); (0, 1); (-1, 0); (0, 1); (-1, 0); (0, 0); (0, 0); (0, 0); (0, 0); (0, 0)];
 [(0, 0); (0, 0); (0, 0); (0, 0); (0, 0); (0, 0); (0, -1); (0, 1); (0, -1); (0, 1); (1, 0); (0, 1); (0, -1); (0, -1); (0, -1); (0, 1); (0, 1); (0, -1); (0, 1); (1, 0); (0, -1); (-1, 0); (-1, 0); (0, 1); (-1, 0); (0, 1); (-1, 0); (0, -1); (-1, 0); (0, -1); (-1, 0); (0, 1); (0, 0); (-1, 0); (-1, 0); (-1, 0); (-1, 0); (1, 0); (1, 0); (-1, 0); (1, 0); (1, 0); (1, 0); (-1, 0); (-1, 0); (-1, 0); (-1, 0); (0, -1); (1, 0); (0, 1); (1, 0); (0, 1); (1, 0); (0, -1); (1, 0); (1, 0); (0, -1); (1, 0); (0, 1); (0, 0); (0, 0); (0, 0); (0, 0); (0, 0)];
 [(0, 0); (0, 0); (0, 0); (0, 0); (0, 0); (0, 0); (0, 1); (0, 1); (0, 1); (0, 1); (0, 1); (0, -1); (0, 1); (0, -1); (-1, 0); (0, 1); (0, 1); (0, 1); (0, -1); (-1, 0); (0, -1); (1, 0); (0, 1); (-1, 0); (0, 1); (1, 0); (-1, 0); (0, -1); (-1, 0); (0, -1); (1, 0); (0, -1); (0, 0); (1, 0); (1, 0); (-1, 0); (1, 0); (-1, 0); (1, 0); (1, 0); (1, 0); (1, 0); (1, 0); (-1, 0); (1, 0); (1, 0); (1, 0); (1, 0); (0, -1); (-1, 0); (0, 1); (1, 0); (0, 1); (-1, 0); (0, -1); (1, 0); (0, -1); (-1, 0); (0, -1); (0, 0); (0, 0); (0, 0); (0, 0); (0, 0)];
 [(0, 0); (0, 0); (0, 0); (0, 0); (0, 0); (0, 0); (-1, 0); (1, 1); (-1, 1); (1, -1); (1, -1); (1, -1); (1, -1); (-1, -1); (-1, 1); (-1, 1); (-1, -1); (-1, 1); (1, -1); (1, 1); (1, -1); (1, 1); (1, -1); (1, 1); (1, 1); (1, -1); (1, 1); (1, 1); (1, 1); (-1, 1); (1, -1); (1, 1); (0, 0); (1, -1); (1, 1); (1, -1); (1, 1); (1, -1); (1, 0); (1, 1); (-1, 1); (-1, 1); (1, -1); (1, 1); (1, -1); (-1, 1); (-1, 1); (-1, 1); (-1, 1); (-1, 1); (1, 0); (-1, 1); (1, -1); (1, 1); (1, 1); (-1, 1); (1, -1); (1, -1); (-1, 0); (0, 0); (0, 0); (0, 0); (0, 0); (0, 0)];
 [(0, 0); (0, 0); (0, 0); (0, 0); (0, 0); (0, 0); (1, -1); (-1, 1); (-1, -1); (1, -1); (1, -1); (-1, 1); (-1, -1); (1, -1); (1, -1); (1, 1); (1, -1); (-1, -1); (1, 0); (-1, -1); (1, -1); (1, -1); (-1, -1); (-1, 1); (-1, -1); (-1, 1); (1, 1); (-1, 1); (1, 1); (1, 1); (1, 0); (1, 1); (0, 0); (1, -1); (-1, -1); (1, -1); (1, 1); (-1, -1); (1, 1); (1, 1); (-1, 1); (1, -1); (1, 0); (-1, 1); (1, -1); (1, 1); (-1, 1); (1, 1); (-1, 1); (-1, 1); (-1, 1); (1, 1); (-1, -1); (-1, 1); (1, 0); (-1, 1); (1, 1); (-1, 1); (-1, -1); (0, 0); (0, 0); (0, 0); (0, 0); (0, 0)];
 [(0, 0); (0, 0); (0, 0); (0, 0); (0, 0); (0, 0); (-1, 1); (-1, 1); (-1, 1); (-1, 1); (-1, 0); (1, -1); (-1, 1); (-1, 1); (-1, -1); (1, 1); (-1, 1); (1, 1); (-1, 1); (1, -1); (-1, -1); (1, 1); (1, 0); (-1, 1); (1, 1); (1, -1); (-1, 1); (1, -1); (1, 1); (1, -1); (-1, -1); (1, 1); (0, 0); (-1, 1); (-1, 0); (1, -1); (1, 1); (1, 1); (1, 1); (1, 1); (1, 1); (1, -1); (-1, -1); (1, -1); (1, 1); (-1, 1); (-1, 0); (-1, 1); (-1, 1); (1, 1); (-1, -1); (-1, -1); (1, -1); (1, 1); (1, -1); (1, 1); (1, -1); (-1, 1); (1, 1); (0, 0); (0, 0); (0, 0); (0, 0); (0, 0)];
 [(0, 0); (0, 0); (0, 0); (0, 0); (0, 0); (0, 0); (-1, -1); (1, -1); (-1, 1); (1, -1); (-1, -1); (-1, 1); (-1, 1); (-1, -1); (-1, 0); (-1, -1); (-1, -1); (-1, -1); (-1, 1); (1, -1); (-1, 1); (1, 1); (-1, -1); (1, -1); (-1, 1); (-1, 1); (-1, 0); (1, -1); (1, -1); (1, 1); (-1, 1); (1, 1); (0, 0); (1, -1); (1, -1); (-1, 1); (1, -1); (-1, 1); (1, 0); (1, 1); (-1, 1); (1, 1); (-1, -1); (1, -1); (1, 1); (1, -1); (-1, -1); (-1, -1); (-1, -1); (-1, -1); (1, 0); (-1, -1); (1, 1); (-1, 1); (-1, -1); (-1, 1); (-1, -1); (-1, 1); (1, 1); (0, 0); (0, 0); (0, 0); (0, 0); (0, 0)];
 [(0, 0); (0, 0); (0, 0); (0, 0); (0, 0); (0, 0); (1, 0); (-1, -1); (-1, 1); (1, -1); (1, -1); (1, -1); (-1, 1); (1, -1); (1, -1); (1, -1); (-1, -1); (-1, 1); (-1, 0); (-1, 1); (-1, 1); (1, -1); (-1, -1); (-1, -1); (1, 1); (-1, -1); (-1, -1); (-1, -1); (-1, 1); (1, -1); (-1, 0); (-1, -1); (0, 0); (1, -1); (-1, 1); (-1, -1); (1, -1); (1, 1); (-1, -1); (1, 1); (1, -1); (1, 1); (-1, 1); (1, 1); (-1, 1); (-1, -1); (1, 1); (-1, 1); (1, -1); (1, 1); (-1, -1); (1, 1); (1, 1); (1, -1); (1, 1); (1, -1); (1, -1); (-1, 1); (1, 0); (0, 0); (0, 0); (0, 0); (0, 0); (0, 0)];
 [(0, 0); (0, 0); (0, 0); (0, 0); (0, 0); (0, 0); (1, 1); (-1, -1); (-1, 1); (1, -1); (1, 0); (-1, -1); (-1, 1); (1, -1); (1, 1); (-1, -1); (-1, -1); (-1, 1); (1, 1); (-1, 1); (1, 1); (1, -1); (-1, 0); (1, 1); (-1, -1); (-1, -1); (-1, 1); (1, 1); (1, -1); (-1, -1); (-1, 1); (-1, -1); (0, 0); (-1, 1); (1, -1); (1, 1); (1, -1); (-1, -1); (-1, -1); (1, 1); (-1, 1); (-1, 1); (-1, 0); (-1, 1); (1, -1); (-1, 1); (1, 1); (1, -1); (1, -1); (-1, 1); (1, 1); (-1, -1); (1, 1); (1, 1); (-1, 0); (1, 1); (1, 1); (-1, -1); (1, 1); (0, 0); (0, 0); (0, 0); (0, 0); (0, 0)];
 [(0, 0); (0, 0); (0, 0); (0, 0); (0, 0); (0, 0); (-1, -1); (-1, 1); (1, 1); (1, -1); (-1, 1); (-1, 1); (1, -1); (-1, 1); (-1, 0); (1, 1); (1, 1); (1, -1); (-1, -1); (1, 1); (-1, 1); (-1, 1); (1, 1); (1, -1); (-1, 1); (-1, -1); (1, 0); (1, -1); (-1, -1); (1, -1); (-1, -1); (-1, -1); (0, 0); (-1, 1); (-1, 0); (-1, 1); (1, -1); (1, 1); (1, 1); (1, 1); (-1, 1); (-1, 1); (-1, -1); (1, 1); (-1, 1); (1, -1); (-1, 0); (-1, -1); (-1, -1); (-1, 1); (1, -1); (1, -1); (-1, -1); (-1, -1); (-1, -1); (1, 1); (-1, 1); (1, 1); (-1, 1); (0, 0); (0, 0); (0, 0); (0, 0); (0, 0)];
 [(0, 0); (0, 0); (0, 0); (0, 0); (0, 0); (0, 0); (1, 0); (1, -1); (1, -1); (-1, 1); (1, 1); (1, -1); (-1, 1); (1, 1); (-1, 1); (1, -1); (1, -1); (1, -1); (1, 1); (-1, -1); (1, 1); (-1, 1); (1, 1); (1, -1); (1, 1); (1, -1); (1, 1); (-1, 1); (-1, -1); (-1, -1); (-1, -1); (1, -1); (0, 0); (1, -1); (1, -1); (1, -1); (1, -1); (1, 1); (-1, 0); (-1, 1); (1, 1); (-1, -1); (1, -1); (1, 1); (1, 1); (-1, -1); (-1, 1); (1, 1); (-1, -1); (-1, 1); (-1, 0); (-1, 1); (-1, 1); (1, 1); (1, 1); (-1, -1); (1, 1); (1, 1); (-1, 0); (0, 0); (0, 0); (0, 0); (0, 0); (0, 0)];
 [(0, 0); (0, 0); (0, 0); (0, 0); (0, 0); (0, 0); (-1, 1); (-1, 1); (-1, -1); (-1, 1); (-1, -1); (-1, -1); (1, 1); (1, -1); (-1, -1); (1, -1); (-1, -1); (1, -1); (1, 0); (1, 1); (1, 1); (-1, -1); (-1, 1); (1, -1); (1, -1); (-1, 1); (-1, -1); (1, 1); (1, 1); (-1, -1); (-1, 0); (1, 1); (0, 0); (-1, -1); (1, 1); (1, 1); (-1, -1); (1, -1); (-1, -1); (1, -1); (-1, -1); (-1, -1); (1, 0); (1, -1); (-1, -1); (1, 1); (1, -1); (-1, -1); (1, 1); (-1, -1); (-1, -1); (-1, -1); (1, -1); (1, 1); (-1, 0); (1, -1); (-1, -1); (-1, -1); (-1, -1); (0, 0); (0, 0); (0, 0); (0, 0); (0, 0)];
 [(0, 0); (0, 0); (0, 0); (0, 0); (0, 0); (0, 0); (-1, 1); (-1, 1); (1, -1); (-1, -1); (1, 0); (-1, 1); (1, -1); (1, -1); (1, -1); (1, 1); (-1, -1); (1, 1); (1, -1); (1, 1); (-1, 1); (1, -1); (1, 0); (-1, 1); (-1, -1); (-1, 1); (1, 1); (-1, -1); (1, -1); (-1, -1); (-1, 1); (-1, 1); (0, 0); (-1, 1); (1, 0); (1, -1); (1, -1); (-1, -1); (-1, 1); (1, -1); (-1, -1); (1, -1); (-1, 1); (-1, 1); (-1, -1); (-1, -1); (-1, 0); (-1, 1); (1, -1); (1, 1); (-1, -1); (1, -1); (1, 1); (1, -1); (-1, -1); (1, -1); (-1, -1); (1, -1); (-1, 1); (0, 0); (0, 0); (0, 0); (0, 0); (0, 0)];
 [(0, 0); (0, 0); (0, 0); (0, 0); (0, 0); (0, 0); (-1, 1); (-1, -1); (1, 1); (1, -1); (1, -1); (1, -1); (-1, -1); (-1, -1); (1, 0); (1, 1); (-1, -1); (1, 1); (1, -1); (-1, -1); (-1, 1); (-1, -1); (1, 1); (-1, -1); (1, 1); (1, 1); (-1, 0); (1, 1); (-1, 1); (1, -1); (1, -1); (1, 1); (0, 0); (-1, 1); (1, -1); (1, 1); (-1, 1); (-1, -1); (1, 0); (1, 1); (-1, -1); (-1, -1); (1, 1); (1, -1); (-1, -1); (1, -1); (1, 1); (1, 1); (1, 1); (1, -1); (1, 0); (-1, 1); (1, -1); (-1, -1); (-1, -1); (1, 1); (1, -1); (1, 1); (-1, 1); (0, 0); (0, 0); (0, 0); (0, 0); (0, 0)];
 [(0, 0); (0, 0); (0, 0); (0, 0); (0, 0); (0, 0); (1, 0); (-1, -1); (-1, 1); (-1, 1); (-1, -1); (-1, 1); (-1, 1); (1, 1); (-1, 1); (-1, -1); (-1, -1); (1, 1); (1, 0); (-1, 1); (1, 1); (-1, -1); (-1, 1); (-1, 1); (-1, 1); (-1, -1); (-1, 1); (1, 1); (1, 1); (1, -1); (-1, 0); (1, -1); (0, 0); (-1, 1); (-1, -1); (1, 1); (1, 1); (1, 1); (-1, -1); (-1, 1); (-1, 1); (1, 1); (-1, -1); (-1, -1); (-1, -1); (-1, -1); (1, 1); (1, 1); (-1, 1); (-1, -1); (1, 1); (-1, -1); (-1, -1); (1, 1); (1, -1); (1, -1); (1, 1); (1, -1); (-1, 0); (0, 0); (0, 0); (0, 0); (0, 0); (0, 0)];
 [(0, 0); (0, 0); (0, 0); (0, 0); (0, 0); (0, 0); (-1, 1); (-1, -1); (-1, 1); (-1, -1); (1, 0); (1, -1); (-1, 1); (1, 1); (-1, -1); (-1, -1); (-1, 1); (-1, -1); (-1, 1); (-1, -1); (1, -1); (-1, -1); (-1, 0); (-1, 1); (1, 1); (-1, -1); (1, -1); (-1, 1); (-1, 1); (-1, 1); (-1, -1); (-1, -1); (0, 0); (-1, -1); (-1, -1); (-1, -1); (-1, 1); (-1, -1); (1, -1); (-1, -1); (-1, -1); (1, -1); (-1, 0); (1, 1); (-1, -1); (-1, 1); (-1, -1); (1, -1); (-1, -1); (-1, 1); (1, 1); (1, 1); (1, -1); (-1, -1); (1, 0); (1, 1); (1, -1); (-1, -1); (-1, 1); (0, 0); (0, 0); (0, 0); (0, 0); (0, 0)]].
Proof. vm_compute. reflexivity. Qed.

Definition ofdm_M := mr_ofdm_new (PInt 3) (PInt 2) (PBool true) (PInt 0).
Definition ran_M := run ofdm_M (m_bytes_symbols (ABytes octets_L1)).
Example M_header : attr ran_M m_header = Some (bs "000110000010011000000011111101000000000000000000").
Proof. vm_compute. reflexivity. Qed.

Example M_header_enc : attr ran_M m_header_enc = Some (bs "000000111010001110010001110010001111100111001110011010000010111010111011000000000000000000000000").
Proof. vm_compute. reflexivity. Qed.

Example M_header_int : attr ran_M m_header_int = Some (bs "001001001001110100110110110101010010100100110110000010100000000011011111000000001000101100000000").
Proof. vm_compute. reflexivity. Qed.

Example M_pay_scr : ends (attr ran_M m_pay_scr) = Some (bs "100001000101110010001101000000010000001101101000", bs "001001100110110010111100100000000000000000011011").
Proof. vm_compute. reflexivity. Qed.

Example M_pay_enc : ends (attr ran_M m_pay_enc) = Some (bs "110111110001101111111111010111111000100011000111", bs "010010000010110000000000000000000000001110101101").
Proof. vm_compute. reflexivity. Qed.

Example M_pay_int : ends (attr ran_M m_pay_int) = Some (bs "110110101010000101000110111011101111101111110110", bs "000000010010000010110001001000011111100011100001").
Proof. vm_compute. reflexivity. Qed.

Definition syms_M := match out ofdm_M (m_bytes_symbols (ABytes octets_L1)) with Some (a, b) => map (map tone_sign) (a ++ b) | None => [] end.
Example M_freq : syms_M = [[(0, 0); (0, 0); (0, 0); (0, 0); (0, 0); (0, 0); (0, -1); (0, 1); (0, 1); (0, 1); (0, -1); (0, -1); (0, -1); (0, 1); (0, 1); (0, 1); (0, -1); (0, -1); (-1, 0); (1, 0); (0, -1); (1, 0); (0, 1); (1, 0); (0, 1); (-1, 0); (0, 1); (-1, 0); (0, -1); (-1, 0); (-1, 0); (0, -1); (0, 0); (-1, 0); (-1, 0); (1, 0); (-1, 0); (-1, 0); (1, 0); (-1, 0); (-1, 0); (1, 0); (-1, 0); (-1, 0); (-1, 0); (1, 0); (-1, 0); (0, -1); (-1, 0); (0, 1); (-1, 0); (0, 1); (1, 0); (0, 1); (-1, 0); (1, 0); (0, -1); (1, 0); (0, -1); (0, 0); (0, 0); (0, 0); (0, 0); (0, 0)];
 [(0, 0); (0, 0); (0, 0); (0, 0); (0, 0); (0, 0); (0, 1); (0, -1); (0, -1); (0, -1); (1, 0); (0, -1); (0, 1); (0, 1); (0, -1); (0, -1); (0, -1); (0, 1); (0, 1); (-1, 0); (0, 1); (-1, 0); (1, 0); (0, -1); (1, 0); (0, -1); (1, 0); (0, -1); (1, 0); (0, 1); (1, 0); (0, 1); (0, 0); (1, 0); (1, 0); (1, 0); (-1, 0); (1, 0); (-1, 0); (-1, 0); (1, 0); (1, 0); (-1, 0); (1, 0); (1, 0); (-1, 0); (1, 0); (1, 0); (0, 1); (1, 0); (0, -1); (-1, 0); (0, -1); (-1, 0); (0, -1); (-1, 0); (0, 1); (-1, 0); (0, 1); (0, 0); (0, 0); (0, 0); (0, 0); (0, 0)];
 [(0, 0); (0, 0); (0, 0); (0, 0); (0, 0); (0, 0); (0, 1); (0, -1); (0, -1); (0, -1); (0, -1); (0, -1); (0, -1); (0, -1); (-1, 0); (0, -1); (0, 1); (0, 1); (0, 1); (-1, 0); (0, 1); (-1, 0); (0, -1); (1, 0); (0, 1); (-1, 0); (1, 0); (0, -1); (1, 0); (0, -1); (1, 0); (0, 1); (0, 0); (1, 0); (1, 0); (-1, 0); (1, 0); (-1, 0); (1, 0); (1, 0); (-1, 0); (1, 0); (-1, 0); (-1, 0); (1, 0); (-1, 0); (1, 0); (0, 1); (1, 0); (0, -1); (1, 0); (-1, 0); (0, 1); (1, 0); (0, -1); (-1, 0); (0, -1); (-1, 0); (0, 1); (0, 0); (0, 0); (0, 0); (0, 0); (0, 0)];
 [(0, 0); (0, 0); (0, 0); (0, 0); (0, 0); (0, 0); (-1, 0); (0, 1); (0, 1); (0, -1); (0, -1); (0, -1); (0, 1); (0, 1); (0, -1); (0, -1); (0, -1); (0, 1); (-1, 0); (0, 1); (-1, 0); (0, -1); (-1, 0); (0, -1); (1, 0); (0, -1); (1, 0); (0, -1); (1, 0); (0, 1); (-1, 0); (1, 0); (0, 0); (0, 1); (1, 0); (-1, 0); (-1, 0); (1, 0); (-1, 0); (-1, 0); (1, 0); (1, 0); (-1, 0); (1, 0); (1, 0); (-1, 0); (1, 0); (0, -1); (1, 0); (0, -1); (-1, 0); (0, -1); (-1, 0); (0, -1); (-1, 0); (0, 1); (-1, 0); (0, 1); (-1, 0); (0, 0); (0, 0); (0, 0); (0, 0); (0, 0)];
 [(0, 0); (0, 0); (0, 0); (0, 0); (0, 0); (0, 0); (0, -1); (0, 1); (0, -1); (0, 1); (1, 0); (0, 1); (0, 1); (0, 1); (0, 1); (0, -1); (0, 1); (0, -1); (0, 1); (1, 0); (0, -1); (-1, 0); (-1, 0); (0, 1); (-1, 0); (0, -1); (1, 0); (0, 1); (1, 0); (0, -1); (-1, 0); (0, 1); (0, 0); (-1, 0); (-1, 0); (-1, 0); (-1, 0); (1, 0); (-1, 0); (1, 0); (-1, 0); (-1, 0); (1, 0); (-1, 0); (-1, 0); (-1, 0); (-1, 0); (0, -1); (1, 0); (0, 1); (1, 0); (0, -1); (-1, 0); (0, 1); (1, 0); (-1, 0); (0, -1); (1, 0); (0, 1); (0, 0); (0, 0); (0, 0); (0, 0); (0, 0)];
 [(0, 0); (0, 0); (0, 0); (0, 0); (0, 0); (0, 0); (0, -1); (0, 1); (0, -1); (0, 1); (0, 1); (0, -1); (0, -1); (0, -1); (-1, 0); (0, 1); (0, -1); (0, 1); (0, -1); (1, 0); (0, -1); (-1, 0); (0, 1); (-1, 0); (0, 1); (-1, 0); (-1, 0); (0, -1); (-1, 0); (0, 1); (1, 0); (0, -1); (0, 0); (-1, 0); (1, 0); (-1, 0); (-1, 0); (-1, 0); (1, 0); (1, 0); (-1, 0); (1, 0); (1, 0); (1, 0); (1, 0); (1, 0); (1, 0); (-1, 0); (0, -1); (1, 0); (0, 1); (1, 0); (0, 1); (1, 0); (0, -1); (1, 0); (0, 1); (-1, 0); (0, -1); (0, 0); (0, 0); (0, 0); (0, 0); (0, 0)];
 [(0, 0); (0, 0); (0, 0); (0, 0); (0, 0); (0, 0); (-1, 0); (0, -1); (0, 1); (0, -1); (0, 1); (0, -1); (0, 1); (0, -1); (0, 1); (0, 1); (0, 1); (0, -1); (0, 1); (1, 0); (0, -1); (-1, 0); (0, 1); (1, 0); (0, -1); (-1, 0); (0, 1); (-1, 0); (0, -1); (-1, 0); (0, 1); (-1, 0); (0, 0); (-1, 0); (-1, 0); (-1, 0); (-1, 0); (-1, 0); (1, 0); (-1, 0); (-1, 0); (1, 0); (-1, 0); (-1, 0); (-1, 0); (-1, 0); (0, -1); (1, 0); (0, 1); (-1, 0); (1, 0); (0, -1); (1, 0); (0, 1); (1, 0); (0, -1); (1, 0); (0, 1); (-1, 0); (0, 0); (0, 0); (0, 0); (0, 0); (0, 0)];
 [(0, 0); (0, 0); (0, 0); (0, 0); (0, 0); (0, 0); (0, 1); (0, 1); (0, 1); (0, -1); (0, -1); (0, 1); (0, -1); (0, 1); (0, -1); (0, 1); (0, -1); (0, 1); (1, 0); (-1, 0); (0, -1); (1, 0); (0, -1); (1, 0); (0, -1); (-1, 0); (0, 1); (1, 0); (0, -1); (-1, 0); (1, 0); (0, 1); (0, 0); (1, 0); (-1, 0); (1, 0); (1, 0); (-1, 0); (-1, 0); (-1, 0); (-1, 0); (-1, 0); (1, 0); (-1, 0); (-1, 0); (-1, 0); (1, 0); (0, -1); (-1, 0); (0, -1); (-1, 0); (0, -1); (1, 0); (0, 1); (1, 0); (-1, 0); (0, -1); (1, 0); (0, 1); (0, 0); (0, 0); (0, 0); (0, 0); (0, 0)];
 [(0, 0); (0, 0); (0, 0); (0, 0); (0, 0); (0, 0); (1, 1); (-1, 1); (1, -1); (1, -1); (-1, 0); (1, -1); (1, -1); (-1, -1); (-1, 1); (-1, 1); (-1, -1); (-1, 1); (1, -1); (1, 1); (1, -1); (1, 1); (1, 0); (1, -1); (1, 1); (1, 1); (1, -1); (1, 1); (1, 1); (1, 1); (-1, 1); (1, -1); (0, 0); (1, 1); (-1, 0); (1, -1); (1, 1); (1, -1); (1, 1); (1, -1); (1, 1); (-1, 1); (-1, 1); (1, -1); (1, 1); (1, -1); (-1, 0); (-1, 1); (-1, 1); (-1, 1); (-1, 1); (-1, 1); (-1, 1); (1, -1); (1, 1); (1, 1); (-1, 1); (1, -1); (1, -1); (0, 0); (0, 0); (0, 0); (0, 0); (0, 0)];
 [(0, 0); (0, 0); (0, 0); (0, 0); (0, 0); (0, 0); (1, -1); (-1, 1); (-1, -1); (1, -1); (1, -1); (-1, 1); (-1, -1); (1, -1); (-1, 0); (1, -1); (1, 1); (1, -1); (-1, -1); (-1, -1); (1, -1); (1, -1); (-1, -1); (-1, 1); (-1, -1); (-1, 1); (-1, 0); (1, 1); (-1, 1); (1, 1); (1, 1); (1, 1); (0, 0); (1, -1); (-1, -1); (1, -1); (1, 1); (-1, -1); (1, 0); (1, 1); (1, 1); (-1, 1); (1, -1); (-1, 1); (1, -1); (1, 1); (-1, 1); (1, 1); (-1, 1); (-1, 1); (1, 0); (-1, 1); (1, 1); (-1, -1); (-1, 1); (-1, 1); (1, 1); (-1, 1); (-1, -1); (0, 0); (0, 0); (0, 0); (0, 0); (0, 0)];
 [(0, 0); (0, 0); (0, 0); (0, 0); (0, 0); (0, 0); (1, 0); (-1, 1); (-1, 1); (-1, 1); (-1, 1); (1, -1); (-1, 1); (-1, 1); (-1, -1); (1, 1); (-1, 1); (1, 1); (-1, 0); (-1, 1); (1, -1); (-1, -1); (1, 1); (-1, 1); (1, 1); (1, -1); (-1, 1); (1, -1); (1, 1); (1, -1); (-1, 0); (-1, -1); (0, 0); (1, 1); (-1, 1); (1, -1); (1, 1); (1, 1); (1, 1); (1, 1); (1, 1); (1, -1); (-1, -1); (1, -1); (1, 1); (-1, 1); (-1, 1); (-1, 1); (1, 1); (-1, -1); (-1, -1); (1, -1); (1, 1); (1, -1); (1, 1); (1, -1); (-1, 1); (1, 1); (1, 0); (0, 0); (0, 0); (0, 0); (0, 0); (0, 0)];
 [(0, 0); (0, 0); (0, 0); (0, 0); (0, 0); (0, 0); (-1, -1); (1, -1); (-1, 1); (1, -1); (1, 0); (-1, -1); (-1, 1); (-1, 1); (-1, -1); (-1, -1); (-1, -1); (-1, -1); (-1, 1); (1, -1); (-1, 1); (1, 1); (-1, 0); (-1, -1); (1, -1); (-1, 1); (-1, 1); (1, -1); (1, -1); (1, 1); (-1, 1); (1, 1); (0, 0); (1, -1); (1, -1); (-1, 1); (1, -1); (-1, 1); (1, 1); (-1, 1); (1, 1); (-1, -1); (-1, 0); (1, -1); (1, 1); (1, -1); (-1, -1); (-1, -1); (-1, -1); (-1, -1); (-1, -1); (1, 1); (-1, 1); (-1, -1); (-1, 0); (-1, 1); (-1, -1); (-1, 1); (1, 1); (0, 0); (0, 0); (0, 0); (0, 0); (0, 0)];
 [(0, 0); (0, 0); (0, 0); (0, 0); (0, 0); (0, 0); (-1, -1); (-1, 1); (1, -1); (1, -1); (1, -1); (-1, 1); (1, -1); (1, -1); (-1, 0); (1, -1); (-1, -1); (-1, 1); (-1, 1); (-1, 1); (1, -1); (-1, -1); (-1, -1); (1, 1); (-1, -1); (-1, -1); (1, 0); (-1, -1); (-1, 1); (1, -1); (-1, -1); (1, -1); (0, 0); (-1, 1); (-1, 0); (-1, -1); (1, -1); (1, 1); (-1, -1); (1, 1); (1, -1); (1, 1); (-1, 1); (1, 1); (-1, 1); (-1, -1); (-1, 0); (1, 1); (-1, 1); (1, -1); (1, 1); (-1, -1); (1, 1); (1, 1); (1, -1); (1, 1); (1, -1); (1, -1); (-1, 1); (0, 0); (0, 0); (0, 0); (0, 0); (0, 0)];
 [(0, 0); (0, 0); (0, 0); (0, 0); (0, 0); (0, 0); (1, 0); (1, 1); (-1, -1); (-1, 1); (1, -1); (-1, -1); (-1, 1); (1, -1); (1, 1); (-1, -1); (-1, -1); (-1, 1); (1, 1); (-1, 1); (1, 1); (1, -1); (1, 1); (-1, -1); (-1, -1); (-1, 1); (1, 1); (1, -1); (-1, -1); (-1, 1); (-1, -1); (-1, 1); (0, 0); (1, -1); (1, 1); (1, -1); (-1, -1); (-1, -1); (-1, 0); (1, 1); (-1, 1); (-1, 1); (-1, 1); (1, -1); (-1, 1); (1, 1); (1, -1); (1, -1); (-1, 1); (1, 1); (-1, 0); (-1, -1); (1, 1); (1, 1); (1, 1); (1, 1); (-1, -1); (1, 1); (-1, 0); (0, 0); (0, 0); (0, 0); (0, 0); (0, 0)];
 [(0, 0); (0, 0); (0, 0); (0, 0); (0, 0); (0, 0); (-1, -1); (-1, 1); (1, 1); (1, -1); (-1, 1); (-1, 1); (1, -1); (-1, 1); (1, 1); (1, 1); (1, -1); (-1, -1); (1, 0); (1, 1); (-1, 1); (-1, 1); (1, 1); (1, -1); (-1, 1); (-1, -1); (1, -1); (-1, -1); (1, -1); (-1, -1); (-1, 0); (-1, -1); (0, 0); (-1, 1); (-1, 1); (1, -1); (1, 1); (1, 1); (1, 1); (-1, 1); (-1, 1); (-1, -1); (1, 0); (1, 1); (-1, 1); (1, -1); (-1, -1); (-1, -1); (-1, 1); (1, -1); (1, -1); (-1, -1); (-1, -1); (-1, -1); (-1, 0); (1, 1); (-1, 1); (1, 1); (-1, 1); (0, 0); (0, 0); (0, 0); (0, 0); (0, 0)];
 [(0, 0); (0, 0); (0, 0); (0, 0); (0, 0); (0, 0); (1, -1); (1, -1); (-1, 1); (1, 1); (1, 0); (1, -1); (-1, 1); (1, 1); (-1, 1); (1, -1); (1, -1); (1, -1); (1, 1); (-1, -1); (1, 1); (-1, 1); (1, 0); (1, 1); (1, -1); (1, 1); (1, -1); (1, 1); (-1, 1); (-1, -1); (-1, -1); (-1, -1); (0, 0); (1, -1); (1, 0); (1, -1); (1, -1); (1, -1); (1, -1); (1, 1); (-1, 1); (1, 1); (-1, -1); (1, -1); (1, 1); (1, 1); (-1, 0); (-1, -1); (-1, 1); (1, 1); (-1, -1); (-1, 1); (-1, 1); (-1, 1); (1, 1); (1, 1); (-1, -1); (1, 1); (1, 1); (0, 0); (0, 0); (0, 0); (0, 0); (0, 0)];
 [(0, 0); (0, 0); (0, 0); (0, 0); (0, 0); (0, 0); (-1, 1); (-1, 1); (-1, -1); (-1, 1); (-1, -1); (-1, -1); (1, 1); (1, -1); (1, 0); (-1, -1); (1, -1); (-1, -1); (1, -1); (1, 1); (1, 1); (-1, -1); (-1, 1); (1, -1); (1, -1); (-1, 1); (-1, 0); (-1, -1); (1, 1); (1, 1); (-1, -1); (1, 1); (0, 0); (-1, -1); (1, 1); (1, 1); (-1, -1); (1, -1); (1, 0); (-1, -1); (1, -1); (-1, -1); (-1, -1); (1, -1); (-1, -1); (1, 1); (1, -1); (-1, -1); (1, 1); (-1, -1); (1, 0); (-1, -1); (-1, -1); (1, -1); (1, 1); (1, -1); (-1, -1); (-1, -1); (-1, -1); (0, 0); (0, 0); (0, 0); (0, 0); (0, 0)];
 [(0, 0); (0, 0); (0, 0); (0, 0); (0, 0); (0, 0); (1, 0); (-1, 1); (-1, 1); (1, -1); (-1, -1); (-1, 1); (1, -1); (1, -1); (1, -1); (1, 1); (-1, -1); (1, 1); (1, 0); (1, -1); (1, 1); (-1, 1); (1, -1); (-1, 1); (-1, -1); (-1, 1); (1, 1); (-1, -1); (1, -1); (-1, -1); (-1, 0); (-1, 1); (0, 0); (-1, 1); (-1, 1); (1, -1); (1, -1); (-1, -1); (-1, 1); (1, -1); (-1, -1); (1, -1); (-1, 1); (-1, 1); (-1, -1); (-1, -1); (-1, 1); (1, -1); (1, 1); (-1, -1); (1, -1); (1, 1); (1, -1); (-1, -1); (1, -1); (-1, -1); (1, -1); (-1, 1); (-1, 0); (0, 0); (0, 0); (0, 0); (0, 0); (0, 0)];
 [(0, 0); (0, 0); (0, 0); (0, 0); (0, 0); (0, 0); (-1, 1); (-1, -1); (1, 1); (1, -1); (1, 0); (1, -1); (1, -1); (-1, -1); (-1, -1); (1, 1); (-1, -1); (1, 1); (1, -1); (-1, -1); (-1, 1); (-1, -1); (-1, 0); (1, 1); (-1, -1); (1, 1); (1, 1); (1, 1); (-1, 1); (1, -1); (1, -1); (1, 1); (0, 0); (-1, 1); (1, -1); (1, 1); (-1, 1); (-1, -1); (1, 1); (-1, -1); (-1, -1); (1, 1); (-1, 0); (1, -1); (-1, -1); (1, -1); (1, 1); (1, 1); (1, 1); (1, -1); (-1, 1); (1, -1); (-1, -1); (-1, -1); (1, 0); (1, 1); (1, -1); (1, 1); (-1, 1); (0, 0); (0, 0); (0, 0); (0, 0); (0, 0)];
 [(0, 0); (0, 0); (0, 0); (0, 0); (0, 0); (0, 0); (-1, -1); (-1, 1); (-1, 1); (-1, -1); (-1, 1); (-1, 1); (1, 1); (-1, 1); (-1, 0); (-1, -1); (-1, -1); (1, 1); (-1, 1); (1, 1); (-1, -1); (-1, 1); (-1, 1); (-1, 1); (-1, -1); (-1, 1); (1, 0); (1, 1); (1, 1); (1, -1); (1, -1); (-1, 1); (0, 0); (-1, -1); (1, 0); (1, 1); (1, 1); (1, 1); (-1, -1); (-1, 1); (-1, 1); (1, 1); (-1, -1); (-1, -1); (-1, -1); (-1, -1); (1, 0); (1, 1); (1, 1); (-1, 1); (-1, -1); (1, 1); (-1, -1); (-1, -1); (1, 1); (1, -1); (1, -1); (1, 1); (1, -1); (0, 0); (0, 0); (0, 0); (0, 0); (0, 0)];
 [(0, 0); (0, 0); (0, 0); (0, 0); (0, 0); (0, 0); (-1, 0); (-1, 1); (-1, -1); (-1, 1); (-1, -1); (1, -1); (-1, 1); (1, 1); (-1, -1); (-1, -1); (-1, 1); (-1, -1); (-1, 1); (-1, -1); (1, -1); (-1, -1); (-1, 1); (1, 1); (-1, -1); (1, -1); (-1, 1); (-1, 1); (-1, 1); (-1, -1); (-1, -1); (-1, -1); (0, 0); (-1, -1); (-1, -1); (-1, 1); (-1, -1); (1, -1); (-1, 0); (-1, -1); (-1, -1); (1, -1); (1, 1); (-1, -1); (-1, 1); (-1, -1); (1, -1); (-1, -1); (-1, 1); (1, 1); (1, 0); (1, 1); (1, -1); (-1, -1); (1, 1); (1, -1); (-1, -1); (-1, 1); (1, 0); (0, 0); (0, 0); (0, 0); (0, 0); (0, 0)]].
Proof. vm_compute. reflexivity. Qed.

Definition oq_N := oqpsk_new Band_470MHz 0 0 10.
Definition ran_N := run oq_N (q_bytesToChips Wrapping (ABytes octets_N1)).
Definition qattr (n : string) := attr ran_N (fun s => assoc String.eqb n (q_mem s)).
Example N_shr : rbind oq_N q_SHR = Ok (bs "000000000000000000000000000000001110101101100010").
Proof. vm_compute. reflexivity. Qed.

Example N_phr : rbind oq_N (fun s => q_PHR Wrapping s 7) = Ok (bs "000000000000011100010101").
Proof. vm_compute. reflexivity. Qed.

Example N_shr_bde : qattr "_shr_bde" = Some (bs "000000000000000000000000000000001011001001000011").
Proof. vm_compute. reflexivity. Qed.

Example N_cSHR : qattr "_cSHR" = Some (bs "110111101010001001110000011001011101111010100010011100000110010111011110101000100111000001100101110111101010001001110000011001011101111010100010011100000110010111011110101000100111000001100101110111101010001001110000011001011101111010100010011100000110010111011110101000100111000001100101110111101010001001110000011001011101111010100010011100000110010111011110101000100111000001100101110111101010001001110000011001011101111010100010011100000110010111011110101000100111000001100101110111101010001001110000011001011101111010100010011100000110010111011110101000100111000001100101110111101010001001110000011001011101111010100010011100000110010111011110101000100111000001100101110111101010001001110000011001011101111010100010011100000110010111011110101000100111000001100101110111101010001001110000011001011101111010100010011100000110010111011110101000100111000001100101110111101010001001110000011001011101111010100010011100000110010111011110101000100111000001100101110111101010001001110000011001011101111010100010011100000110010100100001010111011000111110011010110111101010001001110000011001010010000101011101100011111001101000100001010111011000111110011010110111101010001001110000011001011101111010100010011100000110010100100001010111011000111110011010110111101010001001110000011001011101111010100010011100000110010100100001010111011000111110011010110111101010001001110000011001011101111010100010011100000110010111011110101000100111000001100101110111101010001001110000011001010010000101011101100011111001101000100001010111011000111110011010").
Proof. vm_compute. reflexivity. Qed.

Example N_phr_encoded : qattr "_phr_encoded" = Some (bs "000000000000000000000000001110010100011000111000000001111011").
Proof. vm_compute. reflexivity. Qed.

Example N_phr_interleaved : qattr "_phr_interleaved" = Some (bs "100000101100001100100100100000110000111000010000001000000000").
Proof. vm_compute. reflexivity. Qed.

Example N_phr_bde : qattr "_phr_bde" = Some (bs "000000110111110111000111000000100000101111100000001111111111").
Proof. vm_compute. reflexivity. Qed.

Example N_cPHR : qattr "_cPHR" = Some (bs "101100010110001110110001011000111011000101100011010011101001110010110001100111000100111010011100010011101001110010110001100111000100111010011100101100010110001110110001100111000100111010011100101100010110001110110001011000111011000101100011010011100110001110110001011000111011000101100011010011100110001101001110100111000100111010011100010011100110001110110001011000111011000101100011101100010110001101001110100111000100111010011100010011101001110001001110100111000100111010011100").
Proof. vm_compute. reflexivity. Qed.

Example N_PSDU_encoded : qattr "_PSDU_encoded" = Some (bs "001101111100101100000000000000000011010010001101101111011001110000100110100111100111011000001011101000111110110111101100000000").
Proof. vm_compute. reflexivity. Qed.

Example N_PSDU_interleaved : qattr "_PSDU_interleaved" = Some (bs "000011001011100101101011010101100000101101001010000100001010101110010100010011111001111100111101001010001010100110011001010000").
Proof. vm_compute. reflexivity. Qed.

Example N_PSDU_BDE : qattr "_PSDU_BDE" = Some (bs "000010001101000110110010011001000000110110001100000111110011001011100111100010101110101000101001110011110011000100010001100000").
Proof. vm_compute. reflexivity. Qed.

Example N_cPSDU : qattr "_cPSDU" = Some (bs "1101111010100010011100000110010110110001011000111011000101100011010011100110001110110001011000110100111010011100101100011001110010110001011000111011000110011100010011100110001101001110100111001011000101100011010011100110001110110001100111000100111001100011101100011001110010110001011000111011000101100011101100010110001101001110100111001011000110011100010011100110001110110001011000110100111010011100101100010110001110110001011000111011000110011100010011101001110001001110100111001011000101100011010011101001110010110001011000110100111001100011110111101010001001110000011001010100111010011100010011100110001110110001100111000100111010011100010011100110001110110001011000110100111001100011010011100110001101001110100111000100111001100011010011100110001101001110011000111011000101100011010011100110001101001110011000111011000110011100010011101001110010110001011000110100111010011100010011101001110010110001011000110100111010011100101100010110001110110001100111001011000101100011101100011001110010110001011000111011000110011100010011100110001110110001011000111011000101100011").
Proof. vm_compute. reflexivity. Qed.

Definition psdu_O := AList 1 (map (fun b => inject_Z (b2z b)) (bs "01000000000000000101011001011101001010011111101000101000")).
Definition fsk_1 := fsk_new (PFloat (inject_Z 50000)) (PInt 1) (PInt 0) (PStr "2FSK") (PBool false) (PInt 0) (PInt 0) (PBool false) (PBool false) (PInt 4).
Definition ran_O1 := run fsk_1 (k_bitsToIQ psdu_O).
Definition fsk_2 := fsk_new (PFloat (inject_Z 50000)) (PInt 1) (PInt 0) (PStr "2FSK") (PBool false) (PInt 0) (PInt 0) (PBool true) (PBool false) (PInt 4).
Definition ran_O2 := run fsk_2 (k_bitsToIQ psdu_O).
Definition fsk_3 := fsk_new (PFloat (inject_Z 50000)) (PInt 1) (PInt 0) (PStr "2FSK") (PBool true) (PInt 1) (PInt 0) (PBool true) (PBool true) (PInt 4).
Definition ran_O3 := run fsk_3 (k_bitsToIQ psdu_O).
Definition fsk_4 := fsk_new (PFloat (inject_Z 50000)) (PInt 1) (PInt 1) (PStr "2FSK") (PBool true) (PInt 0) (PInt 0) (PBool false) (PBool true) (PInt 4).
Definition ran_O4 := run fsk_4 (k_bitsToIQ psdu_O).
Definition fsk_5 := fsk_new (PFloat (inject_Z 50000)) (PInt 1) (PInt 1) (PStr "4FSK") (PBool false) (PInt 0) (PInt 0) (PBool false) (PBool true) (PInt 4).
Definition ran_O5 := run fsk_5 (k_bitsToIQ psdu_O).
Definition fsk_6 := fsk_new (PFloat (inject_Z 50000)) (PInt 1) (PInt 0) (PStr "4FSK") (PBool true) (PInt 1) (PInt 0) (PBool true) (PBool true) (PInt 4).
Definition ran_O6 := run fsk_6 (k_bitsToIQ psdu_O).
Example O1_shr : rbind fsk_1 k_SHR = Ok (bs "010101010101010101010101010101011001000001001110").
Proof. vm_compute. reflexivity. Qed.

Example O2_shr : rbind fsk_2 k_SHR = Ok (bs "010101010101010101010101010101011001000001001110").
Proof. vm_compute. reflexivity. Qed.

Example O3_shr : rbind fsk_3 k_SHR = Ok (bs "010101010101010101010101010101010110111101001110").
Proof. vm_compute. reflexivity. Qed.

Example O4_shr : rbind fsk_4 k_SHR = Ok (bs "010101010101010101010101010101010110001100101101").
Proof. vm_compute. reflexivity. Qed.

Example O5_shr : rbind fsk_5 k_SHR = Ok (bs "011101110111011101110111011101110111011101110111011101110111011101111111110111010101010111111101").
Proof. vm_compute. reflexivity. Qed.

Example O6_shr : rbind fsk_6 k_SHR = Ok (bs "011101110111011101110111011101110111011101110111011101110111011101111101111111110111010111111101").
Proof. vm_compute. reflexivity. Qed.

Example O2_phr : rbind fsk_2 (fun s => k_PHR s 7) = Ok (bs "0000100000000111").
Proof. vm_compute. reflexivity. Qed.

Example O3_phr : rbind fsk_3 (fun s => k_PHR s 7) = Ok (bs "0000100000000111").
Proof. vm_compute. reflexivity. Qed.

Example O4_phr : rbind fsk_4 (fun s => k_PHR s 7) = Ok (bs "0000000000000111").
Proof. vm_compute. reflexivity. Qed.

Example O5_phr : rbind fsk_5 (fun s => k_PHR s 7) = Ok (bs "0000000000000111").
Proof. vm_compute. reflexivity. Qed.

Example O6_phr : rbind fsk_6 (fun s => k_PHR s 7) = Ok (bs "0000100000000111").
Proof. vm_compute. reflexivity. Qed.

Example O1_ppdu : attr ran_O1 k_binary = Some (bs "010101010101010101010101010101011001000001001110000000000000011101000000000000000101011001011101001010011111101000101000").
Proof. vm_compute. reflexivity. Qed.

Example O2_ppdu : attr ran_O2 k_binary = Some (bs "010101010101010101010101010101011001000001001110000010000000011101001111011100001110010100110010011010100110001001100000").
Proof. vm_compute. reflexivity. Qed.

Example O3_ppdu : attr ran_O3 k_binary = Some (bs "0101010101010101010101010101010101101111010011101100000011101000011010000000110010100101110110101011000001101111100100001001110000011111111001101010101001001100101000001110100110011001100111110001001010011011").
Proof. vm_compute. reflexivity. Qed.

Example O4_ppdu : attr ran_O4 k_binary = Some (bs "0101010101010101010101010101010101100011001011011011111101111111001111111111111111111100111111011111110011110010001101111010101010111100101101110101111000010011101001000101110110110010111100001011010000111100").
Proof. vm_compute. reflexivity. Qed.

Example O5_ppdu : attr ran_O5 k_binary = Some (bs "011101110111011101110111011101110111011101110111011101110111011101111111110111010101010111111101000000000000011101000000000000000101011001011101001010011111101000101000").
Proof. vm_compute. reflexivity. Qed.

Example O6_ppdu : attr ran_O6 k_binary = Some (bs "0111011101110111011101110111011101110111011101110111011101110111011111011111111101110101111111011100000011101000011010000000110010100101110110101011000001101111100100001001110000011111111001101010101001001100101000001110100110011001100111110001001010011011").
Proof. vm_compute. reflexivity. Qed.

Example O3_encoded : attr ran_O3 k_encoded = Some (bs "0000000011101000001010000001111100111010000010100000101000001010001100111001010000010001010100110000111001101001110101011110110010101110110010100011000011100101").
Proof. vm_compute. reflexivity. Qed.

Example O3_interleaved : attr ran_O3 k_interleaved = Some (bs "1100000011101000011010000000110010101010101010100000001100000000110100110000010001010111010010000001011011011011100110001111010001001010010010111011001011001110").
Proof. vm_compute. reflexivity. Qed.

Example O3_scrambled : attr ran_O3 k_scrambled = Some (bs "1100000011101000011010000000110010100101110110101011000001101111100100001001110000011111111001101010101001001100101000001110100110011001100111110001001010011011").
Proof. vm_compute. reflexivity. Qed.

Example O4_encoded : attr ran_O4 k_encoded = Some (bs "1111111111111111111111111100011010000100001111111111111111111111110010110111100111111011101010000100111011010011011001010110000100000010110100001111111100101110").
Proof. vm_compute. reflexivity. Qed.

Example O4_interleaved : attr ran_O4 k_interleaved = Some (bs "1011111101111111001111111111111111111100111111011111110011110010001101111010101010111100101101110101111000010011101001000101110110110010111100001011010000111100").
Proof. vm_compute. reflexivity. Qed.

Example O6_encoded : attr ran_O6 k_encoded = Some (bs "0000000011101000001010000001111100111010000010100000101000001010001100111001010000010001010100110000111001101001110101011110110010101110110010100011000011100101").
Proof. vm_compute. reflexivity. Qed.

Example O6_interleaved : attr ran_O6 k_interleaved = Some (bs "1100000011101000011010000000110010101010101010100000001100000000110100110000010001010111010010000001011011011011100110001111010001001010010010111011001011001110").
Proof. vm_compute. reflexivity. Qed.

Example O6_scrambled : attr ran_O6 k_scrambled = Some (bs "1100000011101000011010000000110010100101110110101011000001101111100100001001110000011111111001101010101001001100101000001110100110011001100111110001001010011011").
Proof. vm_compute. reflexivity. Qed.
