(** * Model of sun_phy/mr_ofdm/fields.py and of the numpy polynomial functions it uses.
    numpy works with float coefficients; here they are integers.  All coefficients met are integers of
    absolute value below 2^53 (proved in [PPoly]), so the float computation is exact. *)
From Verif Require Import Py MBits.

(** np.trim_zeros(c, 'f') followed by "[0] if empty": coefficients of poly1d(c), highest degree first. *)
Fixpoint trim_front (c : list Z) : list Z :=
  match c with [] => [] | x :: r => if x =? 0 then trim_front r else c end.
Definition poly1d (c : list Z) : list Z := match trim_front c with [] => [0] | t => t end.

(** element-wise sum, the longer list keeping its tail (left-aligned) *)
Fixpoint add_left (a b : list Z) : list Z :=
  match a, b with
  | [], _ => b
  | _, [] => a
  | x :: r, y :: s => (x + y) :: add_left r s
  end.

(** np.convolve(a, v) (full) for non-empty a, v *)
Fixpoint convolve (a v : list Z) : list Z :=
  match a with
  | [] => []
  | [x] => map (Z.mul x) v
  | x :: r => add_left (map (Z.mul x) v) (0 :: convolve r v)
  end.

(** np.polymul (numpy/lib/polynomial.py): both operands go through poly1d *)
Definition polymul (a b : list Z) : list Z := convolve (poly1d a) (poly1d b).

(** r[0:len(w)] -= w *)
Fixpoint sub_prefix (r w : list Z) : list Z :=
  match r, w with
  | x :: r', y :: w' => (x - y) :: sub_prefix r' w'
  | _, _ => r
  end.

(** main loop of np.polydiv for a monic divisor v (scale = 1.0): m - n + 1 iterations, each doing
    d = r[k]; r[k:k+n+1] -= d*v *)
Fixpoint polydiv_loop (iters : nat) (r v : list Z) : list Z :=
  match iters with
  | O => r
  | S i => match r with
           | [] => []
           | d :: _ => let r' := sub_prefix r (map (Z.mul d) v) in
                       hd 0 r' :: polydiv_loop i (tl r') v
           end
  end.

(** while allclose(r[0], 0) and len(r) > 1: r = r[1:] *)
Fixpoint strip_zeros (r : list Z) : list Z :=
  match r with
  | x :: ((_ :: _) as t) => if x =? 0 then strip_zeros t else r
  | _ => r
  end.

(** remainder returned by np.polydiv(u, v), monic v *)
Definition polydiv_rem (u v : list Z) : list Z :=
  strip_zeros (polydiv_loop (length u + 1 - length v) u v).

(** np.mod(c, 2) on coefficients *)
Definition mod2 (c : list Z) : list Z := map (fun x => x mod 2) c.

(** np.polyadd on arrays: right-aligned sum *)
Definition polyadd (a b : list Z) : list Z :=
  let n := Nat.max (length a) (length b) in
  map2 Z.add (repeat 0 (n - length a) ++ a) (repeat 0 (n - length b) ++ b).

(** Generator polynomial (fields.py:58) *)
Definition HCS_G : list Z := [1; 0; 0; 0; 0; 0; 1; 1; 1].

(** HCS_calculation (fields.py:42-72) *)
Definition HCS_calculation (input_array : list bool) : list Z :=
  let G := poly1d HCS_G in
  (* part a) *)
  let k := poly1d (1 :: repeat 0 22) in
  let b := poly1d (repeat 1 8) in
  let c := polymul k b in
  let A := mod2 (poly1d (polydiv_rem c G)) in
  (* part b) *)
  let a := polymul (poly1d (map b2z input_array)) (poly1d (1 :: repeat 0 8)) in
  let B := mod2 (poly1d (polydiv_rem a G)) in
  (* one's complement of the modulo-2 sum *)
  map (fun x => 1 - x mod 2) (polyadd A B).

(** _uintarr (fields.py:13-40), order 'big', for value >= 0 *)
Definition uintarr (value : Z) (bits : nat) : res (list bool) :=
  let s := binary_repr value 0 in
  if Nat.ltb bits (length s) then Err ValueError
  else Ok (repeat false (bits - length s) ++ s).

(** class PHR (fields.py:75-110): checked fields.  The isinstance checks hold for the only caller, which
    passes ints. *)
Record phr := { phr_rate : Z; phr_len : Z; phr_scr : Z; phr_bits : nat }.
Definition phr_new (rate length scrambler : Z) (phr_length : nat) : res phr :=
  if negb ((0 <=? rate) && (rate <=? 6)) then Err ValueError
  else if negb ((1 <=? length) && (length <=? 2 ^ 11)) then Err ValueError
  else if negb ((0 <=? scrambler) && (scrambler <=? 3)) then Err ValueError
  else Ok {| phr_rate := rate; phr_len := length; phr_scr := scrambler; phr_bits := phr_length |}.

(** a[lo:hi] = vs, numpy broadcasting rule: equal length, or a single value repeated *)
Definition assign_slice {A} (lo hi : nat) (vs : list A) (l : list A) : res (list A) :=
  let n := (Nat.min hi (length l) - lo)%nat in
  if Nat.eqb (length vs) n then Ok (set_slice lo vs l)
  else match vs with [v] => Ok (set_slice lo (repeat v n) l) | _ => Err ValueError end.

(** PHR.value (fields.py:112-138).  HCS values 0/1 are stored in the uint8 array. *)
Definition phr_value (p : phr) : res (list bool) :=
  let o0 := repeat false (phr_bits p) in
  do r <- uintarr (phr_rate p) 5;
  do o1 <- assign_slice 0 5 r o0;                  (* RATE_BITS = slice(0, 4+1) *)
  do l <- uintarr (phr_len p) 11;
  do o2 <- assign_slice 6 17 l o1;                 (* FRAME_LENGTH_BITS = slice(6, 16+1) *)
  do s <- uintarr (phr_scr p) 2;
  do o3 <- assign_slice 19 21 s o2;                (* SCRAMBLER_BITS = slice(19, 20+1) *)
  let hcs := HCS_calculation (firstn 22 o3) in
  assign_slice 22 30 (map z2b hcs) o3.             (* HCS_BITS = slice(22, 29+1) *)
