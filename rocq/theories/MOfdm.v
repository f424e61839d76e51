(** * Model of sun_phy/mr_ofdm/ofdm_modulator.py (up to the IFFT; the time domain is in [MTime])
    A matrix (rows = channels, columns = symbols) is the list of its columns.
    Data points are Gaussian integers standing for that integer times [modulation_factor]. *)
From Verif Require Import Py MPn9 MModul.

(** value of one subcarrier *)
Inductive tone :=
| TZero                      (* 0, from np.zeros *)
| TPilot (v : Q * Q)         (* pilot, exact value *)
| TData (g : gauss).         (* g * modulation_factor *)

(** pilots_values argument: "pn9" or a 1-D array *)
Inductive pilot_values := PvPn9 | PvArray (vs : list (Q * Q)).

(** Constructor arguments kept in the object (ofdm_modulator.py:19-21, 110-149).  [pilots]: None, or the
    pilot sets (columns of the 2-D indices array; a 1-D array is one column) with the values.
    modulation_factor and CP only matter in the time domain ([MTime]). *)
Record ofdm_cfg := {
  o_N : Z;                     (* N_FFT *)
  o_mod : modulation;
  o_pl : Z;                    (* padding_left *)
  o_pr : Z;                    (* padding_right *)
  o_sf : Z;                    (* frequency_spreading *)
  o_pilots : option (list (list Z) * pilot_values)
}.
(** mutable part: pilots column index and PN9 generator (ofdm_modulator.py:131, 152) *)
Record ofdm_st := { o_col : Z; o_pn9 : pn9 }.

Definition is_pow2 (n : Z) : bool := (0 <? n) && (2 ^ Z.log2 n =? n).
(** np.all(np.diff(set, axis=0) >= 0) for one column *)
Fixpoint ordered (l : list Z) : bool :=
  match l with x :: ((y :: _) as r) => (x <=? y) && ordered r | _ => true end.

(** number of pilots: pilots_indices.shape[0] (ofdm_modulator.py:110, 129) *)
Definition n_pilots (c : ofdm_cfg) : Z :=
  match o_pilots c with Some (s :: _, _) => zlen s | _ => 0 end.

(** __init__ (ofdm_modulator.py:65-152), checks on values, in order.  The isinstance checks are discharged by
    Gallina types.  "math.log(N, 2).is_integer()" is modelled as "N is a power of two" (N <= 0: math.log raises
    ValueError); pilots_indices columns have equal length in a numpy array. *)
Definition ofdm_new (N : Z) (mod_name : string) (pl pr sf : Z)
           (pilots_indices : option (list (list Z))) (pilots_vals : option pilot_values)
           (initial_pilot_set initial_pn9_seed : Z) : res (ofdm_cfg * ofdm_st) :=
  if negb (is_pow2 N) then Err ValueError
  else match pilots_indices, pilots_vals with
  | None, Some _ | Some _, None => Err ValueError
  | _, _ =>
    if negb ((sf =? 1) || (sf =? 2) || (sf =? 4)) then Err ValueError
    else
    do pil <- match pilots_indices, pilots_vals with
              | Some sets, Some vals =>
                  if negb (forallb ordered sets) then Err ValueError
                  else match vals with
                       | PvPn9 => Ok (Some (sets, vals))
                       | PvArray vs =>
                           if Nat.eqb (length vs) (length (hd [] sets)) then Ok (Some (sets, vals))
                           else Err ValueError
                       end
              | _, _ => Ok None
              end;
    do m <- get_modulator mod_name;
    Ok ({| o_N := N; o_mod := m; o_pl := pl; o_pr := pr; o_sf := sf; o_pilots := pil |},
        {| o_col := initial_pilot_set; o_pn9 := pn9_new initial_pn9_seed |})
  end.

(** _message_split_length (ofdm_modulator.py:148-149): int() truncates *)
Definition split_length (c : ofdm_cfg) : Z :=
  Z.quot ((o_N c - n_pilots c - o_pl c - o_pr c - 1) * bits_per_symbol (o_mod c)) (o_sf c).

(** get_number_of_bits_per_symbol, get_pilot_set_index, get_pn9_value (ofdm_modulator.py:502-536) *)
Definition get_number_of_bits_per_symbol := split_length.
Definition get_pilot_set_index (s : ofdm_st) : Z := o_col s.
Definition get_pn9_value (s : ofdm_st) : Z := pn9_current (o_pn9 s).

(** zeros appended by pad=True (ofdm_modulator.py:178-183): ceil(size/sl)*sl - size *)
Definition missing_zeros (sl size : Z) : Z := (- ((- size) / sl)) * sl - size.

(** i^n for any integer n, as a Gaussian unit: exp(1j*2*pi*n/4) *)
Definition ipow (n : Z) : gauss :=
  match n mod 4 with 0 => (1, 0) | 1 => (0, 1) | 2 => (-1, 0) | _ => (0, -1) end.

(** message * phase where phase[k] = exp(1j*2*pi*e(k)/4), k = 1.. along the rows *)
Definition rotate (e : Z -> Z) (col : list gauss) : list gauss :=
  map2 (fun k g => gmul g (ipow (e (Z.of_nat k)))) (seq 1 (length col)) col.

(** _frequency_spread on one column (ofdm_modulator.py:217-272) *)
Definition frequency_spread (sf : Z) (col : list gauss) : res (list gauss) :=
  if sf =? 1 then Ok col
  else if sf =? 2 then Ok (rotate (fun k => 2 * k - 1) col ++ col)
  else if sf =? 4 then
    Ok (rotate (fun k => 2 * k - 1) col        (* negative_low *)
        ++ rotate (fun k => 3 * k - 1) col     (* negative_high *)
        ++ col
        ++ rotate (fun k => k - 1) col)        (* positive_high *)
  else Err ValueError.

(** list.remove(x): first occurrence, ValueError if absent *)
Fixpoint py_remove (x : Z) (l : list Z) : res (list Z) :=
  match l with
  | [] => Err ValueError
  | y :: r => if y =? x then Ok r else do r' <- py_remove x r; Ok (y :: r')
  end.

(** available_channels_global (ofdm_modulator.py:295-313) *)
Definition channels_global (c : ofdm_cfg) : res (list Z) :=
  let start := (- o_N c) / 2 in                       (* range(-N//2, N//2) *)
  let all := map (fun i => Z.of_nat i + start) (seq 0 (Z.to_nat (o_N c))) in
  let l1 := if 0 <? o_pl c then skipn (Z.to_nat (o_pl c)) all else all in
  let l2 := if 0 <? o_pr c then firstn (length l1 - Z.to_nat (o_pr c)) l1 else l1 in
  py_remove 0 l2.

(** numpy index along an axis of size n: negative indices count from the end *)
Definition np_index (n i : Z) : res nat :=
  if (0 <=? i) && (i <? n) then Ok (Z.to_nat i)
  else if (- n <=? i) && (i <? 0) then Ok (Z.to_nat (n + i))
  else Err IndexError.

(** pilot value p (ofdm_modulator.py:335-344) *)
Definition next_pilot (pv : pilot_values) (pn : pn9) (pvi : nat) : pn9 * nat * res (Q * Q) :=
  match pv with
  | PvPn9 => let '(pn', x) := pn9_next pn in (pn', pvi, Ok (inject_Z (bpsk (0 <? x)), 0%Q))
  | PvArray vs =>
      match nth_error vs pvi with
      | None => (pn, pvi, Err IndexError)
      | Some v => (pn, (if Nat.leb (length vs) (S pvi) then 0%nat else S pvi), Ok v)
      end
  end.

(** inner loop over the pilots of one symbol (ofdm_modulator.py:334-350) *)
Fixpoint place_pilots (N : Z) (pv : pilot_values) (pset : list Z)
         (pn : pn9) (pvi : nat) (avail : list Z) (col : list tone)
  : pn9 * nat * res (list Z * list tone) :=
  match pset with
  | [] => (pn, pvi, Ok (avail, col))
  | i :: rest =>
      let '(pn1, pvi1, rp) := next_pilot pv pn pvi in
      match rp with
      | Err e => (pn1, pvi1, Err e)
      | Ok p =>
          match np_index N (i + N / 2) with
          | Err e => (pn1, pvi1, Err e)
          | Ok row =>
              let col1 := set_nth row (TPilot p) col in
              match py_remove i avail with
              | Err e => (pn1, pvi1, Err e)
              | Ok avail1 => place_pilots N pv rest pn1 pvi1 avail1 col1
              end
          end
      end
  end.

(** ifft_channels[[a + N//2 for a in avail], c] = data (ofdm_modulator.py:360-363): ValueError on a size
    mismatch (a single value is broadcast) *)
Fixpoint put_data (half : Z) (avail : list Z) (data : list gauss) (col : list tone) : list tone :=
  match avail, data with
  | a :: ar, d :: dr => put_data half ar dr (set_nth (Z.to_nat (a + half)) (TData d) col)
  | _, _ => col
  end.
Definition insert_data (N : Z) (avail : list Z) (data : list gauss) (col : list tone) : res (list tone) :=
  if Nat.eqb (length data) (length avail) then Ok (put_data (N / 2) avail data col)
  else match data with
       | [d] => Ok (put_data (N / 2) avail (repeat d (length avail)) col)
       | _ => Err ValueError
       end.

(** loop over the symbols (ofdm_modulator.py:324-361).  [pvi] is self._pilots_values_index. *)
Fixpoint add_pilots_loop (c : ofdm_cfg) (sets : list (list Z)) (pv : pilot_values) (glob : list Z)
         (st : ofdm_st) (pvi : nat) (msg : list (list gauss)) : ofdm_st * res (list (list tone)) :=
  match msg with
  | [] => (st, Ok [])
  | data :: rest =>
      match np_index (zlen sets) (o_col st) with
      | Err e => (st, Err e)
      | Ok ci =>
          let '(pn1, pvi1, rp) :=
            place_pilots (o_N c) pv (nth ci sets []) (o_pn9 st) pvi glob (repeat TZero (Z.to_nat (o_N c))) in
          match rp with
          | Err e => ({| o_col := o_col st; o_pn9 := pn1 |}, Err e)
          | Ok (avail, col) =>
              let col' := if zlen sets <=? o_col st + 1 then 0 else o_col st + 1 in
              let st1 := {| o_col := col'; o_pn9 := pn1 |} in
              match insert_data (o_N c) avail data col with
              | Err e => (st1, Err e)
              | Ok sym =>
                  let '(st2, rr) := add_pilots_loop c sets pv glob st1 pvi1 rest in
                  (st2, do syms <- rr; Ok (sym :: syms))
              end
          end
      end
  end.

(** _add_pilots_and_padding (ofdm_modulator.py:274-366) *)
Definition add_pilots_and_padding (c : ofdm_cfg) (st : ofdm_st) (msg : list (list gauss))
  : ofdm_st * res (list (list tone)) :=
  match channels_global c with
  | Err e => (st, Err e)
  | Ok glob =>
      match o_pilots c with
      | Some (sets, pv) =>
          if 0 <? n_pilots c then add_pilots_loop c sets pv glob st 0 msg
          else (st, mapM (fun d => insert_data (o_N c) glob d (repeat TZero (Z.to_nat (o_N c)))) msg)
      | None => (st, mapM (fun d => insert_data (o_N c) glob d (repeat TZero (Z.to_nat (o_N c)))) msg)
      end
  end.

(** bitsToIQ (ofdm_modulator.py:414-466) up to the IFFT: the list of frequency-domain symbols.
    [bits] is a 1-D 0/1 array with at least two elements (np.squeeze of smaller ones is not modelled).
    A non-positive split length makes np.mod/reshape fail (ValueError, or ZeroDivisionError when padding). *)
Definition ofdm_symbols (c : ofdm_cfg) (st : ofdm_st) (bits : list bool) (pad : bool)
  : ofdm_st * res (list (list tone)) :=
  let sl := split_length c in
  if sl <=? 0 then (st, Err (if pad && (sl =? 0) then ZeroDivisionError else ValueError))
  else if negb (zlen bits mod sl =? 0) && negb pad then (st, Err ValueError)
  else
    let bits1 := if pad then bits ++ repeat false (Z.to_nat (missing_zeros sl (zlen bits))) else bits in
    match (do cols <- reshape_rows (Z.to_nat sl) bits1;      (* reshape(sl, -1, order='F'): columns *)
           do mapped <- mapM (convert_column (o_mod c)) cols; (* _constellation_map *)
           mapM (frequency_spread (o_sf c)) mapped) with
    | Err e => (st, Err e)
    | Ok spread => add_pilots_and_padding c st spread
    end.
