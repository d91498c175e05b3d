(** PackModel.v: reading array elements from hdf5, with reshaping and packed bits:
    resqpy/model/_hdf5.py:179-271 and the packing in resqpy/olio/write_hdf5.py:103-105. *)
From Verif Require Import Base NArray.

(** * Bits *)
(** numpy.packbits: eight booleans to a byte, most significant first, padded with False *)
Definition byte_of (b : list bool) : Z := fold_left (fun acc x => 2 * acc + Z.b2z x) b 0.
Fixpoint pack_row (l : list bool) : list Z :=
  match l with
  | a :: b :: c :: d :: e :: f :: g :: h :: r => byte_of [a; b; c; d; e; f; g; h] :: pack_row r
  | [] => []
  | short => [byte_of (short ++ repeat false (8 - List.length short))]
  end.
(** numpy.unpackbits of one byte *)
Definition bits_of (z : Z) : list bool := map (Z.testbit z) [7; 6; 5; 4; 3; 2; 1; 0].
Definition unpack_row (l : list Z) : list bool := flat_map bits_of l.
(** the rows along the last axis *)
Definition rows {A} (k n : nat) (l : list A) : list (list A) := map (fun i => firstn n (skipn (i * n) l)) (seq 0 k).
Definition lead (s : list nat) : list nat := removelast s.
Definition tail_extent (s : list nat) : nat := last s O.
Definition packed_extent (n : nat) : nat := ((n + 7) / 8)%nat.
(* write_hdf5.py:103-105: np.packbits(a, axis = -1); an array without axes is refused *)
Definition packbits (a : narr bool) : res (narr Z) :=
  match a_shape a with
  | [] => Err ValueError
  | s => Ok (NArr (lead s ++ [packed_extent (tail_extent s)])
                  (flat_map pack_row (rows (prod (lead s)) (tail_extent s) (a_data a))))
  end.
(** np.unpackbits(a, axis = -1), then [..., :n] *)
Definition unpackbits (a : narr Z) (n : nat) : narr bool :=
  let s := a_shape a in
  NArr (lead s ++ [Nat.min n (8 * tail_extent s)])
       (flat_map (fun r => firstn n (unpack_row r)) (rows (prod (lead s)) (tail_extent s) (a_data a))).

(** * Reading *)
(* _hdf5.py:237-238: dtype is bool or uint8, and the last extents fit packed data *)
Definition looks_packed (stored required : list nat) : bool :=
  (List.length stored =? List.length required)%nat &&
  (8 * (Z.of_nat (tail_extent stored) - 1) <? Z.of_nat (tail_extent required)) &&
  (Z.of_nat (tail_extent required) <=? 8 * Z.of_nat (tail_extent stored)).
(* _hdf5.py:227-243, cache_array = True: [conv] converts a stored value to the dtype, [of_bit]
   (for dtypes bool and uint8) converts an unpacked bit.  Assigning an unpacked array whose
   leading extents differ from the required ones is a ValueError; numpy would broadcast leading
   extents of one, which is not modelled. *)
Definition load_array {V B} (conv : V -> B) (as_byte : V -> Z) (of_bit : option (bool -> B)) (stored : narr V) (required : option (list nat)) : res (narr B) :=
  let required := match required with None => a_shape stored | Some r => r end in
  if shape_eqb (a_shape stored) required then Ok (amap conv stored)
  else
    match of_bit with
    | Some f =>
        if looks_packed (a_shape stored) required then
          let u := unpackbits (amap as_byte stored) (tail_extent required) in
          if shape_eqb (a_shape u) required then Ok (amap f u) else Err ValueError
        else reshape (amap conv stored) required
    | None => reshape (amap conv stored) required
    end.

(* _hdf5.py:189-206, with [shape] the shape the index refers to and [target] the stored shape *)
Definition last_ {A} (n : nat) (l : list A) : list A := skipn (List.length l - n) l.
(* lines 193-197 *)
Definition natural (ix shape : list nat) : nat :=
  fst (fold_left (fun acc p => let '(nat_, ext) := acc in let '(i, n) := p in ((nat_ + i * ext)%nat, (ext * n)%nat))
                 (rev (combine ix shape)) (0%nat, 1%nat)).
(* lines 198-201: r_extent[axis] is the product of the extents from axis on *)
Fixpoint r_extents (s : list nat) : list nat :=
  match s with
  | [] => []
  | [n] => [n]
  | n :: s' => match r_extents s' with e :: es => (n * e)%nat :: e :: es | [] => [n] end
  end.
(* lines 202-205, given r_extent[1:] *)
Fixpoint split_natural (exts : list nat) (k : nat) : list nat :=
  match exts with [] => [k] | e :: es => (k / e)%nat :: split_natural es (k mod e)%nat end.
(* An index longer than the shape is IndexError (shape_tuple[axis]). *)
Definition reshaped_index (ix shape target : list nat) : res (list nat) :=
  if (List.length shape <? List.length ix)%nat then Err IndexError else
  let tail := (List.length shape - List.length ix)%nat in
  do _ <- (if (0 <? tail)%nat then assert_ (shape_eqb (last_ tail shape) (last_ tail target)) else Ok tt);
  if (List.length target <=? tail)%nat then Err IndexError else
  let k := natural ix (firstn (List.length shape - tail) shape) in
  Ok (split_natural (tl (r_extents (firstn (List.length target - tail) target))) k).
(* _hdf5.py:251-260, cache_array = False *)
Definition read_element {V} (stored : narr V) (ix : list nat) (required : option (list nat)) : res (narr V) :=
  match required with
  | None => sub stored ix
  | Some r => if shape_eqb (a_shape stored) r then sub stored ix
              else do iy <- reshaped_index ix r (a_shape stored); sub stored iy
  end.
