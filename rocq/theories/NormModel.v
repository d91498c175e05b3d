(** NormModel.v: values of a property mapped to the range 0 to 1, and the reordering of the
    faces of a cell and the edges of a column. *)
From Verif Require Import Base QBase TriModel.
Open Scope Q_scope.

(** None: not a number *)
Notation value := (option Q).
Inductive dtype := DFloat | DInt | DBool.
(** The array, flattened, with a flag for each element that the mask excludes; without
    masking no flag is set. *)
Definition marray := list (value * bool).
Definition seen (a : marray) : list Q :=
  flat_map (fun e => match e with (Some v, false) => [v] | _ => [] end) a.
Definition lowest (l : list Q) : option Q := match l with [] => None | x :: l' => Some (fold_left Qminb l' x) end.
Definition highest (l : list Q) : option Q := match l with [] => None | x :: l' => Some (fold_left Qmaxb l' x) end.
Definition on_values (f : Q -> Q) (a : marray) : marray := map (fun e => (option_map f (fst e), snd e)) a.

(* _collection_get_attributes.py:639-656; [meta]: minimum and maximum in the metadata, also as
   left by override_min_max (property_collection.py:1485-1511) *)
Definition get_minmax (trust : bool) (meta : option Q * option Q) (a : marray) : (option Q * option Q) * (option Q * option Q) :=
  match (if trust then meta else (None, None)) with
  | (Some lo, Some hi) => ((Some lo, Some hi), meta)
  | _ => let r := (lowest (seen a), highest (seen a)) in (r, r)
  end.
(** numpy's %, the sign of the divisor *)
Definition Qmodulo (v n : Q) : Q := v - n * inject_Z (Qfloor (v / n)).
(* _collection_get_attributes.py:348-357; the integer conversion for bool does nothing here *)
Definition apply_discrete_cycle (dt : dtype) (cycle : option Z) (a : marray) (lo hi : Q) : Q * Q * marray :=
  match dt, cycle with
  | DInt, Some n => (0, inject_Z (n - 1), on_values (fun v => Qmodulo v (inject_Z n)) a)
  | _, _ => (lo, hi, a)
  end.
(** np.where(x < bound, bound, x) and its mirror image *)
Definition at_least (bound v : Q) : Q := if v <b bound then bound else v.
Definition at_most (bound v : Q) : Q := if bound <b v then bound else v.
(* _collection_get_attributes.py:388-406 *)
Definition fix_zero_at (lo hi : Q) (a : marray) (f : Q) : Q * Q * marray :=
  if f <=b 0 then (0, hi, if lo <b 0 then on_values (at_least 0) a else a)
  else if 1 <=b f then (lo, 0, if 0 <b hi then on_values (at_most 0) a else a)
  else
    let upper := hi / (1 - f) in
    let lower := - lo / f in
    if lower <=b upper
    then let lo' := - upper * f in (lo', hi, on_values (at_least lo') a)
    else let hi' := lower * (1 - f) in (lo, hi', on_values (at_most hi') a).
(* property_collection.py:2181-2186 *)
Definition spread (lo hi : Q) (a : marray) : marray :=
  if Qeq_bool hi lo then on_values (fun _ => 1 # 2) a else on_values (fun v => (v - lo) / (hi - lo)) a.

Section Norm.
  (** log10 *)
  Context (lg : Q -> Q).
  (* _collection_get_attributes.py:370-385; None for the limits: not a number *)
  Definition use_logarithm (lo : Q) (a : marray) : marray * (option Q * option Q) :=
    match seen a with
    | [] => (a, (None, None))
    | _ => let a1 := if lo <=b 0 then on_values (at_least (1 # 10000)) a else a in
           let a2 := on_values lg a1 in
           (a2, (lowest (seen a2), highest (seen a2)))
    end.
  (* property_collection.py:2150-2186.  Returns the array (None for None), the minimum and
     maximum (None for None and for nan), and the metadata afterwards.  [array] is what
     cached_part_array_ref gives.  The mask of the returned array is not modelled; the flags
     are those given. *)
  Definition normalized_part_array (points : bool) (array : option marray) (dt : dtype) (use_log : bool) (cycle : option Z)
      (trust : bool) (meta : option Q * option Q) (fix_zero : option Q)
    : res (option marray * option Q * option Q) * (option Q * option Q) :=
    if points then (Err AssertionError, meta)
    else if match fix_zero with Some _ => use_log | None => false end then (Err AssertionError, meta)
    else match array with
    | None => (Ok (None, None, None), meta)
    | Some a =>
        let (mm, meta') := get_minmax trust meta a in
        match mm with
        | (Some lo, Some hi) =>
            let '(lo, hi, a) := apply_discrete_cycle dt cycle a lo hi in
            if hi <b lo then (Ok (None, Some lo, Some hi), meta')
            else
              let (a, mm) := if use_log then use_logarithm lo a else (a, (Some lo, Some hi)) in
              match mm with
              | (Some lo, Some hi) =>
                  let '(lo, hi, n) := match fix_zero with None => (lo, hi, a) | Some f => fix_zero_at lo hi a f end in
                  (Ok (Some (spread lo hi n), Some lo, Some hi), meta')
              | _ => (Ok (Some (map (fun e => (None, snd e)) a), None, None), meta')
              end
        | (lo, hi) => (Ok (None, lo, hi), meta')
        end
    end.
End Norm.

(** ** Faces of a cell and edges of a column *)
(* grid_property_collection.py:55-58 *)
Definition face_map : list (list Z) := [[0; 1]; [2; 4]; [5; 3]]%Z.
Definition face_inverse : list (Z * Z) := [(0, 0); (0, 1); (1, 0); (2, 1); (1, 1); (2, 0)]%Z.
Section Faces.
  Context {A : Type} (d : A).
  Definition at2 (l : list (list A)) (i j : Z) : A := nth (Z.to_nat j) (nth (Z.to_nat i) l []) d.
  Definition atn (l : list A) (i : Z) : A := nth (Z.to_nat i) l d.
  (* property_collection.py:2061-2070: one cell; the array is the list of cells *)
  Definition combobulate_cell (l : list A) : list (list A) := map (map (atn l)) face_map.
  Definition combobulated (a : list (list A)) : res (list (list (list A))) :=
    do _ <- assert_ (forallb (fun l => Nat.eqb (List.length l) 6) a); Ok (map combobulate_cell a).
  (* property_collection.py:2090-2099 *)
  Definition discombobulate_cell (l : list (list A)) : list A := map (fun ap => at2 l (fst ap) (snd ap)) face_inverse.
  Definition discombobulated (a : list (list (list A))) : res (list (list A)) :=
    do _ <- assert_ (forallb (fun l => Nat.eqb (List.length l) 3 && forallb (fun m => Nat.eqb (List.length m) 2) l) a);
    Ok (map discombobulate_cell a).
  (* property_common.py:656-663 *)
  Definition edges_to_resqml (l : list (list A)) : list A := [at2 l 1 0; at2 l 0 1; at2 l 1 1; at2 l 0 0].
  (* property_common.py:666-673 *)
  Definition edges_from_resqml (l : list A) : list (list A) := [[atn l 3; atn l 1]; [atn l 0; atn l 2]].
End Faces.
