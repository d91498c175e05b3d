(** ConsolModel.v: resqpy/olio/consolidation.py.

    Uuids are integers.  Deciding whether two RESQML objects are equivalent
    ([immigrant_obj == resident_obj], lines 86-120) is left as an arbitrary
    boolean function [eqv] of the two uuids; building the objects is assumed to
    succeed.  The resident uuids of the right class (line 75) are an argument of
    each call, since the model may gain parts between calls. *)
From Verif Require Import Base TextModel StrModel.

Definition cmap := list (Z * Z).
(** [k in m], [m[k]] *)
Fixpoint lookup (m : cmap) (k : Z) : option Z :=
  match m with
  | [] => None
  | (a, b) :: m' => if a =? k then Some b else lookup m' k
  end.
(** [m[k] = v] *)
Fixpoint update (m : cmap) (k v : Z) : cmap :=
  match m with
  | [] => [(k, v)]
  | (a, b) :: m' => if a =? k then (k, v) :: m' else (a, b) :: update m' k v
  end.
Definition keys (m : cmap) : list Z := map fst m.
Definition values (m : cmap) : list Z := map snd m.
Definition mem (x : Z) (l : list Z) : bool := existsb (Z.eqb x) l.

(* consolidation.py:121-123: the while loop, with fuel *)
Fixpoint follow (fuel : nat) (m : cmap) (r : Z) : res Z :=
  match lookup m r with
  | None => Ok r
  | Some r' => match fuel with O => Err DivergesError | S f => follow f m r' end
  end.

(* consolidation.py:101-127 *)
Fixpoint search (fuel : nat) (eqv : Z -> Z -> bool) (ignore : bool) (m : cmap) (u : Z) (rs : list Z) : res (cmap * option Z) :=
  match rs with
  | [] => Ok (m, None)
  | r :: rs' =>
      if ignore && (r =? u) then search fuel eqv ignore m u rs'
      else if eqv u r then
        do x <- follow fuel m r; Ok (update m u x, Some x)
      else search fuel eqv ignore m u rs'
  end.

(* consolidation.py:58-127 for a part with uuid u; [consolidatable] is the test of
   line 72 on its class, [rs] the resident uuids of that class *)
Definition equivalent_uuid_int (fuel : nat) (eqv : Z -> Z -> bool) (m : cmap) (u : Z) (consolidatable : bool)
    (rs : list Z) (ignore : bool) : res (cmap * option Z) :=
  match lookup m u with
  | Some r => Ok (m, Some r)
  | None =>
      if negb consolidatable then Ok (m, None)
      else if negb ignore && mem u rs then Ok (m, Some u)
      else search fuel eqv ignore m u rs
  end.

(* consolidation.py:143-151 *)
Definition force_int (m : cmap) (a b : Z) : res cmap :=
  if a =? b then Ok m
  else do _ <- assert_ (negb (mem a (values m))); Ok (update m a b).

(* consolidation.py:129-141; line 139 compares a uuid object with integers and so
   never fails *)
Definition force_uuid (m : cmap) (a b : Z) : res cmap := if a =? b then Ok m else force_int m a b.

(* consolidation.py:163-169 *)
Definition check_map_integrity (m : cmap) : bool :=
  forallb (fun k => negb (mem k (values m))) (keys m) && forallb (fun v => negb (mem v (keys m))) (values m).

(** * Histories of calls on one Consolidation object *)
Inductive cop :=
  | Equiv (u : Z) (consolidatable : bool) (rs : list Z) (ignore : bool)
  | Force (a b : Z).
Definition cstep (fuel : nat) (eqv : Z -> Z -> bool) (m : cmap) (o : cop) : res cmap :=
  match o with
  | Equiv u c rs ig => do (m', _) <- equivalent_uuid_int fuel eqv m u c rs ig; Ok m'
  | Force a b => match force_int m a b with Ok m' => Ok m' | Err _ => Ok m end
  end.
Fixpoint crun (fuel : nat) (eqv : Z -> Z -> bool) (m : cmap) (os : list cop) : res cmap :=
  match os with
  | [] => Ok m
  | o :: os' => do m' <- cstep fuel eqv m o; crun fuel eqv m' os'
  end.

(** * Ordering of parts, consolidation.py:17-29 and 172-200 *)
Definition ordering_list : list str := map L [
    "OrganizationFeature"; "GeobodyFeature"; "BoundaryFeature"; "FrontierFeature"; "GeologicUnitFeature";
    "FluidBoundaryFeature"; "RockFluidUnitFeature"; "TectonicBoundaryFeature"; "GeneticBoundaryFeature";
    "WellboreFeature"; "FaultInterpretation"; "EarthModelInterpretation"; "HorizonInterpretation";
    "GeobodyBoundaryInterpretation"; "GeobodyInterpretation"; "WellboreInterpretation"; "LocalDepth3dCrs";
    "LocalTime3dCrs"; "TimeSeries"; "StringTableLookup"; "PropertyKind";
    "MdDatum"; "WellboreTrajectoryRepresentation"; "WellboreFrameRepresentation"; "WellboreMarkerFrameRepresentation";
    "IjkGridRepresentation"; "BlockedWellboreRepresentation"; "TriangulatedSetRepresentation"; "Grid2dRepresentation";
    "PointSetRepresentation"]%string.
Fixpoint index_of (s : str) (l : list str) : option Z :=
  match l with
  | [] => None
  | x :: l' => if str_eqb x s then Some 0 else option_map Z.succ (index_of s l')
  end.
Definition ordering (obj_type : str) : Z :=
  match index_of obj_type ordering_list with
  | Some i => i
  | None =>
      let seq := Z.of_nat (List.length ordering_list) in
      if endswith obj_type (L "Interpretation") then seq + 1
      else if endswith obj_type (L "Representation") then seq + 2
      else if endswith obj_type (L "Property") then seq + 3
      else seq
  end.

(** Python comparison of strings and of (int, str) tuples *)
Fixpoint str_leb (a b : str) : bool :=
  match a, b with
  | [], _ => true
  | _ :: _, [] => false
  | x :: a', y :: b' =>
      let m := N_of_ascii x in let n := N_of_ascii y in
      if (m <? n)%N then true else if (n <? m)%N then false else str_leb a' b'
  end.
Definition pair_leb (p q : Z * str) : bool :=
  if fst p <? fst q then true else if fst q <? fst p then false else str_leb (snd p) (snd q).
(** [list.sort()]: any sorting algorithm gives the same list since the order is
    total and antisymmetric (theorem C17_sort_is_canonical). *)
Fixpoint insert (x : Z * str) (l : list (Z * str)) : list (Z * str) :=
  match l with
  | [] => [x]
  | y :: l' => if pair_leb x y then x :: l else y :: insert x l'
  end.
Definition sort_pairs (l : list (Z * str)) : list (Z * str) := fold_right insert [] l.

(* consolidation.py:185-190; [type_of] is model.type_of_part, None for an unknown
   part, on which _ordering raises AttributeError *)
Fixpoint pair_list (type_of : str -> option str) (parts : list str) : res (list (Z * str)) :=
  match parts with
  | [] => Ok []
  | p :: ps =>
      match type_of p with
      | None => Err AttributeError
      | Some t => do rest <- pair_list type_of ps; Ok ((ordering t, p) :: rest)
      end
  end.
Definition sort_parts_list (type_of : str -> option str) (parts : list str) : res (list str) :=
  do pl <- pair_list type_of parts; Ok (map snd (sort_pairs pl)).
