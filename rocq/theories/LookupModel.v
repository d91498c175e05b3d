(** LookupModel.v: string lookup tables, resqpy/property/string_lookup.py.

    Simplification: the xml form is the list of (Key text, Value text) pairs; text read
    back from xml is stripped (xml_et.py:555-563), the key passed through int(). *)
From Verif Require Import Base TextModel StrModel PyDict.

(** min_index / max_index: normally an int, but set_string stores a str there. *)
Inductive idx := INone | IInt (z : Z) | IStr (s : str).
Record lookup_t := Lookup {
  l_min : idx; l_max : idx; l_list : list (option str); l_dict : dict Z str; l_as_list : bool }.
(* string_lookup.py:44-48 *)
Definition empty_lookup : lookup_t := Lookup INone INone [] [] false.

(** [min(keys)], [max(keys)] of a non-empty list *)
Definition zmin (l : list Z) : Z := match l with [] => 0 | x :: l' => fold_left Z.min l' x end.
Definition zmax (l : list Z) : Z := match l with [] => 0 | x :: l' => fold_left Z.max l' x end.

(* string_lookup.py:98-110; [mn], [mx] the integer limits *)
Definition set_list_conditionally (s : lookup_t) (mn mx : Z) : lookup_t :=
  if (0 <=? mn) && ((mx <? 50) || (8 <? (10 * Z.of_nat (List.length (l_dict s))) / mx)) then
    Lookup (l_min s) (l_max s) (map (fun k => dget Z.eqb (l_dict s) k) (zrange (mx + 1))) (l_dict s) true
  else Lookup (l_min s) (l_max s) [] (l_dict s) false.
(* string_lookup.py:70-79 *)
Definition load_from_dict (d : dict Z str) : res lookup_t :=
  match d with
  | [] => Err AssertionError
  | _ => let mn := zmin (dkeys d) in let mx := zmax (dkeys d) in
         Ok (set_list_conditionally (Lookup (IInt mn) (IInt mx) [] d false) mn mx)
  end.
(* string_lookup.py:128-140 *)
Definition get_string (s : lookup_t) (key : Z) : res (option str) :=
  match l_min s, l_max s with
  | IInt mn, IInt mx =>
      if (key <? mn) || (mx <? key) then Ok None
      else if l_as_list s then
        match nth_error (l_list s) (Z.to_nat key) with Some v => Ok v | None => Err IndexError end
      else Ok (dget Z.eqb (l_dict s) key)
  | _, _ => Err TypeError
  end.
(** [list.index(string)] on a list of optional strings *)
Fixpoint index_of (v : str) (l : list (option str)) : option Z :=
  match l with
  | [] => None
  | Some x :: l' => if str_eqb x v then Some 0 else option_map Z.succ (index_of v l')
  | None :: l' => option_map Z.succ (index_of v l')
  end.
Fixpoint key_of (v : str) (d : dict Z str) : option Z :=
  match d with [] => None | (k, x) :: d' => if str_eqb x v then Some k else key_of v d' end.
(* string_lookup.py:161-178 *)
Definition get_index_for_string (s : lookup_t) (v : str) : option Z :=
  if l_as_list s then index_of v (l_list s) else key_of v (l_dict s).
(** items sorted by key *)
Fixpoint ins_item (e : Z * str) (l : list (Z * str)) : list (Z * str) :=
  match l with [] => [e] | x :: l' => if fst e <=? fst x then e :: l else x :: ins_item e l' end.
Definition sort_items (l : list (Z * str)) : list (Z * str) := fold_right ins_item [] l.
(* string_lookup.py:142-149 *)
Definition get_list (s : lookup_t) : list (option str) :=
  if l_as_list s then l_list s else map (fun e => Some (snd e)) (sort_items (l_dict s)).
(* string_lookup.py:151-159 *)
Definition length_l (s : lookup_t) : Z :=
  if l_as_list s then Z.of_nat (List.length (l_list s)) else Z.of_nat (List.length (l_dict s)).
(** [a < b] between strings (lexicographic, by character code) *)
Fixpoint str_ltb (a b : str) : bool :=
  match a, b with
  | _, [] => false
  | [], _ :: _ => true
  | x :: a', y :: b' => if chr_eqb x y then str_ltb a' b' else (N_of_ascii x <? N_of_ascii y)%N
  end.
(* string_lookup.py:112-126: the string value, not the key, is compared with the limits;
   [str < int] raises TypeError.  The rebuilding of the list when the limits change would
   compare a str with 0: also TypeError. *)
Definition set_string (s : lookup_t) (key : Z) (v : str) : lookup_t * res unit :=
  let s1 mn mx := Lookup mn mx (l_list s) (dset Z.eqb (l_dict s) key v) (l_as_list s) in
  match l_min s with
  | IInt _ => (s1 (l_min s) (l_max s), Err TypeError)
  | mn =>
      let '(mn', c1) := match mn with IStr m => if str_ltb v m then (IStr v, true) else (mn, false) | _ => (IStr v, true) end in
      match l_max s with
      | IInt _ => (s1 mn' (l_max s), Err TypeError)
      | mx =>
          let '(mx', c2) := match mx with IStr m => if str_ltb m v then (IStr v, true) else (mx, false) | _ => (IStr v, true) end in
          if l_as_list s then
            if c1 || c2 then (Lookup mn' mx' [] (dset Z.eqb (l_dict s) key v) false, Err TypeError)
            else if (0 <=? key) && (key <? Z.of_nat (List.length (l_list s))) then
              (Lookup mn' mx' (firstn (Z.to_nat key) (l_list s) ++ Some v :: skipn (Z.to_nat key + 1) (l_list s)) (dset Z.eqb (l_dict s) key v) true, Ok tt)
            else (s1 mn' mx', Err IndexError)   (* negative indices from the end not modelled *)
          else (s1 mn' mx', Ok tt)
      end
  end.

(* string_lookup.py:197-211 and the reader 57-68: the xml values, in dictionary order *)
Definition xml_values (s : lookup_t) : list (str * str) := map (fun e => (list_ascii_of_string (str_of_int (fst e)), snd e)) (l_dict s).
Definition idx_min (i : idx) (k : Z) : idx := match i with IInt m => if k <? m then IInt k else i | _ => IInt k end.
Definition idx_max (i : idx) (k : Z) : idx := match i with IInt m => if m <? k then IInt k else i | _ => IInt k end.
Fixpoint load_from_xml (s : lookup_t) (vs : list (str * option str)) : res lookup_t :=
  match vs with
  | [] => Ok s
  | (kt, v) :: vs' =>
      do k <- int_of_str (string_of_list_ascii kt);
      match dget Z.eqb (l_dict s) k, v with
      | Some _, _ => Err AssertionError
      | None, Some v => load_from_xml (Lookup (idx_min (l_min s) k) (idx_max (l_max s) k) (l_list s) (dset Z.eqb (l_dict s) k v) (l_as_list s)) vs'
      | None, None => Err TypeError  (* a blank value is stored as None; not followed further here *)
      end
  end.
(* xml_et.py:555-563 *)
Definition stripped_text (t : str) : option str := match strip is_space t with [] => None | s => Some s end.
Definition reload (s : lookup_t) : res lookup_t :=
  load_from_xml empty_lookup (map (fun kv => (fst kv, stripped_text (snd kv))) (xml_values s)).
