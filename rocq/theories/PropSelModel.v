(** PropSelModel.v: property collections, resqpy/property/property_collection.py,
    property_common.py, _collection_add_part.py, _collection_support.py and
    _collection_get_attributes.py: choosing properties by their attributes, inheriting
    properties from another collection, the summary flags of a collection, and arrays
    stacked over realizations, times or facets.

    Simplifications: strings are ASCII; numbers in attributes and arguments are exact
    rationals (a bool is 0 or 1, as it is for Python's ==); every object that a uuid of the
    model names is of a class that can support properties; a collection's support object is
    present whenever its support uuid is; logging and warnings are left out. *)
From Coq Require Import QArith.
From Verif Require Import Base QBase TextModel StrModel UuidModel PyDict PySort ForestModel CatalogueModel.
Open Scope Z_scope.

(** A Python value used as an attribute or as a filter. *)
Inductive pval := PStr (s : str) | PNum (q : Q).
(** Python's [==] between such values *)
Definition pval_eqb (a b : pval) : bool :=
  match a, b with
  | PStr s, PStr t => str_eqb s t
  | PNum p, PNum q => Qeq_bool p q
  | _, _ => false
  end.
Definition PInt (z : Z) : pval := PNum (inject_Z z).
Definition PBool (b : bool) : pval := PInt (if b then 1 else 0).

(* property_collection.py:64-70, the tuple held for each part.  Left out: the xml node *)
Record info := Info {
  i_realization : option Z; i_support : option Z; i_uuid : Z; i_continuous : bool; i_count : Z;
  i_indexable : str; i_kind : str; i_facet_type : option str; i_facet : option str; i_title : str;
  i_ts : option Z; i_time : option Z; i_min : option Q; i_max : option Q; i_uom : option str;
  i_lookup : option Z; i_kind_uuid : option Z; i_extra : dict str str; i_null : option Z;
  i_const : option Q; i_points : bool }.

(** A PropertyCollection.  [c_model]: the identity of the Model object and its contents;
    [c_support]: the support uuid (as it was passed); flags are None until asked for. *)
(* property_collection.py:61-90 *)
Record coll := Coll {
  c_dict : dict str info; c_model : option (Z * mdl); c_support : uarg; c_realization : option pval;
  c_time_set : option bool;         (* time_set_kind_attr: Some true for 'single time' *)
  c_one_kind : option bool; c_one_uom : option bool; c_one_indexable : option bool;
  c_many_real : option bool }.
Definition new_coll : coll := Coll [] None UNone None None None None None None.
Definition with_dict (c : coll) (d : dict str info) : coll :=
  Coll d (c_model c) (c_support c) (c_realization c) (c_time_set c) (c_one_kind c) (c_one_uom c) (c_one_indexable c) (c_many_real c).
Definition with_support (c : coll) (m : option (Z * mdl)) (u : uarg) : coll :=
  Coll (c_dict c) m u (c_realization c) (c_time_set c) (c_one_kind c) (c_one_uom c) (c_one_indexable c) (c_many_real c).
Definition with_realization (c : coll) (r : option pval) : coll :=
  Coll (c_dict c) (c_model c) (c_support c) r (c_time_set c) (c_one_kind c) (c_one_uom c) (c_one_indexable c) (c_many_real c).
Definition with_flags (c : coll) (t k u i m : option bool) : coll :=
  Coll (c_dict c) (c_model c) (c_support c) (c_realization c) t k u i m.

(** The title_mode argument: None, a bool, or a string. *)
Inductive tmode := TNone | TBool (b : bool) | TMode (s : str).

(** The filter arguments. [UNone] is None for those that are uuids. *)
(* property_common.py:500-521 *)
Record sel := Sel {
  s_realization : option pval; s_support : uarg; s_uuid : uarg; s_continuous : option pval;
  s_points : option pval; s_count : option pval; s_indexable : option pval; s_kind : option str;
  s_facet_type : option pval; s_facet : option pval; s_title : option str; s_mode : tmode;
  s_ts : uarg; s_time : option pval; s_uom : option pval; s_lookup : uarg; s_categorical : option bool;
  s_related : option Z; s_const : option pval; s_extra : dict str str }.
Definition sel_all : sel :=
  Sel None UNone UNone None None None None None None None None TNone UNone None None UNone None None None [].

(* _collection_add_part.py:140-147 *)
Definition not_none_and_not_equals (attrib : option pval) (value : option pval) : bool :=
  match attrib with
  | None => false
  | Some x =>
      if pval_eqb x (PStr (L "*")) then match value with None => true | Some _ => false end
      else if pval_eqb x (PStr (L "none")) then match value with None => false | Some _ => true end
      else match value with None => true | Some v => negb (pval_eqb v x) end
  end.
Definition uarg_of (u : option Z) : uarg := match u with None => UNone | Some n => UObj n end.
(* _collection_add_part.py:150-158 *)
Definition not_none_and_not_uuid_match (u : uarg) (value : option Z) : bool :=
  match u with
  | UNone => false
  | UStr s =>
      if str_eqb s (L "*") then match value with None => true | Some _ => false end
      else if str_eqb s (L "none") then match value with None => false | Some _ => true end
      else negb (matching_uuids u (uarg_of value))
  | _ => negb (matching_uuids u (uarg_of value))
  end.
(* _collection_add_part.py:161-183; true: the part is left out *)
Definition check_citation_title (title : option str) (mode : tmode) (part_title : str) : res bool :=
  match title with
  | None => Ok false
  | Some t =>
      let mode := match mode with TNone => None | TBool b => if b then Some (L "starts") else None | TMode s => Some s end in
      match mode with
      | None => Ok (negb (str_eqb part_title t))
      | Some s =>
          if str_eqb s (L "is") then Ok (negb (str_eqb part_title t))
          else if str_eqb s (L "starts") then Ok (negb (startswith part_title t))
          else if str_eqb s (L "ends") then Ok (negb (endswith part_title t))
          else if str_eqb s (L "contains") then Ok (negb (contains part_title t))
          else if str_eqb s (L "is not") then Ok (str_eqb part_title t)
          else if str_eqb s (L "does not start") then Ok (startswith part_title t)
          else if str_eqb s (L "does not end") then Ok (endswith part_title t)
          else if str_eqb s (L "does not contain") then Ok (contains part_title t)
          else Err ValueError
      end
  end.
(* _collection_add_part.py:186-194 *)
Definition check_categorical_and_lookup (categorical : option bool) (i : info) : bool :=
  let not_cat := i_continuous i || match i_lookup i with None => true | Some _ => false end in
  match categorical with
  | None => false
  | Some true => not_cat
  | Some false => negb not_cat
  end.
(* property_common.py:85-94; a collection's property kinds are never None *)
Definition same_property_kind (a b : str) : bool :=
  let perm k := str_eqb k (L "permeability rock") || str_eqb k (L "rock permeability") in
  str_eqb a b || (perm a && perm b).
(* _collection_add_part.py:56-59 *)
Definition related_ok (m : option (Z * mdl)) (related : option Z) (part : str) : res bool :=
  match related with
  | None => Ok true
  | Some u =>
      match m with
      | None => Err AssertionError
      | Some (_, m) =>
          do r <- part_q m (Query (Some [part]) None None None (L "is") false [] [] (Some u) None None None) (L "exception");
          Ok (match r with None => false | Some _ => true end)
      end
  end.
(* _collection_add_part.py:60-66 *)
Definition extra_ok (extra em : dict str str) : bool :=
  match extra with
  | [] => true
  | _ => negb (Nat.ltb (List.length em) (List.length extra)) &&
         forallb (fun kv => match dget str_eqb em (fst kv) with Some v => str_eqb v (snd kv) | None => false end) extra
  end.
Definition onum (z : option Z) : option pval := match z with None => None | Some n => Some (PInt n) end.
Definition ostr (s : option str) : option pval := match s with None => None | Some t => Some (PStr t) end.
Definition oq (q : option Q) : option pval := match q with None => None | Some x => Some (PNum x) end.

(* _collection_add_part.py:22-66: whether the part passes the filters; the tests are made
   in this order and stop at the first failure.  The uom filter is not among them. *)
Definition passes (m : option (Z * mdl)) (a : sel) (part : str) (i : info) : res bool :=
  if not_none_and_not_equals (s_realization a) (onum (i_realization i)) then Ok false
  else if not_none_and_not_uuid_match (s_support a) (i_support i) then Ok false
  else if not_none_and_not_uuid_match (s_uuid a) (Some (i_uuid i)) then Ok false
  else if not_none_and_not_equals (s_continuous a) (Some (PBool (i_continuous i))) then Ok false
  else if check_categorical_and_lookup (s_categorical a) i then Ok false
  else if not_none_and_not_equals (s_count a) (Some (PInt (i_count i))) then Ok false
  else if not_none_and_not_equals (s_points a) (Some (PBool (i_points i))) then Ok false
  else if not_none_and_not_equals (s_indexable a) (Some (PStr (i_indexable i))) then Ok false
  else if match s_kind a with None => false | Some k => negb (same_property_kind (i_kind i) k) end then Ok false
  else if not_none_and_not_equals (s_facet_type a) (ostr (i_facet_type i)) then Ok false
  else if not_none_and_not_equals (s_facet a) (ostr (i_facet i)) then Ok false
  else
    do t <- check_citation_title (s_title a) (s_mode a) (i_title i);
    if t then Ok false
    else if not_none_and_not_uuid_match (s_ts a) (i_ts i) then Ok false
    else if not_none_and_not_equals (s_time a) (onum (i_time i)) then Ok false
    else if not_none_and_not_uuid_match (s_lookup a) (i_lookup i) then Ok false
    else if not_none_and_not_equals (s_const a) (oq (i_const i)) then Ok false
    else
      do r <- related_ok m (s_related a) part;
      if negb r then Ok false else Ok (extra_ok (s_extra a) (i_extra i)).

(* _collection_add_part.py:18-71 over the items of the other collection,
   property_collection.py:494-500; the dictionary so far stays when an item raises *)
Fixpoint add_selected (m : option (Z * mdl)) (a : sel) (ignore_clashes : bool) (items : dict str info) (d : dict str info)
  : dict str info * res unit :=
  match items with
  | [] => (d, Ok tt)
  | (p, i) :: rest =>
      match passes m a p i with
      | Err e => (d, Err e)
      | Ok false => add_selected m a ignore_clashes rest d
      | Ok true =>
          match dget str_eqb d p with
          | Some _ => if ignore_clashes then add_selected m a ignore_clashes rest d else (d, Err AssertionError)
          | None => add_selected m a ignore_clashes rest (dset str_eqb d p i)
          end
      end
  end.

(* property_collection.py:117-142 and _collection_support.py:12-64 when only a uuid and a
   model are given: the uuid must be that of a part of the model *)
Definition set_support_uuid (c : coll) (u : uarg) (m : option (Z * mdl)) : res coll :=
  let m := match m with None => c_model c | Some _ => m end in
  match u with
  | UNone => Ok (with_support c m UNone)
  | _ => match m with
         | None => Err AssertionError
         | Some (mid, md) =>
             do n <- uuid_as_int u;
             match n with
             | None => Err AssertionError
             | Some n => match dget Z.eqb (u2p md) n with None => Err AssertionError | Some _ => Ok (with_support c m u) end
             end
         end
  end.
Definition is_none (u : uarg) : bool := match u with UNone => true | _ => false end.
(* _collection_support.py:105-126: the new value of the collection (model and support) *)
Definition support_from (c other : coll) (support_uuid : uarg) : res coll :=
  do _ <- assert_ (is_none support_uuid || is_none (c_support c) || matching_uuids support_uuid (c_support c));
  do c1 <- match c_model c with
           | None => Ok (with_support c (c_model other) (c_support c))
           | Some (mid, _) => match c_model other with
                              | Some (mid', _) => do _ <- assert_ (mid =? mid'); Ok c
                              | None => Err AssertionError
                              end
           end;
  do _ <- assert_ (is_none (c_support c1) || is_none (c_support other) || matching_uuids (c_support c1) (c_support other));
  (* set_support(support_uuid = other.support_uuid, support = other.support) *)
  if is_none (c_support c1) && match c_dict c1 with [] => true | _ => false end
  then Ok (with_support c1 (match c_support other with UNone => c_model c1 | _ => c_model other end) (c_support other))
  else Ok c1.
(** [assert time_index >= 0] where time_index may be a string *)
Definition time_index_check (t : option pval) : res unit :=
  match t with
  | None => Ok tt
  | Some (PStr _) => Err TypeError
  | Some (PNum q) => assert_ (Qle_bool 0 q)
  end.
(** [assert self.realization == other.realization] when both are set *)
Definition realization_check (a b : option pval) : res unit :=
  match a, b with Some x, Some y => assert_ (pval_eqb x y) | _, _ => Ok tt end.

(* property_collection.py:437-500; grid = None.  The collection as it is left, and the
   exception if any *)
Definition inherit_selectively (c other : coll) (a : sel) (ignore_clashes : bool) : coll * res unit :=
  match support_from c other (s_support a) with
  | Err e => (c, Err e)
  | Ok c1 =>
      match (do _ <- realization_check (c_realization c1) (c_realization other); time_index_check (s_time a)) with
      | Err e => (c1, Err e)
      | Ok _ => let r := add_selected (c_model other) a ignore_clashes (c_dict other) (c_dict c1) in
                (with_dict c1 (fst r), snd r)
      end
  end.

(* property_common.py:500-596; [title] is the synonym argument *)
Definition selective_version (c : coll) (a : sel) : res coll :=
  do v <- (if is_none (s_support a) then Ok new_coll else set_support_uuid new_coll (s_support a) (c_model c));
  let v := match s_realization a with None => v | Some _ => with_realization v (s_realization a) end in
  match inherit_selectively v c a false with
  | (v', Ok _) => Ok v'
  | (_, Err e) => Err e
  end.

(* property_collection.py:644-654 *)
Definition parts_of (c : coll) : list str := dkeys (c_dict c).
(* property_collection.py:665-723; the title synonym is resolved by the caller *)
Definition selective_parts_list (c : coll) (a : sel) : res (list str) :=
  do v <- selective_version c a; Ok (parts_of v).
(* property_collection.py:725-792 *)
Definition singleton (c : coll) (a : sel) (multiple : str) : res (option str) :=
  do v <- selective_version c a;
  match parts_of v with
  | [] => Ok None
  | [p] => Ok (Some p)
  | l => if negb (str_eqb multiple (L "exception"))
         then match c_model c with
              | Some (_, m) => part_q m (Query (Some l) None None None (L "is") false [] [] None None None None) multiple
              | None => Err AssertionError
              end
         else Err AssertionError
  end.

(* property_collection.py:296-336 after add_part_to_dict's reading of the xml: the
   dictionary operations *)
Definition add_part (c : coll) (p : str) (i : info) : res coll :=
  do _ <- assert_ (match dget str_eqb (c_dict c) p with None => true | Some _ => false end);
  Ok (with_dict c (dset str_eqb (c_dict c) p i)).
Definition remove_part (c : coll) (p : str) : coll :=
  match dget str_eqb (c_dict c) p with None => c | Some _ => with_dict c (ddel str_eqb (c_dict c) p) end.

(* property_collection.py:387-391 *)
Fixpoint add_all (ignore_clashes : bool) (items d : dict str info) : dict str info * res unit :=
  match items with
  | [] => (d, Ok tt)
  | (p, i) :: rest =>
      match dget str_eqb d p with
      | Some _ => if ignore_clashes then add_all ignore_clashes rest d else (d, Err AssertionError)
      | None => add_all ignore_clashes rest (dset str_eqb d p i)
      end
  end.
(* property_collection.py:370-391 *)
Definition inherit_parts (c other : coll) (ignore_clashes : bool) : coll * res unit :=
  match (do _ <- assert_ (is_none (c_support c) || is_none (c_support other) || matching_uuids (c_support c) (c_support other));
         let c1 := if is_none (c_support c) && match c_dict c with [] => true | _ => false end && negb (is_none (c_support other))
                   then with_support c (c_model other) (c_support other) else c in
         do _ <- realization_check (c_realization c1) (c_realization other);
         Ok c1) with
  | Err e => (c, Err e)
  | Ok c1 => let r := add_all ignore_clashes (c_dict other) (c_dict c1) in (with_dict c1 (fst r), snd r)
  end.

(** ** Parts like an example *)
Definition mode_arg (mode : option str) : tmode := match mode with None => TNone | Some s => TMode s end.
(* property_collection.py:525-543 *)
Definition inherit_for_time_series (c other : coll) (example : str) (mode : option str) (ignore_clashes : bool) : coll * res unit :=
  match dget str_eqb (c_dict other) example with
  | None => (c, Err AssertionError)
  | Some e =>
      match i_ts e with
      | None => (c, Err AssertionError)
      | Some ts =>
          inherit_selectively c other
            (Sel (onum (i_realization e)) (uarg_of (i_support e)) UNone (Some (PBool (i_continuous e))) (Some (PBool (i_points e))) None
                 (Some (PStr (i_indexable e))) (Some (i_kind e)) (ostr (i_facet_type e)) (ostr (i_facet e)) (Some (i_title e)) (mode_arg mode)
                 (UObj ts) None None UNone None None None [])
            ignore_clashes
      end
  end.
(* property_collection.py:568-586 *)
Definition inherit_for_facets (c other : coll) (example : str) (mode : option str) (ignore_clashes : bool) : coll * res unit :=
  match dget str_eqb (c_dict other) example with
  | None => (c, Err AssertionError)
  | Some e =>
      if i_points e then (c, Err AssertionError)
      else inherit_selectively c other
            (Sel (onum (i_realization e)) (uarg_of (i_support e)) UNone (Some (PBool (i_continuous e))) (Some (PBool false)) None
                 (Some (PStr (i_indexable e))) (Some (i_kind e)) None None (Some (i_title e)) (mode_arg mode)
                 (uarg_of (i_ts e)) (onum (i_time e)) None UNone None None None [])
            ignore_clashes
  end.
(* property_collection.py:611-629 *)
Definition inherit_for_realizations (c other : coll) (example : str) (mode : option str) (ignore_clashes : bool) : coll * res unit :=
  match dget str_eqb (c_dict other) example with
  | None => (c, Err AssertionError)
  | Some e =>
      inherit_selectively c other
        (Sel None (uarg_of (i_support e)) UNone (Some (PBool (i_continuous e))) (Some (PBool (i_points e))) None
             (Some (PStr (i_indexable e))) (Some (i_kind e)) (ostr (i_facet_type e)) (ostr (i_facet e)) (Some (i_title e)) (mode_arg mode)
             (uarg_of (i_ts e)) (onum (i_time e)) None UNone None None None [])
        ignore_clashes
  end.

(** ** Summary flags *)
(* property_collection.py:1513-1541: the loop; [ct], [cs] the common time index and series *)
Fixpoint time_set_loop (l : list info) (ct : option Z) (cs : option Z) : bool :=
  match l with
  | [] => true
  | i :: l' =>
      match i_time i with
      | None => false
      | Some t =>
          if match ct with None => true | Some t0 => t0 =? t end then
            match i_ts i with
            | None => false
            | Some s =>
                if match cs with None => true | Some s0 => matching_uuids (UObj s0) (UObj s) end
                then time_set_loop l' (match ct with None => Some t | _ => ct end) (match cs with None => Some s | _ => cs end)
                else false
            end
          else false
      end
  end.
(* property_collection.py:1552-1566, 1575-1589: all the same text; the common value is never
   None once set as kinds and indexable elements are text *)
Fixpoint same_text_loop (l : list str) (common : option str) : bool :=
  match l with
  | [] => true
  | s :: l' => match common with
               | None => same_text_loop l' (Some s)
               | Some c => if str_eqb s c then same_text_loop l' common else false
               end
  end.
(* property_collection.py:1630-1644: a None uom does not become the common one but is
   compared with it *)
Fixpoint same_uom_loop (l : list (option str)) (common : option str) : bool :=
  match l with
  | [] => true
  | s :: l' => match common with
               | None => same_uom_loop l' s
               | Some c => if match s with None => false | Some t => str_eqb t c end then same_uom_loop l' common else false
               end
  end.
(* property_collection.py:1598-1617: (more than one, the common realization) *)
Fixpoint many_real_loop (l : list (option Z)) (common : option Z) : bool * option Z :=
  match l with
  | [] => (false, common)
  | None :: l' => many_real_loop l' common
  | Some r :: l' => match common with
                    | None => many_real_loop l' (Some r)
                    | Some c => if r =? c then many_real_loop l' common else (true, common)
                    end
  end.
Definition infos (c : coll) : list info := dvals (c_dict c).
Definition establish_time_set (c : coll) : coll * bool :=
  let b := time_set_loop (infos c) None None in
  (with_flags c (Some b) (c_one_kind c) (c_one_uom c) (c_one_indexable c) (c_many_real c), b).
Definition establish_one_kind (c : coll) : coll * bool :=
  let b := same_text_loop (map i_kind (infos c)) None in
  (with_flags c (c_time_set c) (Some b) (c_one_uom c) (c_one_indexable c) (c_many_real c), b).
Definition establish_one_indexable (c : coll) : coll * bool :=
  let b := same_text_loop (map i_indexable (infos c)) None in
  (with_flags c (c_time_set c) (c_one_kind c) (c_one_uom c) (Some b) (c_many_real c), b).
Definition establish_one_uom (c : coll) : coll * bool :=
  let b := same_uom_loop (map i_uom (infos c)) None in
  (with_flags c (c_time_set c) (c_one_kind c) (Some b) (c_one_indexable c) (c_many_real c), b).
(* property_collection.py:1603-1618: the collection's own realization is set as well *)
Definition establish_many_real (c : coll) : coll * bool :=
  let (b, common) := many_real_loop (map i_realization (infos c)) None in
  let r := if b then None else match common with None => c_realization c | Some n => Some (PInt n) end in
  (with_realization (with_flags c (c_time_set c) (c_one_kind c) (c_one_uom c) (c_one_indexable c) (Some b)) r, b).
(* property_collection.py:1543-1550, 1568-1573, 1591-1596, 1620-1628, 1646-1651 *)
Definition time_set_kind (c : coll) := match c_time_set c with Some b => (c, b) | None => establish_time_set c end.
Definition has_one_kind (c : coll) := match c_one_kind c with Some b => (c, b) | None => establish_one_kind c end.
Definition has_one_indexable (c : coll) := match c_one_indexable c with Some b => (c, b) | None => establish_one_indexable c end.
Definition has_many_real (c : coll) := match c_many_real c with Some b => (c, b) | None => establish_many_real c end.
Definition has_one_uom (c : coll) := match c_one_uom c with Some b => (c, b) | None => establish_one_uom c end.

Definition set_realization_of (i : info) (r : Z) : info :=
  Info (Some r) (i_support i) (i_uuid i) (i_continuous i) (i_count i) (i_indexable i) (i_kind i) (i_facet_type i) (i_facet i)
       (i_title i) (i_ts i) (i_time i) (i_min i) (i_max i) (i_uom i) (i_lookup i) (i_kind_uuid i) (i_extra i) (i_null i) (i_const i) (i_points i).
(* property_collection.py:1668-1674 *)
Fixpoint number_items (d : dict str info) (r : Z) : dict str info :=
  match d with [] => [] | (p, i) :: d' => (p, set_realization_of i r) :: number_items d' (r + 1) end.
(* property_collection.py:1653-1675 *)
Definition assign_realization_numbers (c : coll) : coll * res unit :=
  let (c, b1) := has_one_kind c in
  if negb b1 then (c, Err AssertionError) else
  let (c, b2) := has_one_indexable c in
  if negb b2 then (c, Err AssertionError) else
  let (c, b3) := has_one_uom c in
  if negb b3 then (c, Err AssertionError) else
  let d := number_items (c_dict c) 0 in
  let c := with_dict c d in
  (with_flags c (c_time_set c) (c_one_kind c) (c_one_uom c) (c_one_indexable c) (Some (1 <? Z.of_nat (List.length d))), Ok tt).

(** ** Stacked arrays *)
(** the distinct values other than None, in increasing order *)
(* property_collection.py:918-932 *)
Fixpoint distinct {A} (eqb : A -> A -> bool) (l : list (option A)) (s : list A) : list A :=
  match l with
  | [] => s
  | None :: l' => distinct eqb l' s
  | Some x :: l' => distinct eqb l' (if existsb (eqb x) s then s else s ++ [x])
  end.
Definition realization_list (c : coll) : list Z := isort Z.leb (distinct Z.eqb (map i_realization (infos c)) []).
Definition time_index_list (c : coll) : list Z := isort Z.leb (distinct Z.eqb (map i_time (infos c)) []).
Definition facet_list (c : coll) : list str := isort str_le (distinct str_eqb (map i_facet (infos c)) []).
(* property_collection.py:1137-1151 *)
Definition all_continuous (c : coll) : bool :=
  match distinct Bool.eqb (map (fun i => Some (i_continuous i)) (infos c)) [] with [b] => b | _ => false end.
Definition all_discrete (c : coll) : bool :=
  match distinct Bool.eqb (map (fun i => Some (i_continuous i)) (infos c)) [] with [b] => negb b | _ => false end.

(** [a[n] = x] for an index known to be in range *)
Fixpoint upd {A} (l : list A) (n : nat) (x : A) : list A :=
  match l with [] => [] | y :: l' => match n with O => x :: l' | S n' => y :: upd l' n' x end end.

Section Stack.
  (** [fetch p]: the array of the part, cached_part_array_ref *)
  Context {A : Type} (fetch : str -> A).
  (* _collection_get_attributes.py:659-666, 729-736 *)
  Fixpoint stack_by_number (items : dict str info) (num : info -> option Z) (extent : Z) (a : list A) : res (list A) :=
    match items with
    | [] => Ok a
    | (p, i) :: rest =>
        match num i with
        | None => Err AssertionError
        | Some r => if (0 <=? r) && (r <? extent) then stack_by_number rest num extent (upd a (Z.to_nat r) (fetch p))
                    else Err AssertionError
        end
    end.
  (* _collection_get_attributes.py:669-676, 739-746; [ask r]: the filter for that number *)
  Fixpoint stack_in_order (c : coll) (ask : Z -> sel) (l : list Z) : res (list A) :=
    match l with
    | [] => Ok []
    | r :: l' => do p <- singleton c (ask r) (L "exception");
                 match p with
                 | None => Err TypeError
                 | Some p => do rest <- stack_in_order c ask l'; Ok (fetch p :: rest)
                 end
    end.
  Definition sel_realization (r : Z) : sel :=
    Sel (Some (PInt r)) UNone UNone None None None None None None None None TNone UNone None None UNone None None None [].
  Definition sel_time (t : Z) : sel :=
    Sel None UNone UNone None None None None None None None None TNone UNone (Some (PInt t)) None UNone None None None [].

  (* _collection_get_attributes.py:687-704, 707-726, 749-759: the common checks *)
  Definition stack_checks (c : coll) : coll * res unit :=
    if is_none (c_support c) then (c, Err AssertionError) else
    match c_dict c with
    | [] => (c, Err AssertionError)
    | _ =>
      let (c, b1) := has_one_kind c in
      if negb b1 then (c, Err AssertionError) else
      let (c, b2) := has_one_indexable c in
      if negb b2 then (c, Err AssertionError) else
      let (c, b3) := has_one_uom c in
      if negb b3 then (c, Err AssertionError) else (c, Ok tt)
    end.
  Definition mixture_check (c : coll) : res unit := assert_ (all_continuous c || all_discrete c).
  (* the shared body of property_collection.py:1938-1985 and 1987-2042, given the list of
     numbers; the caller's fill is a whole slice *)
  Definition stacked (c : coll) (l : list Z) (num : info -> option Z) (ask : Z -> sel) (fill_missing : bool) (fill : A) : res (list A) :=
    do _ <- assert_ (Nat.eqb (List.length (c_dict c)) (List.length l));
    do _ <- mixture_check c;
    if fill_missing
    then let extent := last l 0 + 1 in
         stack_by_number (c_dict c) num extent (repeat fill (Z.to_nat extent))
    else stack_in_order c ask l.
  Definition realizations_array (c : coll) (fill_missing : bool) (fill : A) : coll * res (list A) :=
    match stack_checks c with
    | (c, Err e) => (c, Err e)
    | (c, Ok _) => (c, stacked c (realization_list c) i_realization sel_realization fill_missing fill)
    end.
  Definition time_series_array (c : coll) (fill_missing : bool) (fill : A) : coll * res (list A) :=
    match stack_checks c with
    | (c, Err e) => (c, Err e)
    | (c, Ok _) => (c, stacked c (time_index_list c) i_time sel_time fill_missing fill)
    end.
  (** [l.index(x)] *)
  Fixpoint index_of (l : list str) (x : str) : option nat :=
    match l with [] => None | y :: l' => if str_eqb y x then Some 0%nat else option_map S (index_of l' x) end.
  (* property_collection.py:1929-1934 *)
  Fixpoint stack_by_facet (items : dict str info) (fl : list str) (a : list A) : res (list A) :=
    match items with
    | [] => Ok a
    | (p, i) :: rest =>
        match i_facet i with
        | None => Err ValueError
        | Some f => match index_of fl f with
                    | None => Err ValueError
                    | Some n => stack_by_facet rest fl (upd a n (fetch p))
                    end
        end
    end.
  (* property_collection.py:1886-1936; [zero]: the array of zeros *)
  Definition facets_array (c : coll) (zero : A) : coll * res (list A) :=
    match stack_checks c with
    | (c, Err e) => (c, Err e)
    | (c, Ok _) =>
        (c, let fl := facet_list c in
            do _ <- assert_ (Nat.ltb 0 (List.length fl));
            do _ <- assert_ (Nat.eqb (List.length (c_dict c)) (List.length fl));
            do _ <- mixture_check c;
            stack_by_facet (c_dict c) fl (repeat zero (List.length fl)))
    end.
End Stack.
