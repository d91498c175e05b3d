(** CatalogueModel.v: the part query functions of a Model, resqpy/model/_catalogue.py.

    Simplifications: strings are ASCII; every part in the forest has its xml loaded and
    carries a citation with title and creation date (possibly blank); metadata is the
    first child of each tag, ExtraMetadata a dictionary; a uuid argument is given as its
    integer value. *)
From Verif Require Import Base TextModel StrModel UuidModel PyDict PySort ForestModel.

(** The keyword arguments of Model.parts(); [None] where the Python default is None. *)
Record query := Query {
  q_list : option (list str); q_type : option str; q_uuid : option Z;
  q_title : option str; q_title_mode : str; q_case : bool;
  q_meta : dict str str; q_extra : dict str str;
  q_related : option Z; q_rmode : option kind; q_subdir : option str; q_sort : option str }.
(* the default arguments, _catalogue.py:14-25 *)
Definition all_parts_query : query := Query None None None None (L "is") false [] [] None None None None.

(* _catalogue.py:337-341 *)
Definition list_of_parts (m : mdl) : list str := dkeys (objs m).

(** [p in l] for a list of strings *)
Fixpoint str_mem (p : str) (l : list str) : bool :=
  match l with [] => false | q :: l' => str_eqb q p || str_mem p l' end.

(* _catalogue.py:490-546: the tree of a main part, None if not in the forest *)
Definition tree_for_part (m : mdl) (p : str) : option tree :=
  match dget str_eqb (parts m) p with Some (_, _, t) => Some t | None => None end.
(* _catalogue.py:547-553 *)
Definition citation_title_for_part (m : mdl) (p : str) : str :=
  match tree_for_part m p with Some t => t_title t | None => [] end.

(* _catalogue.py:714-726: line 722 subscripts the method, so raises TypeError for the
   first part examined *)
Definition filtered_by_epc_subdir (l : list str) (sub : str) : res (list str) :=
  let sub := match sub with c :: s => if chr_eqb c "/" then s else sub | [] => sub end in
  match sub with
  | [] => Ok l
  | _ => match l with [] => Ok [] | _ => Err TypeError end
  end.

(* _catalogue.py:40-48 *)
Definition full_type (ty : str) : str :=
  match ty with c :: _ => if is_upper_chr c then L "obj_" ++ ty else ty | [] => ty end.
Fixpoint filtered_by_type (m : mdl) (l : list str) (ty : str) : res (list str) :=
  match l with
  | [] => Ok []
  | p :: l' =>
      match dget str_eqb (parts m) p with
      | None => Err KeyError
      | Some (ct, _, _) => do rest <- filtered_by_type m l' ty; Ok (if str_eqb ct ty then p :: rest else rest)
      end
  end.

(* _catalogue.py:730-732 *)
Definition title_modes : list str :=
  [L "is"; L "starts"; L "ends"; L "contains"; L "is not"; L "does not start"; L "does not end"; L "does not contain"].
(* _catalogue.py:741-764: the test applied to one part; a mode not listed keeps nothing *)
Definition title_test (mode title part_title : str) : bool :=
  if str_eqb mode (L "is") then str_eqb part_title title
  else if str_eqb mode (L "starts") then startswith part_title title
  else if str_eqb mode (L "ends") then endswith part_title title
  else if str_eqb mode (L "contains") then contains part_title title
  else if str_eqb mode (L "is not") then negb (str_eqb part_title title)
  else if str_eqb mode (L "does not start") then negb (startswith part_title title)
  else if str_eqb mode (L "does not end") then negb (endswith part_title title)
  else if str_eqb mode (L "does not contain") then negb (contains part_title title)
  else false.
(* _catalogue.py:733-735, 738-740 *)
Definition norm_title (case : bool) (s : str) : str := let s := strip is_space s in if case then s else upper s.
(* _catalogue.py:729-765 *)
Definition filtered_by_title (m : mdl) (l : list str) (title mode : str) (case : bool) : res (list str) :=
  do _ <- assert_ (str_mem mode title_modes);
  Ok (filter (fun p => title_test mode (norm_title case title) (norm_title case (citation_title_for_part m p))) l).

(* _catalogue.py:771-778: all items match the node's children *)
Definition items_match (d : dict str str) (items : dict str str) : bool :=
  forallb (fun kv => match dget str_eqb d (fst kv) with Some v => str_eqb v (snd kv) | None => false end) items.
(* _catalogue.py:768-780 *)
Definition filtered_by_metadata (m : mdl) (l : list str) (meta : dict str str) : list str :=
  filter (fun p => match tree_for_part m p with
                   | Some t => items_match (t_meta t) meta
                   | None => items_match [] meta end) l.
(* _catalogue.py:783-796 *)
Definition filtered_by_extra (m : mdl) (l : list str) (extra : dict str str) : list str :=
  filter (fun p => match tree_for_part m p with
                   | Some t => match t_extra t with [] => false | _ => items_match (t_extra t) extra end
                   | None => false end) l.

(** [sort_list.sort()] on (key, index) pairs then picking parts_list[index]. *)
Definition sorted_by_key (key : str -> str) (l : list str) : list str :=
  map (fun ki => nth (snd ki) l []) (isort (lex_le str_le) (combine (map key l) (seq 0 (List.length l)))).
(* _catalogue.py:672-687.  Parts that are not in the forest have no timestamp: a mixture
   of None and str keys raises, all None leaves the index order. *)
Definition created_of (m : mdl) (p : str) : str := match tree_for_part m p with Some t => t_created t | None => [] end.
Definition known (m : mdl) (p : str) : bool := match tree_for_part m p with Some _ => true | None => false end.
Definition sort_parts_list_by_timestamp (m : mdl) (l : list str) : res (list str) :=
  match l with
  | [] => Ok []
  | _ => if forallb (known m) l then Ok (rev (sorted_by_key (created_of m) l))
         else if existsb (known m) l then Err TypeError else Ok (rev l)
  end.
(* _catalogue.py:811: the uuid keys of a list of parts *)
Fixpoint all_known (m : mdl) (l : list str) : res unit :=
  match l with [] => Ok tt | p :: l' => do _ <- uuid_for_part m p; all_known m l' end.
Definition uuid_key (m : mdl) (p : str) : str := match uuid_for_part m p with Ok u => uuid_str u | Err _ => [] end.
(* _catalogue.py:799-818; an unknown sort_by leaves sorted_list unbound *)
Definition sorted_parts_list (m : mdl) (l : list str) (sort_by : str) : res (list str) :=
  if str_eqb sort_by (L "type") then Ok (isort str_le l)
  else if str_eqb sort_by (L "newest") then sort_parts_list_by_timestamp m l
  else if str_eqb sort_by (L "oldest") then do s <- sort_parts_list_by_timestamp m l; Ok (rev s)
  else if str_eqb sort_by (L "uuid") then do _ <- all_known m l; Ok (sorted_by_key (uuid_key m) l)
  else if str_eqb sort_by (L "title") then Ok (sorted_by_key (citation_title_for_part m) l)
  else Err NameError.

(* _catalogue.py:50-57, after the obj_type filter *)
Definition parts_tail (m : mdl) (q : query) (l : list str) : res (option (list str)) :=
  do l <- match q_title q with
          | None | Some [] => Ok l
          | Some t => filtered_by_title m l t (q_title_mode q) (q_case q)
          end;
  let l := match q_meta q with [] => l | meta => filtered_by_metadata m l meta end in
  let l := match q_extra q with [] => l | extra => filtered_by_extra m l extra end in
  do l <- match q_related q with None => Ok (Some l) | Some u => filtered_by_related m l u (q_rmode q) end;
  match q_sort q with
  | None | Some [] => Ok l
  | Some s => match l with
              | None => Err TypeError
              | Some [] => Ok (Some [])
              | Some l => do s <- sorted_parts_list m l s; Ok (Some s)
              end
  end.
(* _catalogue.py:38-49 *)
Definition parts_typed (m : mdl) (q : query) (l : list str) : res (option (list str)) :=
  do l <- match q_subdir q with None | Some [] => Ok l | Some s => filtered_by_epc_subdir l s end;
  match q_type q with
  | None | Some [] => parts_tail m q l
  | Some ty => do l' <- filtered_by_type m l (full_type ty);
               match l' with [] => Ok (Some []) | _ => parts_tail m q l' end
  end.
(* _catalogue.py:13-57; None (Python) when relations are not present *)
Definition parts_q (m : mdl) (q : query) : res (option (list str)) :=
  let l := match q_list q with None | Some [] => list_of_parts m | Some l => l end in
  match q_uuid q with
  | None => parts_typed m q l
  | Some u => match dget Z.eqb (u2p m) u with
              | None => Ok (Some [])
              | Some p => if str_mem p l then parts_typed m q [p] else Ok (Some [])
              end
  end.

(* _catalogue.py:60-98; sort_by is not an argument of part() *)
Definition part_q (m : mdl) (q : query) (multiple : str) : res (option str) :=
  do pl <- parts_q m q;
  match pl with
  | None => Err TypeError
  | Some [] => Ok None
  | Some (p :: rest) =>
      if (match rest with [] => true | _ => false end) || str_eqb multiple (L "first") then Ok (Some p)
      else if str_eqb multiple (L "none") then Ok None
      else if str_eqb multiple (L "newest") then
        do s <- sort_parts_list_by_timestamp m (p :: rest); Ok (hd_error s)
      else if str_eqb multiple (L "oldest") then
        do s <- sort_parts_list_by_timestamp m (p :: rest); Ok (hd_error (rev s))
      else Err ValueError
  end.

(* _catalogue.py:102-140 *)
Fixpoint map_res {A B} (f : A -> res B) (l : list A) : res (list B) :=
  match l with [] => Ok [] | x :: l' => do y <- f x; do ys <- map_res f l'; Ok (y :: ys) end.
Definition uuids_q (m : mdl) (q : query) : res (list Z) :=
  let by_uuid := match q_sort q with Some s => str_eqb s (L "uuid") | None => false end in
  let q' := if by_uuid then Query (q_list q) (q_type q) (q_uuid q) (q_title q) (q_title_mode q) (q_case q)
                                  (q_meta q) (q_extra q) (q_related q) (q_rmode q) (q_subdir q) None else q in
  do pl <- parts_q m q';
  match pl with
  | None => Err TypeError
  | Some pl => do us <- map_res (uuid_for_part m) pl; Ok (if by_uuid then isort Z.leb us else us)
  end.

(* _catalogue.py:310-327 *)
Definition parts_list_of_type (m : mdl) (ty : option str) (u : option Z) : res (list str) :=
  let ty := match ty with Some t => Some (full_type t) | None => None end in
  match u with
  | Some u => match dget Z.eqb (u2p m) u with
              | None => Ok []
              | Some p => match ty with
                          | None => Ok [p]
                          | Some t => match dget str_eqb (parts m) p with
                                      | None => Err KeyError
                                      | Some (ct, _, _) => Ok (if str_eqb ct t then [p] else [])
                                      end
                          end
              end
  | None => Ok (filter (fun p => match ty with
                                 | None => true
                                 | Some t => match dget str_eqb (parts m) p with Some (ct, _, _) => str_eqb ct t | None => false end
                                 end) (dkeys (parts m)))
  end.

(* _catalogue.py:362-390 *)
Definition strip_obj (ty : str) : str := if startswith ty (L "obj_") then from ty 4 else ty.
Fixpoint count_scan (l : list str) (cur : str) (count : Z) : list (str * Z) :=
  match l with
  | [] => []
  | x :: l' =>
      if str_eqb x cur then count_scan l' cur (count + 1)
      else (if count =? 0 then [] else [(cur, count)]) ++ count_scan l' x 1
  end.
Definition parts_count_by_type (m : mdl) (ty : option str) : list (str * Z) :=
  let ty := match ty with Some t => Some (strip_obj t) | None => None end in
  let types := filter (fun t => match ty with None => true | Some t' => str_eqb t t' end)
                      (map (fun v => strip_obj (fst (fst v))) (dvals (parts m))) in
  count_scan (isort str_le types ++ [L "END"]) [] 0.
