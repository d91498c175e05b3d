(** ForestModel.v: the part catalogue and the relationship dictionary of a Model,
    resqpy/model/_forestry.py, _catalogue.py and _xml.py.

    Simplifications: an xml tree is reduced to the fields the catalogue code reads
    (class, uuid, references, citation title and creation date, simple metadata,
    extra metadata); every part has a uuid; docProps parts (other_forest) are left
    out; Python sets are duplicate free lists (their iteration order is not
    specified in Python, here it is insertion order). *)
From Verif Require Import Base TextModel StrModel UuidModel PyDict.

(** An xml tree: [t_refs] lists (content type mentions EpcExternalPart, uuid) for the
    DataObjectReference nodes found by list_obj_references (xml_et.py:256-269) other
    than the supporting representation, [t_support] the supporting representation. *)
Record tree := Tree {
  t_type : str; t_uuid : Z; t_refs : list (bool * Z); t_support : option Z;
  t_title : str; t_created : str; t_meta : dict str str; t_extra : dict str str }.
Definition obj_refs (t : tree) : list (bool * Z) :=
  t_refs t ++ match t_support t with Some s => [(false, s)] | None => [] end.

(** uuid_rels_dict values: (referenced, referencing, soft), _model.py:163 *)
Inductive kind := Ref | Refd | Soft.
Record rel := Rel { r_ref : list Z; r_refd : list Z; r_soft : list Z }.
Definition rget (k : kind) (r : rel) : list Z := match k with Ref => r_ref r | Refd => r_refd r | Soft => r_soft r end.
Definition rset (k : kind) (r : rel) (s : list Z) : rel :=
  match k with
  | Ref => Rel s (r_refd r) (r_soft r)
  | Refd => Rel (r_ref r) s (r_soft r)
  | Soft => Rel (r_ref r) (r_refd r) s
  end.
Definition empty_rel : rel := Rel [] [] [].
Definition reldict := dict Z rel.

(* _model.py:155-176: the catalogue attributes of a Model *)
Record mdl := Mdl {
  parts : dict str (str * Z * tree);  (* parts_forest *)
  objs : dict str unit;               (* object_parts *)
  u2p : dict Z str;                   (* uuid_part_dict *)
  urels : reldict;                    (* uuid_rels_dict *)
  relsf : dict str (Z * list str);    (* rels_forest: uuid, Target of each Relationship *)
  main : list str;                    (* PartName of each Override of [Content_Types] *)
  rels_present : bool }.
Definition set_parts m x := Mdl x (objs m) (u2p m) (urels m) (relsf m) (main m) (rels_present m).
Definition set_objs m x := Mdl (parts m) x (u2p m) (urels m) (relsf m) (main m) (rels_present m).
Definition set_u2p m x := Mdl (parts m) (objs m) x (urels m) (relsf m) (main m) (rels_present m).
Definition set_urels m x := Mdl (parts m) (objs m) (u2p m) x (relsf m) (main m) (rels_present m).
Definition set_relsf m x := Mdl (parts m) (objs m) (u2p m) (urels m) x (main m) (rels_present m).
Definition set_main m x := Mdl (parts m) (objs m) (u2p m) (urels m) (relsf m) x (rels_present m).

(** A fresh model: Model(new_epc = True) before any part is added. *)
Definition new_model (rp : bool) : mdl := Mdl [] [] [] [] [] [] rp.

(* _catalogue.py:330-334 *)
Definition is_obj_part (p : str) : bool :=
  let f := match rfind_chr "/" p with Some k => from p (k + 1) | None => p end in
  str_eqb (upto f 4) (L "obj_") && negb (str_eqb (upto f 7) (L "obj_Epc")).
(* _forestry.py:22-24 *)
Definition add_to_object_parts (m : mdl) (p : str) : mdl :=
  if is_obj_part p then set_objs m (dset str_eqb (objs m) p tt) else m.

(** * The relationship dictionary *)
(* one half of _forestry.py:232-244: add v to set k of the entry for u, creating it *)
Definition radd (d : reldict) (k : kind) (u v : Z) : reldict :=
  match dget Z.eqb d u with
  | None => dset Z.eqb d u (rset k empty_rel [v])
  | Some r => dset Z.eqb d u (rset k r (sadd v (rget k r)))
  end.
(* _forestry.py:232-244 *)
Definition add_ref (d : reldict) (u v : Z) : reldict := radd (radd d Ref u v) Refd v u.
(* _forestry.py:223-244 for a part other than an external part *)
Definition add_refs (d : reldict) (u : Z) (refs : list (bool * Z)) : reldict :=
  fold_left (fun (d : reldict) (r : bool * Z) => if fst r then d else add_ref d u (snd r)) refs d.
Definition is_ext_name (p : str) : bool := contains p (L "EpcExternalPart").
Definition add_uuid_relations (m : mdl) (u : Z) (p : str) : mdl * res unit :=
  if is_ext_name p then (m, Ok tt)
  else match dget str_eqb (parts m) p with
       | None => (m, Err KeyError)
       | Some (_, _, t) => (set_urels m (add_refs (urels m) u (obj_refs t)), Ok tt)
       end.

(* _forestry.py:503-506: for v in l: dict[v][k].remove(u) *)
Fixpoint del_from (d : reldict) (k : kind) (u : Z) (l : list Z) : reldict * res unit :=
  match l with
  | [] => (d, Ok tt)
  | v :: l' =>
      match dget Z.eqb d v with
      | None => (d, Err KeyError)
      | Some r => if zmem u (rget k r)
                  then del_from (dset Z.eqb d v (rset k r (sdel u (rget k r)))) k u l'
                  else (d, Err KeyError)
      end
  end.
(* _forestry.py:507-510: the soft relations; removing u from the set being iterated
   over raises RuntimeError at the next step *)
Fixpoint del_soft (d : reldict) (u : Z) (l : list Z) : reldict * res unit :=
  match l with
  | [] => (d, Ok tt)
  | v :: l' =>
      match dget Z.eqb d v with
      | None => del_soft d u l'
      | Some r => if zmem u (r_soft r)
                  then let d' := dset Z.eqb d v (rset Soft r (sdel u (r_soft r))) in
                       if v =? u then (d', Err RuntimeError) else del_soft d' u l'
                  else (d, Err KeyError)
      end
  end.
Definition sets_of (d : reldict) (k : kind) (u : Z) : list Z :=
  match dget Z.eqb d u with Some r => rget k r | None => [] end.
(* _forestry.py:498-511 for a part with uuid u; the sets are read as the code reaches
   them, the tuple holding them being updated in place *)
Definition del_uuid_relations (d : reldict) (u : Z) : reldict * res unit :=
  match dget Z.eqb d u with
  | None => (d, Err KeyError)
  | Some _ =>
      match del_from d Refd u (sets_of d Ref u) with
      | (d1, Err e) => (d1, Err e)
      | (d1, Ok _) =>
          match del_from d1 Ref u (sets_of d1 Refd u) with
          | (d2, Err e) => (d2, Err e)
          | (d2, Ok _) =>
              match del_soft d2 u (sets_of d2 Soft u) with
              | (d3, Err e) => (d3, Err e)
              | (d3, Ok _) => (ddel Z.eqb d3 u, Ok tt)
              end
          end
      end
  end.

(** * Parts *)
(* _forestry.py:781-787 with the uuid known *)
Definition set_uuid_to_part (m : mdl) (p : str) (u : Z) : mdl := set_u2p m (dset Z.eqb (u2p m) u p).

(* _forestry.py:408-458 for content types other than docProps *)
Definition add_part (m : mdl) (content_type : str) (u : Z) (t : tree) (add_rels : bool)
    (sub : option str) (add_rd : bool) : mdl * res unit :=
  match content_type with
  | [] => (m, Err IndexError)
  | c :: _ =>
      let ct := if is_upper_chr c then L "obj_" ++ content_type else content_type in
      match part_name_for_object ct u false sub with
      | Err e => (m, Err e)
      | Ok p =>
          let m := set_parts m (dset str_eqb (parts m) p (ct, u, t)) in
          let m := add_to_object_parts m p in
          let m := set_uuid_to_part m p u in
          let m := set_main m (main m ++ [p]) in
          let m := if add_rels && rels_present m then
                     match rels_part_name_for_part p with
                     | Some rp => set_relsf m (dset str_eqb (relsf m) rp (u, []))
                     | None => m (* not met: p ends in <uuid>.xml *)
                     end
                   else m in
          if add_rd then add_uuid_relations m u p else (m, Ok tt)
      end
  end.

(* _forestry.py:461-468 *)
Definition patch_root_for_part (m : mdl) (p : str) (t : tree) : mdl * res unit :=
  match dget str_eqb (parts m) p with
  | None => (m, Err KeyError)
  | Some (ct, u, _) =>
      if u =? t_uuid t then (add_to_object_parts (set_parts m (dset str_eqb (parts m) p (ct, u, t))) p, Ok tt)
      else (m, Err AssertionError)
  end.

(* _forestry.py:105-116 *)
Fixpoint remove_first (p : str) (l : list str) : list str :=
  match l with [] => [] | x :: l' => if str_eqb x p then l' else x :: remove_first p l' end.
(* _forestry.py:483-487: removing a child while iterating over the children makes the
   iteration step over the next child *)
Fixpoint remove_iter (p : str) (l : list str) : list str :=
  match l with
  | [] => []
  | x :: l' => if str_eqb x p
               then match l' with [] => [] | y :: l'' => y :: remove_iter p l'' end
               else x :: remove_iter p l'
  end.

Definition rel_all (d : reldict) (u : Z) : list Z := sets_of d Ref u ++ sets_of d Refd u ++ sets_of d Soft u.
(* _catalogue.py:459-468 for a main part *)
Definition uuid_for_part (m : mdl) (p : str) : res Z :=
  match dget str_eqb (parts m) p with Some (_, u, _) => Ok u | None => Err KeyError end.
(* _catalogue.py:407-411 *)
Fixpoint filter_related (m : mdl) (rels : list Z) (l : list str) : res (list str) :=
  match l with
  | [] => Ok []
  | p :: l' => do u <- uuid_for_part m p; do rest <- filter_related m rels l';
               Ok (if zmem u rels then p :: rest else rest)
  end.
(* _catalogue.py:393-413; None when relationships are not present *)
Definition filtered_by_related (m : mdl) (l : list str) (u : Z) (mode : option kind) : res (option (list str)) :=
  if negb (rels_present m) then Ok None
  else match dget Z.eqb (urels m) u with
       | None => Ok (Some [])
       | Some r =>
           let rels := match mode with None => r_ref r ++ r_refd r ++ r_soft r | Some k => rget k r end in
           do f <- filter_related m rels l; Ok (Some f)
       end.

(* _forestry.py:480-487 *)
Fixpoint prune_relatives (m : mdl) (p : str) (l : list str) : mdl * res unit :=
  match l with
  | [] => (m, Ok tt)
  | q :: l' =>
      match rels_part_name_for_part q with
      | None => (m, Err KeyError)
      | Some rp =>
          match dget str_eqb (relsf m) rp with
          | None => (m, Err KeyError)
          | Some (u, targets) =>
              prune_relatives (set_relsf m (dset str_eqb (relsf m) rp (u, remove_iter p targets))) p l'
          end
      end
  end.

(* _forestry.py:790-797: failures are swallowed *)
Definition del_uuid_to_part (m : mdl) (p : str) : mdl :=
  match uuid_in_part_name p with
  | Ok (Some u) => set_u2p m (ddel Z.eqb (u2p m) u)
  | _ => m
  end.

(* _forestry.py:490-495 *)
Definition remove_part_entries (m : mdl) (p : str) : mdl * res unit :=
  let m := del_uuid_to_part m p in
  match uuid_for_part m p with
  | Err e => (m, Err e)
  | Ok u =>
      match del_uuid_relations (urels m) u with
      | (d, Err e) => (set_urels m d, Err e)
      | (d, Ok _) =>
          let m := set_urels m d in
          let m := set_parts m (ddel str_eqb (parts m) p) in
          match dget str_eqb (objs m) p with
          | None => (m, Err KeyError)
          | Some _ =>
              let m := set_objs m (ddel str_eqb (objs m) p) in
              (set_main m (remove_first p (main m)), Ok tt)
          end
      end
  end.
(* _forestry.py:471-495 for a part other than docProps *)
Definition remove_part (m : mdl) (p : str) (remove_rels : bool) : mdl * res unit :=
  if remove_rels then
    match uuid_in_part_name p with
    | Err e => (m, Err e)
    | Ok None => (m, Err TypeError)  (* related_parts is None *)
    | Ok (Some u) =>
        match filtered_by_related m (dkeys (objs m)) u None with
        | Err e => (m, Err e)
        | Ok None => (m, Err TypeError)
        | Ok (Some relatives) =>
            match prune_relatives m p relatives with
            | (m, Err e) => (m, Err e)
            | (m, Ok _) =>
                match rels_part_name_for_part p with
                | None => (m, Err KeyError)
                | Some rp =>
                    match dget str_eqb (relsf m) rp with
                    | None => (m, Err KeyError)
                    | Some _ => remove_part_entries (set_relsf m (ddel str_eqb (relsf m) rp)) p
                    end
                end
            end
        end
    end
  else remove_part_entries m p.

(* _forestry.py:387-405 without changes to hdf5 references *)
Definition copy_part (m : mdl) (u nu : Z) : mdl * res unit :=
  match dget Z.eqb (u2p m) u with
  | None => (m, Ok tt)
  | Some p =>
      match dget str_eqb (parts m) p with
      | None => (m, Err KeyError)
      | Some (ct, ou, t) =>
          if ou =? u then
            add_part m ct nu (Tree (t_type t) nu (t_refs t) (t_support t) (t_title t) (t_created t) (t_meta t) (t_extra t))
              false None true
          else (m, Err AssertionError)
      end
  end.

(* _forestry.py:514-522 *)
Definition duplicate_node (m : mdl) (t : tree) (add_rd : bool) : mdl * res unit :=
  match dget Z.eqb (u2p m) (t_uuid t) with
  | Some _ => (m, Ok tt)
  | None => add_part m (t_type t) (t_uuid t) t true None add_rd
  end.

(** * Relationships *)
(* _xml.py:632-634 / 636-638 *)
Definition soft_half (d : reldict) (u v : Z) : reldict :=
  match dget Z.eqb d u with
  | Some r => if zmem v (r_ref r) || zmem v (r_refd r) then d else dset Z.eqb d u (rset Soft r (sadd v (r_soft r)))
  | None => d
  end.
(* _xml.py:594-608 *)
Definition add_target (avoid : bool) (targets : list str) (p : str) : list str :=
  if avoid && existsb (fun x => str_eqb x p) targets then targets else targets ++ [p].
(* _xml.py:565-638 for two non-null nodes *)
Definition relate (m : mdl) (a b : tree) (avoid : bool) : mdl * res unit :=
  if negb (rels_present m) then (m, Err AssertionError) else
  match part_name_for_object (t_type a) (t_uuid a) false None, part_name_for_object (t_type b) (t_uuid b) false None with
  | Ok pa, Ok pb =>
      match rels_part_name_for_part pa, rels_part_name_for_part pb with
      | Some ra, Some rb =>
          match dget str_eqb (relsf m) ra, dget str_eqb (relsf m) rb with
          | Some (ua, ta), Some (ub, _) =>
              let f := dset str_eqb (relsf m) ra (ua, add_target avoid ta pb) in
              match dget str_eqb f rb with
              | None => (m, Err KeyError) (* not met *)
              | Some (_, tb) =>
                  let f := dset str_eqb f rb (ub, add_target avoid tb pa) in
                  let m := set_relsf m f in
                  if is_ext_name ra || is_ext_name rb then (m, Ok tt)
                  else (set_urels m (soft_half (soft_half (urels m) ua ub) ub ua), Ok tt)
              end
          | _, _ => (m, Err KeyError)
          end
      | _, _ => (m, Err KeyError)
      end
  | _, _ => (m, Err TypeError)
  end.

(* _xml.py:30-66 with node the root of the catalogued part p *)
Definition change_support (m : mdl) (p : str) (old new : Z) : mdl * res bool :=
  match dget str_eqb (parts m) p with
  | None => (m, Err KeyError)
  | Some (ct, pu, t) =>
      match t_support t with
      | None => (m, Ok false)
      | Some s =>
          if negb (s =? old) then (m, Ok false) else
          let u := t_uuid t in
          match dget Z.eqb (urels m) u with
          | None => (m, Err KeyError)
          | Some r =>
              let d := dset Z.eqb (urels m) u (rset Ref r (sadd new (sdel old (r_ref r)))) in
              match dget Z.eqb d old with
              | None => (set_urels m d, Err KeyError)
              | Some ro =>
                  let d := dset Z.eqb d old (rset Refd ro (sdel u (r_refd ro))) in
                  match dget Z.eqb d new with
                  | None => (set_urels m d, Err KeyError)
                  | Some rn =>
                      let d := dset Z.eqb d new (rset Refd rn (sadd u (r_refd rn))) in
                      let t' := Tree (t_type t) (t_uuid t) (t_refs t) (Some new) (t_title t) (t_created t) (t_meta t) (t_extra t) in
                      (set_parts (set_urels m d) (dset str_eqb (parts m) p (ct, pu, t')), Ok true)
                  end
              end
          end
      end
  end.

(** * Histories *)
Inductive fop :=
  | AddPart (ct : str) (u : Z) (t : tree) (add_rels : bool) (sub : option str) (add_rd : bool)
  | PatchRoot (p : str) (t : tree)
  | RemovePart (p : str) (remove_rels : bool)
  | CopyPart (u nu : Z)
  | DuplicateNode (t : tree) (add_rd : bool)
  | Relate (a b : tree) (avoid : bool)
  | ChangeSupport (p : str) (old new : Z).
Definition fstep (m : mdl) (o : fop) : mdl * res unit :=
  match o with
  | AddPart ct u t ar sub ad => add_part m ct u t ar sub ad
  | PatchRoot p t => patch_root_for_part m p t
  | RemovePart p rr => remove_part m p rr
  | CopyPart u nu => copy_part m u nu
  | DuplicateNode t ad => duplicate_node m t ad
  | Relate a b av => relate m a b av
  | ChangeSupport p o n => let (m', r) := change_support m p o n in
                           (m', match r with Ok _ => Ok tt | Err e => Err e end)
  end.
