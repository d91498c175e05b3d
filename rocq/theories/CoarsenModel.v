(** CoarsenModel.v: properties copied from one grid to a coarser or finer one,
    property/grid_property_collection.py. *)
From Verif Require Import Base QBase BisectModel TriModel StrModel BoxModel FineCoarseModel PropSelModel.
Open Scope Z_scope.

(** None: not a number *)
Notation value := (option Q).
(** an array of shape (nk, nj, ni); [el a c] for a cell c within the shape *)
Record arr (A : Type) := Arr { shape : cell; el : cell -> A }.
Arguments Arr {A}. Arguments shape {A}. Arguments el {A}.
Definition same_shape (a b : cell) : bool := forall3 (fun d => get a d =? get b d).
Definition inside (n c : cell) : bool := forall3 (fun d => (0 <=? get c d) && (get c d <? get n d)).
Definition box_cells (b : box) : list cell :=
  flat_map (fun k => flat_map (fun j => map (fun i => T k j i) (zrange2 (ti (lo b)) (ti (hi b) + 1)))
                              (zrange2 (tj (lo b)) (tj (hi b) + 1))) (zrange2 (tk (lo b)) (tk (hi b) + 1)).
(** the elements of [a[k0:k1 + 1, j0:j1 + 1, i0:i1 + 1]]; no box here has a negative index *)
Definition part_of {A} (a : arr A) (b : box) : list A := map (el a) (filter (inside (shape a)) (box_cells b)).
Definition nansum (l : list value) : Q := fold_right (fun v s => match v with Some q => q + s | None => s end)%Q 0%Q l.
Definition vmul (x y : value) : value := match x, y with Some p, Some q => Some (p * q)%Q | _, _ => None end.
Definition amul (a b : arr value) : arr value := Arr (shape a) (fun c => vmul (el a c) (el b c)).

(** the triple loop over coarse cells: stops at the first exception; [d]: what np.empty holds *)
Definition for_coarse {A} (co : fc) (d : A) (f : box -> res A) : res (arr A) :=
  let ce := map3 coarse (ax co) in
  let one c := do b <- fine_box_for_coarse co c; f b in
  do _ <- mapM one (indices ce);
  Ok (Arr ce (fun c => match one c with Ok v => v | Err _ => d end)).
Definition check_shape {A} (co : fc) (a : arr A) : res unit := assert_ (same_shape (shape a) (map3 fine (ax co))).
(* grid_property_collection.py:787-799 *)
Definition coarsening_sample {A} (co : fc) (d : A) (a : arr A) : res (arr A) :=
  do _ <- check_shape co a;
  for_coarse co d (fun b => if inside (shape a) (lo b) then Ok (el a (lo b)) else Err IndexError).
(** axis + 1 and axis + 2, modulo 3 *)
Definition next_axis (d : axis) : axis := match d with K => J | J => I | I => K end.
(* grid_property_collection.py:802-824 *)
Definition coarsening_sum (co : fc) (a : arr value) (along : option axis) : res (arr value) :=
  do _ <- check_shape co a;
  for_coarse co None (fun b =>
    let s := nansum (part_of a b) in
    Ok (Some match along with
             | None => s
             | Some d => let n x := get (hi b) x + 1 - get (lo b) x in
                         (s / inject_Z (n (next_axis d) * n (next_axis (next_axis d))))%Q
             end)).
(* grid_property_collection.py:827-857 *)
Definition coarsening_weighted_mean (co : fc) (a fw : arr value) (cw : option (arr value)) (zero : value) : res (arr value) :=
  do _ <- check_shape co a;
  do _ <- assert_ (same_shape (shape fw) (shape a));
  do _ <- match cw with None => Ok tt | Some w => assert_ (same_shape (shape w) (map3 coarse (ax co))) end;
  do r <- for_coarse co None (fun b =>
    let s := nansum (map (fun e => vmul (fst e) (snd e)) (combine (part_of a b) (part_of fw b))) in
    match cw with
    | Some _ => Ok (Some s)
    | None => let w := nansum (part_of fw b) in
              Ok (if Qeq_bool w 0 then zero else Some (s / w)%Q)
    end);
  match cw with
  | None => Ok r
  | Some w => Ok (Arr (shape r) (fun c =>
      match el w c with
      | None => zero
      | Some q => if Qeq_bool q 0 then zero else match el r c with Some s => Some (s / q)%Q | None => None end
      end))
  end.

(** ** A whole collection *)
(** A part of the other collection: info[0], [4], [5], [6], [7] and the direction that
    info[8], [9] or the title stand for, if they stand for one ([p_dir]: info[8], [9] alone, as
    one letter); [p_array]: the whole array.  [p_id] stands for the rest, which is copied.
    Constant properties are left out. *)
Record part := Part { p_id : str; p_real : option Z; p_cont : bool; p_count : Z; p_indexable : str; p_kind : str;
                      p_axis : option axis; p_dir : option axis; p_array : arr value }.
(* grid_property_collection.py:775-784; also the plain slicing of line 961 *)
Definition array_box {A} (a : arr A) (b : option box) : arr A :=
  match b with
  | None => a
  | Some b => Arr (extent_of_box b) (fun c => el a (zip3 Z.add (lo b) c))
  end.
(** Arrays in memory: a value is held as its number and, where it is a numpy view of part of it, the box. *)
Definition view := (nat * option box)%type.
(** [imported]: the collection's imported list, each with the array now held *)
Record st := St { arrays : list (arr value); imported : list (part * nat) }.
Definition nothing : arr value := Arr (T 0 0 0) (fun _ => None).
Definition look (s : st) (v : view) : arr value := array_box (nth (fst v) (arrays s) nothing) (snd v).
Definition new (s : st) (a : arr value) : st * view :=
  (St (arrays s ++ [a]) (imported s), (List.length (arrays s), None)).
(** [v *= a] *)
Definition mul_in_place (s : st) (v : view) (a : arr value) : st :=
  let old := nth (fst v) (arrays s) nothing in
  let a' := match snd v with
            | None => amul old a
            | Some b => Arr (shape old) (fun c => if cell_in_box c b then vmul (el old c) (el a (zip3 Z.sub c (lo b))) else el old c)
            end in
  St (upd (arrays s) (fst v) a') (imported s).
(* grid_property_collection.py:860-877, _collection_get_attributes.py:20: the array is kept, not a copy *)
Definition add_to_imported (s : st) (p : part) (v : view) : st := St (arrays s) (imported s ++ [(p, fst v)]).
(** an array that may be None: its attribute shape is asked for *)
Definition look_opt (s : st) (v : option view) : res (arr value) :=
  match v with None => Err AttributeError | Some v => Ok (look s v) end.

Section Extend.
  (** what was asked for; the volumes of the two grids are arrays 0 and 1 of the memory, which
      the grids hold (grid/_cell_properties.py:131-) *)
  Context (co : fc) (bx : option box) (realization : option Z) (copy_all : bool).
  (** selective_version_of_collection with a realization and a kind (model: PropSelModel);
      the realizations of the collections themselves are taken to agree *)
  Definition wanted_real (r : option Z) : bool := match realization with None => true | Some z => match r with Some y => y =? z | None => false end end.
  Definition of_kind (k : str) (other : list part) : list part :=
    filter (fun p => wanted_real (p_real p) && same_property_kind (p_kind p) k) other.
  Definition real_eqb (a b : option Z) : bool := match a, b with Some x, Some y => x =? y | None, None => true | _, _ => false end.
  (** not skipped by the test at the top of each loop *)
  Definition taken (p : part) : bool := copy_all || real_eqb (p_real p) realization.
  (** a loop over the parts, with the fine and coarse arrays left from the previous one *)
  Definition arrays_so_far := (option view * option view)%type.
  Fixpoint each (body : st -> part -> res (st * (view * view))) (l : list part) (s : st) (last : arrays_so_far)
    : res (st * arrays_so_far) :=
    match l with
    | [] => Ok (s, last)
    | p :: l' => if taken p then do r <- body s p; each body l' (fst r) (Some (fst (snd r)), Some (snd (snd r)))
                 else each body l' s last
    end.
  (** the common body: the fine array is copied, coarsened, and the result kept *)
  Definition coarsen_one (f : st -> arr value -> res (arr value)) (s : st) (p : part) : res (st * (view * view)) :=
    let (s, fine) := new s (array_box (p_array p) bx) in
    do c <- f s (look s fine);
    let (s, c) := new s c in
    Ok (add_to_imported s p c, (fine, c)).
  Definition weighted (fw cw : option view) (zero : value) (s : st) (a : arr value) : res (arr value) :=
    do _ <- check_shape co a;
    do w <- look_opt s fw;
    coarsening_weighted_mean co a w (option_map (look s) cw) zero.
  (* 950-970 *)
  Definition coarsen_rock_volume (other : list part) (s : st) : res (st * arrays_so_far) :=
    match of_kind (L "rock volume") other with
    | [] => Ok (s, (Some (0%nat, bx), Some (1%nat, None)))
    | l => each (coarsen_one (fun _ a => coarsening_sum co a None)) l s (None, None)
    end.
  (* 973-990, 1004-1018, 1048-1062 *)
  Definition coarsen_kind (k : str) (other : list part) (w : arrays_so_far) (s : st) : res (st * arrays_so_far) :=
    each (coarsen_one (weighted (fst w) (snd w) (Some 0%Q))) (of_kind k other) s (None, None).
  (* 993-1001; None * array is a TypeError *)
  Definition net_volumes (ntg rv : arrays_so_far) (s : st) : res (st * arrays_so_far) :=
    match ntg with
    | (Some f, Some c) =>
        match rv with
        | (Some rf, Some rc) =>
            let (s, nf) := new s (amul (look s rf) (look s f)) in
            let (s, nc) := new s (amul (look s rc) (look s c)) in
            Ok (s, (Some nf, Some nc))
        | _ => Err TypeError
        end
    | _ => Ok (s, rv)
    end.
  (* 1028-1032: in place *)
  Definition pore_volumes (poro nrv : arrays_so_far) (s : st) : res st :=
    match poro with
    | (Some f, Some c) =>
        match nrv with
        | (Some nf, Some nc) => let s := mul_in_place s nf (look s f) in Ok (mul_in_place s nc (look s c))
        | _ => Err TypeError
        end
    | _ => Ok s
    end.
  (* 1065-1084 *)
  Definition coarsen_lengths (other : list part) (s : st) : res st :=
    do r <- each (fun s p =>
              do _ <- assert_ (p_count p =? 1);
              match p_axis p with
              | None => Err AssertionError
              | Some d => coarsen_one (fun _ a => coarsening_sum co a (Some d)) s p
              end) (of_kind (L "cell length") other) s (None, None);
    Ok (fst r).
  Definition handled : list str := [L "rock volume"; L "net to gross ratio"; L "porosity"; L "saturation";
                                    L "permeability rock"; L "rock permeability"; L "cell length"].
  (* 1087-1106 *)
  Definition coarsen_other (other : list part) (rv : arrays_so_far) (s : st) : res st :=
    do r <- each (fun s p =>
              coarsen_one (fun s a => if p_cont p then weighted (fst rv) (snd rv) None s a else coarsening_sample co None a) s p)
            (filter (fun p => negb (existsb (str_eqb (p_kind p)) handled)) other) s (None, None);
    Ok (fst r).
  (* 895-931; the other collection's parts in order *)
  Definition extend_with_coarsening (other : list part) (s : st) : res st :=
    do (s, rv) <- coarsen_rock_volume other s;
    do (s, ntg) <- coarsen_kind (L "net to gross ratio") other rv s;
    do (s, nrv) <- net_volumes ntg rv s;
    do (s, poro) <- coarsen_kind (L "porosity") other nrv s;
    do s <- pore_volumes poro nrv s;
    do (s, _) <- coarsen_kind (L "saturation") other nrv s;
    do (s, _) <- coarsen_kind (L "rock permeability") other nrv s;
    do s <- coarsen_lengths other s;
    coarsen_other other rv s.
End Extend.
(* 880-892 and 895-898; [fv], [cv]: the volumes that the two grids give *)
Definition extend_coarsening (co : fc) (bx : option box) (realization : option Z) (copy_all : bool)
    (other_extent own_extent : cell) (fv cv : arr value) (other : list part) : res st :=
  do _ <- match bx with
          | None => Ok tt
          | Some b => do _ <- assert_ (valid_box b other_extent);
                      assert_ (same_shape (extent_of_box b) (map3 fine (ax co)))
          end;
  do _ <- assert_ (same_shape own_extent (map3 coarse (ax co)));
  extend_with_coarsening co bx realization copy_all other (St [fv; cv] []).

(** ** Refinement *)
(** [a[v, :, :]] and the like: each index of the axis taken from the vector *)
Definition take_along {A} (a : arr A) (d : axis) (v : list (option Z)) : res (arr A) :=
  do is <- mapM (fun x => match x with
                          | Some i => if (0 <=? i) && (i <? get (shape a) d) then Ok i else Err IndexError
                          | None => Err IndexError
                          end) v;
  Ok (Arr (set (shape a) d (Z.of_nat (List.length is))) (fun c => el a (set c d (nth (Z.to_nat (get c d)) is 0)))).
(** coarse_for_fine_axial_vector (fine_coarse.py:136-141) for the axes in turn; the mapping is
    worked out at the first call and kept *)
Definition axial_vector (s : fc) (d : axis) : fc * res (list (option Z)) :=
  let (s', m) := coarse_for_fine s in
  (s', do m <- m; match get m d with None => Err TypeError | Some v => Ok v end).
(* grid_property_collection.py:1151-1180; the assignment to an array of the fine extent fails
   if the vector has another length *)
Definition scale_lengths (a : arr value) (d : axis) (re : fc) : res (arr value) :=
  do ps <- proportions_for_axis (get (ax re) d);
  do _ <- (if Z.of_nat (List.length ps) =? get (shape a) d then Ok tt else Err ValueError);
  Ok (Arr (shape a) (fun c => option_map (fun x => x * nth (Z.to_nat (get c d)) ps 0)%Q (el a c))).
Definition resample (own_extent : cell) (re : fc) (p : part) (a : arr value) : res (option (arr value)) :=
  if negb (str_eqb (p_indexable p) (L "cells")) then Ok None else
  do _ <- assert_ (same_shape (shape a) (map3 coarse (ax re)));
  do _ <- assert_ (same_shape own_extent (map3 fine (ax re)));
  let step (a : arr value) d : res (arr value) :=
    do v <- snd (axial_vector re d);
    do _ <- (if Z.of_nat (List.length v) =? get (map3 fine (ax re)) d then Ok tt else Err ValueError);
    take_along a d v in
  do a <- step a K; do a <- step a J; do a <- step a I;
  match p_dir p with
  | Some d => if p_cont p && str_eqb (p_kind p) (L "cell length") && (p_count p =? 1)
              then do r <- scale_lengths a d re; Ok (Some r) else Ok (Some a)
  | None => Ok (Some a)
  end.
(* grid_property_collection.py:1109-1148: the arrays added; None cannot be added *)
Definition extend_refining (re : fc) (bx : option box) (realization : option Z) (copy_all : bool) (own_extent : cell) (other : list part)
  : res (list (part * arr value)) :=
  mapM (fun p => do r <- resample own_extent re p (array_box (p_array p) bx);
                 match r with Some a => Ok (p, a) | None => Err AssertionError end)
       (filter (taken realization copy_all) (filter (fun p => wanted_real realization (p_real p)) other)).
