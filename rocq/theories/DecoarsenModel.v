(** DecoarsenModel.v: imported properties spread from coarsened cells to the cells they were
    made of, property/grid_property_collection.py. *)
From Verif Require Import Base QBase BisectModel TriModel StrModel BoxModel FineCoarseModel PropSelModel CoarsenModel.
From Verif Require Import GcsModel.
Open Scope Z_scope.

(** [e = start + 1; while e < extent and p[.., e, ..]: e += 1]; e, along one axis *)
Fixpoint run_on (fuel : nat) (n : cell) (p : cell -> bool) (c : cell) (d : axis) (e : Z) : Z :=
  match fuel with
  | O => e
  | S f => if (e <? get n d) && p (set c d e) then run_on f n p c d (e + 1) else e
  end.
Definition run_end (n : cell) (p : cell -> bool) (c : cell) (d : axis) : Z := run_on (Z.to_nat (get n d)) n p c d (get c d + 1).
(** the box from c to the ends of the three runs, each along one axis from c, and its extents *)
Definition run_box (n : cell) (p : cell -> bool) (c : cell) : box :=
  Box c (T (run_end n p c K - 1) (run_end n p c J - 1) (run_end n p c I - 1)).
(** [a[k0:ke, j0:je, i0:ie] = v] *)
Definition fill {A} (a : cell -> A) (b : box) (v : A) : cell -> A := fun c => if cell_in_box c b then v else a c.

(** [kid[c] == q] *)
Definition kid_is (kid : cell -> value) (q : Q) (c : cell) : bool := match kid c with Some x => Qeq_bool x q | None => false end.
(* grid_property_collection.py:487-516: host indices (-1: none) and shares, for each cell in
   natural order *)
Definition kid_step (n : cell) (kid : cell -> value) (st : (cell -> Z) * (cell -> trip Z)) (c : cell) : (cell -> Z) * (cell -> trip Z) :=
  let mask := kid_is kid (-3)%Q in
  if kid_is kid 0%Q c then
    let b := run_box n mask c in
    (fill (fst st) b (natural n c), fill (snd st) b (extent_of_box b))
  else if negb (mask c) then (fill (fst st) (Box c c) (natural n c), fill (snd st) (Box c c) (T 1 1 1))
  else st.
Definition from_kid (n : cell) (kid : cell -> value) : (cell -> Z) * (cell -> trip Z) :=
  fold_left (kid_step n kid) (indices n) (fun _ => -1, fun _ => T 0 0 0).
(* 530-559: shares from the host indices *)
Definition share_step (n : cell) (host : cell -> Z) (share : cell -> trip Z) (c : cell) : cell -> trip Z :=
  if tk (share c) =? 0
  then let b := run_box n (fun x => host x =? natural n c) c in fill share b (extent_of_box b)
  else share.
Definition shares_of (n : cell) (host : cell -> Z) : cell -> trip Z := fold_left (share_step n host) (indices n) (fun _ => T 0 0 0).

(** An item of the imported list: [2] keyword, [4] discrete, [10] kind, [12] if [11] is
    'direction', [14] None or 'cells', and the array if there is one *)
Record item := Item { m_keyword : str; m_discrete : bool; m_kind : str; m_dir : option str; m_cells : bool; m_array : option (arr value) }.
Definition with_array (m : item) (a : arr value) : item := Item (m_keyword m) (m_discrete m) (m_kind m) (m_dir m) (m_cells m) (Some a).
Definition one_of (k : str) (l : list string) : bool := existsb (fun x => str_eqb k (L x)) l.
Definition length_kinds := ["length"; "cell length"; "thickness"; "permeability thickness"; "permeability length"]%string.
Definition area_kinds := ["transmissibility"]%string.
Definition volume_kinds := ["volume"; "rock volume"; "pore volume"; "fluid volume"]%string.
Definition skipped_keywords := ["UID"; "ICOARS"; "KID"; "DAD"]%string.

(** [coarsened[decoarsen_array]]: an index from the end if negative *)
Definition taken_from (n : cell) (host : cell -> Z) (a : arr value) : res (arr value) :=
  let count := size n in
  do _ <- mapM (fun c => if (- count <=? host c) && (host c <? count) then Ok tt else Err IndexError) (indices n);
  Ok (Arr n (fun c => el a (denatural (shape a) (if host c <? 0 then host c + count else host c)))).
Definition shared (a : arr value) (by_ : cell -> Z) : arr value :=
  Arr (shape a) (fun c => option_map (fun q => q / inject_Z (by_ c))%Q (el a c)).
(* 581-599: the variable redistributed; [last]: as the item before left it *)
Definition redistributed (n : cell) (host : cell -> Z) (share : cell -> trip Z) (last : option (arr value)) (m : item) (a : arr value)
  : res (option (arr value)) :=
  if one_of (m_kind m) volume_kinds
    then do t <- taken_from n host a; Ok (Some (shared t (fun c => tk (share c) * tj (share c) * ti (share c))))
    else if one_of (m_kind m) area_kinds then Ok last
    else if one_of (m_kind m) length_kinds then
      let is s := match m_dir m with Some d => str_eqb d (L s) | None => false end in
      if one_of (m_kind m) ["thickness"; "permeability thickness"]%string || is "K"%string
      then do t <- taken_from n host a; Ok (Some (shared t (fun c => tk (share c))))
      else if is "J"%string then do t <- taken_from n host a; Ok (Some (shared t (fun c => tj (share c))))
      else if is "I"%string then do t <- taken_from n host a; Ok (Some (shared t (fun c => ti (share c))))
      else Ok last
    else do t <- taken_from n host a; Ok (Some t).
(* 570-600: one item *)
Definition redistribute (n : cell) (host : cell -> Z) (share : cell -> trip Z) (last : option (arr value)) (m : item)
  : res (option (arr value) * item) :=
  match m_array m with
  | None => Ok (last, m)
  | Some a =>
      if negb (m_cells m) then Ok (last, m) else
      do _ <- assert_ (size (shape a) =? size n);
      if one_of (upper (m_keyword m)) skipped_keywords then Ok (last, m) else
      do r <- redistributed n host share last m a;
      match r with
      | None => Err NameError          (* redistributed not yet assigned *)
      | Some x => Ok (r, with_array m x)
      end
  end.
Fixpoint redistribute_all (n : cell) (host : cell -> Z) (share : cell -> trip Z) (last : option (arr value)) (l : list item) : res (list item) :=
  match l with
  | [] => Ok []
  | m :: l' => do (last, m) <- redistribute n host share last m; do r <- redistribute_all n host share last l'; Ok (m :: r)
  end.

(* 473-482: the first ICOARS, or else the last KID before it *)
Fixpoint find_mapping (l : list item) (kid : option (arr value)) : option (cell -> Z) * option (arr value) :=
  match l with
  | [] => (None, kid)
  | m :: l' =>
      match m_array m with
      | Some a => if m_cells m && m_discrete m then
                    if str_eqb (m_keyword m) (L "ICOARS")
                    then (Some (fun c => match el a c with Some q => Qfloor q - 1 | None => -1 end), kid)
                    else find_mapping l' (if str_eqb (m_keyword m) (L "KID") then Some a else kid)
                  else find_mapping l' kid
      | None => find_mapping l' kid
      end
  end.
(* 521-608, once the hosts are known; [share]: known already when from KID *)
Definition decoarsen_with (n : cell) (host : cell -> Z) (share : option (cell -> trip Z)) (reactivate : bool) (items : list item)
    (inactive : option (cell -> bool)) : res (option (arr Z) * list item * option (cell -> bool)) :=
  if forallb (fun c => host c =? natural n c) (indices n) then Ok (None, items, inactive)
  else
    let needed := existsb (fun m => one_of (m_kind m) volume_kinds || one_of (m_kind m) area_kinds || one_of (m_kind m) length_kinds) items in
    let share := match share with Some s => Some s | None => if needed then Some (shares_of n host) else None end in
    do _ <- match share with
            | Some s => assert_ (forallb (fun c => (0 <? tk (s c)) && (0 <? tj (s c)) && (0 <? ti (s c))) (indices n))
            | None => Ok tt
            end;
    do items <- redistribute_all n host (match share with Some s => s | None => fun _ => T 1 1 1 end) None items;
    do flags <- match inactive with
                | Some f => if reactivate
                            then do t <- taken_from n host (Arr n (fun c => Some (if f c then 1 else 0)%Q));
                                 Ok (Some (fun c => match el t c with Some q => Qeq_bool q 1 | None => false end))
                            else Ok inactive
                | None => Ok None
                end;
    Ok (Some (Arr n host), items, flags).
(* 431-608; [n]: extent of the grid, [given]: decoarsen_array; [inactive]: the grid's flags.
   Returns the mapping used, if any, the items and the flags.  ICOARS and given arrays are
   taken to have the shape of the grid (otherwise the assertion of line 524 fails or the
   result has another shape); nan in ICOARS does not occur, as it is discrete. *)
Definition decoarsen (n : cell) (given : option (arr Z)) (reactivate : bool) (items : list item) (inactive : option (cell -> bool))
  : res (option (arr Z) * list item * option (cell -> bool)) :=
  match given with
  | Some h => decoarsen_with n (el h) None reactivate items inactive
  | None =>
      match find_mapping items None with
      | (Some h, _) => decoarsen_with n h None reactivate items inactive
      | (None, None) => Ok (None, items, inactive)
      | (None, Some kid) =>
          do _ <- assert_ (same_shape (shape kid) n);
          if existsb (kid_is (el kid) (-3)%Q) (indices n)
          then let (h, s) := from_kid n (el kid) in
               do _ <- assert_ (forallb (fun c => 0 <=? h c) (indices n)); decoarsen_with n h (Some s) reactivate items inactive
          else Ok (None, items, inactive)
      end
  end.
