(** SingleCellModel.v: a grid of one cell enclosing some points.  Models
    resqpy/derived_model/_add_single_cell_grid.py. *)
From Verif Require Import Base QBase GridFnModel TriModel.
Open Scope Z_scope.

(** A point, with None for nan. *)
Definition npoint := (option Q * option Q * option Q)%type.
Definition coord (x : Z) (p : npoint) : option Q := let '(a, b, c) := p in if x =? 0 then a else if x =? 1 then b else c.
(* _add_single_cell_grid.py:21-22: np.nanmin and np.nanmax along axis 0, for one column.  They raise ValueError if there are no points. *)
Definition lowest (ps : list npoint) (x : Z) : option Q := nanmin (map (coord x) ps).
Definition highest (ps : list npoint) (x : Z) : option Q := nanmax (map (coord x) ps).
(* _add_single_cell_grid.py:26-30: the rows of the literal, reshaped; xyz[n / 3][n mod 3] *)
Definition box_rows (lo hi : Z -> Q) : list (list Q) :=
  [[lo 0; lo 1; lo 2]; [hi 0; lo 1; lo 2];
   [lo 0; hi 1; lo 2]; [hi 0; hi 1; lo 2];
   [lo 0; lo 1; hi 2]; [hi 0; lo 1; hi 2];
   [lo 0; hi 1; hi 2]; [hi 0; hi 1; hi 2]].
Definition box_cell (lo hi : Z -> Q) : cell Q := fun n => nth (Z.to_nat (n mod 3)) (nth (Z.to_nat (n / 3)) (box_rows lo hi) []) 0%Q.
(* load_data.py:114-130: what is read from a file of the corner points of one cell *)
Definition read_corp (file : cell Q) : cell Q := resequence_nexus_corp 0%Q 1 1 1 false false (fun _ _ _ => file) 0 0 0.
Definition known (v : option Q) : bool := match v with Some _ => true | None => false end.
Definition get (v : option Q) : Q := match v with Some q => q | None => 0%Q end.
(* _add_single_cell_grid.py:18-57, _import_nexus.py:193-230: the corner points of the cell of the imported grid.
   The points are of eight byte floats, no pure binary file for the temporary file is there already, and units and
   the direction of z are the same on both sides, so that nothing is converted. *)
Definition single_cell (ps : list npoint) : res (cell Q) :=
  do _ <- match ps with [] => Err ValueError | _ => Ok tt end;
  do _ <- assert_ (forallb (fun x => known (lowest ps x)) [0; 1; 2] && forallb (fun x => known (highest ps x)) [0; 1; 2]);
  let cp := box_cell (fun x => get (lowest ps x)) (fun x => get (highest ps x)) in
  let file := resequence_nexus_corp 0%Q 1 1 1 false false (fun _ _ _ => cp) 0 0 0 in
  Ok (read_corp file).
