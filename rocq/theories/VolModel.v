(** VolModel.v: volumes of hexahedral cells, pyramids and tetrahedra
    (resqpy/olio/volume.py).  Coordinates are exact rationals instead of floats. *)
From Verif Require Import QBase.

Definition vec := (Q * Q * Q)%type.
Definition vx (v : vec) : Q := fst (fst v).
Definition vy (v : vec) : Q := snd (fst v).
Definition vz (v : vec) : Q := snd v.
Definition vsub (a b : vec) : vec := (vx a - vx b, vy a - vy b, vz a - vz b).
Definition vadd (a b : vec) : vec := (vx a + vx b, vy a + vy b, vz a + vz b).
Definition vscale (k : Q) (a : vec) : vec := (k * vx a, k * vy a, k * vz a).
Definition dot (a b : vec) : Q := vx a * vx b + vy a * vy b + vz a * vz b.
Definition cross (a b : vec) : vec :=
  (vy a * vz b - vz a * vy b, vz a * vx b - vx a * vz b, vx a * vy b - vy a * vx b).

(* volume.py:6-7 *)
Definition pyr (ra ab ac ad db : vec) : Q := dot ra (cross db ac) + (1 # 2) * dot ac (cross ad ab).
(* volume.py:10-31 *)
Definition pyramid_volume (apex a b c d : vec) (crs_is_right_handed : bool) : Q :=
  let v := pyr (vsub a apex) (vsub b a) (vsub c a) (vsub d a) (vsub b d) / 6 in
  if crs_is_right_handed then v else - v.
(* volume.py:34-50 *)
Definition tetrahedron_volume (a b c d : vec) : Q := Qabs (dot (vsub a d) (cross (vsub b d) (vsub c d))) / 6.

(** Corner points of one cell: cp kp jp ip, false for 0 and true for 1. *)
Definition corners := bool -> bool -> bool -> vec.
(* np.mean(cp.reshape((8, 3)), axis = 0) *)
Definition mean_corner (cp : corners) : vec :=
  vscale (1 # 8) (vadd (vadd (vadd (cp false false false) (cp false false true)) (vadd (cp false true false) (cp false true true)))
                       (vadd (vadd (cp true false false) (cp true false true)) (vadd (cp true true false) (cp true true true)))).
(* volume.py:53-78 *)
Definition tetra_cell_volume (cp : corners) (centre : option vec) (off_hand : bool) : Q :=
  let centre := match centre with Some c => c | None => mean_corner cp end in
  let c000 := cp false false false in let c001 := cp false false true in
  let c010 := cp false true false in let c011 := cp false true true in
  let c100 := cp true false false in let c101 := cp true false true in
  let c110 := cp true true false in let c111 := cp true true true in
  let r0 := vsub c000 centre in
  let r1 := vsub c111 centre in
  let v := 0 in
  let v := v + pyr r0 (vsub c001 c000) (vsub c011 c000) (vsub c010 c000) (vsub c010 c001) in
  let v := v + pyr r0 (vsub c100 c000) (vsub c101 c000) (vsub c001 c000) (vsub c001 c100) in
  let v := v + pyr r0 (vsub c010 c000) (vsub c110 c000) (vsub c100 c000) (vsub c100 c010) in
  let v := v + pyr r1 (vsub c101 c111) (vsub c100 c111) (vsub c110 c111) (vsub c110 c101) in
  let v := v + pyr r1 (vsub c110 c111) (vsub c010 c111) (vsub c011 c111) (vsub c011 c110) in
  let v := v + pyr r1 (vsub c011 c111) (vsub c001 c111) (vsub c101 c111) (vsub c101 c011) in
  (if off_hand then - v else v) / 6.

(* volume.py:81-98: the cells flattened to a list; centres given per cell or None *)
Definition tetra_volumes_slow (cells : list corners) (centres : option (list vec)) (off_hand : bool) : list Q :=
  let centres := match centres with Some c => c | None => map mean_corner cells end in
  map (fun cc => tetra_cell_volume (fst cc) (Some (snd cc)) off_hand) (combine cells centres).
(* volume.py:101-155: whole array operations; v is the list of volumes of all cells *)
Definition tetra_volumes (cells : list corners) (centres : option (list vec)) (off_hand : bool) : list Q :=
  let centres := match centres with Some c => c | None => map mean_corner cells end in
  let zip2 (f : Q -> Q -> Q) a b := map (fun p => f (fst p) (snd p)) (combine a b) in
  let at_ (kp jp ip : bool) : list vec := map (fun cp => cp kp jp ip) cells in
  let sub (a b : list vec) : list vec := map (fun p => vsub (fst p) (snd p)) (combine a b) in
  let pyrs (ra ab ac ad db : list vec) : list Q :=
    map (fun t => let '(r, (b, (c, (d, e)))) := t in pyr r b c d e) (combine ra (combine ab (combine ac (combine ad db)))) in
  let r0 := sub (at_ false false false) centres in
  let r1 := sub (at_ true true true) centres in
  let v := map (fun _ => 0) cells in
  let v := zip2 Qplus v (pyrs r0 (sub (at_ false false true) (at_ false false false)) (sub (at_ false true true) (at_ false false false))
                             (sub (at_ false true false) (at_ false false false)) (sub (at_ false true false) (at_ false false true))) in
  let v := zip2 Qplus v (pyrs r0 (sub (at_ true false false) (at_ false false false)) (sub (at_ true false true) (at_ false false false))
                             (sub (at_ false false true) (at_ false false false)) (sub (at_ false false true) (at_ true false false))) in
  let v := zip2 Qplus v (pyrs r0 (sub (at_ false true false) (at_ false false false)) (sub (at_ true true false) (at_ false false false))
                             (sub (at_ true false false) (at_ false false false)) (sub (at_ true false false) (at_ false true false))) in
  let v := zip2 Qplus v (pyrs r1 (sub (at_ true false true) (at_ true true true)) (sub (at_ true false false) (at_ true true true))
                             (sub (at_ true true false) (at_ true true true)) (sub (at_ true true false) (at_ true false true))) in
  let v := zip2 Qplus v (pyrs r1 (sub (at_ true true false) (at_ true true true)) (sub (at_ false true false) (at_ true true true))
                             (sub (at_ false true true) (at_ true true true)) (sub (at_ false true true) (at_ true true false))) in
  let v := zip2 Qplus v (pyrs r1 (sub (at_ false true true) (at_ true true true)) (sub (at_ false false true) (at_ true true true))
                             (sub (at_ true false true) (at_ true true true)) (sub (at_ true false true) (at_ false true true))) in
  let v := map (fun x => x / 6) v in
  if off_hand then map Qopp v else v.
