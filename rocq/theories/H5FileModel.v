(** H5FileModel.v: contents of hdf5 files as written, copied and renamed by
    resqpy/olio/write_hdf5.py. *)
From Verif Require Import Base StrModel UuidModel PyDict NArray PackModel.

(** * Files (models hdf5 / h5py)
    A file maps internal paths to datasets.  A path is its list of components: '/RESQML/u/t' and
    'RESQML//u/t/' are the same path.  A group exists when some dataset lies below it; empty
    groups, '.' components, attributes, chunking and compression are not modelled. *)
Inductive dt := Int64 | Int32 | UInt8 | Bool_ | Float64.
Definition dt_eqb (a b : dt) : bool :=
  match a, b with Int64, Int64 | Int32, Int32 | UInt8, UInt8 | Bool_, Bool_ | Float64, Float64 => true | _, _ => false end.
(** Elements are integers: booleans as 0 and 1, floats as opaque bit patterns that are never converted. *)
Record dset := DSet { ds_type : dt; ds_arr : narr Z }.
Definition ipath := list str.
Fixpoint ipath_eqb (p q : ipath) : bool :=
  match p, q with [], [] => true | a :: p', b :: q' => str_eqb a b && ipath_eqb p' q' | _, _ => false end.
Definition h5file := dict ipath dset.
Definition fget (f : h5file) (p : ipath) : option dset := dget ipath_eqb f p.
Fixpoint is_prefix (p q : ipath) : bool :=
  match p, q with [], _ => true | a :: p', b :: q' => str_eqb a b && is_prefix p' q' | _, _ => false end.
(** [name in file]: a dataset or a group *)
Definition fhas (f : h5file) (p : ipath) : bool := existsb (fun e => is_prefix p (fst e)) f.
(** str.split('/') *)
Fixpoint split_slash_aux (cur : str) (s : str) : list str :=
  match s with
  | [] => [rev cur]
  | c :: s' => if chr_eqb c "/" then rev cur :: split_slash_aux [] s' else split_slash_aux (c :: cur) s'
  end.
Definition split_slash (s : str) : list str := split_slash_aux [] s.
Definition nonempty (s : str) : bool := match s with [] => false | _ => true end.
Definition components (s : str) : ipath := filter nonempty (split_slash s).
(** [fp.create_dataset(path, data, dtype)]: refused when the path names something that exists, or
    passes through a dataset, or is empty *)
Definition create_dataset (f : h5file) (p : ipath) (d : dset) : res h5file :=
  match p with
  | [] => Err ValueError
  | _ => if existsb (fun e => is_prefix p (fst e) || is_prefix (fst e) p) f then Err ValueError else Ok (f ++ [(p, d)])
  end.

(** * Element types *)
Definition wrap (bits : Z) (signed : bool) (z : Z) : Z :=
  let m := z mod 2 ^ bits in if signed && (2 ^ (bits - 1) <=? m) then m - 2 ^ bits else m.
(** numpy astype between the modelled types; conversions to or from floats are not modelled *)
Definition astype (d : dset) (t : dt) : res dset :=
  if dt_eqb (ds_type d) t then Ok d else
  match ds_type d, t with
  | Float64, _ | _, Float64 => Err NotImplementedError
  | _, Bool_ => Ok (DSet Bool_ (amap (fun z => Z.b2z (negb (z =? 0))) (ds_arr d)))
  | _, Int64 => Ok (DSet Int64 (amap (wrap 64 true) (ds_arr d)))
  | _, Int32 => Ok (DSet Int32 (amap (wrap 32 true) (ds_arr d)))
  | _, UInt8 => Ok (DSet UInt8 (amap (wrap 8 false) (ds_arr d)))
  end.
(** hdf5's own conversion on writing saturates; only the two cases resqpy can cause *)
Definition clip (lo hi z : Z) : Z := Z.max lo (Z.min hi z).
Definition to_int32 (z : Z) : Z := clip (- 2 ^ 31) (2 ^ 31 - 1) z.

(** * Registering: write_hdf5.py:52-133 *)
Definition rkey := (Z * str)%type.
Definition rkey_eqb (a b : rkey) : bool := (fst a =? fst b) && str_eqb (snd a) (snd b).
Record register := Reg { r_sets : dict rkey (dset * option dt); r_paths : dict rkey str }.
Definition new_register : register := Reg [] [].
(** the dtype argument *)
Inductive dtarg := DTNone | DTPack | DT (t : dt).
(* write_hdf5.py:125-128 *)
Definition norm_tail (tail : str) : res str :=
  match tail with
  | [] => Err AssertionError
  | c :: t =>
      let g := if chr_eqb c "/" then t else tail in
      match rev g with
      | [] => Err IndexError
      | z :: r => Ok (if chr_eqb z "/" then rev r else g)
      end
  end.
(* write_hdf5.py:94-133; chunks, compression and the copy argument (aliasing of the caller's
   array) are left out. *)
Definition register_dataset (r : register) (u : Z) (tail : str) (a : dset) (t : dtarg) (internal : option str) : res register :=
  do _ <- assert_ (nonempty tail);
  do p <- match t with
          | DTPack => do b <- packbits (amap (fun z => negb (z =? 0)) (ds_arr a)); Ok (DSet UInt8 b, Some UInt8)
          | DT t => do b <- astype a t; Ok (b, Some t)
          | DTNone => Ok (a, None)
          end;
  do g <- norm_tail tail;
  Ok (Reg (PyDict.dset rkey_eqb (r_sets r) (u, g) p)
          (match internal with
           | Some (c :: s) => PyDict.dset rkey_eqb (r_paths r) (u, g) (c :: s)
           | _ => r_paths r
           end)).

(** * Writing: write_hdf5.py:135-172 *)
Definition internal_path (r : register) (k : rkey) : ipath :=
  match dget rkey_eqb (r_paths r) k with
  | Some s => components s
  | None => components (L "/RESQML/" ++ uuid_str (fst k) ++ L "/" ++ snd k)
  end.
(* lines 155-163 *)
Definition stored_form (use_int32 : bool) (a : dset) (t : option dt) : dset :=
  match t with
  | None =>
      match ds_type a with
      | Int64 => if use_int32 then DSet Int32 (amap to_int32 (ds_arr a)) else a
      | Bool_ => DSet UInt8 (ds_arr a)
      | _ => a
      end
  | Some Bool_ => DSet UInt8 (ds_arr a)
  | Some _ => a
  end.
(** Writes until a dataset is refused; what has been written stays. *)
Fixpoint write_sets (r : register) (use_int32 : bool) (l : dict rkey (dset * option dt)) (f : h5file) : h5file * res unit :=
  match l with
  | [] => (f, Ok tt)
  | (k, (a, t)) :: l' =>
      match create_dataset f (internal_path r k) (stored_form use_int32 a t) with
      | Ok f' => write_sets r use_int32 l' f'
      | Err e => (f, Err e)
      end
  end.
Definition write_fp (r : register) (use_int32 : bool) (f : h5file) : h5file * res unit := write_sets r use_int32 (r_sets r) f.

(** * Copying: write_hdf5.py:212-347 *)
Definition filesys := str -> option h5file.
Definition fs_set (fs : filesys) (p : str) (f : h5file) : filesys := fun q => if str_eqb p q then Some f else fs q.
(** the names directly below a group, each once *)
Fixpoint children (f : h5file) (g : ipath) (seen : list str) : list str :=
  match f with
  | [] => []
  | (p, _) :: f' =>
      match (if is_prefix g p then nth_error p (List.length g) else None) with
      | Some c => if existsb (str_eqb c) seen then children f' g seen else c :: children f' g (c :: seen)
      | None => children f' g seen
      end
  end.
Definition RESQML : str := L "RESQML".
Definition below (f : h5file) (p : ipath) : h5file := filter (fun e => is_prefix p (fst e)) f.
Definition omem (u : option Z) (l : list Z) : bool := match u with None => false | Some n => zmem n l end.
(* lines 258-279: whether a group is passed over *)
Definition skip_group (incl excl : option (list Z)) (g : str) : bool :=
  match incl, excl with
  | None, None => false
  | Some l, _ => negb (omem (uuid_from_str g) l)
  | None, Some l => omem (uuid_from_str g) l
  end.
Fixpoint copy_groups (f : h5file) (incl excl : option (list Z)) (gs : list str) (out : h5file) : h5file * Z :=
  match gs with
  | [] => (out, 0)
  | g :: gs' =>
      if skip_group incl excl g then copy_groups f incl excl gs' out
      else if fhas out [RESQML; g] then copy_groups f incl excl gs' out
      else let '(o, n) := copy_groups f incl excl gs' (out ++ below f [RESQML; g]) in (o, n + 1)
  end.
Inductive hmode := MR | MA | MW.
Definition hmode_eqb (a b : hmode) : bool := match a, b with MR, MR | MA, MA | MW, MW => true | _, _ => false end.
(* lines 235-280.  The output file is opened, and in mode 'w' emptied, before the input file is
   looked at.  The 'RESQML' group is taken to exist in the input when anything lies below it. *)
Definition copy_h5 (fs : filesys) (file_in file_out : str) (incl excl : option (list Z)) (mode : hmode) : filesys * res Z :=
  if str_eqb file_out file_in then (fs, Err AssertionError) else
  match incl, excl with Some _, Some _ => (fs, Err AssertionError) | _, _ =>
    match mode with MR => (fs, Err AssertionError) | _ =>
      let out := match mode with MA => match fs file_out with Some f => f | None => [] end | _ => [] end in
      let fs1 := fs_set fs file_out out in
      match fs1 file_in with
      | None => (fs1, Err FileNotFoundError)
      | Some f => if negb (fhas f [RESQML]) then (fs1, Err KeyError)
                  else let '(o, n) := copy_groups f incl excl (children f [RESQML] []) out in (fs_set fs1 file_out o, Ok n)
      end
    end
  end.
(* lines 318-346: the loop of copy_h5_path_list over an output and an input file.  [path in
   fp_in] true of a group leads to an attempt to make a dataset of the group (TypeError). *)
Fixpoint copy_paths (f : h5file) (paths : list str) (out : h5file) (n : Z) : h5file * res Z :=
  match paths with
  | [] => (out, Ok n)
  | s :: rest =>
      let p := components s in
      if fhas out p then copy_paths f rest out n
      else if negb (fhas f p) then (out, Err AssertionError)
      else if negb (existsb (chr_eqb "/") s) then (out, Err AssertionError)
      else match fget f p with
           | None => (out, Err TypeError)
           | Some d => match create_dataset out p d with Ok o => copy_paths f rest o (n + 1) | Err e => (out, Err e) end
           end
  end.
Definition copy_h5_path_list (fs : filesys) (file_in file_out : str) (paths : list str) (mode : hmode) : filesys * res Z :=
  if str_eqb file_out file_in then (fs, Err AssertionError) else
  match mode with MR => (fs, Err AssertionError) | _ =>
    let out := match mode with MA => match fs file_out with Some f => f | None => [] end | _ => [] end in
    let fs1 := fs_set fs file_out out in
    match fs1 file_in with
    | None => (fs1, Err FileNotFoundError)
    | Some f => let '(o, r) := copy_paths f paths out 0 in (fs_set fs1 file_out o, r)
    end
  end.

(** * Renaming: write_hdf5.py:350-376 *)
(* change_uuid_fp, lines 363-367: linking an existing name is refused by h5py (the exception's
   class varies between releases: OSError here) *)
Definition rename_prefix (old new : ipath) (p : ipath) : ipath :=
  if is_prefix old p then new ++ skipn (List.length old) p else p.
Definition change_uuid (f : h5file) (old new : Z) : res h5file :=
  let o := [RESQML; uuid_str old] in let n := [RESQML; uuid_str new] in
  if negb (fhas f o) then Err KeyError
  else if fhas f n then Err OSError
  else Ok (map (fun e => (rename_prefix o n (fst e), snd e)) f).
