(** H5Model.v: which hdf5 file a model holds open: resqpy/model/_hdf5.py:80-165 and 274-302,
    and H5Register.write, resqpy/olio/write_hdf5.py:174-209. *)
From Verif Require Import Base StrModel UuidModel PyDict NArray PackModel H5FileModel.

(** * Paths (models os.path) *)
Definition basename (s : str) : str := match rfind_chr "/" s with Some k => from s (k + 1) | None => s end.
Definition path_join (a b : str) : str :=
  match b with
  | c :: _ => if chr_eqb c "/" then b else
      match rev a with [] => b | z :: _ => if chr_eqb z "/" then a ++ b else a ++ L "/" ++ b end
  | [] => match rev a with [] => [] | z :: _ => if chr_eqb z "/" then a else a ++ L "/" end
  end.

(** * What determines file names *)
Record rel_child := RC { rc_id : str; rc_mode : option str; rc_target : str }.
Record naming := Naming {
  nm_epc_file : option str;                     (* model.epc_file *)
  nm_epc_dir : option str;                      (* model.epc_directory *)
  nm_rels : list (option Z * list rel_child);   (* model.rels_forest: uuid and relationships *)
  nm_main : option Z                            (* _h5_uuid(model), not modelled further *)
}.
Inductive override := OBool (b : bool) | OStr (s : str).
Inductive okind := ONone | ODir | OFull.
(* _hdf5.py:104-108 *)
Definition okind_of (default : str) (o : override) : res okind :=
  let s := match o with
           | OBool b => if b then L "full" else L "dir"
           | OStr s => if str_eqb s (L "default") then default else s
           end in
  if str_eqb s (L "none") then Ok ONone else if str_eqb s (L "dir") then Ok ODir
  else if str_eqb s (L "full") then Ok OFull else Err AssertionError.
(* _hdf5.py:113-115 *)
Definition place (nm : naming) (o : okind) (supplied : str) : str :=
  match nm_epc_dir nm with
  | Some (c :: d) =>
      if (match o with ODir => true | _ => false end) || negb (existsb (chr_eqb "/") supplied)
      then path_join (c :: d) (basename supplied) else supplied
  | _ => supplied
  end.
(* _hdf5.py:118-134.  A relationship without a TargetMode is a KeyError when it is looked at. *)
Fixpoint target_in_rels (cs : list rel_child) : res (option str) :=
  match cs with
  | [] => Ok None
  | c :: cs' =>
      if str_eqb (rc_id c) (L "Hdf5File") then
        match rc_mode c with
        | None => Err KeyError
        | Some m => if str_eqb m (L "External") then Ok (Some (rc_target c)) else target_in_rels cs'
        end
      else target_in_rels cs'
  end.
Fixpoint target_path (rels : list (option Z * list rel_child)) (u : option Z) : res (option str) :=
  match rels with
  | [] => Ok None
  | (v, cs) :: rels' =>
      if match u with None => true | Some n => match v with Some m => n =? m | None => false end end then
        do t <- target_in_rels cs;
        match t with Some s => Ok (Some s) | None => target_path rels' u end
      else target_path rels' u
  end.
(* _hdf5.py:101-115; [None] stands for "no file name" *)
Definition apply_override (nm : naming) (default : str) (o : override) (supplied : option str) (u : option Z) : res (option str) :=
  do k <- okind_of default o;
  match k with
  | OFull =>
      match nm_epc_file nm with
      | Some e => if nonempty e && endswith e (L ".epc") then Ok (Some (upto e (List.length e - 4) ++ L ".h5")) else Err AssertionError
      | None => Err AssertionError
      end
  | _ =>
      match supplied with
      | Some (c :: s) => Ok (Some (place nm k (c :: s)))
      | _ => do t <- target_path (nm_rels nm) u;
             match t with
             | Some (c :: s) => Ok (Some (place nm k (c :: s)))
             | _ => Ok None
             end
      end
  end.

(** * The state of a model's hdf5 access *)
Record handle := Handle { hd_id : nat; hd_path : str; hd_mode : hmode }.
Record hst := HST {
  h_fs : filesys;
  h_open : list handle;        (* the files this model has open *)
  h_root : option handle;      (* model.h5_currently_open_root *)
  h_path : option str;         (* model.h5_currently_open_path *)
  h_mode : option hmode;       (* model.h5_currently_open_mode *)
  h_dict : dict Z str;         (* model.h5_dict *)
  h_default : str;             (* model.default_h5_override *)
  h_next : nat                 (* a supply of handle identities *)
}.
Definition exists_ (fs : filesys) (p : str) : bool := match fs p with Some _ => true | None => false end.

(** h5py.File(p, m).  [ok] false: the operating system or hdf5 refuses (permission, lock, not an
    hdf5 file).  A file already open in a conflicting mode is refused. *)
Definition conflicting (m : hmode) (h : handle) : bool :=
  match m, hd_mode h with MR, MR => false | MA, MA | MA, MW => false | _, _ => true end.
Definition h5py_open (s : hst) (p : str) (m : hmode) (ok : bool) : hst * res handle :=
  if negb ok then (s, Err OSError)
  else if existsb (fun h => str_eqb (hd_path h) p && conflicting m h) (h_open s) then (s, Err OSError)
  else
    let h := Handle (h_next s) p m in
    let s' fs := HST fs (h :: h_open s) (h_root s) (h_path s) (h_mode s) (h_dict s) (h_default s) (S (h_next s)) in
    match m with
    | MW => (s' (fs_set (h_fs s) p []), Ok h)
    | MA => (s' (match h_fs s p with None => fs_set (h_fs s) p [] | Some _ => h_fs s end), Ok h)
    | MR => match h_fs s p with None => (s, Err FileNotFoundError) | Some _ => (s' (h_fs s), Ok h) end
    end.
(* _hdf5.py:158-165 *)
Definition h5_release (s : hst) : hst :=
  HST (h_fs s) (match h_root s with Some h => filter (fun g => negb (hd_id g =? hd_id h)%nat) (h_open s) | None => h_open s end)
      None None None (h_dict s) (h_default s) (h_next s).
Definition set_open (s : hst) (p : option str) (m : option hmode) (r : option handle) : hst :=
  HST (h_fs s) (h_open s) r p m (h_dict s) (h_default s) (h_next s).
(* _hdf5.py:80-98 *)
Definition h5_file_name (nm : naming) (s : hst) (u : option Z) (o : override) (must_exist : bool) : hst * res (option str) :=
  let u := match u with None => nm_main nm | Some _ => u end in
  match match u with Some n => dget Z.eqb (h_dict s) n | None => None end with
  | Some p => (s, Ok (Some p))
  | None =>
      match apply_override nm (h_default s) o None u with
      | Err e => (s, Err e)
      | Ok full =>
          match full with
          | None => if must_exist then (s, Err FileNotFoundError) else (s, Ok None)
          | Some p =>
              if must_exist && negb (exists_ (h_fs s) p) then (s, Err FileNotFoundError)
              else (match u with
                    | Some n => HST (h_fs s) (h_open s) (h_root s) (h_path s) (h_mode s) (PyDict.dset Z.eqb (h_dict s) n p) (h_default s) (h_next s)
                    | None => s
                    end, Ok (Some p))
          end
      end
  end.
(* _hdf5.py:140-155.  A missing name (None) is a TypeError in os.path.exists, os.path.samefile
   and h5py.File alike; os.path.samefile needs both files to exist.  Two different paths are
   taken to be different files (no links). *)
Definition h5_access (nm : naming) (s : hst) (u : option Z) (mode : hmode) (o : override) (file_path : option str) (ok : bool) : hst * res handle :=
  let s := match h_mode s with Some m => if hmode_eqb m mode then s else h5_release s | None => s end in
  let '(s, name) := match file_path with
                    | Some (c :: p) => (s, apply_override nm (h_default s) o (Some (c :: p)) u)
                    | _ => h5_file_name nm s u o (hmode_eqb mode MR)
                    end in
  match name with
  | Err e => (s, Err e)
  | Ok name =>
      match (match mode, name with
             | MA, None => Err TypeError
             | MA, Some p => Ok (if exists_ (h_fs s) p then MA else MW)
             | m, _ => Ok m
             end) with
      | Err e => (s, Err e)
      | Ok mode =>
          let open_ (s : hst) :=
            let s := set_open s name (Some mode) (h_root s) in
            match name with
            | None => (s, Err TypeError)
            | Some p => let '(s, r) := h5py_open s p mode ok in
                        match r with Err e => (s, Err e) | Ok h => (set_open s (h_path s) (h_mode s) (Some h), Ok h) end
            end in
          match h_root s with
          | None => open_ s
          | Some h =>
              match h_path s, name with
              | Some q, Some p =>
                  if negb (exists_ (h_fs s) q && exists_ (h_fs s) p) then (s, Err FileNotFoundError)
                  else if str_eqb q p then (s, Ok h)
                  else open_ (h5_release s)
              | _, _ => (s, Err TypeError)
              end
          end
      end
  end.
(* _hdf5.py:297-301 *)
Definition clear_filename_cache (s : hst) : hst :=
  let s := h5_release s in HST (h_fs s) (h_open s) (h_root s) (h_path s) (h_mode s) [] (h_default s) (h_next s).
(* _hdf5.py:20-24 *)
Definition set_default_override (s : hst) (o : str) : hst * res unit :=
  if str_eqb o (L "none") || str_eqb o (L "dir") || str_eqb o (L "full")
  then (HST (h_fs s) (h_open s) (h_root s) (h_path s) (h_mode s) (h_dict s) o (h_next s), Ok tt) else (s, Err AssertionError).

(** * Writing a register through the model: write_hdf5.py:196-209, with [file] a path or None *)
(** data written through a handle go to the file at its path; a read-only handle refuses *)
Definition put (s : hst) (p : str) (f : h5file) : hst :=
  HST (match h_fs s p with Some _ => fs_set (h_fs s) p f | None => h_fs s end) (h_open s) (h_root s) (h_path s) (h_mode s) (h_dict s) (h_default s) (h_next s).
Definition h5_write (nm : naming) (s : hst) (r : register) (file : option str) (mode : hmode) (release_after use_int32 ok : bool) : hst * res unit :=
  match r_sets r with
  | [] => (s, Ok tt)
  | _ =>
      let '(s, h) := h5_access nm s None mode (OStr (L "default")) file ok in
      match h with
      | Err e => (s, Err e)
      | Ok h =>
          match hd_mode h with
          | MR => (s, Err ValueError)
          | _ =>
              let f := match h_fs s (hd_path h) with Some f => f | None => [] end in
              let '(f', r') := write_fp r use_int32 f in
              let s := put s (hd_path h) f' in
              match r' with
              | Err e => (s, Err e)
              | Ok _ => (if release_after then h5_release s else s, Ok tt)
              end
          end
      end
  end.
