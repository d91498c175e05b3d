(** MpModel.v: dividing work into batches and gathering the results of parallel
    workers (resqpy/multi_processing/). *)
From Verif Require Import Base TextModel StrModel PySort ConsolModel.

(* Python slicing l[a:b] for non-negative a and b *)
Definition slice {A} (l : list A) (a b : Z) : list A :=
  firstn (Z.to_nat b - Z.to_nat a) (skipn (Z.to_nat a) l).

(* blocked_well_mp.py:111-114 and mesh_mp.py:112-113: the list of sub-lists, one for
   each worker; for n_workers <= 0 the comprehension is over an empty range *)
Definition batches {A} (l : list A) (n_workers : Z) : list (list A) :=
  let n := Z.of_nat (List.length l) in
  map (fun i => slice l (i * n / n_workers) ((i + 1) * n / n_workers)) (zrange n_workers).

(** What a worker function returns (_multiprocessing.py:48-52).  Paths and uuids are
    numbers. *)
Record result := { r_index : Z; r_success : bool; r_epc : option Z; r_uuids : list Z }.

(* blocked_well_mp.py:60-81: the loop of the wrapper.  [make t] is the uuid of the
   blocked well made from trajectory t, None when cell_count or node_count is None.
   Copying the grid and trajectory into the temporary model is not modelled. *)
Fixpoint bw_loop (make : Z -> option Z) (ts : list Z) (success : bool) (uuid_list : list Z) : bool * list Z :=
  match ts with
  | [] => (success, uuid_list)
  | t :: ts' =>
      match make t with
      | None => bw_loop make ts' false uuid_list
      | Some u => bw_loop make ts' success (uuid_list ++ [u])
      end
  end.
Definition blocked_well_wrapper (make : Z -> option Z) (epc_file : Z) (index : Z) (ts : list Z) : result :=
  let '(success, uuid_list) := bw_loop make ts true [] in
  {| r_index := index; r_success := success; r_epc := Some epc_file; r_uuids := uuid_list |}.
(* mesh_mp.py:45-78: the same loop, after the uuid of the crs if there is one *)
Definition mesh_wrapper (crs : option Z) (make : Z -> option Z) (epc_file : Z) (index : Z) (ps : list Z) : result :=
  let '(success, uuid_list) := bw_loop make ps true (match crs with Some c => [c] | None => [] end) in
  {| r_index := index; r_success := success; r_epc := Some epc_file; r_uuids := uuid_list |}.

(* consolidation.py:193-200: sort_uuids_list; [type_of] gives the type of the part
   for the uuid, None when there is no such part, on which _ordering raises *)
Definition upair_leb (p q : Z * Z) : bool :=
  if fst p <? fst q then true else if fst q <? fst p then false else snd p <=? snd q.
Fixpoint upairs (type_of : Z -> option str) (l : list Z) : res (list (Z * Z)) :=
  match l with
  | [] => Ok []
  | u :: l' =>
      match type_of u with
      | None => Err AttributeError
      | Some t => do r <- upairs type_of l'; Ok ((ordering t, u) :: r)
      end
  end.
Definition sort_uuids_list (type_of : Z -> option str) (l : list Z) : res (list Z) :=
  do p <- upairs type_of l; Ok (map snd (isort upair_leb p)).

(* _multiprocessing.py:129-136: waiting for the epc file of a worker to appear.
   [present n] is the outcome of the n-th call of os.path.exists.  Sleeping is not
   modelled. *)
Fixpoint wait_exists (present : nat -> bool) (attempt : nat) (fuel : nat) : res unit :=
  if present attempt then Ok tt
  else if Nat.ltb 300 (S attempt) then Err FileNotFoundError
  else match fuel with O => Err DivergesError | S f => wait_exists present (S attempt) f end.
(* _multiprocessing.py:137-146: opening it; [opens n] is the outcome of the n-th try *)
Fixpoint try_open (opens : nat -> bool) (attempt : nat) (fuel : nat) : res unit :=
  if opens attempt then Ok tt
  else if Nat.leb 10 (S attempt) then Err FileNotFoundError
  else match fuel with O => Err DivergesError | S f => try_open opens (S attempt) f end.
(* _multiprocessing.py:151-160: copying one uuid; [free n] is false when the n-th try
   raises BlockingIOError (a subclass of OSError) *)
Fixpoint try_copy (free : nat -> bool) (attempt : nat) (fuel : nat) : res unit :=
  if free attempt then Ok tt
  else if Nat.leb 5 (S attempt) then Err OSError
  else match fuel with O => Err DivergesError | S f => try_copy free (S attempt) f end.

(** The behaviour of the file system towards the gathering process. *)
Record fsys := { present : Z -> nat -> bool; opens : Z -> nat -> bool; free : Z -> Z -> nat -> bool }.

(** What is on disc: the recombined dataset if it has been stored, and whether the
    temporary directory is there. *)
Record world (M : Type) := { saved : option M; tmp_dir : bool }.
Arguments saved {M} _.
Arguments tmp_dir {M} _.
Arguments Build_world {M} _ _.

Section Gather.
  Context {KW M : Type}.
  Variable (empty_model : M).                       (* rq.new_model *)
  Variable (copy : M -> Z -> Z -> M).               (* copy_uuid_from_other_model: model, epc, uuid *)
  Variable (type_in : Z -> Z -> option str).        (* type of the part for a uuid in the dataset of an epc *)

  (* _multiprocessing.py:148-160: one worker's uuids copied in sorted order *)
  Fixpoint copy_all (fs : fsys) (m : M) (epc : Z) (us : list Z) : res M :=
    match us with
    | [] => Ok m
    | u :: us' => do _ <- try_copy (free fs epc u) 0 5; copy_all fs (copy m epc u) epc us'
    end.
  (* _multiprocessing.py:124-160 *)
  Fixpoint recombine (fs : fsys) (m : M) (rs : list result) : res M :=
    match rs with
    | [] => Ok m
    | r :: rs' =>
        match r_epc r with
        | None => recombine fs m rs'
        | Some epc =>
            do _ <- wait_exists (present fs epc) 0 301;
            do _ <- try_open (opens fs epc) 0 10;
            do us <- sort_uuids_list (type_in epc) (r_uuids r);
            do m' <- copy_all fs m epc us;
            recombine fs m' rs'
        end
    end.

  (* _multiprocessing.py:99-174 after the worker calls: [results] is the list in the
     order of arrival.  The exception for require_success is a plain Exception,
     written RuntimeError here.  The hdf5 file of the recombined dataset is written as
     parts are copied; only the epc file is [saved] here. *)
  Definition gather (fs : fsys) (require_success clean_up : bool) (results : list result) (w : world M)
    : world M * res (list bool) :=
    let w := Build_world (saved w) true in                                     (* lines 80-81 *)
    let results := isort (fun a b => r_index a <=? r_index b) results in
    let success_list := map r_success results in
    let success_count := List.length (filter (fun b => b) success_list) in
    if require_success && Nat.ltb success_count (List.length results) then (w, Err RuntimeError)
    else
      let m := match saved w with Some m => m | None => empty_model end in
      match recombine fs m results with
      | Err e => (w, Err e)
      | Ok m' => (Build_world (Some m') (if clean_up then false else true), Ok success_list)
      end.

  (* _multiprocessing.py:82-84: each entry gets its index *)
  Definition numbered (kws : list KW) : list (Z * KW) :=
    combine (zrange (Z.of_nat (List.length kws))) kws.
  (* _multiprocessing.py:86-93: cluster is None: the calls are made one after another *)
  Definition serial_results (f : Z * KW -> result) (kws : list KW) : list result := map f (numbered kws).
  Definition function_serial (f : Z * KW -> result) (kws : list KW) (fs : fsys) (require_success clean_up : bool)
    (w : world M) : world M * res (list bool) := gather fs require_success clean_up (serial_results f kws) w.
End Gather.
