(** GcsNexusModel.v: grid connection sets as text for the Nexus simulator
    (resqpy/fault/_grid_connection_set.py write_simulator and set_pairs_from_faces_df,
    resqpy/olio/read_nexus_fault.py, resqpy/fault/_gcs_functions.py).
    Multipliers are exact rationals; text is 8-bit characters (upper and lower act on ASCII letters). *)
From Verif Require Import QBase StrModel TextModel AsciiModel BisectModel GcsModel.
Open Scope Z_scope.

Definition mem_str (x : str) (l : list str) : bool := existsb (str_eqb x) l.

(** ** writing *)
(** one row of a MULT table: cell range, axis and polarity of the face, multiplier *)
Record wrow := W { w_i : Z; w_j : Z; w_k1 : Z; w_k2 : Z; w_face : axis * bool; w_mult : Q }.

Definition zax (a : axis) : Z := match a with K => 0 | J => 1 | I => 2 end.
Definition zpol (p : bool) : Z := if p then 1 else 0.
(* _grid_connection_set.py:1558-1574; the first argsort is taken to be stable *)
Definition sort_sides (l : list (side * Q)) : list (side * Q) :=
  let l := sort_by (fun '((c, _), _) => tk c) l in
  let l := sort_by (fun '((c, _), _) => ti c) l in
  let l := sort_by (fun '((c, _), _) => tj c) l in
  let l := sort_by (fun '((_, (_, p)), _) => zpol p) l in
  sort_by (fun '((_, (a, _)), _) => zax a) l.
(* _grid_connection_set.py:1580-1601; (i, j, k, k2, face) is the run being collected, tm the value
   that the variable tmult has *)
Fixpoint runs (i j k k2 : Z) (f : axis * bool) (tm : Q) (l : list (side * Q)) : list wrow :=
  match l with
  | [] => [W i j k k2 f tm]
  | ((c, fp), tmp) :: r =>
    if negb (axis_eqb (fst fp) (fst f)) || negb (Bool.eqb (snd fp) (snd f)) || negb (ti c =? i) || negb (tj c =? j) || negb (tk c =? k2 + 1)
    then W i j k k2 f tmp :: runs (ti c) (tj c) (tk c) (tk c) fp tmp r
    else runs i j k (tk c) f tmp r
  end.
Definition rows_of (l : list (side * Q)) : list wrow :=
  match l with
  | [] => []
  | ((c, f), tm) :: r => runs (ti c) (tj c) (tk c) (tk c) f tm r
  end.

Definition T_text (a : axis) : str := match a with K => L "TZ" | J => L "TY" | I => L "TX" end.
Definition sign_text (p : bool) : str := if p then L "PLUS" else L "MINUS".
(* _grid_connection_set.py:1519-1522 *)
Definition header_text (f : axis * bool) (name : str) : str :=
  [nl] ++ L "MULT" ++ [tab] ++ T_text (fst f) ++ [tab] ++ L "ALL" ++ [tab] ++ sign_text (snd f) ++ [tab] ++ L "MULT" ++ [nl]
  ++ [tab] ++ L "GRID" ++ [tab] ++ L "ROOT" ++ [nl]
  ++ [tab] ++ L "FNAME" ++ [tab] ++ name ++ [nl].
(* _grid_connection_set.py:1531-1532 *)
Definition row_text (r : wrow) : str :=
  [tab] ++ fmt_int (w_i r + 1) ++ [tab] ++ fmt_int (w_i r + 1) ++ [tab] ++ fmt_int (w_j r + 1) ++ [tab] ++ fmt_int (w_j r + 1)
  ++ [tab] ++ fmt_int (w_k1 r + 1) ++ [tab] ++ fmt_int (w_k2 r + 1) ++ [tab] ++ fmt_real 4 (w_mult r) ++ [nl].
(** the variable active_nexus_head; the grid name is always ROOT *)
Definition head := option ((axis * bool) * str).
Definition same_head (h : head) (f : axis * bool) (name : str) : bool :=
  match h with
  | None => false
  | Some (g, m) => axis_eqb (fst g) (fst f) && Bool.eqb (snd g) (snd f) && str_eqb m name
  end.
(* _grid_connection_set.py:1528-1533 write_row with 1514-1526 write_nexus_header_lines, for each row *)
Fixpoint write_rows (h : head) (name : str) (l : list wrow) : str * head :=
  match l with
  | [] => ([], h)
  | r :: l' =>
    let t := (if same_head h (w_face r) name then [] else header_text (w_face r) name) ++ row_text r in
    let '(t', h') := write_rows (Some (w_face r, name)) name l' in
    (t ++ t', h')
  end.
(* _grid_connection_set.py:1537-1542; false is the first side of each connection *)
Definition sides_written (include_both_sides use_minus : bool) : list bool :=
  if include_both_sides then [false; true] else if use_minus then [true] else [false].
(* _grid_connection_set.py:1546 *)
Definition nexus_name (title : str) : res str :=
  match words title with [] => Err IndexError | w :: _ => Ok (upper w) end.
(* _grid_connection_set.py:1553-1601: the rows of one feature, side after side *)
Definition side_rows (ps : list (side * side)) (ms : list Q) (second : bool) : list wrow :=
  rows_of (sort_sides (combine (map (if second : bool then snd else fst) ps) ms)).
Fixpoint write_sides (h : head) (name : str) (ps : list (side * side)) (ms : list Q) (ss : list bool) : str * head :=
  match ss with
  | [] => ([], h)
  | s :: ss' =>
    let '(t, h) := write_rows h name (side_rows ps ms s) in
    let '(t', h') := write_sides h name ps ms ss' in (t ++ t', h')
  end.
(* _grid_connection_set.py:1545-1601; f counts the features from 0.  tmult is the array of the
   multiplier property, if one is given; the text written before an exception is not returned *)
Fixpoint write_features (n : trip Z) (g : gcs) (tmult : option (list Q)) (ss : list bool) (h : head) (f : Z) (fl : list feature) : res str :=
  match fl with
  | [] => Ok []
  | (_, title) :: fl' =>
    do name <- nexus_name title;
    do ps <- list_of_cell_face_pairs n g (Some f);
    match ps with
    | None => Err TypeError
    | Some ps =>
      let ms := match tmult, feature_indices g with
                | Some m, Some fi => keep_flagged (map (fun x => x =? f) fi) m
                | _, _ => map (fun _ => 1%Q) ps
                end in
      let '(t, h) := write_sides h name ps ms ss in
      do t' <- write_features n g tmult ss h (f + 1) fl';
      Ok (t ++ t')
    end
  end.
(* _grid_connection_set.py:1487-1601 write_simulator, mode 'w': the text in the file *)
Definition write_simulator (n : trip Z) (g : gcs) (tmult : option (list Q)) (include_both_sides use_minus : bool) : res str :=
  match feature_list g with
  | None => Err TypeError
  | Some fl => write_features n g tmult (sides_written include_both_sides use_minus) None 0 fl
  end.

(** ** reading *)
(** one row of the dataframe; the column grid, which nothing below reads, is left out *)
Record frow := F { i1 : Z; i2 : Z; j1 : Z; j2 : Z; k1 : Z; k2 : Z; mult : Q; name : str; face : str }.
(* olio/read_nexus_fault.py:12-26 is_number: decimal numbers only; exponents, 'nan', 'inf' and the
   numerals of other scripts are not taken for numbers here *)
Definition is_number (s : str) : bool := is_ok (parse_real s).
(* olio/read_nexus_fault.py:35 *)
Definition face_dict (s : str) : res str :=
  if str_eqb s (L "TX") || str_eqb s (L "TI") then Ok (L "I")
  else if str_eqb s (L "TY") || str_eqb s (L "TJ") then Ok (L "J")
  else if str_eqb s (L "TZ") || str_eqb s (L "TK") then Ok (L "K")
  else Err KeyError.
(** conversion of a real number to int *)
Definition trunc (q : Q) : Z := Z.quot (Qnum q) (Z.pos (Qden q)).
Definition to_int (s : str) : res Z := do q <- parse_real s; Ok (trunc q).
(** a data line, olio/read_nexus_fault.py:49-62 and 131-132: any number of values other than 7 fails *)
Definition table_row (name face : str) (ts : list str) : res frow :=
  match ts with
  | [a; b; c; d; e; f; m] =>
    do a <- to_int a; do b <- to_int b; do c <- to_int c; do d <- to_int d; do e <- to_int e; do f <- to_int f;
    do m <- parse_real m;
    Ok (F a b c d e f m name face)
  | _ => Err ValueError
  end.
(** ISTABLE, ISRECORD, name, face, chunks (as words) and dfs *)
Record rstate := R { is_table : bool; is_record : bool; r_name : str; r_face : str; chunks : list (list str); dfs : list frow }.
(* olio/read_nexus_fault.py:46-71 *)
Definition flush (s : rstate) : res rstate :=
  do rs <- map_res (table_row (r_name s) (r_face s)) (chunks s);
  Ok (R false false (r_name s) (r_face s) [] (dfs s ++ rs)).
Definition before_comment (s : str) : str := match find_chr "!" s with None => s | Some i => firstn i s end.
Definition second (ts : list str) : res str := match ts with _ :: t :: _ => Ok t | _ => Err IndexError end.
(* olio/read_nexus_fault.py:38-96: one line *)
Definition read_line (s : rstate) (line : str) : res rstate :=
  match words line with
  | [] | [] :: _ => Ok s
  | (c :: _) :: _ =>
    if chr_eqb c "!" || chr_eqb c "C" then Ok s else
    let ts := words (before_comment line) in
    match ts with
    | [] => Err IndexError
    | t :: _ =>
      let s := if is_table s && is_number t then R true true (r_name s) (r_face s) (chunks s) (dfs s) else s in
      do s <- (if is_table s && is_record s && negb (is_number t) then flush s else Ok s);
      do s <- (if is_table s then
                 if contains t (L "GRID") then (do _ <- second ts; Ok s)
                 else if contains t (L "FNAME") then (do nm <- second ts; Ok (R true (is_record s) nm (r_face s) (chunks s) (dfs s)))
                 else if str_eqb t (L "MULT") then Ok (R false false (r_name s) (r_face s) [] (dfs s))
                 else Ok (R true (is_record s) (r_name s) (r_face s) (chunks s ++ [ts]) (dfs s))
               else Ok s);
      if str_eqb t (L "MULT") then
        do t1 <- second ts;
        do fc <- face_dict t1;
        Ok (R true (is_record s) (L "NONE") (if mem_str (L "MINUS") ts then fc ++ L "-" else fc) (chunks s) (dfs s))
      else Ok s
    end
  end.
Fixpoint read_lines (s : rstate) (ls : list str) : res rstate :=
  match ls with [] => Ok s | l :: r => do s <- read_line s l; read_lines s r end.
(* olio/read_nexus_fault.py:9-134 load_nexus_fault_mult_table_from_list; the conversion of the
   columns, done here with each table, comes last in the code: only which exception is raised for a
   file with several faults can differ *)
Definition load_table (ls : list str) : res (list frow) :=
  do s <- read_lines (R false false [] [] [] []) ls;
  do s <- (if is_table s && is_record s then flush s else Ok s);
  Ok (dfs s).
(* olio/read_nexus_fault.py:137-143 load_nexus_fault_mult_table *)
Definition load_table_file (text : str) : res (list frow) := load_table (lines text).

(** ** making connections from the dataframe *)
(* _gcs_functions.py:488-499 standardize_face_indicator_in_faces_df *)
Definition standard_face (f : str) : res (axis * bool) :=
  let f := match f with [c] => [c; "+"%char] | _ => upper f end in
  match f with
  | [a; p] =>
    do a <- (if chr_eqb a "I" then Ok I else if chr_eqb a "J" then Ok J else if chr_eqb a "K" then Ok K else Err AssertionError);
    do p <- (if chr_eqb p "+" then Ok true else if chr_eqb p "-" then Ok false else Err AssertionError);
    Ok (a, p)
  | _ => Err AssertionError
  end.
(** a row with its face decoded, as at _grid_connection_set.py:2112-2113 *)
Definition drow := (frow * (axis * bool))%type.
(* _gcs_functions.py:476-485 zero_base_cell_indices_in_faces_df *)
Definition zero_base (r : frow) : frow := F (i1 r - 1) (i2 r - 1) (j1 r - 1) (j2 r - 1) (k1 r - 1) (k2 r - 1) (mult r) (name r) (face r).
(* _gcs_functions.py:512-518 *)
Definition external (n : trip Z) (d : drow) : bool :=
  let '(r, f) := d in
  match f with
  | (I, false) => i1 r <=? 0 | (J, false) => j1 r <=? 0 | (K, false) => k1 r <=? 0
  | (I, true) => ti n - 1 <=? i2 r | (J, true) => tj n - 1 <=? j2 r | (K, true) => tk n - 1 <=? k2 r
  end.
(* _grid_connection_set.py:2121-2134 for one cell *)
Definition face_link (n : trip Z) (c : cell) (f : axis * bool) : link :=
  let '(a, p) := f in
  Lk (natural n c) (natural n (set c a (if p : bool then get c a + 1 else get c a - 1))) (face_index_map a p) (face_index_map a (negb p)).
(* _grid_connection_set.py:2121-2123: the cells of a row, in the order of the loops *)
Definition row_cells (r : frow) : list cell :=
  flat_map (fun k => flat_map (fun j => map (fun i => T k j i) (zrange2 (i1 r) (i2 r + 1))) (zrange2 (j1 r) (j2 r + 1))) (zrange2 (k1 r) (k2 r + 1)).
(* _grid_connection_set.py:2079-2084 *)
Definition dict_mult (d : str -> option Q) (nm : str) : Q :=
  match d (lower nm) with Some m => m | None => match d nm with Some m => m | None => 1%Q end end.
(* _grid_connection_set.py:2107-2135: connections and multipliers of one fault *)
Definition fault_links (n : trip Z) (dm : Q) (rs : list drow) : list (link * Q) :=
  flat_map (fun '(r, f) => map (fun c => (face_link n c f, (mult r * dm)%Q)) (row_cells r)) rs.
(* pandas unique *)
Fixpoint unique_names (seen : list str) (l : list str) : list str :=
  match l with
  | [] => []
  | x :: r => if mem_str x seen then unique_names seen r else x :: unique_names (seen ++ [x]) r
  end.
(* _grid_connection_set.py:720-725 and 2074-2139; dict is the list of keys of fi_dict.  Where the
   fault interpretation exists already, the variable fi_root is not set when it is read (2136).
   The uuid of the interpretation made for a fault is represented by its index. *)
Fixpoint fault_loop (n : trip Z) (dm : str -> option Q) (rs : list drow) (dict : list str) (f : Z) (names : list str)
  : res (list (link * Q * Z) * list feature) :=
  match names with
  | [] => Ok ([], [])
  | nm :: r =>
    if mem_str (lower nm) dict then Err NameError
    else
      let ls := fault_links n (dict_mult dm nm) (filter (fun d => str_eqb (name (fst d)) nm) rs) in
      do (rest, fl) <- fault_loop n dm rs (dict ++ [lower nm]) (f + 1) r;
      Ok (map (fun '(l, m) => (l, m, f)) ls ++ rest, (f, nm) :: fl)
  end.
(* _grid_connection_set.py:683-733 set_pairs_from_faces_df for a single grid: the set and the list of
   multipliers.  interps holds the titles of the fault interpretations in the model.  The variable
   tbf_parts_list is not set when it is read (721) if create is false. *)
Definition set_pairs_from_faces_df (n : trip Z) (interps : list str) (create : bool) (dm : str -> option Q)
    (one_based : bool) (rows : list frow) : res (gcs * list Q) :=
  do fs <- map_res (fun r => standard_face (face r)) rows;
  let rs := combine (if one_based then map zero_base rows else rows) fs in
  let rs := filter (fun d => negb (external n d)) rs in
  let names := unique_names [] (map (fun d => name (fst d)) rs) in
  do dict <- map_res (fun t => match words t with [] => Err IndexError | w :: _ => Ok (lower w) end) interps;
  match names, create with
  | _ :: _, false => Err NameError
  | _, _ =>
    do (ls, fl) <- fault_loop n dm rs dict 0 names;
    Ok (Gcs (map (fun x => fst (fst x)) ls) (Some (map snd ls)) (Some fl), map (fun x => snd (fst x)) ls)
  end.
