(** UuidModel.v: resqpy/olio/uuid.py and the part name functions of
    resqpy/olio/xml_et.py.  A uuid object is its 128-bit integer. *)
From Verif Require Import Base TextModel StrModel.

Definition uuid_bound : Z := 2 ^ 128.

(** Hexadecimal digits. *)
Definition hex_digit (d : Z) : ascii :=
  ascii_of_N (Z.to_N (if d <? 10 then 48 + d else 87 + d)).
Definition digit_value (c : ascii) : option Z :=
  let n := Z.of_N (N_of_ascii c) in
  if (48 <=? n) && (n <=? 57) then Some (n - 48)
  else if (97 <=? n) && (n <=? 102) then Some (n - 87)
  else if (65 <=? n) && (n <=? 70) then Some (n - 55)
  else None.

(** ['%0<k>x' % n] for n < 16^k *)
Fixpoint hex_fixed (k : nat) (n : Z) : str :=
  match k with
  | O => []
  | S k' => hex_fixed k' (n / 16) ++ [hex_digit (n mod 16)]
  end.

(** [str(uuid.UUID)] of the Python standard library: 8-4-4-4-12 digits. *)
Definition uuid_str (n : Z) : str :=
  let h := hex_fixed 32 n in
  firstn 8 h ++ L "-" ++ firstn 4 (skipn 8 h) ++ L "-" ++ firstn 4 (skipn 12 h) ++ L "-" ++
  firstn 4 (skipn 16 h) ++ L "-" ++ skipn 20 h.

(** [int(s, 16)] of the Python standard library: blanks around, a sign, a 0x
    prefix and single underscores between digits are accepted. *)
Fixpoint hex_loop (acc : Z) (us : bool) (s : str) : option Z :=
  match s with
  | [] => if us then None else Some acc
  | c :: s' =>
      if chr_eqb c "_" then (if us then None else hex_loop acc true s')
      else match digit_value c with
           | Some d => hex_loop (16 * acc + d) false s'
           | None => None
           end
  end.
Definition hex_unsigned (s : str) : option Z :=
  match s with
  | c0 :: c1 :: (_ :: _) as s' =>
      if chr_eqb c0 "0" && (chr_eqb c1 "x" || chr_eqb c1 "X") then hex_loop 0 false (skipn 2 s) else hex_loop 0 true s
  | _ => hex_loop 0 true s
  end.
Definition int16 (s : str) : option Z :=
  match strip is_ws s with
  | [] => None
  | c :: s' =>
      if chr_eqb c "-" then option_map Z.opp (hex_unsigned s')
      else if chr_eqb c "+" then hex_unsigned s' else hex_unsigned (c :: s')
  end.

Definition is_brace (c : ascii) : bool := chr_eqb c "{" || chr_eqb c "}".

(** [uuid.UUID(int = n)] *)
Definition UUID_of_int (n : Z) : res Z :=
  if (0 <=? n) && (n <? uuid_bound) then Ok n else Err ValueError.
(** [uuid.UUID(hex)] of the Python standard library *)
Definition UUID_of_hex (s : str) : res Z :=
  let h := replace (replace s (L "urn:") []) (L "uuid:") [] in
  let h := replace (strip is_brace h) (L "-") [] in
  if negb (Nat.eqb (List.length h) 32) then Err ValueError
  else match int16 h with None => Err ValueError | Some n => UUID_of_int n end.

(** Arguments accepted by the uuid functions. *)
Inductive uarg := UNone | UObj (n : Z) | UStr (s : str) | UInt (n : Z).

(* uuid.py:116-118 *)
Definition uuid_from_int (n : Z) : res Z := UUID_of_int n.

(* uuid.py:102-113, string argument; the catch-all except returns None; an empty
   string raises IndexError inside the try *)
Definition uuid_from_str (s : str) : option Z :=
  match s with
  | [] => None
  | c :: t =>
      let r :=
        if chr_eqb c "_" then (if (List.length s <? 37)%nat then None else Some (UUID_of_hex (firstn 36 t)))
        else (if (List.length s <? 36)%nat then None else Some (UUID_of_hex (firstn 36 s))) in
      match r with Some (Ok n) => Some n | _ => None end
  end.
(* uuid.py:80-113 *)
Definition uuid_from_string (a : uarg) : res (option Z) :=
  match a with
  | UNone => Ok None
  | UObj n => Ok (Some n)
  | UInt n => do u <- uuid_from_int n; Ok (Some u)
  | UStr s => Ok (uuid_from_str s)
  end.

(* uuid.py:141-159 *)
Definition uuid_as_int (a : uarg) : res (option Z) :=
  match a with
  | UNone => Ok None
  | UInt n => Ok (Some n)
  | UStr s => match uuid_from_str s with Some n => Ok (Some n) | None => Err ValueError end
  | UObj n => Ok (Some n)
  end.

(** big-endian bytes of a uuid (uuid.UUID.bytes), as integers 0..255 *)
Fixpoint bytes_fixed (k : nat) (n : Z) : list Z :=
  match k with O => [] | S k' => bytes_fixed k' (n / 256) ++ [n mod 256] end.
(* uuid.py:121-138 *)
Definition uuid_as_bytes (a : uarg) : res (option (list Z)) :=
  match a with
  | UNone => Ok None
  | UInt n => do u <- uuid_from_int n; Ok (Some (bytes_fixed 16 u))
  | UStr s => match uuid_from_str s with Some n => Ok (Some (bytes_fixed 16 n)) | None => Err AssertionError end
  | UObj n => Ok (Some (bytes_fixed 16 n))
  end.

(* uuid.py:162-185 *)
Definition matching_uuids (a b : uarg) : bool :=
  let norm x := match x with UStr s => match uuid_from_str s with Some n => UObj n | None => UNone end | _ => x end in
  match norm a, norm b with
  | UNone, _ | _, UNone => false
  | UObj m, UObj n | UObj m, UInt n | UInt m, UObj n | UInt m, UInt n => m =? n
  | _, _ => false   (* not reached: norm leaves no string *)
  end.

(* uuid.py:188-193 *)
Fixpoint uuid_in_list (u : uarg) (l : list uarg) : bool :=
  match l with
  | [] => false
  | x :: l' => if matching_uuids u x then true else uuid_in_list u l'
  end.

(* uuid.py:220-236 *)
Definition is_uuid (a : uarg) : bool :=
  match a with
  | UObj _ => true
  | UInt n => match uuid_from_int n with Ok _ => true | Err _ => false end
  | UNone => false
  | UStr [] => false
  | UStr (c :: t) => if chr_eqb c "_" then Nat.eqb (List.length (c :: t)) 37 else Nat.eqb (List.length (c :: t)) 36
  end.

(* uuid.py:47-62 in test mode: state is the latest integer *)
Definition new_uuid_test (latest : Z) : res (Z * Z) :=
  if (0 <=? latest + 1) && (latest + 1 <? uuid_bound) then Ok (latest + 1, latest + 1)
  else Err ValueError.   (* OverflowError from to_bytes *)

(** * Part names, xml_et.py *)
(* xml_et.py:439-452 with pretend_to_be_fesapi / use_fesapi_quirks as shipped
   (use_fesapi_quirks is True) *)
Definition part_name_for_object (obj_type : str) (u : Z) (prefixed : bool) (epc_subdir : option str) : res str :=
  do prefix <- (if prefixed then
                  match obj_type with
                  | [] => Err IndexError
                  | c :: _ => Ok (if chr_eqb c "/" then [] else L "/")
                  end
                else Ok []);
  let prefix := if startswith obj_type (L "obj_") then prefix else prefix ++ L "obj_" in
  let prefix := match epc_subdir with
                | None | Some [] => prefix
                | Some d => (if endswith d (L "/") then d else d ++ L "/") ++ prefix
                end in
  Ok (prefix ++ obj_type ++ L "_" ++ uuid_str u ++ L ".xml").

(* xml_et.py:421-436 *)
Definition uuid_in_part_name (p : str) : res (option Z) :=
  if str_eqb (last_n p 4) (L ".xml") && (40 <=? List.length p)%nat then
    do u <- UUID_of_hex (last_n_m p 40 4); Ok (Some u)
  else if str_eqb (last_n p 9) (L ".xml.rels") && (45 <=? List.length p)%nat then
    do u <- UUID_of_hex (last_n_m p 45 9); Ok (Some u)
  else Ok None.

(* xml_et.py:40-48 *)
Definition stripped_of_prefix (s : str) : str :=
  match rfind_chr "}" s with
  | Some p => from s (p + 1)
  | None => match rfind_chr ":" s with Some p => from s (p + 1) | None => s end
  end.

(* xml_et.py:455-468 *)
Definition rels_part_name_for_part (p : str) : option str :=
  let pn := stripped_of_prefix p in
  match pn with
  | [] => None
  | _ =>
      match rfind_chr "/" pn with
      | None => Some (L "_rels/" ++ pn ++ L ".rels")
      | Some O => Some (L "_rels" ++ pn ++ L ".rels")
      | Some k => if Nat.eqb k (List.length pn - 1) then None
                  else Some (upto pn (k + 1) ++ L "_rels" ++ from pn k ++ L ".rels")
      end
  end.
