(** AsciiModel.v: writing arrays to text files, reading them back, and searching text files for
    keywords.  Models resqpy/olio/write_data.py (write_array_to_ascii_file),
    resqpy/olio/load_data.py (load_array_from_ascii_file) and resqpy/olio/keyword_files.py.
    Text files hold 8-bit characters and only '\n' ends a line (Python also translates '\r'). *)
From Verif Require Import QBase TextModel StrModel NArray.
Open Scope Z_scope.

Definition nl : ascii := "010"%char.
Definition tab : ascii := "009"%char.
Definition sp : ascii := " "%char.
Definition words (s : str) : list str := split_aux s [].   (* s.split() *)

(** ** keyword_files.py *)

(** An open text file, as far as it has not been read: its remaining lines, each with the '\n'
    that ends it.  [tell] and [seek] save and restore this value. *)
Definition file := list str.
Fixpoint lines_aux (s : str) (cur : str) : file :=
  match s with
  | [] => match cur with [] => [] | _ => [rev cur] end
  | c :: s' => if chr_eqb c nl then rev (c :: cur) :: lines_aux s' [] else lines_aux s' (c :: cur)
  end.
Definition lines (s : str) : file := lines_aux s [].

(** [words[0].upper() == keyword.upper()] for a line with at least one word *)
Definition starts (keyword line : str) : bool :=
  match words line with [] => false | w :: _ => str_eqb (upper w) (upper keyword) end.

(** keyword_files.py:32-49; max_lines counts down from the given number *)
Fixpoint find_keyword_aux (f : file) (keyword : str) (max_lines : option Z) : option file :=
  match max_lines with
  | Some m => if m <=? 0 then None
              else match f with
                   | [] => None
                   | l :: f' => if starts keyword l then Some f else find_keyword_aux f' keyword (Some (m - 1))
                   end
  | None => match f with
            | [] => None
            | l :: f' => if starts keyword l then Some f else find_keyword_aux f' keyword None
            end
  end.
Definition find_keyword (f : file) (keyword : str) (max_lines : option Z) : file * bool :=
  match find_keyword_aux f keyword max_lines with Some f' => (f', true) | None => (f, false) end.

(** a line that skip_blank_lines_and_comments passes over, keyword_files.py:59-65; comparing the
    first character with comment_char of more than one character is always false *)
Definition comment_line (comment_char : str) (skip_c_space : bool) (line : str) : bool :=
  match words line with
  | (c :: w) :: _ => str_eqb [c] comment_char
                     || (skip_c_space && match w with [] => chr_eqb c "C" || chr_eqb c "c" | _ => false end)
  | _ => false
  end.
Definition blank (line : str) : bool := match words line with [] => true | _ => false end.
(** keyword_files.py:52-67 *)
Fixpoint skip_blank_lines_and_comments (f : file) (comment_char : str) (skip_c_space : bool) : file :=
  match f with
  | [] => []
  | l :: f' => if blank l || comment_line comment_char skip_c_space l
               then skip_blank_lines_and_comments f' comment_char skip_c_space else f
  end.
(** keyword_files.py:70-84 *)
Fixpoint skip_comments (f : file) (comment_char : str) (skip_c_space : bool) : file :=
  match f with
  | [] => []
  | l :: f' => if comment_line comment_char skip_c_space l then skip_comments f' comment_char skip_c_space else f
  end.
(** keyword_files.py:109-123: at the end of the file the position is left there *)
Fixpoint find_keyword_without_passing (f : file) (keyword no_pass : str) : file * bool :=
  match f with
  | [] => ([], false)
  | l :: f' => if starts keyword l then (f, true) else if starts no_pass l then (f, false)
               else find_keyword_without_passing f' keyword no_pass
  end.
(** keyword_files.py:126-138: also the lines written to the other file *)
Fixpoint find_keyword_with_copy (f : file) (keyword : str) : file * list str * bool :=
  match f with
  | [] => ([], [], false)
  | l :: f' => if starts keyword l then (f, [], true)
               else let '(r, out, b) := find_keyword_with_copy f' keyword in (r, l :: out, b)
  end.
(** keyword_files.py:141-153; at the end of the file find_keyword puts the position back to
    where its search began.  The second word of the line is compared. *)
Definition second_word (line : str) : option str := match words line with _ :: w :: _ => Some w | _ => None end.
Fixpoint find_keyword_pair_aux (fuel : nat) (f : file) (primary secondary : str) : file * bool :=
  match fuel with
  | O => (f, false)
  | S n =>
    match find_keyword_aux f primary None with
    | None => (f, false)
    | Some [] => ([], false)
    | Some (l :: f') =>
      match second_word l with
      | Some w => if str_eqb (upper w) (upper secondary) then (l :: f', true) else find_keyword_pair_aux n f' primary secondary
      | None => find_keyword_pair_aux n f' primary secondary
      end
    end
  end.
Definition find_keyword_pair (f : file) (primary secondary : str) : file * bool := find_keyword_pair_aux (S (List.length f)) f primary secondary.
(** keyword_files.py:174-190: the position afterwards and the answer *)
Fixpoint specific_keyword_next_aux (f : file) (saved : file) (keyword : str) (skip_blank_lines : bool) (comment_char : str) : file * bool :=
  match f with
  | [] => (if skip_blank_lines then [] else saved, false)
  | l :: f' => let here := if skip_blank_lines then f else saved in
    match words l with
    | [] => specific_keyword_next_aux f' here keyword skip_blank_lines comment_char
    | w :: _ => if str_eqb (firstn 1 w) comment_char then specific_keyword_next_aux f' here keyword skip_blank_lines comment_char
                else (here, str_eqb (upper w) (upper keyword))
    end
  end.
Definition specific_keyword_next (f : file) (keyword : str) (skip_blank_lines : bool) (comment_char : str) : file * bool :=
  specific_keyword_next_aux f f keyword skip_blank_lines comment_char.
(** keyword_files.py:87-100; comment_char is one character here *)
Definition split_trailing_comment (line : str) (comment_char : ascii) : str * str :=
  let line := rstrip (fun c => chr_eqb c nl || chr_eqb c "013") line in
  match find_chr comment_char line with
  | Some p => (firstn p line, if (p <? List.length line - 2)%nat then skipn (p + 1) line else [])
  | None => (line, [])
  end.
(** keyword_files.py:227-242 *)
Fixpoint guess_aux (n : nat) (f : file) : option str :=
  match n, f with
  | S n', l :: f' =>
    match words l with
    | w :: _ => if existsb (str_eqb w) [L "!"; L "C"; L "#"; L "--"] then Some w else guess_aux n' f'
    | [] => guess_aux n' f'
    end
  | _, _ => None
  end.
Definition guess_comment_char (f : file) : option str := guess_aux 10 f.

(** ** write_data.py:43-103, text part, for a new file.  fmt turns a value into text; the
    swallowing of exceptions is left out as nothing here can fail. *)
Record wopts := WO { w_headers : bool; w_keyword : option str; w_columns : nat; w_i_block : bool; w_j_block : bool; w_space : bool }.
Definition num (n : nat) : str := L (str_of_int (Z.of_nat n)).
Definition header_text (o : wopts) (nk nj ni : nat) : str :=
  if w_headers o then
    L "! Data written by write_array_to_ascii_file() python function" ++ [nl]
    ++ (L "! Extent of array is: [" ++ num ni ++ L ", " ++ num nj ++ L ", " ++ num nk ++ L "]") ++ [nl]
    ++ (L "! Maximum " ++ num (w_columns o) ++ L " data items per line") ++ [nl]
  else [].
Definition keyword_text (o : wopts) : str := match w_keyword o with Some k => k ++ [nl] | None => [] end.
Section Write.
Context {A : Type} (fmt : A -> str).
Definition cell_text (o : wopts) (i : nat) (v : A) : str :=
  (if (i mod w_columns o =? 0)%nat then [nl] else if w_space o then [sp] else [tab]) ++ fmt v.
Definition row_text (o : wopts) (ni : nat) (row : nat -> A) : str :=
  flat_map (fun i => cell_text o i (row i)) (seq 0 ni) ++ (if w_i_block o then [nl] else []).
Definition layer_text (o : wopts) (nj ni : nat) (layer : nat -> nat -> A) : str :=
  flat_map (fun j => row_text o ni (layer j)) (seq 0 nj) ++ (if w_j_block o then [nl] else []).
Definition body_text (o : wopts) (nk nj ni : nat) (a : nat -> nat -> nat -> A) : str :=
  flat_map (fun k => layer_text o nj ni (a k)) (seq 0 nk) ++ (if w_i_block o || w_j_block o then [] else [nl]).
Definition write_array (o : wopts) (nk nj ni : nat) (a : nat -> nat -> nat -> A) : res str :=
  do _ <- assert_ (0 <? w_columns o)%nat;
  Ok (header_text o nk nj ni ++ keyword_text o ++ body_text o nk nj ni a).
End Write.

(** ** load_data.py:281-404 without data_free_of_comments *)

(** load_data.py:336-346: everything from a comment character to the end of the line is made
    blank; [inside] tells that a comment is being blanked *)
Fixpoint blank_out (comment_char : str) (s : str) (inside : bool) : str :=
  match s with
  | [] => []
  | c :: s' =>
    if chr_eqb c nl then c :: blank_out comment_char s' false
    else if inside || startswith s comment_char then sp :: blank_out comment_char s' true
    else c :: blank_out comment_char s' false
  end.
Section Load.
Context {A : Type} (parse : str -> res A).
Fixpoint map_res (l : list str) : res (list A) :=
  match l with [] => Ok [] | x :: r => do a <- parse x; do b <- map_res r; Ok (a :: b) end.
(** [np.fromstring(text, dtype, count, sep = ' ')]: the first count numbers, or all of them for
    a negative count.  Too few numbers or text that is not a number is an error here; numpy
    only gives a warning and returns an array with undefined elements. *)
Definition fromstring (count : Z) (text : str) : res (list A) :=
  let w := words text in
  if count <? 0 then map_res w
  else if (List.length w <? Z.to_nat count)%nat then Err ValueError else map_res (firstn (Z.to_nat count) w).
Definition load_array (text : str) (extent : option (list nat)) (keyword : option str) (max_lines : option Z)
    (comment_char : option str) (skip_c_space : bool) : res (narr A) :=
  let f := lines text in
  let cc := match comment_char with
            | Some ((_ :: _) as c) => c
            | _ => match guess_comment_char f with Some c => c | None => L "!" end
            end in
  let f := match keyword with
           | Some ((_ :: _) as k) => let '(f', found) := find_keyword f k max_lines in if found then tl f' else f'
           | _ => f
           end in
  let f := skip_blank_lines_and_comments f cc skip_c_space in
  let count := match extent with None => -1 | Some e => Z.of_nat (prod e) end in
  do r <- fromstring count (blank_out cc (List.concat f) false);
  match extent with
  | None => Ok (NArr [List.length r] r)
  | Some e => reshape (NArr [List.length r] r) e
  end.
End Load.

(** ** values as text *)
(** int: [str(v)] and the number read back *)
Definition fmt_int (z : Z) : str := L (str_of_int z).
Definition parse_int (s : str) : res Z := int_of_str (string_of_list_ascii s).
(** bool: '1' or '0'; read as int and compared with 0 (load_data.py:401-402) *)
Definition fmt_bool (b : bool) : str := if b then L "1" else L "0".
Definition load_bool (text : str) extent keyword max_lines comment_char skip_c_space : res (narr bool) :=
  do r <- load_array parse_int text extent keyword max_lines comment_char skip_c_space;
  Ok (amap (fun z => negb (z =? 0)) r).
(** real: '{0:.df}'.format(v): the exact value rounded half to even at d decimals *)
Definition round_even (q : Q) : Z :=
  let f := Qfloor q in let r := (q - inject_Z f)%Q in
  if Qltb r (1 # 2) then f else if Qltb (1 # 2) r then f + 1 else if Z.even f then f else f + 1.
Definition digit (z : Z) : ascii := ascii_of_N (Z.to_N (48 + z)).
Fixpoint digits (d : nat) (z : Z) : str := match d with O => [] | S d' => digits d' (z / 10) ++ [digit (z mod 10)] end.
Definition fmt_real (d : nat) (q : Q) : str :=
  let m := round_even (Qabs q * inject_Z (10 ^ Z.of_nat d))%Q in
  (if Qltb q 0%Q then L "-" else [])
  ++ L (str_of_int (m / 10 ^ Z.of_nat d))
  ++ match d with O => [] | _ => L "." ++ digits d (m mod 10 ^ Z.of_nat d) end.
(** the number read back: optional minus, digits, and optionally a point and digits (the C
    library accepts more) *)
Definition digit_value (c : ascii) : res Z := let z := Z.of_N (N_of_ascii c) - 48 in if (0 <=? z) && (z <=? 9) then Ok z else Err ValueError.
Fixpoint digits_value (s : str) (acc : Z) : res Z :=
  match s with [] => Ok acc | c :: s' => do d <- digit_value c; digits_value s' (acc * 10 + d) end.
Definition parse_unsigned (s : str) : res Q :=
  match find_chr "." s with
  | None => do z <- parse_int s; Ok (inject_Z z)
  | Some p => do z <- parse_int (firstn p s); do f <- digits_value (skipn (p + 1) s) 0;
              Ok (inject_Z z + inject_Z f / inject_Z (10 ^ Z.of_nat (List.length (skipn (p + 1) s))))%Q
  end.
Definition parse_real (s : str) : res Q :=
  match s with
  | [] => Err ValueError
  | c :: s' => if chr_eqb c "-" then (do q <- parse_unsigned s'; Ok (- q)%Q) else parse_unsigned s
  end.
