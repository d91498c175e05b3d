(** TextModel.v: Python text primitives used by several modules: [str(int)],
    [int(str)] and [str.split()].  Characters are 8-bit. *)
From Verif Require Import Base.
From Coq Require DecimalString DecimalZ.
Import DecimalString.

(** [str(z)] for a Python int. *)
Definition str_of_int (z : Z) : string := NilZero.string_of_int (Z.to_int z).

(** [int(s)]; simplification: only an optional minus sign followed by decimal
    digits is accepted (Python also allows blanks, '+' and '_'); anything else
    is ValueError. *)
Definition int_of_str (s : string) : res Z :=
  match NilZero.int_of_string s with
  | Some i => Ok (Z.of_int i)
  | None => Err ValueError
  end.

(** ASCII white space as used by [str.split()] / [str.strip()]. *)
Definition is_ws (c : ascii) : bool :=
  let n := N_of_ascii c in
  ((9 <=? n) && (n <=? 13) || (n =? 32) || ((28 <=? n) && (n <=? 31)))%N.

(** [s.split()]: maximal runs of non white space characters. [cur] accumulates
    the current word in reverse. *)
Fixpoint split_aux (s : list ascii) (cur : list ascii) : list (list ascii) :=
  match s with
  | [] => match cur with [] => [] | _ => [rev cur] end
  | c :: s' =>
      if is_ws c
      then match cur with [] => split_aux s' [] | _ => rev cur :: split_aux s' [] end
      else split_aux s' (c :: cur)
  end.
Definition split_ws (s : string) : list string :=
  map string_of_list_ascii (split_aux (list_ascii_of_string s) []).
