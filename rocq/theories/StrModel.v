(** StrModel.v: the Python [str] operations used by several resqpy modules, on
    strings seen as lists of (8-bit) characters. *)
From Verif Require Import Base TextModel.

Definition str := list ascii.
(** String literal. *)
Definition L (s : string) : str := list_ascii_of_string s.

Definition chr_eqb (a b : ascii) : bool := Ascii.eqb a b.
(** [a == b] *)
Fixpoint str_eqb (a b : str) : bool :=
  match a, b with
  | [], [] => true
  | x :: a', y :: b' => chr_eqb x y && str_eqb a' b'
  | _, _ => false
  end.
(** [s.startswith(p)] *)
Fixpoint startswith (s p : str) {struct p} : bool :=
  match p, s with
  | [], _ => true
  | x :: p', y :: s' => chr_eqb x y && startswith s' p'
  | _ :: _, [] => false
  end.
(** [s.endswith(p)] *)
Definition endswith (s p : str) : bool := startswith (rev s) (rev p).

(** [s[a:]], [s[:b]] for non-negative bounds, and [s[-n:]], [s[-n:-m]]. *)
Definition from (s : str) (a : nat) : str := skipn a s.
Definition upto (s : str) (b : nat) : str := firstn b s.
Definition last_n (s : str) (n : nat) : str := skipn (List.length s - n) s.
Definition last_n_m (s : str) (n m : nat) : str := firstn (n - m) (last_n s n).

(** [s.rfind(c)] for a single character: None for -1. *)
Fixpoint find_chr (c : ascii) (s : str) : option nat :=
  match s with
  | [] => None
  | x :: s' => if chr_eqb x c then Some 0%nat else option_map S (find_chr c s')
  end.
Definition rfind_chr (c : ascii) (s : str) : option nat :=
  match find_chr c (rev s) with
  | None => None
  | Some k => Some (List.length s - 1 - k)%nat
  end.

(** [s.replace(pat, rep)] for a non-empty pattern: leftmost, non-overlapping.
    [skip] counts pattern characters still to be dropped. *)
Fixpoint replace_aux (pat rep : str) (s : str) (skip : nat) : str :=
  match s with
  | [] => []
  | c :: s' =>
      match skip with
      | S k => replace_aux pat rep s' k
      | O => if startswith s pat then rep ++ replace_aux pat rep s' (List.length pat - 1)
             else c :: replace_aux pat rep s' 0
      end
  end.
Definition replace (s pat rep : str) : str := replace_aux pat rep s 0.

(** [s.lstrip(p)], [s.rstrip(p)], [s.strip(p)] for a character predicate. *)
Fixpoint lstrip (p : ascii -> bool) (s : str) : str :=
  match s with
  | [] => []
  | c :: s' => if p c then lstrip p s' else s
  end.
Definition rstrip (p : ascii -> bool) (s : str) : str := rev (lstrip p (rev s)).
Definition strip (p : ascii -> bool) (s : str) : str := rstrip p (lstrip p s).

(** [c.lower()] on ASCII. *)
Definition lower_chr (c : ascii) : ascii :=
  let n := N_of_ascii c in
  if ((65 <=? n) && (n <=? 90))%N then ascii_of_N (n + 32) else c.
Definition lower (s : str) : str := map lower_chr s.

(** [p in s] for strings *)
Fixpoint contains (s p : str) : bool :=
  startswith s p || match s with [] => false | _ :: s' => contains s' p end.
(** [s.upper()] for ASCII text *)
Definition upper_chr (c : ascii) : ascii :=
  let n := N_of_ascii c in if ((97 <=? n) && (n <=? 122))%N then ascii_of_N (n - 32) else c.
Definition upper (s : str) : str := map upper_chr s.
Definition is_upper_chr (c : ascii) : bool := let n := N_of_ascii c in ((65 <=? n) && (n <=? 90))%N.
(** ASCII white space, as used by [s.strip()] *)
Definition is_space (c : ascii) : bool :=
  let n := N_of_ascii c in (((9 <=? n) && (n <=? 13)) || ((28 <=? n) && (n <=? 32)))%N.
