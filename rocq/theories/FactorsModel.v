(** FactorsModel.v: resqpy/olio/factors.py. *)
From Verif Require Import Base PySort.

(* factors.py:4-19; fuel bounds the while loop *)
Fixpoint factorize_loop (fuel : nat) (n i : Z) (acc : list Z) : res (list Z) :=
  match fuel with
  | O => Err DivergesError
  | S fuel =>
      let q := n / i in let r := n mod i in
      if negb (r =? 0) then
        (if n <? i + 1 then Ok acc else factorize_loop fuel n (i + 1) acc)
      else
        let acc := acc ++ [i] in
        if q <? i then Ok acc else factorize_loop fuel q i acc
  end.
Definition factorize (fuel : nat) (n : Z) : res (list Z) := factorize_loop fuel n 2 [].

(* factors.py:22-33 *)
Fixpoint combinatorial (numbers : list Z) : list Z :=
  match numbers with
  | [] => []
  | head :: rest =>
      let tail := combinatorial rest in
      isort Z.leb (head :: flat_map (fun o => (if o =? head then [] else [o]) ++ [head * o]) tail)
  end.

(* factors.py:36-40; the iteration order of the set does not matter as the list is sorted *)
Definition all_factors_from_primes (primes : list Z) : list Z :=
  isort Z.leb (nodup Z.eq_dec (combinatorial primes) ++ [1]).

(* factors.py:43-46 *)
Definition all_factors (fuel : nat) (n : Z) : res (list Z) :=
  do primes <- factorize fuel n; Ok (all_factors_from_primes primes).

(* factors.py:49-53; list.remove raises ValueError when the element is absent *)
Fixpoint list_remove (l : list Z) (e : Z) : option (list Z) :=
  match l with
  | [] => None
  | x :: l' => if x =? e then Some l' else option_map (cons x) (list_remove l' e)
  end.
Fixpoint remove_subset (primary subset : list Z) : list Z * res unit :=
  match subset with
  | [] => (primary, Ok tt)
  | e :: s => match list_remove primary e with
              | None => (primary, Err ValueError)
              | Some p => remove_subset p s
              end
  end.
