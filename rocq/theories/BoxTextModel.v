(** BoxTextModel.v: text forms of boxes, /repo/resqpy/olio/box_utilities.py. *)
From Verif Require Import Base BoxModel TextModel.
Open Scope string_scope.

(* box_utilities.py:68-84 *)
Definition spaced_string_iijjkk1 (b : box) (sep : string) : string :=
  str_of_int (ti (lo b) + 1) ++ sep ++ str_of_int (ti (hi b) + 1) ++ "  " ++
  str_of_int (tj (lo b) + 1) ++ sep ++ str_of_int (tj (hi b) + 1) ++ "  " ++
  str_of_int (tk (lo b) + 1) ++ sep ++ str_of_int (tk (hi b) + 1).

(* box_utilities.py:51-65 *)
Definition string_iijjkk1 (b : box) : string :=
  "[" ++ str_of_int (ti (lo b) + 1) ++ ":" ++ str_of_int (ti (hi b) + 1) ++ ", " ++
  str_of_int (tj (lo b) + 1) ++ ":" ++ str_of_int (tj (hi b) + 1) ++ ", " ++
  str_of_int (tk (lo b) + 1) ++ ":" ++ str_of_int (tk (hi b) + 1) ++ "]".

(* box_utilities.py:87-113: conversions happen in the order k min, k max, j min,
   j max, i min, i max *)
Definition box_from_words (w : list string) : res box :=
  match w with
  | w0 :: w1 :: w2 :: w3 :: w4 :: w5 :: _ =>
      do k0 <- int_of_str w4; do k1 <- int_of_str w5;
      do j0 <- int_of_str w2; do j1 <- int_of_str w3;
      do i0 <- int_of_str w0; do i1 <- int_of_str w1;
      let b := Box (T (k0 - 1) (j0 - 1) (i0 - 1)) (T (k1 - 1) (j1 - 1) (i1 - 1)) in
      do _ <- assert_ (forall3 (fun d => (get (lo b) d <=? get (hi b) d)%Z));
      Ok b
  | _ => Err AssertionError
  end.
