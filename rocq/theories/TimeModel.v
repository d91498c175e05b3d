(** TimeModel.v: resqpy/time_series: TimeSeries, GeologicTimeSeries, TimeDuration and the
    time stamp functions.

    A datetime is the number of microseconds since 0001-01-01T00:00:00; a timedelta is a
    number of microseconds.  datetime.fromisoformat is modelled for the forms named in the
    class documentation (date, date and time to the hour, minute, second, milli- or
    microsecond, no time zone); other forms that some Python versions accept are refused.
    datetime's OverflowError is modelled as ValueError. *)
From Verif Require Import Base TextModel StrModel PySort.

(** * Python's datetime *)
Definition leap (y : Z) : bool := (y mod 4 =? 0) && (negb (y mod 100 =? 0) || (y mod 400 =? 0)).
Definition year_len (y : Z) : Z := if leap y then 366 else 365.
Definition month_len (y m : Z) : Z :=
  if m =? 2 then (if leap y then 29 else 28)
  else if (m =? 4) || (m =? 6) || (m =? 9) || (m =? 11) then 30 else 31.
(** days in the years before y *)
Definition year_start (y : Z) : Z := 365 * (y - 1) + (y - 1) / 4 - (y - 1) / 100 + (y - 1) / 400.
(** days in the months before m of year y *)
Definition month_start (y m : Z) : Z := fold_right Z.add 0 (map (fun i => month_len y i) (zrange2 1 m)).
Definition day_number (y m d : Z) : Z := year_start y + month_start y m + (d - 1).
Definition valid_date (y m d : Z) : bool :=
  (1 <=? y) && (y <=? 9999) && (1 <=? m) && (m <=? 12) && (1 <=? d) && (d <=? month_len y m).

(** the date with a given day number, by counting *)
Fixpoint find_year (fuel : nat) (y n : Z) : Z * Z :=
  match fuel with
  | O => (y, n)
  | S f => if n <? year_len y then (y, n) else find_year f (y + 1) (n - year_len y)
  end.
Fixpoint find_month (fuel : nat) (y m n : Z) : Z * Z :=
  match fuel with
  | O => (m, n)
  | S f => if n <? month_len y m then (m, n) else find_month f y (m + 1) (n - month_len y m)
  end.
Definition date_of (n : Z) : Z * Z * Z :=
  let '(y, r) := find_year (Z.to_nat 9999) 1 n in let '(m, d) := find_month 12 y 1 r in (y, m, d + 1).

Definition day_us : Z := 86400000000.
Definition max_moment : Z := year_start 10000 * day_us.
Definition moment := Z.
Definition moment_of (y m d h mi s us : Z) : moment :=
  day_number y m d * day_us + ((h * 60 + mi) * 60 + s) * 1000000 + us.

(** fixed width decimal text *)
Definition dec_digit (d : Z) : ascii := ascii_of_N (Z.to_N (48 + d)).
Fixpoint dec (k : nat) (n : Z) : str :=
  match k with O => [] | S k' => dec k' (n / 10) ++ [dec_digit (n mod 10)] end.
Definition digit_val (c : ascii) : option Z :=
  let n := Z.of_N (N_of_ascii c) in if (48 <=? n) && (n <=? 57) then Some (n - 48) else None.
Fixpoint undec (acc : Z) (s : str) : option Z :=
  match s with
  | [] => Some acc
  | c :: s' => match digit_val c with Some d => undec (10 * acc + d) s' | None => None end
  end.

(** [dt.isoformat()] *)
Definition iso_date (n : Z) : str :=
  let '(y, m, d) := date_of n in dec 4 y ++ L "-" ++ dec 2 m ++ L "-" ++ dec 2 d.
Definition iso_time (u : Z) : str :=
  let s := u / 1000000 in
  dec 2 (s / 3600) ++ L ":" ++ dec 2 (s / 60 mod 60) ++ L ":" ++ dec 2 (s mod 60) ++
  (if u mod 1000000 =? 0 then [] else L "." ++ dec 6 (u mod 1000000)).
Definition isoformat (t : moment) : str := iso_date (t / day_us) ++ L "T" ++ iso_time (t mod day_us).

(** [datetime.fromisoformat(s)] *)
Definition obind {A B} (o : option A) (f : A -> option B) : option B := match o with Some a => f a | None => None end.
Notation "'let?' x := o 'in' f" := (obind o (fun x => f)) (at level 200, x pattern, right associativity).
(** [k] digits, then the separator text; the value and what follows *)
Definition field (k : nat) (sep : str) (s : str) : option (Z * str) :=
  if (List.length s <? k)%nat then None else
  match undec 0 (firstn k s) with
  | None => None
  | Some v => let r := skipn k s in if startswith r sep then Some (v, skipn (List.length sep) r) else None
  end.
Definition parse_time (s : str) : option Z :=
  let n := List.length s in
  if (n =? 2)%nat then
    let? (h, _) := field 2 [] s in if h <? 24 then Some (h * 3600000000) else None
  else if (n =? 5)%nat then
    let? (h, r) := field 2 (L ":") s in let? (mi, _) := field 2 [] r in
    if (h <? 24) && (mi <? 60) then Some ((h * 60 + mi) * 60000000) else None
  else if (n =? 8)%nat then
    let? (h, r) := field 2 (L ":") s in let? (mi, r) := field 2 (L ":") r in let? (se, _) := field 2 [] r in
    if (h <? 24) && (mi <? 60) && (se <? 60) then Some (((h * 60 + mi) * 60 + se) * 1000000) else None
  else if (n =? 12)%nat || (n =? 15)%nat then
    let k := (n - 9)%nat in
    let? (h, r) := field 2 (L ":") s in let? (mi, r) := field 2 (L ":") r in let? (se, r) := field 2 (L ".") r in
    let? (f, _) := field k [] r in
    if (h <? 24) && (mi <? 60) && (se <? 60) then
      Some (((h * 60 + mi) * 60 + se) * 1000000 + (if (k =? 3)%nat then f * 1000 else f)) else None
  else None.
Definition fromisoformat (s : str) : option moment :=
  let? (y, r) := field 4 (L "-") s in let? (m, r) := field 2 (L "-") r in let? (d, r) := field 2 [] r in
  if negb (valid_date y m d) then None else
  match r with
  | [] => Some (day_number y m d * day_us)
  | _ :: tm => let? u := parse_time tm in Some (day_number y m d * day_us + u)
  end.

(** * resqpy *)
(* the idiom of resqpy/time_series/_time_series.py:233-234 and _time_duration.py:31-34, 52-53, 62-63:
   drop one trailing Z *)
Definition strip_z (s : str) : str := if endswith s (L "Z") then removelast s else s.
(* _time_series.py:231-235 *)
Definition check_timestamp (s : str) : res unit :=
  match fromisoformat (strip_z s) with Some _ => Ok tt | None => Err ValueError end.

(* _time_duration.py:28-37: the duration between two stamps *)
Definition duration_between (a b : str) : res Z :=
  match fromisoformat (strip_z a), fromisoformat (strip_z b) with
  | Some x, Some y => Ok (y - x)
  | _, _ => Err ValueError
  end.
(* _time_duration.py:39-47, integer arguments *)
Definition duration_of (days hours minutes seconds : Z) : Z :=
  days * day_us + ((hours * 60 + minutes) * 60 + seconds) * 1000000.
(** datetime + timedelta, refused outside years 1 to 9999 *)
Definition shift (t : moment) (us : Z) : res moment :=
  if (0 <=? t + us) && (t + us <? max_moment) then Ok (t + us) else Err ValueError.
(* _time_duration.py:49-57; check_timestamp is applied to the stripped text, strips again *)
Definition timestamp_after_duration (us : Z) (s : str) : res str :=
  let s := strip_z s in
  do _ <- check_timestamp s;
  match fromisoformat s with
  | None => Err ValueError
  | Some t => do r <- shift t us; Ok (isoformat r ++ L "Z")
  end.
(* _time_duration.py:59-67 *)
Definition timestamp_before_duration (us : Z) (s : str) : res str := timestamp_after_duration (- us) s.

(** [a < b] between str *)
Definition str_lt (a b : str) : bool := negb (str_le b a).

(** A human time series is its list of time stamps. *)
Definition series := list str.
(* _any_time_series.py:73-99, human timeframe *)
Definition timestamp (l : series) (i : Z) : option str :=
  let n := Z.of_nat (List.length l) in
  if (- n <=? i) && (i <? n) then nth_error l (Z.to_nat (if i <? 0 then n + i else i)) else None.
(* _any_time_series.py:109-114 *)
Definition last_timestamp (l : series) : option str := match l with [] => None | _ => timestamp l (-1) end.
(* _any_time_series.py:116-129 *)
Fixpoint index_for_timestamp_from (k : nat) (l : series) (s : str) : option nat :=
  match l with
  | [] => None
  | x :: l' => if str_eqb x s then Some k else index_for_timestamp_from (S k) l' s
  end.
Definition index_for_timestamp (l : series) (s : str) : option nat := index_for_timestamp_from 0 l s.

(* _time_series.py:106-117: [i] is one more than the loop index *)
Fixpoint not_later_loop (l : series) (s : str) (i : nat) : option nat :=
  match i with
  | O => None
  | S j => match nth_error l j with
           | Some x => if str_lt s x then not_later_loop l s j else Some j
           | None => None
           end
  end.
Definition not_later_than (l : series) (s : str) : res (option nat) :=
  do _ <- check_timestamp s; Ok (not_later_loop l s (List.length l)).
(* _time_series.py:119-130 *)
Fixpoint not_earlier_loop (k : nat) (l : series) (s : str) : option nat :=
  match l with
  | [] => None
  | x :: l' => if str_lt x s then not_earlier_loop (S k) l' s else Some k
  end.
Definition not_earlier_than (l : series) (s : str) : res (option nat) :=
  do _ <- check_timestamp s; Ok (not_earlier_loop 0 l s).
(* _time_series.py:132-148; [if not before] holds for None and for 0 *)
Definition closest_to (l : series) (s : str) : res (option nat) :=
  do _ <- check_timestamp s;
  match l with
  | [] => Ok None
  | _ =>
      do b <- not_later_than l s;
      match b with
      | None | Some O => Ok (Some 0%nat)
      | Some before =>
          let here := nth before l [] in
          if (before =? List.length l - 1)%nat || str_eqb here s then Ok (Some before)
          else
            do early <- duration_between here s;
            do later <- duration_between s (nth (S before) l []);
            Ok (Some (if early <=? later then before else S before))
      end
  end.

(* _time_series.py:150-158 *)
Definition duration_between_timestamps (l : series) (i j : Z) : res (option Z) :=
  if (i <? 0) || (Z.of_nat (List.length l) <=? j) || (j <? i) then Ok None
  else do d <- duration_between (nth (Z.to_nat i) l []) (nth (Z.to_nat j) l []); Ok (Some d).
(* _time_series.py:160-165; timedelta.days is the floor *)
Definition days_between_timestamps (l : series) (i j : Z) : res (option Z) :=
  do d <- duration_between_timestamps l i j; Ok (option_map (fun d => d / day_us) d).
(* _time_series.py:167-174 *)
Definition duration_since_start (l : series) (i : Z) : res (option Z) :=
  if (i <? 0) || (Z.of_nat (List.length l) <=? i) then Ok None else duration_between_timestamps l 0 i.
(* _time_series.py:180-187 *)
Definition step_duration (l : series) (i : Z) : res (option Z) :=
  if (i <? 1) || (Z.of_nat (List.length l) <=? i) then Ok None else duration_between_timestamps l (i - 1) i.

(** [l.insert(k, x)] for 0 <= k <= len(l) *)
Definition insert_at (l : series) (k : nat) (x : str) : series := firstn k l ++ x :: skipn k l.
(* _time_series.py:198-213 *)
Definition add_timestamp (l : series) (s : str) (allow_insertion : bool) : res series :=
  do _ <- check_timestamp s;
  if allow_insertion then
    do i <- not_later_than l s;
    Ok (insert_at l (match i with None => O | Some i => S i end) s)
  else
    match last_timestamp l with
    | Some last => do _ <- assert_ (str_lt last s); Ok (l ++ [s])
    | None => Ok (l ++ [s])
    end.
(* _time_series.py:215-219; timedelta.days >= 0 *)
Definition extend_by_duration (l : series) (us : Z) : res series :=
  do _ <- assert_ (0 <=? us / day_us);
  match last_timestamp l with
  | None => Err AssertionError
  | Some last => do s <- timestamp_after_duration us last; Ok (l ++ [s])
  end.
(* _time_series.py:221-224 *)
Definition extend_by_days (l : series) (days : Z) : res series := extend_by_duration l (duration_of days 0 0 0).
(* for _ in range(n): self.extend_by_days(days) *)
Fixpoint extend_n (n : nat) (days : Z) (l : series) : res series :=
  match n with O => Ok l | S n' => do l' <- extend_by_days l days; extend_n n' days l' end.
(* _time_series.py:69-83 with a first time stamp; None counts as 0 *)
Definition new_series (first : str) (daily monthly quarterly yearly : nat) : res series :=
  do _ <- check_timestamp first;
  do l <- extend_n daily 1 [first];
  do l <- extend_n monthly 30 l;
  do l <- extend_n quarterly 90 l;
  extend_n yearly 365 l.

(* _time_series.py:92-104 for two series with different uuids; the length test is
   _any_time_series.py:56-57 *)
Fixpoint within_tolerance (tol : Z) (a b : series) : res bool :=
  match a, b with
  | x :: a', y :: b' =>
      do d <- duration_between x y;
      if tol <? Z.abs d then Ok false else within_tolerance tol a' b'
  | _, _ => Ok true
  end.
Definition is_equivalent (a b : series) (tol_seconds : Z) : res bool :=
  if negb (List.length a =? List.length b)%nat then Ok false
  else within_tolerance (tol_seconds * 1000000) a b.

(* _functions.py:17-29; a negative index counts from the end, out of range is IndexError *)
Definition py_index {A} (l : list A) (i : Z) : res A :=
  let n := Z.of_nat (List.length l) in
  if (- n <=? i) && (i <? n) then
    match nth_error l (Z.to_nat (if i <? 0 then n + i else i)) with Some x => Ok x | None => Err IndexError end
  else Err IndexError.
Fixpoint pick {A} (l : list A) (is_ : list Z) : res (list A) :=
  match is_ with [] => Ok [] | i :: r => do x <- py_index l i; do xs <- pick l r; Ok (x :: xs) end.
Definition selected_time_series {A} (l : list A) (indices : list Z) : res (list A) := pick l (isort Z.leb indices).

(* _functions.py:45-56 for a str *)
Definition cleaned_timestamp (s : str) : res str :=
  do _ <- check_timestamp s;
  if (List.length s <? 19)%nat || str_eqb (firstn 8 (skipn 11 s)) (L "00:00:00") then Ok (firstn 10 s)
  else Ok (firstn 10 s ++ L "T" ++ firstn 8 (skipn 11 s) ++ L "Z").
(* _functions.py:32-42 for a str *)
Definition simplified_timestamp (s : str) : res str :=
  do s <- cleaned_timestamp s;
  let s := if (10 <? List.length s)%nat then firstn 10 s ++ L " " ++ skipn 11 s else s in
  Ok (firstn 19 s).
(* _functions.py:59-84 for a list of str *)
Fixpoint add_cleaned (l : series) (raw : list str) : res series :=
  match raw with
  | [] => Ok l
  | r :: rs => do s <- cleaned_timestamp r; do l' <- add_timestamp l s false; add_cleaned l' rs
  end.
Definition time_series_from_list (raw : list str) : res series :=
  match isort str_le raw with
  | [] => Err AssertionError
  | r :: rs => do s <- cleaned_timestamp r; do l <- new_series s 0 0 0 0; add_cleaned l rs
  end.

(* _time_series.py:226-228: rstrip removes every trailing Z *)
Fixpoint datetimes (l : series) : res (list moment) :=
  match l with
  | [] => Ok []
  | s :: l' =>
      match fromisoformat (rstrip (fun c => chr_eqb c "Z"%char) s) with
      | Some t => do ts <- datetimes l'; Ok (t :: ts)
      | None => Err ValueError
      end
  end.
(** [str(dt)] *)
Definition str_of_datetime (t : moment) : str := iso_date (t / day_us) ++ L " " ++ iso_time (t mod day_us).
(* _functions.py:87-118 for human timeframe series: the union of the datetimes as a set, sorted,
   then time_series_from_list (lines 77-83), where sorting again changes nothing *)
Fixpoint all_datetimes (ls : list series) : res (list moment) :=
  match ls with [] => Ok [] | l :: r => do a <- datetimes l; do b <- all_datetimes r; Ok (a ++ b) end.
Definition merge_timeseries (ls : list series) : res series :=
  do ts <- all_datetimes ls;
  match isort Z.leb (nodup Z.eq_dec ts) with
  | [] => Err AssertionError
  | t :: r => do s <- cleaned_timestamp (str_of_datetime t); do l <- new_series s 0 0 0 0;
              add_cleaned l (map str_of_datetime r)
  end.

(** * Geologic time *)
(* _geologic_time_series.py:46-70 (and _functions.py:72-75) for a list of int *)
Definition from_year_list (years : list Z) : res (list Z) :=
  match years with
  | [] => Err AssertionError
  | _ => Ok (isort Z.leb (map (fun y => if 0 <? y then - y else y) years))
  end.
(* _any_time_series.py:125-129 with an int argument *)
Fixpoint year_index_from (k : nat) (l : list Z) (y : Z) : option nat :=
  match l with [] => None | x :: l' => if x =? y then Some k else year_index_from (S k) l' y end.
(** '.3f' of float(-years) / 1e6 for 0 < years < 10^7: rounded to the nearest thousand; ties
    (a remainder of exactly 500) depend on the binary fraction and are rounded up here. *)
Definition three_decimals (years : Z) : str :=
  let k := (years + 500) / 1000 in
  L "-" ++ L (str_of_int (k / 1000)) ++ L "." ++ dec 3 (k mod 1000).
(* _functions.py:121-130 *)
Definition geologic_time_str (years : Z) : str :=
  let years := Z.abs years in
  if (years <? 10000000) && negb (years mod 1000000 =? 0) then three_decimals years ++ L " Ma"
  else L (str_of_int ((- years) / 1000000)) ++ L " Ma".
(* _any_time_series.py:125-129 with a str argument *)
Fixpoint geologic_index_from (k : nat) (l : list Z) (s : str) : option nat :=
  match l with [] => None | x :: l' => if str_eqb (geologic_time_str x) s then Some k else geologic_index_from (S k) l' s end.
