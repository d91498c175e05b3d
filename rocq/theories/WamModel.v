(** WamModel.v: units of measure (resqpy/weights_and_measures/weights_and_measures.py and
    nexus_units.py).  Numbers are exact rationals.  The lru_cache decorators are transparent.
    casefold is ascii lower case: unit names with other characters are not modelled. *)
From Verif Require Import QBase StrModel WamData.

Definition strs (l : list string) : list str := map L l.
Definition mem (s : str) (l : list str) : bool := existsb (str_eqb s) l.
Fixpoint assoc {A} (s : str) (l : list (str * A)) : option A :=
  match l with [] => None | (k, v) :: t => if str_eqb s k then Some v else assoc s t end.

(** weights_and_measures.py:412-437 _properties_data: the data file, see WamData.v *)
Definition factors := (Q * Q * Q * Q)%type.
Definition units : list (str * (option (str * factors) * str)) :=
  map (fun e => let '(n, b, d) := e in (L n, (match b with Some (b, f) => Some (L b, f) | None => None end, L d))) units_data.
Definition quantities : list (str * list str) := map (fun e => (L (fst e), strs (snd e))) quantities_data.
Definition alias_map : list (str * str) := map (fun e => (L (fst e), L (snd e))) alias_data.
Definition case_insensitive : list str := strs case_insensitive_data.

Definition all_uoms : list str := map fst units.
(* weights_and_measures.py:168-189 valid_uoms, without attributes; None for no quantity *)
Definition valid_uoms (quantity : option str) : res (list str) :=
  match quantity with
  | None => Ok all_uoms
  | Some q =>
      if str_eqb q [] then Ok all_uoms   (* if quantity: *)
      else match assoc q quantities with
           | Some members => Ok (filter (fun u => mem u members) all_uoms)
           | None => Err KeyError
           end
  end.

(* weights_and_measures.py:440-466 _try_parse_unit; the recursion is on shorter strings, the
   fuel given by callers is the length of the string plus one, which always suffices
   (WamProofs.parse_fuel) *)
Definition open_bracket : ascii := "("%char.
Definition close_bracket : ascii := ")"%char.
Definition slash : ascii := "/"%char.
Definition bracketed (units_ : str) : bool :=
  startswith units_ [open_bracket] && endswith units_ [close_bracket] && negb (contains (from units_ 1) [open_bracket]).
Fixpoint try_parse (fuel : nat) (units_ : str) : option str :=
  match fuel with
  | O => None
  | S fuel =>
      let ul := lower units_ in
      if mem units_ all_uoms then Some units_
      else if mem ul case_insensitive then Some ul
      else match assoc ul alias_map with
      | Some u => Some u
      | None =>
          if mem ul all_uoms then Some ul
          else if bracketed units_ then try_parse fuel (upto (from units_ 1) (List.length units_ - 2))
          else match find_chr slash units_ with
          | Some k =>   (* units.split('/', 1) *)
              match try_parse fuel (upto units_ k), try_parse fuel (from units_ (S k)) with
              | Some a, Some b =>
                  if negb (str_eqb a []) && negb (str_eqb b []) then
                    let ratio := a ++ slash :: b in if mem ratio all_uoms then Some ratio else None
                  else None
              | _, _ => None
              end
          | None => None
          end
      end
  end.
Definition try_parse_unit (units_ : str) : option str := try_parse (S (List.length units_)) units_.

(* weights_and_measures.py:83-112 rq_uom *)
Definition rq_uom (units_ : str) (quantity : option str) : res str :=
  if str_eqb units_ [] then Err InvalidUnitError
  else match try_parse_unit (strip is_space units_) with
  | None => Err InvalidUnitError
  | Some uom =>
      match quantity with
      | None => Ok uom
      | Some _ => do supported <- valid_uoms quantity;
                  if mem uom supported then Ok uom else Err InvalidUnitError
      end
  end.

(* weights_and_measures.py:383-408 get_conversion_factors *)
Definition get_conversion_factors (uom : str) : res (str * str * factors) :=
  match assoc uom units with
  | None => Err ValueError
  | Some (Some (b, f), dim) => Ok (b, dim, f)
  | Some (None, dim) => Ok (uom, dim, (0, 1, 1, 0))
  end.

(* weights_and_measures.py:115-165 convert, for a single number; arrays are converted element
   by element.  Division by zero raises ZeroDivisionError. *)
Definition qdiv (a b : Q) : res Q := if Qeq_bool b 0 then Err ZeroDivisionError else Ok (a / b).
Definition convert (x : Q) (unit_from unit_to : str) (quantity : option str) (inplace : bool) : res Q :=
  do uom1 <- rq_uom unit_from quantity;
  do uom2 <- rq_uom unit_to quantity;
  if str_eqb uom1 uom2 then Ok x
  else
    do f1 <- get_conversion_factors uom1;
    do f2 <- get_conversion_factors uom2;
    let '(base1, dim1, (a1, b1, c1, d1)) := f1 in
    let '(base2, dim2, (a2, b2, c2, d2)) := f2 in
    if negb (str_eqb base1 base2) && negb (str_eqb dim1 dim2) then Err IncompatibleUnitsError
    else if negb inplace then
      do y <- qdiv (a1 + b1 * x) (c1 + d1 * x);
      qdiv (a2 - c2 * y) (d2 * y - b2)
    else if existsb (fun f => negb (Qeq_bool f 0)) [a1; a2; d1; d2] then Err NotImplementedError
    else
      do factor <- qdiv (b1 * c2) (c1 * b2);
      Ok (x * factor).

(* weights_and_measures.py:235-245 convert_times *)
Definition convert_times (a : Q) (from_units to_units : str) (invert : bool) : res Q :=
  let '(from_units, to_units) := if invert then (to_units, from_units) else (from_units, to_units) in
  convert a from_units to_units (Some (L "time")) true.
(* weights_and_measures.py:248-263 convert_lengths; 266-280, 283-296, 299-312 the same for
   'pressure', 'volume' and 'volume per time' *)
Definition convert_lengths (a : Q) (from_units to_units : str) : res Q := convert a from_units to_units (Some (L "length")) true.
Definition convert_pressures (a : Q) (from_units to_units : str) : res Q := convert a from_units to_units (Some (L "pressure")) true.
Definition convert_volumes (a : Q) (from_units to_units : str) : res Q := convert a from_units to_units (Some (L "volume")) true.
Definition convert_flow_rates (a : Q) (from_units to_units : str) : res Q := convert a from_units to_units (Some (L "volume per time")) true.

(* weights_and_measures.py:336-343 uom_components; find gives -1 when absent *)
Definition dot_chr : ascii := "."%char.
Definition zfind (o : option nat) : Z := match o with Some k => Z.of_nat k | None => -1 end.
Fixpoint find_sub (p s : str) : option nat :=
  if startswith s p then Some O
  else match s with [] => None | _ :: t => match find_sub p t with Some k => Some (S k) | None => None end end.
Definition uom_components (u : str) : res (str * str * str * str) :=
  let pab := zfind (find_chr dot_chr u) in
  let pbc := zfind (find_sub [slash; open_bracket] u) in
  let pcd := zfind (rfind_chr dot_chr u) in
  let slice a b := firstn (Z.to_nat (b - a)) (skipn (Z.to_nat a) u) in
  if (0 <? pab)%Z && (pab <? pbc - 1)%Z && (pbc <? pcd - 2)%Z &&
     match rev u with c :: _ => chr_eqb c close_bracket | [] => false end then
    Ok (slice 0%Z pab, slice (pab + 1)%Z pbc, slice (pbc + 2)%Z pcd, slice (pcd + 1)%Z (Z.of_nat (List.length u) - 1)%Z)
  else Err AssertionError.
(* weights_and_measures.py:345-360 the four checks *)
Definition check_unit (u : str) (quantity : string) : res unit :=
  do l <- valid_uoms (Some (L quantity)); assert_ (mem u l).
(* one component of weights_and_measures.py:365-381: the factor for going from f to t *)
Definition component_factor (f t : str) (quantity : string) : res Q :=
  do _ <- check_unit f quantity;
  if str_eqb f t then Ok 1
  else do _ <- check_unit t quantity; convert 1 f t None false.
(* weights_and_measures.py:315-381 convert_transmissibilities.  Simplification: an unchanged
   component multiplies or divides the factor by one instead of leaving it alone. *)
Definition convert_transmissibilities (a : Q) (from_units to_units : str) : res Q :=
  do f <- uom_components from_units;
  do t <- uom_components to_units;
  let '(fvol, fvisc, fpress, ftime) := f in
  let '(tvol, tvisc, tpress, ttime) := t in
  do vol <- component_factor fvol tvol "volume";
  do visc <- component_factor fvisc tvisc "dynamic viscosity";
  do press <- component_factor fpress tpress "pressure";
  do time <- component_factor ftime ttime "time";
  do f1 <- qdiv (1 * vol * visc) press;
  do f2 <- qdiv f1 time;
  Ok (a * f2).

(* nexus_units.py:6-128 nexus_uom_for_quantity *)
Definition nexus_table : list (str * list (str * str)) :=
  let row l p := combine (strs ["length"; "area"; "volume"; "volume per volume"; "rock permeability"; "time";
                                "thermodynamic temperature"; "mass per volume"; "pressure"; "volume per time"]%string) (strs (l p)) in
  let metric p := ["m"; "m2"; "m3"; "m3/m3"; "mD"; "d"; "degC"; "kg/m3"; p; "m3/d"]%string in
  [ (L "METRIC", row metric "kPa"%string);
    (L "METKG/CM2", row metric "kgf/cm2"%string);
    (L "METBAR", row metric "bar"%string);
    (L "LAB", row (fun _ => ["cm"; "cm2"; "cm3"; "cm3/cm3"; "mD"; "h"; "degC"; "g/cm3"; "psi"; "cm3/h"]%string) ""%string);
    (L "ENGLISH", row (fun _ => ["ft"; "ft2"; "ft3"; "ft3/ft3"; "mD"; "d"; "degF"; "lbm/ft3"; "psi"; "bbl/d"]%string) ""%string) ].
Definition nexus_quantities : list str :=
  strs ["length"; "area"; "volume"; "volume per volume"; "permeability rock"; "rock permeability"; "time";
        "thermodynamic temperature"; "mass per volume"; "pressure"; "volume per time"]%string.
Definition nexus_uom_for_quantity (system quantity : str) (flavour : option str) : res str :=
  let system := upper system in
  do _ <- assert_ (mem system (map fst nexus_table));
  do _ <- assert_ (mem quantity nexus_quantities);
  let quantity := if str_eqb quantity (L "permeability rock") then L "rock permeability" else quantity in
  let lookup := match assoc system nexus_table with
                | None => Err KeyError
                | Some row => match assoc quantity row with Some u => Ok u | None => Err KeyError end
                end in
  match flavour with
  | None => lookup
  | Some f =>
      if negb (str_eqb system (L "ENGLISH")) then lookup
      else
        let f := lower f in
        if str_eqb f (L "pv") then do _ <- assert_ (str_eqb quantity (L "volume")); Ok (L "ft3")
        else if str_eqb f (L "over pv") then do _ <- assert_ (str_eqb quantity (L "volume")); Ok (L "bbl")
        else if str_eqb f (L "surface gas rate") then do _ <- assert_ (str_eqb quantity (L "volume per time")); Ok (L "1000 ft3/d")
        else
          do _ <- assert_ (str_eqb quantity (L "volume per volume"));
          if str_eqb f (L "fvf") then Ok (L "bbl/bbl")
          else if str_eqb f (L "gor") then Ok (L "1000 ft3/bbl")
          else do _ <- assert_ (str_eqb f (L "saturation")); lookup
  end.
