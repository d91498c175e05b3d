(** PropXmlModel.v: the xml written for a property (PropertyCollection.create_xml) and the
    reading of it into a collection (add_part_to_dict).

    Simplifications: uuid arguments are uuid objects; a float is a rational or not-a-number,
    infinities are left out; the text of a float and its reading are parameters; the check of
    the array's shape against the support's is left out; guesses at a unit of measure are
    parameters; the part's uuid and name are those of the catalogue (C14, C20). *)
From Coq Require Import QArith Qround.
From Verif Require Import Base QBase TextModel StrModel UuidModel PyDict AsciiModel XmlModel NormModel.
Open Scope Z_scope.

(** ** Elements *)
(* xml_namespaces.py *)
Definition curly (uri local : str) : str := ch "{" :: uri ++ ch "}" :: local.
Definition rq (t : string) : str := curly (L "http://www.energistics.org/energyml/data/resqmlv2") (L t).
Definition eml (t : string) : str := curly (L "http://www.energistics.org/energyml/data/commonv2") (L t).
Definition xsd (t : str) : str := curly (L "http://www.w3.org/2001/XMLSchema") t.
Definition xsi_type : str := curly (L "http://www.w3.org/2001/XMLSchema-instance") (L "type").
Definition null_text : str := [newline].
Definition elem (tag ty text : str) (cs : list node) : node := Node tag [(xsi_type, ty)] text cs.
Definition leaf (tag ty text : str) : node := elem tag ty text [].

(** Python numbers *)
Inductive num := NInt (z : Z) | NFloat (q : option Q) | NBool (b : bool).

(** ** What the Model and the support supply *)
Record env := Env {
  e_title : Z -> option str;         (* title of an object, None if it is not in the model *)
  e_type : Z -> option str;          (* its type *)
  e_kinds : list (str * Z);          (* titles and uuids of the PropertyKind parts *)
  e_new_kind : Z;                    (* uuid that a new PropertyKind would get *)
  e_steps : Z -> option Z;           (* number of times of a time series *)
  e_h5 : option Z;
  e_shape : option (list Z);         (* the supporting shape *)
  e_user : str; e_now : str; e_format : str;
  e_valid_kind : str -> bool; e_valid_uom : str -> bool;
  e_guess : option str;
  e_support : option Z; e_realization : option Z }.  (* the collection's *)

(* property_collection.py:2574-2606 *)
Record args := Args {
  a_ext : option Z; a_array : option (list (option Q)); a_title : str; a_kind : str; a_support : option Z;
  a_facet_type : option str; a_facet : option str; a_discrete : bool; a_ts : option Z; a_time : option Z;
  a_uom : option str; a_null : option Z; a_originator : option str; a_source : option str; a_min_max : bool;
  a_min : option num; a_max : option num; a_real : option Z; a_lookup : option Z; a_kind_uuid : option Z;
  a_find_kinds : bool; a_indexable : option str; a_count : Z; a_points : bool; a_extra : dict str str;
  a_const : option num; a_expand : bool; a_uuid : Z }.

Definition mem_str (s : str) (l : list string) : bool := existsb (fun t => str_eqb s (L t)) l.
(* _collection_get_attributes.py:570-590 *)
Definition get_indexable (ie : option str) (ty : option str) : res str :=
  match ie with
  | Some s => Ok s
  | None =>
      match ty with
      | None => Err RuntimeError
      | Some ty =>
          if mem_str ty ["obj_IjkGridRepresentation"; "obj_BlockedWellboreRepresentation"; "obj_Grid2dRepresentation";
                         "obj_UnstructuredGridRepresentation"]%string then Ok (L "cells")
          else if mem_str ty ["obj_WellboreFrameRepresentation"; "obj_WellboreMarkerFrameRepresentation";
                              "obj_PointSetRepresentation"]%string then Ok (L "nodes")
          else if str_eqb ty (L "obj_GridConnectionSetRepresentation") then Ok (L "faces")
          else if str_eqb ty (L "obj_TriangulatedSetRepresentation") then Ok (L "triangles")
          else if mem_str ty ["obj_PolylineRepresentation"; "obj_PolylineSetRepresentation"]%string then Ok (L "intervals")
          else Err RuntimeError
      end
  end.
(* _xml.py:130-175, with the title looked up if there is none; [titled]: model.title(uuid) *)
Definition content_type_text (ct : str) : str :=
  (if contains ct (L "EpcExternalPartReference") then L "application/x-eml+xml;version=2.0;type="
   else L "application/x-resqml+xml;version=2.0;type=") ++ ct.
Definition ref_node (e : env) (tag : str) (title : str) (u : Z) (ct : str) : node :=
  let title := match title with [] => match e_title e u with Some (c :: t) => c :: t | _ => L "untitled" end | _ => title end in
  elem tag (eml "DataObjectReference") null_text
    [ leaf (eml "ContentType") (xsd (L "string")) (content_type_text ct);
      leaf (eml "Title") (eml "DescriptionString") title;
      leaf (eml "UUID") (eml "UuidString") (uuid_str u) ].
(* _xml.py:204-243 *)
Definition citation (e : env) (title : str) (originator : option str) : node :=
  elem (eml "Citation") (eml "Citation") null_text
    [ leaf (eml "Title") (eml "DescriptionString") (match title with [] => L "untitled" | _ => title end);
      leaf (eml "Originator") (eml "NameString") (match originator with Some o => o | None => e_user e end);
      leaf (eml "Creation") (xsd (L "dateTime")) (e_now e);
      leaf (eml "Format") (eml "DescriptionString") (e_format e) ].
(* xml_et.py:793-810 *)
Definition meta_node (kv : str * str) : node :=
  elem (rq "ExtraMetadata") (rq "NameValuePair") null_text
    [ leaf (rq "Name") (xsd (L "string")) (fst kv); leaf (rq "Value") (xsd (L "string")) (snd kv) ].
(* _xml.py:422-458 and xml_et.py:781-790: the first item with the (stripped) name 'source' is
   updated, or one is added; on the names and values that make the nodes *)
Fixpoint put_source (l : list (str * str)) (src : str) : list (str * str) :=
  match l with
  | [] => [(L "source", src)]
  | (k, v) :: l' => if str_eqb (strip is_space k) (L "source") then (k, src) :: l' else (k, v) :: put_source l' src
  end.
(* _collection_create_xml.py:186-200 *)
Definition basics (e : env) (a : args) (ie : str) : list (list node) :=
  let metas := match a_source a with Some (c :: s) => put_source (a_extra a) (c :: s) | _ => a_extra a end in
  [ [citation e (a_title a) (a_originator a)]; map meta_node metas;
    [leaf (rq "Count") (xsd (L "positiveInteger")) (fmt_int (a_count a))];
    [leaf (rq "IndexableElement") (rq "IndexableElements") ie] ].
(* _collection_create_xml.py:203-207 *)
Definition realization_node (r : option Z) : list node :=
  match r with
  | Some z => if 0 <=? z then [leaf (rq "RealizationIndex") (xsd (L "nonNegativeInteger")) (fmt_int z)] else []
  | None => []
  end.
(* _collection_create_xml.py:210-224, _any_time_series.py:176-211, _xml.py:390-419.  The content
   type of the reference to the time series is that of its class *)
Definition time_node (e : env) (a : args) : res (list node) :=
  match a_ts a, a_time a with
  | Some ts, Some t =>
      match e_steps e ts with
      | None => Err AssertionError
      | Some n =>
          do _ <- assert_ ((0 <=? t) && (t <? n));
          Ok [elem (rq "TimeIndex") (rq "TimeIndex") null_text
                [ leaf (rq "Index") (xsd (L "nonNegativeInteger")) (fmt_int t);
                  ref_node e (rq "TimeSeries") [] ts (match e_type e ts with Some ty => ty | None => L "obj_TimeSeries" end) ]]
      end
  | _, _ => Ok []
  end.
Definition support_node (e : env) (u : Z) : node :=
  let ct := match e_type e u with Some ty => ty | None => L "obj_SupportingRepresentation" end in
  let title := match e_title e u with Some (c :: t) => c :: t | _ => L "supporting representation" end in
  ref_node e (rq "SupportingRepresentation") title u ct.
(* property_collection.py:2697-2700 and _collection_create_xml.py:61-84, _collection_get_attributes.py:43-58 *)
Definition written_kind (a : args) : str :=
  let k := if a_find_kinds a && mem_str (a_kind a) ["continuous"; "discrete"; "categorical"]%string then a_title a else a_kind a in
  if str_eqb k (L "permeability rock") then L "rock permeability" else k.
Definition written_kind_uuid (e : env) (a : args) : option Z :=
  if a_find_kinds a && negb (e_valid_kind e (written_kind a)) then
    match a_kind_uuid a with
    | Some u => Some u
    | None => match List.find (fun p => str_eqb (fst p) (written_kind a)) (e_kinds e) with
              | Some p => Some (snd p)
              | None => Some (e_new_kind e)
              end
    end
  else a_kind_uuid a.
Definition kind_node (e : env) (a : args) : node :=
  match written_kind_uuid e a with
  | None => elem (rq "PropertyKind") (rq "StandardPropertyKind") null_text [leaf (rq "Kind") (rq "ResqmlPropertyKind") (written_kind a)]
  | Some u => elem (rq "PropertyKind") (rq "LocalPropertyKind") null_text
                [ref_node e (rq "LocalPropertyKind") (written_kind a) u (L "obj_PropertyKind")]
  end.
(* _collection_create_xml.py:236-246 *)
Definition facet_node (a : args) : list node :=
  match a_facet_type a, a_facet a with
  | Some ft, Some f =>
      [elem (rq "Facet") (rq "PropertyKindFacet") null_text
         [leaf (rq "Facet") (rq "Facet") ft; leaf (rq "Value") (xsd (L "string")) f]]
  | _, _ => []
  end.
(* _collection_create_xml.py:130-141; [sl_root]'s type is checked *)
Definition lookup_node (e : env) (lookup : option Z) : res (list node) :=
  match lookup with
  | None => Ok []
  | Some u =>
      do _ <- assert_ (match e_type e u with Some ty => str_eqb ty (L "obj_StringTableLookup") | None => false end);
      Ok [ref_node e (rq "Lookup") (match e_title e u with Some t => t | None => [] end) u (L "obj_StringTableLookup")]
  end.
(* _collection_create_xml.py:144-162 *)
Definition uom_nodes (e : env) (a : args) : list node * list node :=
  if a_points a then ([], [])
  else
    let uom := match a_uom a with Some (c :: u) => c :: u | _ => match e_guess e with Some (c :: u) => c :: u | _ => L "Euc" end end in
    if e_valid_uom e uom then ([leaf (rq "UOM") (rq "ResqmlUom") uom], [])
    else ([leaf (rq "UOM") (rq "ResqmlUom") (L "Euc")], [meta_node (L "Uom", uom)]).

Section Text.
  (** str() of a float and float() of a text *)
  Context (float_str : option Q -> str) (float_of : str -> res (option Q)).
  Definition num_text (n : num) : str :=
    match n with NInt z => fmt_int z | NFloat q => float_str q | NBool b => if b then L "True" else L "False" end.
  (** math.floor and math.ceil *)
  Definition rounded (r : Q -> Z) (n : num) : res Z :=
    match n with
    | NInt z => Ok z
    | NBool b => Ok (if b then 1 else 0)
    | NFloat (Some q) => Ok (r q)
    | NFloat None => Err ValueError
    end.
  Definition is_nan (n : num) : bool := match n with NFloat None => true | _ => false end.
  Definition or_else (x : option num) (y : option num) : option num := match x with Some _ => x | None => y end.
  (** values of the array that are numbers *)
  Definition known (l : list (option Q)) : list Q := flat_map (fun v => match v with Some q => [q] | None => [] end) l.
  (* _collection_get_attributes.py:83-133, 152-163; the collection's own null value is None *)
  Definition get_min_max (a : args) : option num * option num :=
    match a_const a with
    | Some c => if a_discrete a || negb (is_nan c) then (or_else (a_min a) (Some c), or_else (a_max a) (Some c)) else (a_min a, a_max a)
    | None =>
        match a_array a with
        | None => (None, None)
        | Some l =>
            let as_num q := if a_discrete a then NInt (Qtrunc q) else NFloat (Some q) in
            (or_else (a_min a) (option_map as_num (lowest (known l))), or_else (a_max a) (option_map as_num (highest (known l))))
        end
    end.
  (* _collection_create_xml.py:108-127, for one end *)
  Definition limit_node (tag : string) (r : Q -> Z) (a : args) (v : option num) : res (list node) :=
    match v with
    | None => Ok []
    | Some n =>
        do text <- (if a_discrete a then do z <- rounded r n; Ok (fmt_int z) else Ok (num_text n));
        Ok [leaf (rq tag) (xsd (if a_discrete a then L "integer" else L "double")) text]
    end.
  Definition min_max_nodes (a : args) : res (list node * list node) :=
    if a_min_max a && negb (match a_lookup a with Some _ => true | None => false end) && negb (a_points a) then
      let (mn, mx) := get_min_max a in
      do x <- limit_node "MinimumValue" Qfloor a mn;
      do y <- limit_node "MaximumValue" Qceiling a mx;
      Ok (x, y)
    else Ok ([], []).
  (* _collection_create_xml.py:87-105 and _xml.py:460-546 *)
  Definition patch_node (e : env) (a : args) (ext : option Z) (null : option Z) (hdf5_type : string) (xsd_type : string) : res node :=
    let tag := if a_points a then "PatchOfPoints"%string else "PatchOfValues"%string in
    let outer := if a_points a then "Points"%string else "Values"%string in
    let inner := if a_points a then "Coordinates"%string else "Values"%string in
    let tail := if a_points a then "points_patch0"%string else "values_patch0"%string in
    let patch ty cs := elem (rq tag) (rq tag) null_text
                         [leaf (rq "RepresentationPatchIndex") (xsd (L "nonNegativeInteger")) (fmt_int 0); elem (rq outer) ty null_text cs] in
    match (if a_expand a then None else a_const a) with
    | Some c =>
        match e_shape e with
        | None => Err AssertionError
        | Some shape =>
            let count := fold_left Z.mul shape 1 in
            do _ <- assert_ (0 <? count);
            let '(ty, vty, text) := match c with
                                    | NBool b => (L "BooleanConstantArray", L "boolean", if b then L "true" else L "false")
                                    | _ => (L hdf5_type ++ L "ConstantArray", L xsd_type, num_text c)
                                    end in
            Ok (patch (curly (L "http://www.energistics.org/energyml/data/resqmlv2") ty)
                  [ leaf (rq "Value") (xsd vty) text; leaf (rq "Count") (xsd (L "nonNegativeInteger")) (fmt_int count) ])
        end
    | None =>
        match ext with
        | None => Err AssertionError
        | Some x =>
            Ok (patch (curly (L "http://www.energistics.org/energyml/data/resqmlv2") (L hdf5_type ++ L "Hdf5Array"))
                  ((if a_discrete a then [leaf (rq "NullValue") (xsd (L xsd_type)) (fmt_int (match null with Some z => z | None => -1 end))] else []) ++
                   [ elem (rq inner) (eml "Hdf5Dataset") null_text
                       [ leaf (eml "PathInHdfFile") (xsd (L "string")) (L "/RESQML/" ++ uuid_str (a_uuid a) ++ L "/" ++ L tail);
                         ref_node e (eml "HdfProxy") (L "Hdf Proxy") x (L "obj_EpcExternalPartReference") ] ]))
        end
    end.
  (* property_collection.py:2676-2727 and _collection_get_attributes.py:61-80: the xml node;
     adding it to the model is left out *)
  Definition create_xml (e : env) (a : args) : res node :=
    do _ <- assert_ (match a_title a with [] => false | _ => true end);
    do _ <- assert_ (negb (a_discrete a) || negb (a_points a));
    do _ <- assert_ (negb (a_points a) || match a_const a with None => true | Some _ => false end);
    do _ <- assert_ (negb (a_points a) || match a_facet_type a with None => true | Some _ => false end);
    let support := match a_support a with Some u => Some u | None => e_support e end in
    let ext := match a_ext a with Some u => Some u | None => e_h5 e end in
    match support with
    | None => Err AssertionError
    | Some support =>
        do ie <- get_indexable (a_indexable a) (e_type e support);
        do _ <- assert_ (match a_kind a with [] => false | _ => true end);
        let '(text, xsd_type, hdf5_type, null) :=
          if a_discrete a then ((match a_lookup a with None => "DiscreteProperty" | Some _ => "CategoricalProperty" end)%string, "integer"%string, "Integer"%string, a_null a)
          else if a_points a then ("PointsProperty"%string, "double"%string, "Point3d"%string, None)
          else ("ContinuousProperty"%string, "double"%string, "Double"%string, None) in
        do time <- time_node e a;
        do patch <- patch_node e a ext null hdf5_type xsd_type;
        do mm <- min_max_nodes a;
        do last <- (if a_discrete a then do l <- lookup_node e (a_lookup a); Ok [l]
                    else let (u, m) := uom_nodes e a in Ok [u; m]);
        Ok (Node (rq text)
              [(L "schemaVersion", L "2.0"); (L "uuid", uuid_str (a_uuid a)); (xsi_type, rq ("obj_" ++ text))] null_text
              (List.concat (basics e a ie ++
                [ realization_node (a_real a); time; [support_node e support]; [kind_node e a]; [patch];
                  facet_node a; fst mm; snd mm ] ++ last)))
    end.

  (** ** Reading *)
  (* property_collection.py:64-70: as held for the part; minimum and maximum are texts, and so is
     the uuid of a local property kind.  Left out: uuid and xml node *)
  Record entry := Entry {
    r_real : option Z; r_support : option Z; r_continuous : bool; r_count : Z; r_indexable : str; r_kind : str;
    r_facet_type : option str; r_facet : option str; r_title : str; r_ts : option Z; r_time : option Z;
    r_min : option str; r_max : option str; r_uom : option str; r_lookup : option Z; r_kind_uuid : option str;
    r_extra : dict (option str) (option str); r_null : option Z; r_const : option num; r_points : bool }.
  Definition child (n : node) (tag : string) : option node := List.find (fun c => match_tag (n_tag c) (L tag)) (n_children n).
  (** node.text, AttributeError if there is no node *)
  Definition text_of (n : option node) : res str := match n with Some n => Ok (n_text n) | None => Err AttributeError end.
  Definition uuid_of_text (t : option str) : res (option Z) := uuid_from_string (match t with Some s => UStr s | None => UNone end).
  Definition key_eqb (a b : option str) : bool :=
    match a, b with Some x, Some y => str_eqb x y | None, None => true | _, _ => false end.
  (* xml_et.py:767-778 *)
  Definition load_metadata (root : node) : dict (option str) (option str) :=
    fold_left (fun d m => dset key_eqb d (node_text (child m "Name")) (node_text (child m "Value"))) (list_of_tag root (L "ExtraMetadata")) [].
  (* xml_et.py:576-599 *)
  Definition node_int (n : option node) : res (option Z) :=
    match n with
    | None => Ok None
    | Some n => let t := strip is_space (n_text n) in
                if str_eqb (lower t) (L "none") then Ok None
                else match t with [] => Ok None | _ => do z <- parse_int t; Ok (Some z) end
    end.
  Definition node_float (n : option node) : res (option num) :=
    match n with
    | None => Ok None
    | Some n => let t := strip is_space (n_text n) in
                if str_eqb (lower t) (L "none") then Ok None
                else match t with [] => Ok None | _ => do q <- float_of t; Ok (Some (NFloat q)) end
    end.
  Definition node_bool (n : option node) : option num :=
    match n with None => None | Some n => option_map NBool (bool_from_text (n_text n)) end.
  Definition str_some (s : str) : option str := match s with [] => None | _ => Some s end.
  (* _collection_add_part.py:303-327 *)
  Definition read_kind (root : node) : res (str * option str) :=
    match child root "PropertyKind" with
    | None => Err AssertionError
    | Some k =>
        match child k "Kind" with
        | Some n => match n_text n with [] => Err AssertionError | t => Ok (t, None) end
        | None =>
            match child k "LocalPropertyKind" with
            | None => Err NameError       (* property_kind unbound *)
            | Some l => match node_text (child l "Title") with
                        | None => Err AssertionError
                        | Some t => Ok (t, node_text (child l "UUID"))
                        end
            end
        end
    end.
  (* _collection_add_part.py:330-341 *)
  Definition read_facet (root : node) : res (option str * option str) :=
    match child root "Facet" with
    | None => Ok (None, None)
    | Some n => do ft <- text_of (child n "Facet"); do f <- text_of (child n "Value"); Ok (str_some ft, str_some f)
    end.
  (* _collection_add_part.py:344-352 *)
  Definition read_time (root : node) : res (option Z * option Z) :=
    match child root "TimeIndex" with
    | None => Ok (None, None)
    | Some n =>
        do it <- text_of (child n "Index");
        do i <- parse_int it;
        do ut <- text_of (match child n "TimeSeries" with Some s => child s "UUID" | None => None end);
        do u <- uuid_of_text (Some ut);
        Ok (u, Some i)
    end.
  (* _collection_add_part.py:114-137; [guess]: what guess_uom gives *)
  Definition read_uom (root : node) (continuous points trust : bool) (guess : option str) : option str :=
    if continuous && negb points then
      let u := match child root "UOM" with
               | None => None
               | Some n => if str_eqb (n_text n) (L "Euc") then
                             match dget key_eqb (load_metadata root) (Some (L "Uom")) with
                             | Some (Some u) => Some u
                             | _ => if trust then Some (L "Euc") else None
                             end
                           else if trust || negb (str_eqb (n_text n) []) then Some (n_text n) else None
               end in
      match u with Some _ => u | None => guess end
    else None.
  (* _collection_add_part.py:368-389 *)
  Definition read_null_const (root : node) (continuous points : bool) : res (option Z * option num) :=
    do null <- (if continuous then Ok None else node_int (find_nested_tags (Some root) [L "PatchOfValues"; L "Values"; L "NullValue"]));
    match find_nested_tags (Some root) (if points then [L "PatchOfPoints"; L "Points"] else [L "PatchOfValues"; L "Values"]) with
    | None => Err AssertionError
    | Some n =>
        match node_type n false with
        | None => Err AssertionError
        | Some ty =>
            if endswith ty (L "ConstantArray") then
              if continuous then do c <- node_float (child n "Value"); Ok (null, c)
              else if startswith ty (L "Bool") then Ok (null, node_bool (child n "Value"))
              else do z <- node_int (child n "Value"); Ok (null, option_map NInt z)
            else Ok (null, None)
        end
    end.
  (* property_collection.py:269-294 with continuous and realization not given, and
     _collection_add_part.py:72-111, 291-300 *)
  Definition add_part (e : env) (trust : bool) (guess : option str) (root : node) : res entry :=
    do real <- match child root "RealizationIndex" with None => Ok (e_realization e) | Some n => do z <- parse_int (n_text n); Ok (Some z) end;
    match node_type root false with
    | None => Err AssertionError
    | Some ty =>
        do _ <- assert_ (mem_str ty ["obj_ContinuousProperty"; "obj_DiscreteProperty"; "obj_CategoricalProperty"; "obj_PointsProperty"]%string);
        let continuous := mem_str ty ["obj_ContinuousProperty"; "obj_PointsProperty"]%string in
        let points := str_eqb ty (L "obj_PointsProperty") in
        do lookup <- (if str_eqb ty (L "obj_CategoricalProperty")
                      then uuid_of_text (match child root "Lookup" with Some l => node_text (child l "UUID") | None => None end)
                      else Ok None);
        do title <- text_of (match child root "Citation" with Some c => child c "Title" | None => None end);
        do count <- match child root "Count" with None => Err AssertionError | Some n => parse_int (n_text n) end;
        do ie <- match child root "IndexableElement" with None => Err AssertionError | Some n => Ok (n_text n) end;
        do kind <- read_kind root;
        do facet <- read_facet root;
        do time <- read_time root;
        let mn := option_map n_text (child root "MinimumValue") in
        let mx := option_map n_text (child root "MaximumValue") in
        do support <- uuid_of_text (match child root "SupportingRepresentation" with Some s => node_text (child s "UUID") | None => None end);
        let support := match support with Some u => Some u | None => e_support e end in
        let uom := read_uom root continuous points trust guess in
        do nc <- read_null_const root continuous points;
        Ok (Entry real support continuous count ie (fst kind) (fst facet) (snd facet) title (fst time) (snd time) mn mx uom
              lookup (snd kind) (load_metadata root) (fst nc) (snd nc) points)
    end.
  (* property_collection.py:1361-1391 *)
  Definition limit_for_part (r : entry) (t : option str) : res (option num) :=
    match t with
    | None | Some [] => Ok None
    | Some t => if r_continuous r then do q <- float_of t; Ok (Some (NFloat q)) else do z <- parse_int t; Ok (Some (NInt z))
    end.
End Text.
