(** XmlModel.v: element tree searching and xml writing, resqpy/olio/xml_et.py and
    xml_namespaces.py.

    Simplifications: an element is (tag, attributes in order, text, children); a missing
    text (None) is the empty text; tail text is ignored, as the code does.  Text is seen as
    its UTF-8 bytes; [isspace] and [strip] only know ASCII white space. *)
From Verif Require Import Base TextModel StrModel PyDict.

Inductive node := Node (n_tag : str) (n_attrib : list (str * str)) (n_text : str) (n_children : list node).
Definition n_tag (n : node) := let '(Node t _ _ _) := n in t.
Definition n_attrib (n : node) := let '(Node _ a _ _) := n in a.
Definition n_text (n : node) := let '(Node _ _ t _) := n in t.
Definition n_children (n : node) := let '(Node _ _ _ c) := n in c.

(** the single character of a one-character literal *)
Definition ch (s : string) : ascii := match s with String c _ => c | EmptyString => zero end.

(* xml_et.py:40-48; rfind gives -1 (so s[0:]) when there is no colon *)
Definition stripped_of_prefix (s : str) : str :=
  match rfind_chr (ch "}") s with
  | Some p => from s (p + 1)
  | None => match rfind_chr (ch ":") s with Some p => from s (p + 1) | None => s end
  end.

(* xml_et.py:69-80 *)
Definition match_tag (xml_name name : str) : bool :=
  let lx := List.length xml_name in let ln := List.length name in
  if (ln <? lx)%nat then
    let i := (lx - ln)%nat in
    match nth_error xml_name (i - 1) with
    | Some c => if negb (chr_eqb c (ch "}")) && negb (chr_eqb c (ch ":")) then false else str_eqb (from xml_name i) name
    | None => false   (* unreachable: i - 1 < lx *)
    end
  else if (lx =? ln)%nat then str_eqb xml_name name
  else false.

(* xml_et.py:83-93 *)
Definition find_tag (root : option node) (tag : str) (must_exist : bool) : res (option node) :=
  match root with
  | None => Ok None
  | Some r =>
      match List.find (fun c => match_tag (n_tag c) tag) (n_children r) with
      | Some c => Ok (Some c)
      | None => if must_exist then Err ValueError else Ok None
      end
  end.
(* xml_et.py:555-563 *)
Definition node_text (n : option node) : option str :=
  match n with None => None | Some n => match strip is_space (n_text n) with [] => None | t => Some t end end.
(* xml_et.py:96-106 *)
Definition find_tag_text (root : option node) (tag : str) (must_exist : bool) : res (option str) :=
  match root with
  | None => Ok None
  | Some r =>
      match List.find (fun c => match_tag (n_tag c) tag) (n_children r) with
      | Some c => Ok (node_text (Some c))
      | None => if must_exist then Err ValueError else Ok None
      end
  end.
(* xml_et.py:148-158 *)
Fixpoint find_nested_tags (root : option node) (tags : list str) : option node :=
  match tags with
  | [] => None
  | t :: ts =>
      match find_tag root t false with
      | Ok (Some h) => match ts with [] => Some h | _ => find_nested_tags (Some h) ts end
      | _ => None
      end
  end.
(* xml_et.py:218-227 *)
Definition count_tag (r : node) (tag : str) : Z :=
  fold_left (fun k c => if match_tag (n_tag c) tag then k + 1 else k) (n_children r) 0.
(* xml_et.py:230-239 *)
Definition list_of_tag (r : node) (tag : str) : list node :=
  fold_left (fun acc c => if match_tag (n_tag c) tag then acc ++ [c] else acc) (n_children r) [].
(* xml_et.py:242-251; iterdescendants is document order, excluding the root *)
Fixpoint subtree (n : node) : list node :=
  let '(Node _ _ _ cs) := n in
  n :: (fix go l := match l with [] => [] | c :: l' => subtree c ++ go l' end) cs.
Definition descendants (n : node) : list node := flat_map subtree (n_children n).
Definition list_of_descendant_tag (r : node) (tag : str) : list node :=
  fold_left (fun acc c => if match_tag (n_tag c) tag then acc ++ [c] else acc) (descendants r) [].
(* xml_et.py:254-267 *)
Fixpoint list_obj_references (skip_hdf5 : bool) (n : node) : list node :=
  let '(Node tag at_ _ cs) := n in
  if existsb (fun kv => match_tag (snd kv) (L "DataObjectReference")) at_ then
    if skip_hdf5 && match_tag tag (L "HdfProxy") then [] else [n]
  else (fix go l := match l with [] => [] | c :: l' => list_obj_references skip_hdf5 c ++ go l' end) cs.
(* xml_et.py:319-340, the non-rels form *)
Definition node_type (n : node) (strip_obj : bool) : option str :=
  match List.find (fun kv => match_tag (fst kv) (L "type")) (n_attrib n) with
  | None => None
  | Some (_, v) =>
      let r := stripped_of_prefix v in
      Some (if strip_obj && startswith r (L "obj_") then from r 4 else r)
  end.

(* xml_et.py:507-526; [fuel] bounds the recursion depth *)
Fixpoint walk_back (v : Z) (a : list Z) (mid : nat) : nat :=
  match mid with
  | O => O
  | S m => match nth_error a m with Some x => if x =? v then walk_back v a m else mid | None => mid end
  end.
Fixpoint find_in_subset (fuel : nat) (v : Z) (a : list Z) (start en : nat) : res (option nat) :=
  match fuel with
  | O => Err DivergesError
  | S f =>
      if (en <=? start)%nat then Ok None
      else
        let mid := (start + (en - start) / 2)%nat in
        match nth_error a mid with
        | None => Err IndexError
        | Some sample =>
            if sample =? v then Ok (Some (walk_back v a mid))
            else if v <? sample then find_in_subset f v a start mid
            else find_in_subset f v a (if (mid =? start)%nat then S mid else mid) en
        end
  end.
Definition find_in_ordered_data (v : Z) (a : list Z) : res (option nat) :=
  find_in_subset (2 * List.length a + 2) v a 0 (List.length a).

(* xml_et.py:542-552 *)
Definition bool_from_text (t : str) : option bool :=
  let u := lower (strip is_space t) in
  if str_eqb u (L "true") then Some true else if str_eqb u (L "false") then Some false else None.

(** [s.split()]: maximal runs of non-space characters *)
Fixpoint words_aux (s cur : str) : list str :=
  match s with
  | [] => match cur with [] => [] | _ => [rev cur] end
  | c :: s' => if is_space c then match cur with [] => words_aux s' [] | _ => rev cur :: words_aux s' [] end
               else words_aux s' (c :: cur)
  end.
Definition split_ws (s : str) : list str := words_aux s [].
Fixpoint strs_eqb (a b : list str) : bool :=
  match a, b with [], [] => true | x :: a', y :: b' => str_eqb x y && strs_eqb a' b' | _, _ => false end.
Definition mem_strs (x : list str) (l : list (list str)) : bool := existsb (strs_eqb x) l.
Inductive hand := HLeft | HRight | HUnknown.
(* xml_et.py:617-642 *)
Definition xyz_handedness (xy_axes : option str) (z_inc_down : option bool) : hand :=
  match xy_axes, z_inc_down with
  | Some axes, Some zd =>
      let w := split_ws (lower axes) in
      if negb (List.length w =? 2)%nat then HUnknown
      else if negb (mem_strs w [[L "easting"; L "northing"]; [L "northing"; L "easting"]; [L "westing"; L "southing"];
                                [L "southing"; L "westing"]; [L "northing"; L "westing"]; [L "westing"; L "northing"]]) then HUnknown
      else
        let rh := if mem_strs w [[L "easting"; L "northing"]; [L "westing"; L "southing"]; [L "northing"; L "westing"]] then negb zd else zd in
        if rh then HRight else HLeft
  | _, _ => HUnknown
  end.

(** ** Namespaces: xml_namespaces.py:5-33 *)
Definition namespaces : list (str * str) :=
  [ (L "xsd", L "http://www.w3.org/2001/XMLSchema");
    (L "xsi", L "http://www.w3.org/2001/XMLSchema-instance");
    (L "eml", L "http://www.energistics.org/energyml/data/commonv2");
    (L "eml20", L "http://www.energistics.org/energyml/data/commonv2");
    (L "eml23", L "http://www.energistics.org/energyml/data/commonv2");
    (L "resqml2", L "http://www.energistics.org/energyml/data/resqmlv2");
    (L "resqml", L "http://www.energistics.org/energyml/data/resqmlv2");
    (L "resqml20", L "http://www.energistics.org/energyml/data/resqmlv2");
    (L "rels_ext", L "http://schemas.energistics.org/package/2012/relationships/");
    (L "rels", L "http://schemas.openxmlformats.org/package/2006/relationships");
    (L "rels_md", L "http://schemas.openxmlformats.org/package/2006/relationships/metadata/");
    (L "content_types", L "http://schemas.openxmlformats.org/package/2006/content-types");
    (L "cp", L "http://schemas.openxmlformats.org/package/2006/metadata/core-properties");
    (L "dcterms", L "http://purl.org/dc/terms/");
    (L "dc", L "http://purl.org/dc/elements/1.1/") ].
(** [namespace[key]] *)
Definition ns_get (p : str) : option str := dget str_eqb namespaces p.
(* xml_namespaces.py:37-40: the first key with the url *)
Definition inv_ns (url : str) : option str :=
  option_map fst (List.find (fun kv => str_eqb (snd kv) url) namespaces).

(* xml_et.py:51-66 *)
Definition colon_prefixed (s : str) : option str * option str :=
  match s with
  | [] => (None, None)
  | c :: rest =>
      if negb (chr_eqb c (ch "{")) then
        match find_chr (ch ":") s with None => (Some s, None) | Some k => (Some s, Some (upto s k)) end
      else
        let '(url, tl_) := match rfind_chr (ch "}") s with
                           | Some p => (upto rest (p - 1), from s (p + 1))
                           | None => (upto rest (List.length rest - 1), s)   (* pre_end = -1 *)
                           end in
        match inv_ns url with None => (Some s, None) | Some p => (Some (p ++ L ":" ++ tl_), Some p) end
  end.

(** ** Writing: xml_et.py:675-745 *)
Definition str_in (x : str) (l : list str) : bool := existsb (str_eqb x) l.
Definition spaces (n : nat) : str := repeat (ch " ") n.
Definition quote : ascii := ascii_of_N 34.
Definition newline : ascii := ascii_of_N 10.
(** [name="value"] preceded by a space *)
Definition attr_out (nv : str * str) : str := (ch " ") :: fst nv ++ ch "=" :: quote :: snd nv ++ [quote].
(** truthiness of an optional prefix: None and '' are false *)
Definition truthy (p : option str) : option str := match p with Some (c :: l) => Some (c :: l) | _ => None end.

(** the loop over the attributes (704-714): accumulates [attrib_ns_list], [attrib_list], [type_pre_colon] *)
Record wacc := WAcc { wa_ns : list str; wa_list : list (str * str); wa_type : option str }.
Definition attr_step (ns_keys : list str) (ct_special : bool) (acc : wacc) (kv : str * str) : res wacc :=
  let '(key, val) := kv in
  let '(ck, pre) := colon_prefixed key in
  let nsl := match truthy pre with Some p => if str_in p ns_keys then wa_ns acc else wa_ns acc ++ [p] | None => wa_ns acc end in
  match ck with
  | None => Err TypeError      (* an empty key: None + str *)
  | Some ck =>
      if match_tag key (L "type") then
        match colon_prefixed val with
        | (None, _) => Err TypeError   (* an empty type: str + None *)
        | (Some ty, tp) => Ok (WAcc nsl (wa_list acc ++ [(ck, ty)]) tp)
        end
      else if ct_special && str_eqb ck (L "PartName") && startswith val (L "obj_") then
        Ok (WAcc nsl (wa_list acc ++ [(ck, L "/" ++ val)]) (wa_type acc))
      else Ok (WAcc nsl (wa_list acc ++ [(ck, val)]) (wa_type acc))
  end.
Fixpoint attr_loop (ns_keys : list str) (ct : bool) (acc : wacc) (l : list (str * str)) : res wacc :=
  match l with [] => Ok acc | kv :: l' => do a <- attr_step ns_keys ct acc kv; attr_loop ns_keys ct a l' end.
(** [' xmlns:p="url"'] for each prefix, KeyError for an unknown one *)
Fixpoint ns_decls (l : list str) : res (list (str * str)) :=
  match l with
  | [] => Ok []
  | p :: l' => match ns_get p with
               | None => Err KeyError
               | Some u => do r <- ns_decls l'; Ok ((L "xmlns:" ++ p, u) :: r)
               end
  end.
(** the text replacements of line 731 *)
Definition escape_text (t : str) : str :=
  replace (replace (replace t (L "&") (L "&amp;")) (L "<") (L "&lt;")) (L ">") (L "&gt;").
Definition blank (t : str) : bool := forallb is_space t.
(** the text written (727-731), before escaping *)
Definition out_text (tag text : str) : str :=
  let text := if blank text && endswith tag (L "Title") then L "untitled" else text in
  if blank text then [] else text.

(** what precedes the children: the tag as written, ct_special, the new ns_keys and the
    attributes (with namespace declarations) of the opening line (681-721) *)
Record whead := WHead { wh_tag : str; wh_ct : bool; wh_keys : list str; wh_attrs : list (str * str) }.
Definition write_head (ns_keys : list str) (tag : str) (attrib : list (str * str)) : res whead :=
  match colon_prefixed tag with
  | (None, _) => Err TypeError
  | (Some ctag, pre) =>
      let is_ct := match pre with Some p => str_eqb p (L "content_types") | None => false end in
      let is_rels := match pre with Some p => str_eqb p (L "rels") | None => false end in
      let wtag := if is_ct then from ctag 14 else if is_rels then from ctag 5 else ctag in
      let ct := is_ct || is_rels in
      do d0k <- match truthy pre with
                | Some p => if str_in p ns_keys then Ok ([], ns_keys)
                            else match ns_get p with
                                 | None => Err KeyError
                                 | Some u => Ok ([(if ct then L "xmlns" else L "xmlns:" ++ p, u)], ns_keys ++ [p])
                                 end
                | None => Ok ([], ns_keys)
                end;
      let '(d0, keys) := d0k in
      do acc <- attr_loop keys ct (WAcc [] [] None) attrib;
      do d1 <- ns_decls (wa_ns acc);
      let keys := keys ++ wa_ns acc in
      do d2k <- match truthy (wa_type acc) with
                | Some p => if str_in p keys then Ok ([], keys) else do d <- ns_decls [p]; Ok (d, keys ++ [p])
                | None => Ok ([], keys)
                end;
      let '(d2, keys) := d2k in
      Ok (WHead wtag ct keys (d0 ++ d1 ++ d2 ++ wa_list acc))
  end.

(* xml_et.py:675-745; result: the characters written and the node count *)
Fixpoint write_node (level : nat) (ns_keys : list str) (n : node) : res (str * Z) :=
  let '(Node tag attrib text cs) := n in
  do h <- write_head ns_keys tag attrib;
  let open_ := spaces (3 * level) ++ ch "<" :: wh_tag h ++ flat_map attr_out (wh_attrs h) in
  if wh_ct h && (match cs with [] => true | _ => false end) then Ok (open_ ++ L "/>" ++ [newline], 1)
  else
    do sub <- (fix go l := match l with
                           | [] => Ok ([], 0)
                           | c :: l' => do a <- write_node (S level) (wh_keys h) c; do b <- go l'; Ok (fst a ++ fst b, snd a + snd b)
                           end) cs;
    let '(before, indent) := match cs with [] => ([], []) | _ => ([newline], spaces (3 * level)) end in
    Ok (open_ ++ ch ">" :: escape_text (out_text (wh_tag h) text) ++ before ++ fst sub ++ indent ++ L "</" ++ wh_tag h ++ ch ">" :: [newline],
        1 + snd sub).
(* xml_et.py:748-761 *)
Definition xml_line (standalone : option str) : str :=
  L "<?xml version=" ++ quote :: L "1.0" ++ quote :: L " encoding=" ++ quote :: L "UTF-8" ++ quote ::
  match standalone with None => [] | Some s => L " standalone=" ++ quote :: s ++ [quote] end ++ L "?>" ++ [newline].
Definition write_xml (standalone : option str) (root : node) : res (str * Z) :=
  do r <- write_node 0 [] root; Ok (xml_line standalone ++ fst r, snd r).
