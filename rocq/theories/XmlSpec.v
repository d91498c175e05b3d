(** XmlSpec.v: specification side for C38: a small independent reader for the fragment of
    "XML 1.0" / "Namespaces in XML" that element trees need.  Nothing here is taken from
    resqpy: it plays the role of the parser (lxml) that reads stored parts back.

    Fragment: an optional xml declaration, elements with double-quoted attributes, text with
    the five predefined entities, default and prefixed namespaces.  No comments, CDATA,
    processing instructions, character references or single-quoted attributes: input using
    those is rejected.  A rejected document is None.  End-of-line and attribute white space
    normalisation are not modelled; theorems exclude the characters they touch. *)
From Verif Require Import Base StrModel PyDict XmlModel.

Fixpoint span (p : ascii -> bool) (s : str) : str * str :=
  match s with
  | [] => ([], [])
  | c :: s' => if p c then let '(a, b) := span p s' in (c :: a, b) else ([], s)
  end.
(** Expect a literal. *)
Fixpoint expect (p s : str) : option str :=
  match p, s with
  | [], _ => Some s
  | x :: p', y :: s' => if chr_eqb x y then expect p' s' else None
  | _ :: _, [] => None
  end.

(** Entities. *)
Definition entities : list (str * ascii) :=
  [(L "amp;", ch "&"); (L "lt;", ch "<"); (L "gt;", ch ">"); (L "quot;", quote); (L "apos;", ch "'")].
Fixpoint entity_at (es : list (str * ascii)) (s : str) : option (nat * ascii) :=
  match es with
  | [] => None
  | (e, c) :: es' => if startswith s e then Some (List.length e, c) else entity_at es' s
  end.
(** [skip] characters of an entity name already recognised *)
Fixpoint unescape_aux (s : str) (skip : nat) : option str :=
  match s with
  | [] => match skip with O => Some [] | S _ => None end
  | c :: s' =>
      match skip with
      | S k => unescape_aux s' k
      | O => if chr_eqb c (ch "&") then
               match entity_at entities s' with
               | None => None
               | Some (n, x) => option_map (cons x) (unescape_aux s' n)
               end
             else option_map (cons c) (unescape_aux s' 0)
      end
  end.
Definition unescape (s : str) : option str := unescape_aux s 0.

(** Characters that end a name. *)
Definition name_chr (c : ascii) : bool :=
  negb (is_space c) && negb (chr_eqb c (ch "=")) && negb (chr_eqb c (ch ">")) && negb (chr_eqb c (ch "<")) &&
  negb (chr_eqb c (ch "/")) && negb (chr_eqb c quote) && negb (chr_eqb c (ch "&")) && negb (chr_eqb c (ch "'")) &&
  negb (chr_eqb c (ch "{")) && negb (chr_eqb c (ch "}")).
Definition some_if {A} (b : bool) (x : A) : option A := if b then Some x else None.
Notation "'dop' x <- r ; k" := (match r with Some x => k | None => None end) (at level 200, x pattern, right associativity).

(** Attributes up to and including the end of the tag: (attributes, empty element?, rest). *)
Fixpoint parse_attrs (fuel : nat) (s : str) : option (list (str * str) * bool * str) :=
  match fuel with
  | O => None
  | S f =>
      let s1 := snd (span is_space s) in
      match expect (L ">") s1 with
      | Some r => Some ([], false, r)
      | None =>
          match expect (L "/>") s1 with
          | Some r => Some ([], true, r)
          | None =>
              let '(name, s2) := span name_chr s1 in
              dop s3 <- expect (ch "=" :: [quote]) s2;
              let '(raw, s4) := span (fun c => negb (chr_eqb c quote) && negb (chr_eqb c (ch "<"))) s3 in
              dop s5 <- expect [quote] s4;
              dop v <- unescape raw;
              dop r <- parse_attrs f s5;
              let '(l, e, rest) := r in
              match name with [] => None | _ => Some ((name, v) :: l, e, rest) end
          end
      end
  end.

(** Namespace scope: the empty prefix is the default namespace. *)
Definition scope := list (str * str).
Definition declares (nv : str * str) : option (str * str) :=
  if str_eqb (fst nv) (L "xmlns") then Some ([], snd nv)
  else match expect (L "xmlns:") (fst nv) with Some p => Some (p, snd nv) | None => None end.
Fixpoint omap {A B} (f : A -> option B) (l : list A) : list B :=
  match l with [] => [] | x :: l' => match f x with Some y => y :: omap f l' | None => omap f l' end end.
Definition qualify (uri local : str) : str := ch "{" :: uri ++ ch "}" :: local.
Definition resolve_tag (env : scope) (name : str) : option str :=
  match find_chr (ch ":") name with
  | None => match dget str_eqb env [] with Some u => Some (qualify u name) | None => Some name end
  | Some k => dop u <- dget str_eqb env (upto name k); Some (qualify u (from name (k + 1)))
  end.
Definition resolve_attr (env : scope) (name : str) : option str :=
  match find_chr (ch ":") name with
  | None => Some name
  | Some k => dop u <- dget str_eqb env (upto name k); Some (qualify u (from name (k + 1)))
  end.
Fixpoint resolve_attrs (env : scope) (l : list (str * str)) : option (list (str * str)) :=
  match l with
  | [] => Some []
  | nv :: l' =>
      match declares nv with
      | Some _ => resolve_attrs env l'
      | None => dop k <- resolve_attr env (fst nv); dop r <- resolve_attrs env l'; Some ((k, snd nv) :: r)
      end
  end.
Fixpoint nodup_names (l : list str) : bool :=
  match l with [] => true | x :: l' => negb (existsb (str_eqb x) l') && nodup_names l' end.

(** An element starting at '<'; a list of children up to the closing tag. *)
Fixpoint parse_elem (fuel : nat) (env : scope) (s : str) : option (node * str) :=
  match fuel with
  | O => None
  | S f =>
      dop s1 <- expect (L "<") s;
      let '(name, s2) := span name_chr s1 in
      match name with
      | [] => None
      | _ =>
          dop a <- parse_attrs (S (List.length s2)) s2;
          let '(raw, empty, s3) := a in
          if negb (nodup_names (map fst raw)) then None
          else
            let env' := omap declares raw ++ env in
            dop tag <- resolve_tag env' name;
            dop at_ <- resolve_attrs env' raw;
            if negb (nodup_names (map fst at_)) then None
            else if empty then Some (Node tag at_ [] [], s3)
            else
              let '(rtext, s4) := span (fun c => negb (chr_eqb c (ch "<"))) s3 in
              dop text <- unescape rtext;
              dop cr <- parse_children f env' s4;
              let '(cs, s5) := cr in
              dop s6 <- expect (L "</" ++ name ++ L ">") s5;
              Some (Node tag at_ text cs, s6)
      end
  end
with parse_children (fuel : nat) (env : scope) (s : str) : option (list node * str) :=
  match fuel with
  | O => None
  | S f =>
      match expect (L "</") s with
      | Some _ => Some ([], s)
      | None =>
          dop cr <- parse_elem f env s;
          let '(c, s1) := cr in
          let '(rtail, s2) := span (fun c => negb (chr_eqb c (ch "<"))) s1 in
          dop _ <- unescape rtail;
          dop lr <- parse_children f env s2;
          let '(cs, s3) := lr in Some (c :: cs, s3)
      end
  end.
(** A document: declaration, one element, white space. *)
Definition parse_doc (s : str) : option node :=
  dop s1 <- expect (L "<?xml ") s;
  let '(_, s2) := span (fun c => negb (chr_eqb c (ch ">"))) s1 in
  dop s3 <- expect (L ">") s2;
  let s4 := snd (span is_space s3) in
  dop r <- parse_elem (2 * List.length s4 + 2) [] s4;
  let '(n, s5) := r in
  if blank s5 then Some n else None.

(** ** Which trees are in scope, and what reading them back should give *)
Definition good_name (s : str) : Prop := s <> [] /\ forallb name_chr s = true /\ ~ In (ch ":") s.
(** attribute values are written as they are: no quote, '<' or '&', no line breaks or tabs *)
Definition plain_value (v : str) : Prop :=
  ~ In quote v /\ ~ In (ch "<") v /\ ~ In (ch "&") v /\ ~ In (ascii_of_N 9) v /\ ~ In newline v /\ ~ In (ascii_of_N 13) v.
(** A tree has all its tags in the content types namespace, or all in the package
    relationships namespace, or all in other known namespaces. *)
Inductive kind := Ordinary | Special (p : str).
Definition special_prefix (p : str) : Prop := p = L "content_types" \/ p = L "rels".
Definition kind_ok (k : kind) : Prop := match k with Ordinary => True | Special p => special_prefix p end.
Definition tag_ok (k : kind) (tag : str) : Prop :=
  exists p uri local, tag = qualify uri local /\ inv_ns uri = Some p /\ good_name local /\
    match k with Ordinary => ~ special_prefix p | Special q => p = q end.
Definition key_ok (key : str) : Prop :=
  (good_name key /\ key <> L "xmlns") \/
  (exists p uri local, key = qualify uri local /\ inv_ns uri = Some p /\ ~ special_prefix p /\ good_name local).
(** the namespace of an attribute name, if any *)
Definition key_prefix (key : str) : option str := snd (colon_prefixed key).
Definition attrib_ok (at_ : list (str * str)) : Prop :=
  NoDup (map fst at_) /\ Forall (fun kv => key_ok (fst kv) /\ plain_value (snd kv)) at_ /\
  (* at most one attribute from each namespace *)
  NoDup (omap (fun kv => key_prefix (fst kv)) at_) /\
  (* a type is not empty and if it has a prefix, the prefix is known *)
  Forall (fun kv => match_tag (fst kv) (L "type") = true -> snd kv <> [] /\
            match truthy (snd (colon_prefixed (snd kv))) with Some p => ns_get p <> None | None => True end) at_.
Inductive wf (k : kind) : node -> Prop :=
  | wf_node tag at_ text cs : tag_ok k tag -> attrib_ok at_ -> ~ In (ascii_of_N 13) text -> Forall (wf k) cs -> wf k (Node tag at_ text cs).

Definition is_special (k : kind) : bool := match k with Special _ => true | Ordinary => false end.
(** A type '{uri}T' comes back as 'prefix:T'; in the package files a part name gets a leading '/'. *)
Definition reread_value (k : kind) (key v : str) : str :=
  if match_tag key (L "type") then match fst (colon_prefixed v) with Some t => t | None => v end
  else if is_special k && str_eqb key (L "PartName") && startswith v (L "obj_") then L "/" ++ v else v.
(** Text: blank text of a Title becomes 'untitled'; the package files' childless elements
    lose their text; an element with children gains trailing white space. *)
Fixpoint reread (k : kind) (level : nat) (n : node) : node :=
  let '(Node tag at_ text cs) := n in
  Node tag (map (fun kv => (fst kv, reread_value k (fst kv) (snd kv))) at_)
    (match cs with
     | [] => if is_special k then [] else out_text tag text
     | _ => out_text tag text ++ newline :: spaces (3 * S level)
     end)
    (map (reread k (S level)) cs).
Fixpoint count_nodes (n : node) : Z :=
  let '(Node _ _ _ cs) := n in 1 + fold_right Z.add 0 (map count_nodes cs).
