(** PropXmlProps.v: C79, what is read of a property after its xml has been created. *)
From Coq Require Import QArith Qround.
From Verif Require Import Base QBase TextModel StrModel StrProofs UuidModel UuidProofs UuidProps PyDict AsciiModel AsciiProofs AsciiProofs2 XmlModel XmlSpec XmlProofs XmlHead XmlRound XmlProps NormModel NormProps TriProofs3 PropXmlModel PropXmlProofs.
Open Scope Z_scope.

(** ** Reading the pieces *)
Section Pieces.
  Context (v : nat -> node -> node) (Hv : view v).
  Lemma leaf_text l tag ty t : clean t -> n_text (v l (leaf tag ty t)) = t.
  Proof. intros [B _]. now rewrite (v_leaf v Hv). Qed.
  Lemma leaf_node_text l tag ty t : tidy t -> node_text (Some (v l (leaf tag ty t))) = Some t.
  Proof. intros T. unfold node_text. rewrite leaf_text by apply T. now apply tidy_node_text. Qed.
  Lemma leaf_int l tag ty z : n_text (v l (leaf tag ty (fmt_int z))) = fmt_int z.
  Proof. apply leaf_text, word_tidy, int_word. Qed.
  Lemma leaf_node_int l tag ty z : node_int (Some (v l (leaf tag ty (fmt_int z)))) = Ok (Some z).
  Proof.
    unfold node_int. rewrite leaf_int. pose proof (word_tidy _ (int_word z)) as [_ ->]. rewrite int_not_none, parse_fmt_int. pose proof (int_word z) as [N _]. destruct (fmt_int z); [congruence|reflexivity].
  Qed.
  Lemma child_elem l tag ty text cs t : child (v l (elem tag ty text cs)) t = option_map (v (S l)) (List.find (fun c => match_tag (n_tag c) (L t)) cs).
  Proof. now rewrite (child_view v Hv). Qed.
  Lemma ref_uuid l e tag title u ct : child (v l (ref_node e tag title u ct)) "UUID" = Some (v (S l) (leaf (eml "UUID") (eml "UuidString") (uuid_str u))).
  Proof. unfold ref_node. rewrite child_elem. unfold leaf, elem. cbn [List.find n_tag]. matches. reflexivity. Qed.
  Lemma ref_title l e tag title u ct : title <> [] ->
    child (v l (ref_node e tag title u ct)) "Title" = Some (v (S l) (leaf (eml "Title") (eml "DescriptionString") title)).
  Proof. intros N. unfold ref_node. rewrite child_elem. unfold leaf, elem. cbn [List.find n_tag]. matches. destruct title; [congruence|reflexivity]. Qed.
  Lemma uuid_read l u : IsUuid u -> uuid_of_text (node_text (Some (v l (leaf (eml "UUID") (eml "UuidString") (uuid_str u))))) = Ok (Some u).
  Proof.
    intros Hu. rewrite leaf_node_text by apply word_tidy, uuid_word. unfold uuid_of_text. destruct (C14_string_round_trip u [] Hu) as [E _]. now rewrite app_nil_r in E.
  Qed.
End Pieces.

(** ** What may be asked for *)
Section S.
Context (float_str : option Q -> str) (float_of : str -> res (option Q)).
(** float() reads what str() writes, and integers; the text of a float has no white space and is not 'none' *)
Definition floats_ok : Prop :=
  (forall x, float_of (float_str x) = Ok x /\ word (float_str x) /\ str_eqb (lower (float_str x)) (L "none") = false) /\
  (forall z, float_of (fmt_int z) = Ok (Some (inject_Z z))).
Definition generic_kind (k : str) : Prop := k = L "continuous" \/ k = L "discrete" \/ k = L "categorical".
Definition no_cr (t : str) : Prop := ~ In cr t.
(** stored in the xml itself, not as an array *)
Definition stored_constant (a : args) : option num := if a_expand a then None else a_const a.
Definition chosen_support (e : env) (a : args) : option Z := match a_support a with Some u => Some u | None => e_support e end.
Definition chosen_uom (e : env) (a : args) : str :=
  match a_uom a with Some (c :: u) => c :: u | _ => match e_guess e with Some (c :: u) => c :: u | _ => L "Euc" end end.
(** An object found in the model has a type and title that xml can hold. *)
Record env_ok (e : env) : Prop := {
  ok_type : forall u t, e_type e u = Some t -> no_cr t;
  ok_title : forall u t, e_title e u = Some t -> no_cr t;
  ok_user : no_cr (e_user e); ok_now : no_cr (e_now e); ok_format : no_cr (e_format e) }.
Record suitable (e : env) (a : args) : Prop := {
  s_title : tidy (a_title a); s_kind : tidy (a_kind a);
  s_rock : a_kind a <> L "permeability rock" /\ a_title a <> L "permeability rock";
  s_points : a_points a = true -> a_discrete a = false /\ a_const a = None /\ a_facet_type a = None;
  s_support : exists u, chosen_support e a = Some u /\ IsUuid u /\ (a_indexable a = None -> exists ie, get_indexable None (e_type e u) = Ok ie);
  s_file : stored_constant a = None -> a_ext a <> None \/ e_h5 e <> None;
  s_indexable : forall ie, a_indexable a = Some ie -> clean ie;
  s_time : forall ts t, a_ts a = Some ts -> a_time a = Some t -> IsUuid ts /\ exists n, e_steps e ts = Some n /\ 0 <= t < n;
  s_lookup : a_discrete a = true -> forall u, a_lookup a = Some u -> IsUuid u /\ e_type e u = Some (L "obj_StringTableLookup");
  s_const : forall c, stored_constant a = Some c ->
    (exists shape, e_shape e = Some shape /\ 0 < fold_left Z.mul shape 1) /\
    match c with NInt _ => True | NFloat _ => a_discrete a = false | NBool _ => a_discrete a = true end;
  s_limits : forall n, a_min a = Some n \/ a_max a = Some n \/ a_const a = Some n ->
    match n with NInt _ => True | NFloat (Some _) => True | NFloat None => a_discrete a = false | NBool _ => a_discrete a = true end;
  s_facets : forall ft f, a_facet_type a = Some ft -> a_facet a = Some f -> clean ft /\ clean f;
  s_uom : tidy (chosen_uom e a);
  s_originator : forall o, a_originator a = Some o -> no_cr o;
  s_source : forall s, a_source a = Some s -> s = [] \/ tidy s;
  s_extra : NoDup (dkeys (a_extra a)) /\ (forall k x, In (k, x) (a_extra a) -> tidy k /\ tidy x /\ k <> L "Uom") }.

(** ** Parts of the tree, and where each is found *)
Definition source_meta (a : args) : list (str * str) := match a_source a with Some (c :: s) => put_source (a_extra a) (c :: s) | _ => a_extra a end.
Definition tags (a : args) : list str :=
  [ eml "Citation"; rq "ExtraMetadata"; rq "Count"; rq "IndexableElement"; rq "RealizationIndex"; rq "TimeIndex"; rq "SupportingRepresentation"; rq "PropertyKind";
    rq (if a_points a then "PatchOfPoints" else "PatchOfValues"); rq "Facet"; rq "MinimumValue"; rq "MaximumValue" ] ++
  if a_discrete a then [rq "Lookup"] else [rq "UOM"; rq "ExtraMetadata"].
Lemma time_tagged e a t : time_node e a = Ok t -> tagged (rq "TimeIndex") t.
Proof.
  unfold time_node. destruct (a_ts a) as [ts|]; [|intros [= <-]; constructor]. destruct (a_time a) as [i|]; [|intros [= <-]; constructor].
  destruct (e_steps e ts); [|discriminate]. destruct (_ && _); cbn [assert_ bind]; [|discriminate]. intros [= <-]. constructor; constructor.
Qed.
Lemma limit_tagged tag r a x l : limit_node float_str tag r a x = Ok l -> tagged (rq tag) l.
Proof. unfold limit_node. destruct x as [n|]; [|intros [= <-]; constructor]. destruct (if a_discrete a then _ else _); cbn [bind]; [|discriminate]. intros [= <-]. constructor; constructor. Qed.
Lemma min_max_tagged a mm : min_max_nodes float_str a = Ok mm -> tagged (rq "MinimumValue") (fst mm) /\ tagged (rq "MaximumValue") (snd mm).
Proof.
  unfold min_max_nodes. destruct (_ && _ && _); [|intros [= <-]; split; constructor]. destruct (get_min_max a) as [mn mx].
  destruct (limit_node _ _ _ _ mn) as [x|] eqn:E1; cbn [bind]; [|discriminate]. destruct (limit_node _ _ _ _ mx) as [y|] eqn:E2; cbn [bind]; [|discriminate]. intros [= <-].
  split; eapply limit_tagged; eassumption.
Qed.
Lemma patch_tagged e a ext null h x p : patch_node float_str e a ext null h x = Ok p -> n_tag p = rq (if a_points a then "PatchOfPoints" else "PatchOfValues").
Proof.
  unfold patch_node. destruct (if a_expand a then None else a_const a) as [c|].
  - destruct (e_shape e); [|discriminate]. destruct (0 <? _); cbn [assert_ bind]; [|discriminate]. destruct (match c with NBool _ => _ | _ => _ end) as [[ty vty] text]. intros [= <-]. cbn [n_tag elem]. destruct (a_points a); reflexivity.
  - destruct ext; [|discriminate]. intros [= <-]. cbn [n_tag elem]. destruct (a_points a); reflexivity.
Qed.
Lemma meta_tagged l : tagged (rq "ExtraMetadata") (map meta_node l).
Proof. induction l; constructor; [reflexivity|assumption]. Qed.

Definition prop_type (a : args) : string :=
  if a_discrete a then match a_lookup a with None => "DiscreteProperty" | Some _ => "CategoricalProperty" end
  else if a_points a then "PointsProperty" else "ContinuousProperty".
Definition segments (e : env) (a : args) (ie : str) (sup : Z) (time : list node) (patch : node) (mm : list node * list node) (lk : list node) : list (list node) :=
  basics e a ie ++ [realization_node (a_real a); time; [support_node e sup]; [kind_node e a]; [patch]; facet_node a; fst mm; snd mm] ++
  (if a_discrete a then [lk] else [fst (uom_nodes e a); snd (uom_nodes e a)]).
Definition root_node (a : args) (segs : list (list node)) : node :=
  Node (rq (prop_type a)) [(L "schemaVersion", L "2.0"); (L "uuid", uuid_str (a_uuid a)); (xsi_type, rq ("obj_" ++ prop_type a))] null_text (List.concat segs).
Definition patch_of (e : env) (a : args) : res node :=
  patch_node float_str e a (match a_ext a with Some u => Some u | None => e_h5 e end) (if a_discrete a then a_null a else None)
    (if a_discrete a then "Integer" else if a_points a then "Point3d" else "Double") (if a_discrete a then "integer" else "double").
Lemma min_max_ok e a : suitable e a -> exists mm, min_max_nodes float_str a = Ok mm.
Proof.
  intros Hs. unfold min_max_nodes. destruct (_ && _ && _); [|eauto].
  assert (R : forall r n, (a_discrete a = true -> n <> NFloat None) -> forall tag, exists l, limit_node float_str tag r a (Some n) = Ok l).
  { intros r n H tag. unfold limit_node. destruct (a_discrete a); [|eexists; reflexivity]. specialize (H eq_refl). destruct n as [z|[q|]|b]; try (eexists; reflexivity). congruence. }
  assert (G : forall n, fst (get_min_max a) = Some n \/ snd (get_min_max a) = Some n -> a_discrete a = true -> n <> NFloat None).
  { assert (U : forall n, a_min a = Some n \/ a_max a = Some n \/ a_const a = Some n -> a_discrete a = true -> n <> NFloat None).
    { intros n H D ->. apply (s_limits e a Hs) in H. congruence. }
    intros n H D. unfold get_min_max in H. destruct (a_const a) as [c|] eqn:Ec.
    - rewrite D in H. cbn [orb fst snd] in H. unfold or_else in H. apply U; [|assumption]. destruct (a_min a), (a_max a); tauto.
    - destruct (a_array a) as [l|]; cbn [fst snd] in H; [|destruct H; discriminate].
      rewrite D in H. unfold or_else in H. destruct H as [H|H].
      + destruct (a_min a) eqn:Em; [apply U; tauto|]. destruct (lowest (known l)); [|discriminate]. injection H as <-. discriminate.
      + destruct (a_max a) eqn:Em; [apply U; tauto|]. destruct (highest (known l)); [|discriminate]. injection H as <-. discriminate. }
  destruct (get_min_max a) as [mn mx]. cbn [fst snd] in G.
  assert (A : exists x, limit_node float_str "MinimumValue" Qfloor a mn = Ok x) by (destruct mn; [apply R, G; tauto|eexists; reflexivity]).
  assert (B : exists x, limit_node float_str "MaximumValue" Qceiling a mx = Ok x) by (destruct mx; [apply R, G; tauto|eexists; reflexivity]).
  destruct A as [x ->], B as [y ->]. cbn [bind]. eauto.
Qed.
Lemma create_ok e a : suitable e a -> exists sup ie time patch mm lk,
  chosen_support e a = Some sup /\ get_indexable (a_indexable a) (e_type e sup) = Ok ie /\ time_node e a = Ok time /\ patch_of e a = Ok patch /\
  min_max_nodes float_str a = Ok mm /\ lookup_node e (if a_discrete a then a_lookup a else None) = Ok lk /\
  create_xml float_str e a = Ok (root_node a (segments e a ie sup time patch mm lk)) /\
  Forall2 tagged (tags a) (segments e a ie sup time patch mm lk).
Proof.
  intros Hs. destruct (s_support e a Hs) as (sup & Es & Us & Hie).
  assert (A1 : exists ie, get_indexable (a_indexable a) (e_type e sup) = Ok ie).
  { destruct (a_indexable a) as [ie|]; [eexists; reflexivity|now apply Hie]. }
  assert (A2 : exists time, time_node e a = Ok time).
  { unfold time_node. destruct (a_ts a) as [ts|] eqn:E1; [|eauto]. destruct (a_time a) as [t|] eqn:E2; [|eauto]. destruct (s_time e a Hs ts t E1 E2) as (_ & n & -> & B).
    replace ((0 <=? t) && (t <? n)) with true by lia. cbn. eauto. }
  assert (A3 : exists patch, patch_of e a = Ok patch).
  { unfold patch_of, patch_node. pose proof (s_const e a Hs) as C. pose proof (s_file e a Hs) as F. unfold stored_constant in C, F. destruct (if a_expand a then None else a_const a) as [c|].
    - destruct (C c eq_refl) as [(shape & -> & P) _]. replace (0 <? _) with true by lia. cbn [assert_ bind]. destruct (match c with NBool _ => _ | _ => _ end) as [[ty vty] text]. eauto.
    - specialize (F eq_refl). destruct (a_ext a); [eauto|]. destruct (e_h5 e); [eauto|]. destruct F; congruence. }
  destruct (min_max_ok e a Hs) as [mm A4].
  assert (A5 : exists lk, lookup_node e (if a_discrete a then a_lookup a else None) = Ok lk).
  { unfold lookup_node. destruct (a_discrete a) eqn:D; [|eauto]. destruct (a_lookup a) as [u|] eqn:E; [|eauto]. destruct (s_lookup e a Hs D u E) as [_ ->]. cbn. eauto. }
  destruct A1 as [ie A1], A2 as [time A2], A3 as [patch A3], A5 as [lk A5].
  exists sup, ie, time, patch, mm, lk. repeat (split; [assumption|]). split.
  - unfold create_xml. pose proof (s_title e a Hs) as [[Bt _] _]. pose proof (s_kind e a Hs) as [[Bk _] _].
    destruct (a_title a) eqn:Et; [discriminate|]. destruct (a_kind a) eqn:Ek; [discriminate|]. cbn [assert_ bind].
    assert (P1 : negb (a_discrete a) || negb (a_points a) = true).
    { destruct (a_points a) eqn:P; [|apply orb_true_r]. destruct (s_points e a Hs P) as (-> & _). reflexivity. }
    assert (P2 : negb (a_points a) || match a_const a with None => true | Some _ => false end = true).
    { destruct (a_points a) eqn:P; [|reflexivity]. destruct (s_points e a Hs P) as (_ & -> & _). reflexivity. }
    assert (P3 : negb (a_points a) || match a_facet_type a with None => true | Some _ => false end = true).
    { destruct (a_points a) eqn:P; [|reflexivity]. destruct (s_points e a Hs P) as (_ & _ & ->). reflexivity. }
    rewrite P1, P2, P3. cbn [assert_ bind]. unfold chosen_support in Es. rewrite Es, A1. cbn [bind].
    unfold patch_of in A3. unfold root_node, prop_type, segments. destruct (a_discrete a) eqn:D.
    + rewrite A2. cbn [bind]. rewrite A3. cbn [bind]. rewrite A4. cbn [bind]. rewrite A5. cbn [bind]. destruct (a_lookup a); reflexivity.
    + destruct (a_points a) eqn:P; rewrite A2; cbn [bind]; rewrite A3; cbn [bind]; rewrite A4; cbn [bind]; destruct (uom_nodes e a); cbn [bind]; reflexivity.
  - unfold tags, segments. apply min_max_tagged in A4 as [M1 M2]. unfold basics. cbn [app].
    do 1 (constructor; [repeat constructor|]). constructor; [apply meta_tagged|]. do 2 (constructor; [repeat constructor|]).
    constructor; [unfold realization_node; destruct (a_real a) as [z|]; [destruct (0 <=? z)|]; repeat constructor|].
    constructor; [now apply (time_tagged e a)|]. constructor; [repeat constructor|]. constructor; [constructor; [unfold kind_node; destruct (written_kind_uuid e a); reflexivity|constructor]|].
    constructor; [constructor; [eapply patch_tagged; exact A3|constructor]|].
    constructor; [unfold facet_node; destruct (a_facet_type a), (a_facet a); repeat constructor|].
    constructor; [assumption|]. constructor; [assumption|]. destruct (a_discrete a) eqn:D.
    + constructor; [|constructor]. unfold lookup_node in A5. destruct (a_lookup a) as [u|]; [|injection A5 as <-; constructor]. destruct (match e_type e u with Some _ => _ | None => _ end); cbn in A5; [|discriminate]. injection A5 as <-. repeat constructor.
    + unfold uom_nodes. destruct (a_points a); [repeat constructor|]. destruct (e_valid_uom e _); cbn [fst snd]; repeat constructor.
Qed.

(** ** Finding the children of the root *)
Ltac found := rewrite pick_bools; unfold tags, segments, basics; destruct (a_points _), (a_discrete _); bools; cbn [pickb app hd_error];
  repeat match goal with |- context [match hd_error ?s with _ => _ end] => destruct (hd_error s) end; reflexivity.
Lemma root_kids e a ie sup time patch mm lk : let segs := segments e a ie sup time patch mm lk in
  let c x := pick (L x) (tags a) segs in
  c "RealizationIndex"%string = hd_error (realization_node (a_real a)) /\ c "Citation"%string = Some (citation e (a_title a) (a_originator a)) /\
  c "Count"%string = Some (leaf (rq "Count") (xsd (L "positiveInteger")) (fmt_int (a_count a))) /\
  c "IndexableElement"%string = Some (leaf (rq "IndexableElement") (rq "IndexableElements") ie) /\
  c "PropertyKind"%string = Some (kind_node e a) /\ c "Facet"%string = hd_error (facet_node a) /\ c "TimeIndex"%string = hd_error time /\
  c "MinimumValue"%string = hd_error (fst mm) /\ c "MaximumValue"%string = hd_error (snd mm) /\ c "SupportingRepresentation"%string = Some (support_node e sup).
Proof. cbv zeta. repeat split; found. Qed.
Lemma root_patch e a ie sup time patch mm lk :
  pick (if a_points a then L "PatchOfPoints" else L "PatchOfValues") (tags a) (segments e a ie sup time patch mm lk) = Some patch.
Proof. found. Qed.
Lemma root_lookup e a ie sup time patch mm lk : a_discrete a = true -> pick (L "Lookup") (tags a) (segments e a ie sup time patch mm lk) = hd_error lk.
Proof. intros D. rewrite pick_bools. unfold tags, segments, basics. rewrite D. destruct (a_points a); bools; cbn [pickb app hd_error]; destruct (hd_error lk); reflexivity. Qed.
Lemma root_uom e a ie sup time patch mm lk : a_discrete a = false -> pick (L "UOM") (tags a) (segments e a ie sup time patch mm lk) = hd_error (fst (uom_nodes e a)).
Proof. intros D. rewrite pick_bools. unfold tags, segments, basics. rewrite D. destruct (a_points a); bools; cbn [pickb app hd_error]; destruct (hd_error (fst (uom_nodes e a))); reflexivity. Qed.
Lemma root_metas e a ie sup time patch mm lk :
  pick_all (L "ExtraMetadata") (tags a) (segments e a ie sup time patch mm lk) = map meta_node (source_meta a) ++ (if a_discrete a then [] else snd (uom_nodes e a)).
Proof.
  rewrite pick_all_bools. unfold tags, segments, basics. fold (source_meta a). destruct (a_discrete a), (a_points a); bools; cbn [pick_allb app]; rewrite ?app_nil_r; reflexivity.
Qed.

(** ** The tree can be written *)
Ltac wfe := apply wf_elem; [match goal with |- tag_ok _ (rq _) => apply rq_ok; reflexivity | |- tag_ok _ (eml _) => apply eml_ok; reflexivity end | vm_compute; reflexivity | | ].
Lemma cr_app a b : no_cr a -> no_cr b -> no_cr (a ++ b).
Proof. unfold no_cr. rewrite in_app_iff. tauto. Qed.
Lemma wf_ref e tag title u ct : env_ok e -> tag_ok Ordinary tag -> no_cr title -> no_cr ct -> wf Ordinary (ref_node e tag title u ct).
Proof.
  intros He Ht H1 H2. unfold ref_node. apply wf_elem; [assumption|vm_compute; reflexivity|apply null_ok|]. constructor; [|constructor; [|constructor; [|constructor]]]; wfe; try constructor.
  - unfold content_type_text. apply cr_app; [|assumption]. destruct (contains _ _); apply literal_cr; reflexivity.
  - destruct title; [|assumption]. destruct (e_title e u) as [[|c t]|] eqn:E; try (apply literal_cr; reflexivity). now apply (ok_title e He u).
  - apply word_cr, uuid_word.
Qed.
Lemma put_source_in l s k x : In (k, x) (put_source l s) -> In (k, x) l \/ (x = s /\ (k = L "source" \/ exists y, In (k, y) l)).
Proof.
  clear float_str float_of.
  induction l as [|[k' y] l IH]; cbn [put_source]; [intros [[= <- <-]|[]]; right; tauto|]. destruct (str_eqb _ _).
  - intros [[= <- <-]|H]; [right; split; [reflexivity|right; exists y; now left]|left; now right].
  - intros [H|H]; [left; now left|]. apply IH in H as [H|(-> & [H|[z H]])]; [left; now right|right; tauto|right; split; [reflexivity|right; exists z; now right]].
Qed.
Lemma source_tidy e a : suitable e a -> forall k x, In (k, x) (source_meta a) -> tidy k /\ tidy x /\ k <> L "Uom".
Proof.
  clear float_str float_of.
  intros Hs k x. destruct (s_extra e a Hs) as [_ H]. unfold source_meta. pose proof (s_source e a Hs) as S1. destruct (a_source a) as [[|c s]|]; auto. specialize (S1 _ eq_refl) as [S1|S1]; [discriminate|].
  intros I1. apply put_source_in in I1 as [I1|(-> & [-> |[y I1]])].
  - now apply H.
  - split; [|split; [assumption|discriminate]]. split; [split; [reflexivity|apply literal_cr; reflexivity]|reflexivity].
  - apply H in I1. tauto.
Qed.
Lemma indexable_cr e a sup ie : suitable e a -> get_indexable (a_indexable a) (e_type e sup) = Ok ie -> clean ie.
Proof.
  intros Hs. unfold get_indexable. destruct (a_indexable a) as [x|] eqn:E; [intros [= <-]; now apply (s_indexable e a Hs)|].
  destruct (e_type e sup) as [ty|]; [|discriminate]. assert (C : forall x, blank x = false -> existsb (chr_eqb cr) x = false -> clean x) by (intros x B D; split; [assumption|now apply literal_cr]).
  repeat match goal with |- context [if ?b then _ else _] => destruct b end; intros [= <-]; apply C; reflexivity.
Qed.
Definition limit_text (a : args) (r : Q -> Z) (n : num) : res str := if a_discrete a then do z <- rounded r n; Ok (fmt_int z) else Ok (num_text float_str n).
Lemma limit_word e a r n t : floats_ok -> suitable e a -> (a_discrete a = false -> match n with NBool _ => False | _ => True end) ->
  limit_text a r n = Ok t -> word t.
Proof.
  intros [F _] Hs Hn. unfold limit_text. destruct (a_discrete a).
  - destruct (rounded r n); cbn [bind]; [|discriminate]. intros [= <-]. apply int_word.
  - specialize (Hn eq_refl). intros [= <-]. destruct n as [z|q|b]; cbn [num_text]; [apply int_word|apply F|contradiction].
Qed.
Lemma min_max_bool e a n : suitable e a -> fst (get_min_max a) = Some n \/ snd (get_min_max a) = Some n -> a_discrete a = false -> match n with NBool _ => False | _ => True end.
Proof.
  intros Hs H D. assert (U : forall m, a_min a = Some m \/ a_max a = Some m \/ a_const a = Some m -> match m with NBool _ => False | _ => True end).
  { intros m Hm. apply (s_limits e a Hs) in Hm. destruct m; auto. congruence. }
  unfold get_min_max in H. destruct (a_const a) as [c|] eqn:Ec.
  - rewrite D in H. cbn [orb] in H. destruct (negb (is_nan c)); cbn [fst snd] in H; [|apply U; tauto]. unfold or_else in H. apply U. destruct (a_min a), (a_max a); tauto.
  - destruct (a_array a) as [l|]; cbn [fst snd] in H; [|destruct H; discriminate]. rewrite D in H. unfold or_else in H. destruct H as [H|H].
    + destruct (a_min a) eqn:Em; [apply U; tauto|]. destruct (lowest (known l)); [|discriminate]. injection H as <-. exact Logic.I.
    + destruct (a_max a) eqn:Em; [apply U; tauto|]. destruct (highest (known l)); [|discriminate]. injection H as <-. exact Logic.I.
Qed.
Lemma limit_shape tag r a x : limit_node float_str tag r a x =
  match x with None => Ok [] | Some n => do t <- limit_text a r n; Ok [leaf (rq tag) (xsd (if a_discrete a then L "integer" else L "double")) t] end.
Proof. reflexivity. Qed.
Lemma min_max_shape a mm : min_max_nodes float_str a = Ok mm ->
  if a_min_max a && negb (match a_lookup a with Some _ => true | None => false end) && negb (a_points a) then
    match fst (get_min_max a) with None => fst mm = [] | Some n => exists t, limit_text a Qfloor n = Ok t /\ fst mm = [leaf (rq "MinimumValue") (xsd (if a_discrete a then L "integer" else L "double")) t] end /\
    match snd (get_min_max a) with None => snd mm = [] | Some n => exists t, limit_text a Qceiling n = Ok t /\ snd mm = [leaf (rq "MaximumValue") (xsd (if a_discrete a then L "integer" else L "double")) t] end
  else mm = ([], []).
Proof.
  unfold min_max_nodes. destruct (_ && _ && _); [|now intros [= <-]]. destruct (get_min_max a) as [mn mx]. cbn [fst snd].
  rewrite !limit_shape. destruct mn as [n|]; destruct mx as [m|]; cbn [bind].
  - destruct (limit_text a Qfloor n) as [t|] eqn:E1; cbn [bind]; [|discriminate]. destruct (limit_text a Qceiling m) as [t2|] eqn:E2; cbn [bind]; [|discriminate]. intros [= <-]. cbn [fst snd]. split; eauto.
  - destruct (limit_text a Qfloor n) as [t|] eqn:E1; cbn [bind]; [|discriminate]. intros [= <-]. cbn [fst snd]. split; eauto.
  - destruct (limit_text a Qceiling m) as [t|] eqn:E1; cbn [bind]; [|discriminate]. intros [= <-]. cbn [fst snd]. split; eauto.
  - intros [= <-]. cbn. tauto.
Qed.
Lemma written_kind_spec e a : suitable e a -> tidy (written_kind a) /\
  written_kind a = if a_find_kinds a && mem_str (a_kind a) ["continuous"; "discrete"; "categorical"]%string then a_title a else a_kind a.
Proof.
  intros Hs. destruct (s_rock e a Hs) as [R1 R2]. pose proof (s_title e a Hs) as T1. pose proof (s_kind e a Hs) as T2. unfold written_kind.
  destruct (_ && _).
  - destruct (str_eqb (a_title a) _) eqn:E; [apply str_eqb_eq in E; contradiction|tauto].
  - destruct (str_eqb (a_kind a) _) eqn:E; [apply str_eqb_eq in E; contradiction|tauto].
Qed.
Lemma uom_shape e a : uom_nodes e a =
  if a_points a then ([], []) else if e_valid_uom e (chosen_uom e a) then ([leaf (rq "UOM") (rq "ResqmlUom") (chosen_uom e a)], [])
  else ([leaf (rq "UOM") (rq "ResqmlUom") (L "Euc")], [meta_node (L "Uom", chosen_uom e a)]).
Proof. reflexivity. Qed.
Lemma wf_meta kv : no_cr (fst kv) -> no_cr (snd kv) -> wf Ordinary (meta_node kv).
Proof. intros H1 H2. unfold meta_node. wfe; [apply null_ok|]. constructor; [|constructor; [|constructor]]; wfe; try assumption; constructor. Qed.
Lemma Forall12 {A} (P : A -> Prop) x0 x1 x2 x3 x4 x5 x6 x7 x8 x9 x10 x11 l : P x0 -> P x1 -> P x2 -> P x3 -> P x4 -> P x5 -> P x6 -> P x7 -> P x8 -> P x9 -> P x10 -> P x11 -> Forall P l -> Forall P (x0 :: x1 :: x2 :: x3 :: x4 :: x5 :: x6 :: x7 :: x8 :: x9 :: x10 :: x11 :: l).
Proof. intros. repeat (constructor; [assumption|]). assumption. Qed.
Lemma root_wf e a ie sup time patch mm lk : floats_ok -> env_ok e -> suitable e a -> get_indexable (a_indexable a) (e_type e sup) = Ok ie ->
  time_node e a = Ok time -> patch_of e a = Ok patch -> min_max_nodes float_str a = Ok mm -> lookup_node e (if a_discrete a then a_lookup a else None) = Ok lk ->
  wf Ordinary (root_node a (segments e a ie sup time patch mm lk)).
Proof.
  intros Hf He Hs A1 A2 A3 A4 A5. unfold root_node.
  assert (TC : forall u, no_cr (match e_title e u with Some t => t | None => [] end)) by (intros u; destruct (e_title e u) eqn:E; [now apply (ok_title e He u)|intros []]).
  constructor.
  - unfold prop_type. destruct (a_discrete a); [destruct (a_lookup a)|destruct (a_points a)]; apply rq_ok; reflexivity.
  - split; [|split; [|split]].
    + cbn [map fst]. repeat constructor; cbn; intuition discriminate.
    + constructor; [|constructor; [|constructor; [|constructor]]]; cbn [fst snd]; split.
      * left. split; [now apply good_nameb_ok|discriminate].
      * now apply plain_valueb_ok.
      * left. split; [now apply good_nameb_ok|discriminate].
      * apply uuid_plain.
      * exact xsi_type_ok.
      * apply plain_valueb_ok. unfold prop_type. destruct (a_discrete a); [destruct (a_lookup a)|destruct (a_points a)]; reflexivity.
    + vm_compute. repeat constructor; intuition discriminate.
    + constructor; [|constructor; [|constructor; [|constructor]]]; cbn [fst snd]; intros X; try discriminate X. unfold prop_type.
      destruct (a_discrete a); [destruct (a_lookup a)|destruct (a_points a)]; split; try discriminate; vm_compute; discriminate.
  - apply null_ok.
  - apply Forall_concat. unfold segments, basics. fold (source_meta a). cbn [app]. apply Forall12.
    + constructor; [|constructor]. unfold citation. wfe; [apply null_ok|]. constructor; [|constructor; [|constructor; [|constructor; [|constructor]]]]; wfe; try constructor.
      * pose proof (s_title e a Hs) as [[B C] _]. destruct (a_title a); [discriminate|assumption].
      * pose proof (s_originator e a Hs) as O. destruct (a_originator a); [now apply O|apply (ok_user e He)].
      * apply (ok_now e He).
      * apply (ok_format e He).
    + apply Forall_map, Forall_forall. intros [k x] Hk. apply (source_tidy e a Hs) in Hk as (K1 & K2 & _). apply wf_meta; [apply K1|apply K2].
    + constructor; [|constructor]. wfe; [apply word_cr, int_word|constructor].
    + constructor; [|constructor]. wfe; [|constructor]. apply (indexable_cr e a sup); assumption.
    + unfold realization_node. destruct (a_real a) as [z|]; [|constructor]. destruct (0 <=? z); [|constructor]. constructor; [|constructor]. wfe; [apply word_cr, int_word|constructor].
    + unfold time_node in A2. destruct (a_ts a) as [ts|]; [|injection A2 as <-; constructor]. destruct (a_time a) as [t|]; [|injection A2 as <-; constructor]. destruct (e_steps e ts); [|discriminate].
      destruct (_ && _); cbn in A2; [|discriminate]. injection A2 as <-. constructor; [|constructor]. wfe; [apply null_ok|]. constructor; [|constructor; [|constructor]].
      * wfe; [apply word_cr, int_word|constructor].
      * apply wf_ref; [assumption|apply rq_ok; reflexivity|intros []|]. destruct (e_type e ts) eqn:E; [now apply (ok_type e He ts)|apply literal_cr; reflexivity].
    + constructor; [|constructor]. unfold support_node. apply wf_ref; [assumption|apply rq_ok; reflexivity| |].
      * specialize (TC sup). destruct (e_title e sup) as [[|c t]|]; [apply literal_cr; reflexivity|assumption|apply literal_cr; reflexivity].
      * destruct (e_type e sup) eqn:E; [now apply (ok_type e He sup)|apply literal_cr; reflexivity].
    + constructor; [|constructor]. destruct (written_kind_spec e a Hs) as [K _]. unfold kind_node. destruct (written_kind_uuid e a); wfe; try apply null_ok; (constructor; [|constructor]).
      * apply wf_ref; [assumption|apply rq_ok; reflexivity|apply K|apply literal_cr; reflexivity].
      * wfe; [apply K|constructor].
    + constructor; [|constructor]. unfold patch_of, patch_node in A3. pose proof (s_const e a Hs) as C. pose proof (s_points e a Hs) as P. unfold stored_constant in C. destruct (if a_expand a then None else a_const a) as [c|] eqn:Ec.
      * revert A3. specialize (C c eq_refl) as [(shape & -> & Hp) Hk]. replace (0 <? _) with true by lia. cbn [assert_ bind].
        assert (NP : a_points a = false) by (destruct (a_points a); [destruct (P eq_refl) as (_ & Q & _); rewrite Q in Ec; destruct (a_expand a); discriminate|reflexivity]). rewrite NP.
        destruct c as [z|q|b]; (destruct (a_discrete a) eqn:D; [try discriminate Hk|try discriminate Hk]); intros [= <-]; (wfe; [apply null_ok|]);
          (constructor; [wfe; [apply word_cr, int_word|constructor]|]); (constructor; [|constructor]); (wfe; [apply null_ok|]); (constructor; [|constructor; [|constructor]]); (wfe; [|constructor]); try (apply word_cr, int_word).
        -- destruct Hf as [Hf _]. apply word_cr, Hf.
        -- destruct b; apply literal_cr; reflexivity.
      * destruct (match a_ext a with Some u => Some u | None => e_h5 e end) as [x|]; [|discriminate].
        assert (PT : no_cr (L "/RESQML/" ++ uuid_str (a_uuid a) ++ L "/" ++ L (if a_points a then "points_patch0" else "values_patch0"))).
        { apply cr_app; [apply literal_cr; reflexivity|]. apply cr_app; [apply word_cr, uuid_word|]. destruct (a_points a); apply literal_cr; reflexivity. }
        assert (XR : wf Ordinary (ref_node e (eml "HdfProxy") (L "Hdf Proxy") x (L "obj_EpcExternalPartReference"))).
        { apply wf_ref; [assumption|apply eml_ok; reflexivity|apply literal_cr; reflexivity|apply literal_cr; reflexivity]. }
        assert (XI : forall inner, tag_ok Ordinary (rq inner) -> wf Ordinary (elem (rq inner) (eml "Hdf5Dataset") null_text [leaf (eml "PathInHdfFile") (xsd (L "string")) (L "/RESQML/" ++ uuid_str (a_uuid a) ++ L "/" ++ L (if a_points a then "points_patch0" else "values_patch0")); ref_node e (eml "HdfProxy") (L "Hdf Proxy") x (L "obj_EpcExternalPartReference")])).
        { intros inner T. apply wf_elem; [assumption|vm_compute; reflexivity|apply null_ok|]. constructor; [wfe; [assumption|constructor]|]. constructor; [assumption|constructor]. }
        destruct (a_points a) eqn:P1; [destruct (P eq_refl) as (D & _); rewrite D in *|destruct (a_discrete a) eqn:D]; cbn [app] in A3; injection A3 as <-; (wfe; [apply null_ok|]);
          (constructor; [wfe; [apply word_cr, int_word|constructor]|]); (constructor; [|constructor]); (wfe; [apply null_ok|]).
        -- constructor; [|constructor]. apply XI. apply rq_ok; reflexivity.
        -- constructor; [wfe; [apply word_cr, int_word|constructor]|]. constructor; [|constructor]. apply XI. apply rq_ok; reflexivity.
        -- constructor; [|constructor]. apply XI. apply rq_ok; reflexivity.
    + unfold facet_node. pose proof (s_facets e a Hs) as F. destruct (a_facet_type a) as [ft|]; [|constructor]. destruct (a_facet a) as [f|]; [|constructor]. specialize (F ft f eq_refl eq_refl) as [F1 F2].
      constructor; [|constructor]. wfe; [apply null_ok|]. constructor; [wfe; [apply F1|constructor]|]. constructor; [wfe; [apply F2|constructor]|constructor].
    + apply min_max_shape in A4. pose proof (min_max_bool e a) as MB. destruct (_ && _ && _); [|subst mm; constructor]. destruct A4 as [A4 _]. destruct (fst (get_min_max a)) as [n|]; [|rewrite A4; constructor]. destruct A4 as (t & Et & ->).
      constructor; [|constructor]. apply wf_elem; [apply rq_ok; reflexivity|destruct (a_discrete a); reflexivity| |constructor]. apply word_cr, (limit_word e a Qfloor n); [assumption|assumption|apply MB; tauto|assumption].
    + apply min_max_shape in A4. pose proof (min_max_bool e a) as MB. destruct (_ && _ && _); [|subst mm; constructor]. destruct A4 as [_ A4]. destruct (snd (get_min_max a)) as [n|]; [|rewrite A4; constructor]. destruct A4 as (t & Et & ->).
      constructor; [|constructor]. apply wf_elem; [apply rq_ok; reflexivity|destruct (a_discrete a); reflexivity| |constructor]. apply word_cr, (limit_word e a Qceiling n); [assumption|assumption|apply MB; tauto|assumption].
    + destruct (a_discrete a).
      * constructor; [|constructor]. unfold lookup_node in A5. destruct (a_lookup a) as [u|]; [|injection A5 as <-; constructor]. destruct (match e_type e u with Some _ => _ | None => _ end); cbn in A5; [|discriminate]. injection A5 as <-.
        constructor; [|constructor]. apply wf_ref; [assumption|apply rq_ok; reflexivity|apply TC|apply literal_cr; reflexivity].
      * rewrite uom_shape. destruct (s_uom e a Hs) as [[_ UC] _]. destruct (a_points a); [repeat constructor|]. destruct (e_valid_uom e _); cbn [fst snd]; (constructor; [|constructor; [|constructor]]); try (constructor; [|constructor]); try (apply Forall_nil).
        -- wfe; [assumption|constructor].
        -- wfe; [apply literal_cr; reflexivity|constructor].
        -- apply wf_meta; [apply literal_cr; reflexivity|assumption].
Qed.

(** ** Reading it *)
Lemma key_iff (x y : option str) : key_eqb x y = true <-> x = y.
Proof. destruct x, y; cbn; try (split; congruence). rewrite str_eqb_eq. split; congruence. Qed.
Lemma str_iff (x y : str) : str_eqb x y = true <-> x = y.
Proof. apply str_eqb_eq. Qed.
Definition some2 (kv : str * str) : option str * option str := (Some (fst kv), Some (snd kv)).
Lemma fold_metas (l : list (str * str)) : forall (d : dict (option str) (option str)) (k : option str), NoDup (map fst l) ->
  dget key_eqb (fold_left (fun d kv => dset key_eqb d (Some (fst kv)) (Some (snd kv))) l d) k =
  match k with Some k' => match dget str_eqb l k' with Some x => Some (Some x) | None => dget key_eqb d k end | None => dget key_eqb d k end.
Proof.
  induction l as [|[k' x] l IH]; intros d k N; cbn [fold_left fst snd dget]; [destruct k; reflexivity|]. cbn [map fst] in N. inversion N as [|? ? N1 N2]; subst. rewrite IH by assumption.
  destruct k as [k|]; [|apply dget_dset_neq; [exact key_iff|discriminate]]. destruct (str_eqb k' k) eqn:E.
  - apply str_iff in E. subst k'. destruct (dget str_eqb l k) eqn:G.
    + exfalso. apply N1. apply (dkeys_dget str_eqb str_iff). eauto.
    + apply dget_dset_eq. exact key_iff.
  - destruct (dget str_eqb l k); [reflexivity|]. apply dget_dset_neq; [exact key_iff|]. intros [= ->]. rewrite (proj2 (str_iff k' k') eq_refl) in E. discriminate.
Qed.
Lemma put_source_dset l s : (forall k x, In (k, x) l -> tidy k) -> put_source l s = dset str_eqb l (L "source") s.
Proof.
  induction l as [|[k x] l IH]; intros T; [reflexivity|]. cbn [put_source dset]. destruct (T k x (or_introl eq_refl)) as [_ ->]. destruct (str_eqb k (L "source")); [reflexivity|]. rewrite IH; [reflexivity|].
  intros k' x' H. apply (T k' x'). now right.
Qed.
Definition all_metas (e : env) (a : args) : list (str * str) :=
  source_meta a ++ (if a_discrete a || a_points a || e_valid_uom e (chosen_uom e a) then [] else [(L "Uom", chosen_uom e a)]).
Lemma source_nodup e a : suitable e a -> NoDup (map fst (source_meta a)).
Proof.
  clear float_str float_of.
  intros Hs. destruct (s_extra e a Hs) as [N T]. unfold source_meta. destruct (a_source a) as [[|c s]|]; [exact N| |exact N].
  rewrite put_source_dset; [|intros k x H; now apply (T k x)]. apply (dset_nodup str_eqb str_iff). exact N.
Qed.
Lemma metas_nodup e a : suitable e a -> NoDup (map fst (all_metas e a)).
Proof.
  clear float_str float_of.
  intros Hs. unfold all_metas. destruct (_ || _ || _); [rewrite app_nil_r; now apply (source_nodup e)|]. rewrite map_app. apply NoDup_app2.
  - now apply (source_nodup e).
  - repeat constructor. intros [].
  - intros k H1 [H2|[]]. cbn in H2. subst k. apply in_map_iff in H1 as ([k x] & E & H). cbn in E. subst k. apply (source_tidy e a Hs) in H. tauto.
Qed.
Lemma metas_tidy e a : suitable e a -> forall k x, In (k, x) (all_metas e a) -> tidy k /\ tidy x.
Proof.
  clear float_str float_of.
  intros Hs k x H. unfold all_metas in H. apply in_app_iff in H as [H|H]; [apply (source_tidy e a Hs) in H; tauto|]. destruct (_ || _ || _); [destruct H|]. destruct H as [[= <- <-]|[]].
  split; [|apply (s_uom e a Hs)]. split; [split; [reflexivity|apply literal_cr; reflexivity]|reflexivity].
Qed.

Lemma find_leaf x t ty tx l : List.find (fun c => match_tag (n_tag c) x) (leaf t ty tx :: l) = if match_tag t x then Some (leaf t ty tx) else List.find (fun c => match_tag (n_tag c) x) l.
Proof. reflexivity. Qed.
Lemma find_elem x t ty tx cs l : List.find (fun c => match_tag (n_tag c) x) (elem t ty tx cs :: l) = if match_tag t x then Some (elem t ty tx cs) else List.find (fun c => match_tag (n_tag c) x) l.
Proof. reflexivity. Qed.
Lemma find_ref x e t ti u ct l : List.find (fun c => match_tag (n_tag c) x) (ref_node e t ti u ct :: l) = if match_tag t x then Some (ref_node e t ti u ct) else List.find (fun c => match_tag (n_tag c) x) l.
Proof. reflexivity. Qed.
Lemma find_none x : List.find (fun c => match_tag (n_tag c) x) [] = None.
Proof. reflexivity. Qed.
Ltac seek := rewrite ?find_leaf, ?find_ref, ?find_elem, ?find_none; matches.
Section Read.
  Context (v : nat -> node -> node) (Hv : view v) (e : env) (a : args) (Hs : suitable e a) (Hf : floats_ok).
  Context (ie : str) (sup : Z) (time : list node) (patch : node) (mm : list node * list node) (lk : list node).
  Context (Es : chosen_support e a = Some sup) (A1 : get_indexable (a_indexable a) (e_type e sup) = Ok ie) (A2 : time_node e a = Ok time) (A3 : patch_of e a = Ok patch)
    (A4 : min_max_nodes float_str a = Ok mm) (A5 : lookup_node e (if a_discrete a then a_lookup a else None) = Ok lk)
    (T : Forall2 tagged (tags a) (segments e a ie sup time patch mm lk)).
  Let root := v 0%nat (root_node a (segments e a ie sup time patch mm lk)).
  Lemma root_child x : child root x = option_map (v 1%nat) (pick (L x) (tags a) (segments e a ie sup time patch mm lk)).
  Proof. unfold root. rewrite (child_view v Hv). unfold child. cbn [n_children root_node]. now rewrite (find_segs _ (tags a)). Qed.
  Lemma root_type : node_type root false = Some (L ("obj_" ++ prop_type a)).
  Proof.
    unfold root. rewrite (v_type v Hv).
    - unfold root_node, node_type, prop_type. cbn [n_attrib]. destruct (a_discrete a); [destruct (a_lookup a)|destruct (a_points a)]; cbn [List.find fst]; matches; vm_compute; reflexivity.
    - intros key val H M. unfold root_node in H. cbn [n_attrib] in H. destruct H as [[= <- <-]|[[= <- <-]|[[= <- <-]|[]]]]; [discriminate M|discriminate M|].
      left. exists (L "http://www.energistics.org/energyml/data/resqmlv2"), (L ("obj_" ++ prop_type a)). split; [reflexivity|]. apply good_nameb_ok. unfold prop_type. destruct (a_discrete a); [destruct (a_lookup a)|destruct (a_points a)]; reflexivity.
  Qed.
  Lemma root_meta : load_metadata root = fold_left (fun d kv => dset key_eqb d (Some (fst kv)) (Some (snd kv))) (all_metas e a) [].
  Proof.
    unfold load_metadata, root. rewrite (list_view v Hv). unfold root_node. destruct (C40_searches_agree (root_node a (segments e a ie sup time patch mm lk)) (L "ExtraMetadata") false) as (E & _).
    unfold root_node in E. rewrite E. cbn [n_children]. rewrite (list_segs _ (tags a)) by assumption. rewrite root_metas.
    assert (E2 : map meta_node (source_meta a) ++ (if a_discrete a then [] else snd (uom_nodes e a)) = map meta_node (all_metas e a)).
    { unfold all_metas. rewrite map_app. f_equal. destruct (a_discrete a); [reflexivity|]. rewrite uom_shape. cbn [orb]. destruct (a_points a); [reflexivity|]. cbn [orb]. destruct (e_valid_uom e _); reflexivity. }
    rewrite E2. pose proof (metas_tidy e a Hs) as MT. generalize (@nil (option str * option str)) as d. revert MT. generalize (all_metas e a) as l. clear E2. induction l as [|[k x] l IH]; intros MT d; [reflexivity|].
    destruct (MT k x (or_introl eq_refl)) as [K X]. cbn [map fold_left]. rewrite IH by (intros k' x' H; apply MT; now right). f_equal. f_equal.
    - unfold meta_node. rewrite (child_elem v Hv). seek. cbn [option_map]. apply (leaf_node_text v Hv). exact K.
    - unfold meta_node. rewrite (child_elem v Hv). seek. cbn [option_map]. apply (leaf_node_text v Hv). exact X.
  Qed.
  Lemma read_kind_ok : read_kind root = Ok (written_kind a, option_map uuid_str (written_kind_uuid e a)).
  Proof.
    destruct (written_kind_spec e a Hs) as [K _]. unfold read_kind. rewrite root_child. destruct (root_kids e a ie sup time patch mm lk) as (_ & _ & _ & _ & -> & _). cbn [option_map].
    unfold kind_node. destruct (written_kind_uuid e a) as [u|]; rewrite !(child_elem v Hv); seek.
    - cbn [option_map].
      rewrite (ref_title v Hv) by (intros X; rewrite X in K; destruct K as [[K _] _]; discriminate K). rewrite (ref_uuid v Hv), !(leaf_node_text v Hv); [reflexivity|apply word_tidy, uuid_word|exact K].
    - cbn [option_map]. rewrite (leaf_text v Hv) by apply K. destruct K as [[K _] _]. destruct (written_kind a); [discriminate K|reflexivity].
  Qed.
  Lemma read_facet_ok : read_facet root = Ok (match a_facet_type a, a_facet a with Some ft, Some f => (Some ft, Some f) | _, _ => (None, None) end).
  Proof.
    unfold read_facet. rewrite root_child. destruct (root_kids e a ie sup time patch mm lk) as (_ & _ & _ & _ & _ & -> & _). unfold facet_node. pose proof (s_facets e a Hs) as F.
    destruct (a_facet_type a) as [ft|]; [|reflexivity]. destruct (a_facet a) as [f|]; [|reflexivity]. destruct (F ft f eq_refl eq_refl) as [F1 F2]. cbn [hd_error option_map].
    rewrite !(child_elem v Hv). seek. cbn [option_map text_of bind]. rewrite !(leaf_text v Hv) by assumption. cbn [bind].
    destruct F1 as [F1 _], F2 as [F2 _]. destruct ft; [discriminate|]. destruct f; [discriminate|reflexivity].
  Qed.
  Lemma read_time_ok : read_time root = Ok (match a_ts a, a_time a with Some ts, Some t => (Some ts, Some t) | _, _ => (None, None) end).
  Proof.
    unfold read_time. rewrite root_child. destruct (root_kids e a ie sup time patch mm lk) as (_ & _ & _ & _ & _ & _ & -> & _). pose proof (s_time e a Hs) as F. unfold time_node in A2.
    destruct (a_ts a) as [ts|]; [|injection A2 as <-; reflexivity]. destruct (a_time a) as [t|]; [|injection A2 as <-; reflexivity]. destruct (F ts t eq_refl eq_refl) as (U & n & En & B). rewrite En in A2.
    replace ((0 <=? t) && (t <? n)) with true in A2 by lia. cbn in A2. injection A2 as <-. cbn [hd_error option_map].
    rewrite !(child_elem v Hv). seek. cbn [option_map text_of bind].
    rewrite (leaf_int v Hv). cbn [bind]. rewrite parse_fmt_int. cbn [bind]. rewrite (ref_uuid v Hv). cbn [text_of bind]. rewrite (leaf_text v Hv) by apply word_tidy, uuid_word. cbn [bind].
    unfold uuid_of_text. destruct (C14_string_round_trip ts [] U) as [E _]. rewrite app_nil_r in E. rewrite E. reflexivity.
  Qed.
  Lemma elem_type l tag ty tx cs : good_nameb ty = true -> node_type (v l (elem tag (curly (L "http://www.energistics.org/energyml/data/resqmlv2") ty) tx cs)) false = Some ty.
  Proof.
    intros G. rewrite (v_type v Hv).
    - unfold node_type, elem. cbn [n_attrib List.find fst]. matches. cbv beta iota zeta. cbn [andb].
      pose proof (stripped_qualify (L "http://www.energistics.org/energyml/data/resqmlv2") ty) as SQ. change (qualify (L "http://www.energistics.org/energyml/data/resqmlv2") ty) with (curly (L "http://www.energistics.org/energyml/data/resqmlv2") ty) in SQ.
      rewrite SQ; [reflexivity|]. intros X. apply good_nameb_ok in G as (_ & G & _). rewrite forallb_forall in G. apply G in X. discriminate X.
    - intros key val [[= <- <-]|[]] _. left. exists (L "http://www.energistics.org/energyml/data/resqmlv2"), ty. split; [reflexivity|now apply good_nameb_ok].
  Qed.
  Lemma nested r x ts : find_nested_tags (Some r) (L x :: ts) = match child r x with None => None | Some h => match ts with [] => Some h | _ => find_nested_tags (Some h) ts end end.
  Proof. cbn [find_nested_tags find_tag]. unfold child. destruct (List.find _ _); reflexivity. Qed.
  Definition as_read (c : num) : num := if a_discrete a then c else match c with NInt z => NFloat (Some (inject_Z z)) | _ => c end.
  Lemma read_null_ok : read_null_const float_of root (negb (a_discrete a)) (a_points a) =
    Ok (if a_discrete a then match stored_constant a with Some _ => None | None => Some (match a_null a with Some z => z | None => -1 end) end else None,
        option_map as_read (stored_constant a)).
  Proof.
    pose proof (root_child (if a_points a then "PatchOfPoints" else "PatchOfValues")) as RP. pose proof (root_patch e a ie sup time patch mm lk) as RQ.
    assert (RC : child root (if a_points a then "PatchOfPoints" else "PatchOfValues") = Some (v 1%nat patch)).
    { rewrite RP. destruct (a_points a); rewrite RQ; reflexivity. } clear RP RQ.
    pose proof (s_const e a Hs) as C. pose proof (s_points e a Hs) as P. unfold patch_of, patch_node in A3. unfold read_null_const.
    replace (if a_points a then [L "PatchOfPoints"; L "Points"] else [L "PatchOfValues"; L "Values"]) with [L (if a_points a then "PatchOfPoints" else "PatchOfValues"); L (if a_points a then "Points" else "Values")] by (destruct (a_points a); reflexivity).
    rewrite !nested, RC. assert (NP : stored_constant a <> None \/ a_discrete a = true -> a_points a = false).
    { intros H. destruct (a_points a); [|reflexivity]. destruct (P eq_refl) as (P1 & P2 & _). unfold stored_constant in H. rewrite P1, P2 in H. destruct (a_expand a), H; congruence. }
    unfold as_read. unfold stored_constant in *. destruct (if a_expand a then None else a_const a) as [c|] eqn:Ec.
    - revert A3 RC. specialize (C c eq_refl) as [(shape & -> & Hp) Hk]. rewrite NP by (left; discriminate). replace (0 <? _) with true by lia. cbn [assert_ bind option_map].
      destruct Hf as [F1 F2]. destruct c as [z|q|b]; (destruct (a_discrete a) eqn:D; [try discriminate Hk|try discriminate Hk]); intros [= <-] RC; cbn [negb]; rewrite ?RC, ?nested, ?(child_elem v Hv); seek; cbn [option_map bind];
        rewrite ?nested, ?(child_elem v Hv); seek; cbn [option_map]; try change (node_int None) with (@Ok (option Z) None); cbn [bind]; rewrite elem_type by reflexivity;
        match goal with |- context [endswith ?x ?y] => change (endswith x y) with true end; cbn [negb];
        rewrite ?(child_elem v Hv); seek; cbn [option_map].
      + match goal with |- context [startswith ?x ?y] => change (startswith x y) with false end. cbn [num_text]. rewrite (leaf_node_int v Hv). reflexivity.
      + cbn [num_text]. unfold node_float. rewrite (leaf_int v Hv). pose proof (word_tidy _ (int_word z)) as [_ ->]. rewrite int_not_none, F2. pose proof (int_word z) as [N _]. destruct (fmt_int z); [congruence|reflexivity].
      + cbn [num_text]. unfold node_float. destruct (F1 q) as (E1 & E2 & E3). pose proof (word_tidy _ E2) as TD. rewrite (leaf_text v Hv) by apply TD. destruct TD as [_ ->]. rewrite E3, E1. destruct E2 as [N _]. destruct (float_str q); [congruence|reflexivity].
      + match goal with |- context [startswith ?x ?y] => change (startswith x y) with true end. unfold node_bool. rewrite (leaf_text v Hv) by (destruct b; (split; [reflexivity|apply literal_cr; reflexivity])). destruct b; reflexivity.
    - destruct (match a_ext a with Some u => Some u | None => e_h5 e end) as [x|]; [|discriminate]. cbn [option_map].
      destruct (a_discrete a) eqn:D; [pose proof (NP (or_intror eq_refl)) as P1; rewrite P1 in *|destruct (a_points a) eqn:P1]; cbn [app] in A3; injection A3 as <-; cbn [negb]; rewrite ?RC, ?nested, ?(child_elem v Hv); seek; cbn [option_map bind];
        rewrite ?nested, ?(child_elem v Hv); seek; cbn [option_map bind]; rewrite ?(leaf_node_int v Hv); cbn [bind]; rewrite elem_type by reflexivity;
        match goal with |- context [endswith ?x ?y] => change (endswith x y) with false end; reflexivity.
  Qed.
  Lemma read_uom_ok trust guess : trust = true \/ chosen_uom e a <> L "Euc" ->
    read_uom root (negb (a_discrete a)) (a_points a) trust guess = if a_discrete a || a_points a then None else Some (chosen_uom e a).
  Proof.
    intros Ht. unfold read_uom. assert (DD : a_discrete a = true \/ a_discrete a = false) by (destruct (a_discrete a); auto). destruct DD as [D|D]; rewrite D; [reflexivity|]. destruct (a_points a) eqn:P; [reflexivity|]. cbn [negb andb orb].
    rewrite root_child, root_uom by assumption. rewrite uom_shape, P, root_meta. destruct (s_uom e a Hs) as [UC _]. pose proof (metas_nodup e a Hs) as ND.
    rewrite fold_metas by assumption. cbn [dget]. unfold all_metas. rewrite D, P. cbn [orb]. destruct (e_valid_uom e (chosen_uom e a)) eqn:V; cbn [fst hd_error option_map].
    - rewrite (leaf_text v Hv) by assumption. rewrite app_nil_r. destruct (str_eqb (chosen_uom e a) (L "Euc")) eqn:E.
      + apply str_eqb_eq in E. destruct Ht as [-> |Ht]; [|contradiction]. rewrite E.
        assert (X : dget str_eqb (source_meta a) (L "Uom") = None); [|now rewrite X].
        apply (dget_none str_eqb str_iff). intros H. apply in_map_iff in H as ([k x] & E2 & H). cbn in E2. subst k. apply (source_tidy e a Hs) in H. tauto.
      + destruct UC as [UC _]. destruct (chosen_uom e a) as [|c u]; [discriminate|]. cbn [str_eqb negb]. rewrite orb_true_r. reflexivity.
    - rewrite (leaf_text v Hv) by (split; [reflexivity|apply literal_cr; reflexivity]). rewrite (proj2 (str_iff _ _) eq_refl).
      assert (X : dget str_eqb (source_meta a ++ [(L "Uom", chosen_uom e a)]) (L "Uom") = Some (chosen_uom e a)); [|now rewrite X].
      apply (in_dget str_eqb str_iff); [|apply in_app_iff; right; now left]. unfold all_metas in ND. rewrite D, P, V in ND. exact ND.
  Qed.
  Definition limit_of (tag_seg : list node) : option str := match tag_seg with n :: _ => Some (n_text n) | [] => None end.
  Lemma read_limits : option_map n_text (child root "MinimumValue") = limit_of (fst mm) /\ option_map n_text (child root "MaximumValue") = limit_of (snd mm).
  Proof.
    rewrite !root_child. destruct (root_kids e a ie sup time patch mm lk) as (_ & _ & _ & _ & _ & _ & _ & -> & -> & _).
    pose proof (min_max_shape a mm A4) as M. pose proof (min_max_bool e a) as MB. destruct (_ && _ && _); [|subst mm; split; reflexivity]. destruct M as [M1 M2]. split.
    - destruct (fst (get_min_max a)) as [n|]; [|now rewrite M1]. destruct M1 as (t & Et & ->). cbn [hd_error option_map limit_of n_text leaf elem]. rewrite (leaf_text v Hv); [reflexivity|].
      apply word_tidy, (limit_word e a Qfloor n); [assumption|assumption|apply MB; tauto|assumption].
    - destruct (snd (get_min_max a)) as [n|]; [|now rewrite M2]. destruct M2 as (t & Et & ->). cbn [hd_error option_map limit_of n_text leaf elem]. rewrite (leaf_text v Hv); [reflexivity|].
      apply word_tidy, (limit_word e a Qceiling n); [assumption|assumption|apply MB; tauto|assumption].
  Qed.
  Lemma read_lookup_ok : (if str_eqb (L ("obj_" ++ prop_type a)) (L "obj_CategoricalProperty")
      then uuid_of_text (match child root "Lookup" with Some l => node_text (child l "UUID") | None => None end) else Ok None) = Ok (if a_discrete a then a_lookup a else None).
  Proof.
    unfold prop_type. assert (DD : a_discrete a = true \/ a_discrete a = false) by (destruct (a_discrete a); auto). destruct DD as [D|D]; rewrite D; [|destruct (a_points a); reflexivity].
    destruct (a_lookup a) as [u|] eqn:Lk; [|reflexivity].
    destruct (s_lookup e a Hs D u Lk) as [U Ty]. pose proof A5 as A6. rewrite D in A6. unfold lookup_node in A6. rewrite Ty, (proj2 (str_iff _ _) eq_refl) in A6. cbn in A6. injection A6 as E.
    match goal with |- context [str_eqb ?x ?y] => change (str_eqb x y) with true end. rewrite root_child, root_lookup by assumption. rewrite <- E. cbn [hd_error option_map]. rewrite (ref_uuid v Hv). now apply (uuid_read v Hv).
  Qed.
  Theorem read_all e' trust guess : trust = true \/ chosen_uom e a <> L "Euc" ->
    add_part float_of e' trust guess root = Ok (Entry
      (match a_real a with Some z => if 0 <=? z then Some z else e_realization e' | None => e_realization e' end) (Some sup) (negb (a_discrete a)) (a_count a) ie (written_kind a)
      (match a_facet_type a, a_facet a with Some ft, Some _ => Some ft | _, _ => None end) (match a_facet_type a, a_facet a with Some _, Some f => Some f | _, _ => None end) (a_title a)
      (match a_ts a, a_time a with Some ts, Some _ => Some ts | _, _ => None end) (match a_ts a, a_time a with Some _, Some t => Some t | _, _ => None end)
      (limit_of (fst mm)) (limit_of (snd mm)) (if a_discrete a || a_points a then None else Some (chosen_uom e a)) (if a_discrete a then a_lookup a else None)
      (option_map uuid_str (written_kind_uuid e a)) (load_metadata root)
      (if a_discrete a then match stored_constant a with Some _ => None | None => Some (match a_null a with Some z => z | None => -1 end) end else None)
      (option_map as_read (stored_constant a)) (a_points a)).
  Proof.
    intros Ht. unfold add_part. rewrite root_type. rewrite !root_child. destruct (root_kids e a ie sup time patch mm lk) as (-> & -> & -> & -> & _ & _ & _ & _ & _ & ->). cbn [option_map].
    assert (R : (match option_map (v 1%nat) (hd_error (realization_node (a_real a))) with Some n => do z <- parse_int (n_text n); Ok (Some z) | None => Ok (e_realization e') end) =
      Ok (match a_real a with Some z => if 0 <=? z then Some z else e_realization e' | None => e_realization e' end)).
    { unfold realization_node. destruct (a_real a) as [z|]; [|reflexivity]. destruct (0 <=? z); [|reflexivity]. cbn [hd_error option_map]. rewrite (leaf_int v Hv), parse_fmt_int. reflexivity. }
    rewrite R. cbn [bind].
    assert (Q1 : mem_str (L ("obj_" ++ prop_type a)) ["obj_ContinuousProperty"; "obj_DiscreteProperty"; "obj_CategoricalProperty"; "obj_PointsProperty"]%string = true)
      by (unfold prop_type; destruct (a_discrete a); [destruct (a_lookup a)|destruct (a_points a)]; reflexivity).
    assert (Q2 : mem_str (L ("obj_" ++ prop_type a)) ["obj_ContinuousProperty"; "obj_PointsProperty"]%string = negb (a_discrete a))
      by (unfold prop_type; destruct (a_discrete a); [destruct (a_lookup a)|destruct (a_points a)]; reflexivity).
    assert (Q3 : str_eqb (L ("obj_" ++ prop_type a)) (L "obj_PointsProperty") = a_points a).
    { pose proof (s_points e a Hs) as P. unfold prop_type. destruct (a_discrete a) eqn:D; [|destruct (a_points a); reflexivity]. destruct (a_points a); [now destruct (P eq_refl)|]. destruct (a_lookup a); reflexivity. }
    rewrite Q1, Q2, Q3. cbn [assert_ bind].
    pose proof read_lookup_ok as RL. rewrite !root_child in RL. rewrite RL. cbn [bind].
    assert (Tt : tidy (a_title a)) by apply (s_title e a Hs).
    unfold citation. rewrite (child_elem v Hv). seek. cbn [option_map text_of bind].
    assert (NT : match a_title a with [] => L "untitled" | _ => a_title a end = a_title a) by (destruct Tt as [[B _] _]; destruct (a_title a); [discriminate|reflexivity]). rewrite NT.
    rewrite (leaf_int v Hv), parse_fmt_int. cbn [bind]. rewrite (leaf_text v Hv _ _ _ (a_title a)) by apply Tt. cbn [bind]. rewrite (leaf_text v Hv) by (apply (indexable_cr e a sup); assumption). cbn [bind].
    rewrite read_kind_ok. cbn [bind]. rewrite read_facet_ok. cbn [bind]. rewrite read_time_ok. cbn [bind].
    unfold support_node. rewrite (ref_uuid v Hv). rewrite (uuid_read v Hv) by (destruct (s_support e a Hs) as (u & Eu & U & _); congruence). cbn [bind].
    rewrite read_null_ok. cbn [bind]. rewrite (read_uom_ok trust guess Ht). pose proof read_limits as [L1 L2]. rewrite !root_child in L1, L2. rewrite L1, L2. cbn [fst snd].
    destruct (a_facet_type a), (a_facet a), (a_ts a), (a_time a); reflexivity.
  Qed.
End Read.
End S.

(** ** Theorems *)
(** What a collection should hold for a property created from [a] in a model [e], when it is
    added to a collection in [e']. *)
Record as_given (e e' : env) (a : args) (r : entry) : Prop := {
  g_title : r_title r = a_title a;
  g_support : r_support r = chosen_support e a;
  g_sort : r_continuous r = negb (a_discrete a) /\ r_points r = a_points a;
  g_count : r_count r = a_count a;
  g_indexable : (forall ie, a_indexable a = Some ie -> r_indexable r = ie) /\
    (a_indexable a = None -> forall u, chosen_support e a = Some u -> get_indexable None (e_type e u) = Ok (r_indexable r));
  g_kind : (a_find_kinds a = true -> generic_kind (a_kind a) -> r_kind r = a_title a) /\
    (a_find_kinds a = false \/ ~ generic_kind (a_kind a) -> r_kind r = a_kind a);
  g_kind_uuid : (forall u, a_kind_uuid a = Some u -> r_kind_uuid r = Some (uuid_str u)) /\
    (a_kind_uuid a = None -> a_find_kinds a = false \/ e_valid_kind e (r_kind r) = true -> r_kind_uuid r = None) /\
    (a_kind_uuid a = None -> a_find_kinds a = true -> e_valid_kind e (r_kind r) = false ->
     exists u, r_kind_uuid r = Some (uuid_str u) /\ (In (r_kind r, u) (e_kinds e) \/ (u = e_new_kind e /\ forall w, ~ In (r_kind r, w) (e_kinds e))));
  g_realization : r_real r = match a_real a with Some z => if 0 <=? z then Some z else e_realization e' | None => e_realization e' end;
  g_facet : forall ft f, r_facet_type r = Some ft /\ r_facet r = Some f <-> a_facet_type a = Some ft /\ a_facet a = Some f;
  g_facet_none : a_facet_type a = None \/ a_facet a = None -> r_facet_type r = None /\ r_facet r = None;
  g_time : forall ts t, r_ts r = Some ts /\ r_time r = Some t <-> a_ts a = Some ts /\ a_time a = Some t;
  g_time_none : a_ts a = None \/ a_time a = None -> r_ts r = None /\ r_time r = None;
  g_lookup : r_lookup r = if a_discrete a then a_lookup a else None;
  g_uom : r_uom r = if a_discrete a || a_points a then None else Some (chosen_uom e a);
  g_null : (a_discrete a = true -> stored_constant a = None -> r_null r = Some (match a_null a with Some z => z | None => -1 end)) /\
    (a_discrete a = false \/ stored_constant a <> None -> r_null r = None);
  g_const : match stored_constant a, r_const r with
    | None, None => True
    | Some (NInt z), Some c => c = if a_discrete a then NInt z else NFloat (Some (inject_Z z))
    | Some x, Some y => x = y
    | _, _ => False
    end;
  g_extra : forall k, k <> L "source" -> k <> L "Uom" -> dget key_eqb (r_extra r) (Some k) = option_map Some (dget str_eqb (a_extra a) k);
  g_source : dget key_eqb (r_extra r) (Some (L "source")) =
    match a_source a with Some (c :: s) => Some (Some (c :: s)) | _ => option_map Some (dget str_eqb (a_extra a) (L "source")) end;
  g_uom_extra : dget key_eqb (r_extra r) (Some (L "Uom")) =
    if a_discrete a || a_points a || e_valid_uom e (chosen_uom e a) then None else Some (Some (chosen_uom e a));
  g_unnamed : dget key_eqb (r_extra r) None = None }.

Lemma generic_iff k : mem_str k ["continuous"; "discrete"; "categorical"]%string = true <-> generic_kind k.
Proof. unfold mem_str, generic_kind. cbn [existsb]. rewrite !orb_true_iff, !str_eqb_eq. intuition discriminate. Qed.
Lemma source_get e a k : suitable e a -> dget str_eqb (source_meta a) k =
  if str_eqb k (L "source") then match a_source a with Some (c :: s) => Some (c :: s) | _ => dget str_eqb (a_extra a) k end else dget str_eqb (a_extra a) k.
Proof.
  intros Hs. destruct (s_extra e a Hs) as [_ T]. unfold source_meta. destruct (a_source a) as [[|c s]|]; [destruct (str_eqb k _); reflexivity| |destruct (str_eqb k _); reflexivity].
  rewrite put_source_dset by (intros k' x H; now apply (T k' x)). destruct (str_eqb k (L "source")) eqn:E.
  - apply str_eqb_eq in E. subst k. apply (dget_dset_eq str_eqb str_iff).
  - apply (dget_dset_neq str_eqb str_iff). intros ->. discriminate E.
Qed.
Lemma metas_get e a k : suitable e a -> dget str_eqb (all_metas e a) k =
  if str_eqb k (L "Uom") then if a_discrete a || a_points a || e_valid_uom e (chosen_uom e a) then None else Some (chosen_uom e a) else dget str_eqb (source_meta a) k.
Proof.
  intros Hs. unfold all_metas. assert (N : dget str_eqb (source_meta a) (L "Uom") = None).
  { apply (dget_none str_eqb str_iff). intros H. apply in_map_iff in H as ([k' x] & E2 & H). cbn in E2. subst k'. apply (source_tidy e a Hs) in H. tauto. }
  destruct (_ || _ || _).
  - rewrite app_nil_r. destruct (str_eqb k _) eqn:E; [apply str_eqb_eq in E; now subst|reflexivity].
  - assert (X : forall l, dget str_eqb (l ++ [(L "Uom", chosen_uom e a)]) k = match dget str_eqb l k with Some x => Some x | None => if str_eqb (L "Uom") k then Some (chosen_uom e a) else None end).
    { induction l as [|[k' x] l IH]; [reflexivity|]. cbn [app dget]. destruct (str_eqb k' k); [reflexivity|exact IH]. }
    rewrite X. destruct (str_eqb k _) eqn:E.
    + apply str_eqb_eq in E. subst k. rewrite N. reflexivity.
    + destruct (dget _ _ k); [reflexivity|]. destruct (str_eqb (L "Uom") k) eqn:E2; [|reflexivity]. apply str_eqb_eq in E2. subst k. discriminate E.
Qed.

(** The xml of a property is created, and a collection that reads it, from memory or from the
    file, holds what was given. *)
Theorem C79_attributes_survive : forall float_str float_of e e' a trust guess,
  floats_ok float_str float_of -> env_ok e -> suitable e a -> trust = true \/ chosen_uom e a <> L "Euc" ->
  exists root out stored, create_xml float_str e a = Ok root /\ write_xml None root = Ok (out, count_nodes root) /\ parse_doc out = Some stored /\
  forall n, n = root \/ n = stored -> exists r, add_part float_of e' trust guess n = Ok r /\ as_given e e' a r.
Proof.
  intros fs fo e e' a trust guess Hf He Hs Ht. destruct (create_ok fs e a Hs) as (sup & ie & time & patch & mm & lk & Es & A1 & A2 & A3 & A4 & A5 & E & T).
  pose proof (root_wf fs fo e a ie sup time patch mm lk Hf He Hs A1 A2 A3 A4 A5) as W.
  destruct (C44_document_round_trip Ordinary _ None Logic.I W ltac:(discriminate)) as (out & O1 & O2).
  exists (root_node a (segments e a ie sup time patch mm lk)), out. eexists. split; [exact E|]. split; [exact O1|]. split; [exact O2|].
  assert (G : forall v, view v -> exists r, add_part fo e' trust guess (v 0%nat (root_node a (segments e a ie sup time patch mm lk))) = Ok r /\ as_given e e' a r).
  { intros v Hv. eexists. split; [apply (read_all fs fo v Hv e a Hs Hf ie sup time patch mm lk Es A1 A2 A3 A4 A5 T e' trust guess Ht)|].
    pose proof (root_meta v Hv e a Hs ie sup time patch mm lk A5 T) as RM. destruct (written_kind_spec e a Hs) as [_ WK].
    constructor; cbn [r_title r_support r_continuous r_points r_count r_indexable r_kind r_kind_uuid r_real r_facet_type r_facet r_ts r_time r_lookup r_uom r_null r_const r_extra].
    - reflexivity.
    - now rewrite Es.
    - tauto.
    - reflexivity.
    - split; [intros x Hx; rewrite Hx in A1; cbn in A1; congruence|]. intros Hn u Hu. rewrite Es in Hu. injection Hu as <-. now rewrite Hn in A1.
    - rewrite WK. split.
      + intros -> G. apply generic_iff in G. now rewrite G.
      + intros [-> |G]; [reflexivity|]. destruct (mem_str _ _) eqn:M; [apply generic_iff in M; contradiction|]. now rewrite andb_false_r.
    - unfold written_kind_uuid. split; [|split].
      + intros u ->. destruct (a_find_kinds a && negb (e_valid_kind e (written_kind a))); reflexivity.
      + intros -> [-> | ->]; [reflexivity|]. now rewrite andb_false_r.
      + intros -> -> ->. cbn [negb andb]. destruct (List.find _ _) as [[k u]|] eqn:F.
        * exists u. split; [reflexivity|]. apply List.find_some in F as [F1 F2]. cbn in F2. apply str_eqb_eq in F2. subst k. now left.
        * exists (e_new_kind e). split; [reflexivity|]. right. split; [reflexivity|]. intros w Hw. apply (List.find_none _ _ F) in Hw. cbn in Hw. rewrite (proj2 (str_iff _ _) eq_refl) in Hw. discriminate.
    - reflexivity.
    - intros ft f. destruct (a_facet_type a), (a_facet a); intuition congruence.
    - destruct (a_facet_type a), (a_facet a); intuition congruence.
    - intros ts t. destruct (a_ts a), (a_time a); intuition congruence.
    - destruct (a_ts a), (a_time a); intuition congruence.
    - reflexivity.
    - reflexivity.
    - split; [intros -> ->; reflexivity|]. intros [-> |H]; [reflexivity|]. destruct (stored_constant a); [|congruence]. now destruct (a_discrete a).
    - unfold as_read. destruct (stored_constant a) as [[z|q|b]|]; cbn [option_map]; destruct (a_discrete a); auto.
    - intros k K1 K2. rewrite RM, fold_metas by now apply metas_nodup. rewrite (metas_get e a k Hs). destruct (str_eqb k (L "Uom")) eqn:E1; [apply str_eqb_eq in E1; contradiction|].
      rewrite (source_get e a k Hs). destruct (str_eqb k (L "source")) eqn:E2; [apply str_eqb_eq in E2; contradiction|]. destruct (dget str_eqb (a_extra a) k); reflexivity.
    - rewrite RM, fold_metas by now apply metas_nodup. rewrite (metas_get e a _ Hs). change (str_eqb (L "source") (L "Uom")) with false. cbv iota. rewrite (source_get e a _ Hs). change (str_eqb (L "source") (L "source")) with true. cbv iota.
      destruct (a_source a) as [[|c s]|]; [|reflexivity|]; destruct (dget str_eqb (a_extra a) _); reflexivity.
    - rewrite RM, fold_metas by now apply metas_nodup. rewrite (metas_get e a _ Hs). change (str_eqb (L "Uom") (L "Uom")) with true. cbv iota. destruct (_ || _ || _); reflexivity.
    - rewrite RM, fold_metas by now apply metas_nodup. reflexivity. }
  intros n [-> | ->]; [apply (G (fun _ n => n) view_memory)|apply (G (reread Ordinary) view_stored)].
Qed.
Print Assumptions C79_attributes_survive.

(** ** Minimum and maximum *)
Definition value_of (n : num) : option Q := match n with NInt z => Some (inject_Z z) | NBool b => Some (if b then 1 else 0)%Q | NFloat q => q end.
(** [x] is what is read where [n] was meant: the same value, rounded with [r] for a discrete property *)
Definition meant (discrete : bool) (r : Q -> Z) (n : num) (x : option num) : Prop :=
  if discrete then exists q, value_of n = Some q /\ x = Some (NInt (r q)) else x = Some (NFloat (value_of n)).
Definition least_known (l : list (option Q)) (q : Q) : Prop := In (Some q) l /\ forall y, In (Some y) l -> (q <= y)%Q.
Definition most_known (l : list (option Q)) (q : Q) : Prop := In (Some q) l /\ forall y, In (Some y) l -> (y <= q)%Q.
(** the limit of an array with no given limit: [is_limit] its least or most *)
Definition of_array (discrete : bool) (is_limit : list (option Q) -> Q -> Prop) (l : list (option Q)) (x : option num) : Prop :=
  ((forall q, ~ In (Some q) l) /\ x = None) \/ exists q, is_limit l q /\ x = Some (if discrete then NInt (Qtrunc q) else NFloat (Some q)).
Definition limit_as_meant (a : args) (given : option num) (r : Q -> Z) (is_limit : list (option Q) -> Q -> Prop) (x : option num) : Prop :=
  match given, a_const a, a_array a with
  | Some n, Some _, _ | Some n, None, Some _ => meant (a_discrete a) r n x
  | None, Some c, _ => if is_nan c then x = None else meant (a_discrete a) r c x
  | None, None, Some l => of_array (a_discrete a) is_limit l x
  | _, None, None => x = None
  end.
Lemma in_known q l : In q (known l) <-> In (Some q) l.
Proof.
  unfold known. rewrite in_flat_map. split.
  - intros ([y|] & H & E); [destruct E as [->|[]]; assumption|destruct E].
  - intros H. exists (Some q). split; [assumption|now left].
Qed.
Lemma lowest_known l : match lowest (known l) with None => forall q, ~ In (Some q) l | Some q => least_known l q end.
Proof.
  destruct (known l) as [|x k] eqn:E; cbn [lowest].
  - intros q H. apply in_known in H. rewrite E in H. destruct H.
  - destruct (fold_min k x) as [M1 M2]. rewrite <- E in M1, M2. split; [now apply in_known|]. intros y Hy. apply M2. now apply in_known.
Qed.
Lemma highest_known l : match highest (known l) with None => forall q, ~ In (Some q) l | Some q => most_known l q end.
Proof.
  destruct (known l) as [|x k] eqn:E; cbn [highest].
  - intros q H. apply in_known in H. rewrite E in H. destruct H.
  - destruct (fold_max k x) as [M1 M2]. rewrite <- E in M1, M2. split; [now apply in_known|]. intros y Hy. apply M2. now apply in_known.
Qed.
(** the limits written, as numbers *)
Lemma limit_read fs fo e a r n t c : floats_ok fs fo -> suitable e a -> c = negb (a_discrete a) -> (a_discrete a = false -> match n with NBool _ => False | _ => True end) ->
  (forall z, r (inject_Z z) = z) -> limit_text fs a r n = Ok t ->
  exists x, (if c then do q <- fo t; Ok (Some (NFloat q)) else do z <- parse_int t; Ok (Some (NInt z))) = Ok x /\ meant (a_discrete a) r n x /\ t <> [].
Proof.
  intros Hf Hs -> Hn Hr Ht. pose proof (limit_word fs fo e a r n t Hf Hs Hn Ht) as [NE _]. unfold limit_text in Ht. destruct Hf as [F1 F2]. destruct (a_discrete a) eqn:D; cbn [negb].
  - destruct (rounded r n) as [z|] eqn:R; cbn [bind] in Ht; [|discriminate]. injection Ht as <-. rewrite parse_fmt_int. cbn [bind]. eexists. split; [reflexivity|]. split; [|assumption].
    unfold meant. destruct n as [y|[q|]|b]; cbn [rounded] in R; try discriminate; injection R as <-; eexists; (split; [reflexivity|]); rewrite ?Hr; try reflexivity. destruct b; [now rewrite <- (Hr 1) at 1|now rewrite <- (Hr 0) at 1].
  - injection Ht as <-. specialize (Hn eq_refl). destruct n as [y|q|b]; [| |contradiction]; cbn [num_text].
    + rewrite F2. cbn [bind]. eexists. split; [reflexivity|]. split; [reflexivity|assumption].
    + destruct (F1 q) as [-> _]. cbn [bind]. eexists. split; [reflexivity|]. split; [reflexivity|assumption].
Qed.
Lemma floor_z z : Qfloor (inject_Z z) = z. Proof. apply Qfloor_Z. Qed.
Lemma ceiling_z z : Qceiling (inject_Z z) = z. Proof. apply Qceiling_Z. Qed.

(** The least and greatest values read back are the ones given, or those of the constant or of
    the array, rounded outwards for a discrete property. *)
Theorem C79_limits : forall float_str float_of e e' a trust guess,
  floats_ok float_str float_of -> env_ok e -> suitable e a -> trust = true \/ chosen_uom e a <> L "Euc" ->
  exists root out stored, create_xml float_str e a = Ok root /\ write_xml None root = Ok (out, count_nodes root) /\ parse_doc out = Some stored /\
  forall n, n = root \/ n = stored -> exists r lo hi, add_part float_of e' trust guess n = Ok r /\
    limit_for_part float_of r (r_min r) = Ok lo /\ limit_for_part float_of r (r_max r) = Ok hi /\
    (a_min_max a = true /\ a_lookup a = None /\ a_points a = false ->
       limit_as_meant a (a_min a) Qfloor least_known lo /\ limit_as_meant a (a_max a) Qceiling most_known hi) /\
    (a_min_max a = false \/ a_lookup a <> None \/ a_points a = true -> lo = None /\ hi = None).
Proof.
  intros fs fo e e' a trust guess Hf He Hs Ht. destruct (create_ok fs e a Hs) as (sup & ie & time & patch & mm & lk & Es & A1 & A2 & A3 & A4 & A5 & E & T).
  pose proof (root_wf fs fo e a ie sup time patch mm lk Hf He Hs A1 A2 A3 A4 A5) as W.
  destruct (C44_document_round_trip Ordinary _ None Logic.I W ltac:(discriminate)) as (out & O1 & O2).
  exists (root_node a (segments e a ie sup time patch mm lk)), out. eexists. split; [exact E|]. split; [exact O1|]. split; [exact O2|].
  assert (G : forall v, view v -> exists r lo hi, add_part fo e' trust guess (v 0%nat (root_node a (segments e a ie sup time patch mm lk))) = Ok r /\
    limit_for_part fo r (r_min r) = Ok lo /\ limit_for_part fo r (r_max r) = Ok hi /\
    (a_min_max a = true /\ a_lookup a = None /\ a_points a = false -> limit_as_meant a (a_min a) Qfloor least_known lo /\ limit_as_meant a (a_max a) Qceiling most_known hi) /\
    (a_min_max a = false \/ a_lookup a <> None \/ a_points a = true -> lo = None /\ hi = None)).
  { intros v Hv. eexists. pose proof (read_all fs fo v Hv e a Hs Hf ie sup time patch mm lk Es A1 A2 A3 A4 A5 T e' trust guess Ht) as RA.
    pose proof (min_max_shape fs a mm A4) as M. pose proof (min_max_bool e a) as MB. unfold limit_for_part.
    destruct (a_min_max a && negb (match a_lookup a with Some _ => true | None => false end) && negb (a_points a)) eqn:B.
    - destruct M as [M1 M2].
      assert (X1 : exists lo, (match limit_of (fst mm) with None | Some [] => Ok None | Some ((_ :: _) as t) => if negb (a_discrete a) then do q <- fo t; Ok (Some (NFloat q)) else do z <- parse_int t; Ok (Some (NInt z)) end) = Ok lo /\
        match fst (get_min_max a) with None => lo = None | Some n => meant (a_discrete a) Qfloor n lo end).
      { destruct (fst (get_min_max a)) as [n|]; [|rewrite M1; exists None; split; reflexivity]. destruct M1 as (t & Et & ->). cbn [limit_of leaf elem n_text].
        destruct (limit_read fs fo e a Qfloor n t _ Hf Hs eq_refl ltac:(apply MB; tauto) floor_z Et) as (x & X1 & X2 & X3). exists x. split; [|exact X2]. destruct t; [congruence|exact X1]. }
      assert (X2 : exists hi, (match limit_of (snd mm) with None | Some [] => Ok None | Some ((_ :: _) as t) => if negb (a_discrete a) then do q <- fo t; Ok (Some (NFloat q)) else do z <- parse_int t; Ok (Some (NInt z)) end) = Ok hi /\
        match snd (get_min_max a) with None => hi = None | Some n => meant (a_discrete a) Qceiling n hi end).
      { destruct (snd (get_min_max a)) as [n|]; [|rewrite M2; exists None; split; reflexivity]. destruct M2 as (t & Et & ->). cbn [limit_of leaf elem n_text].
        destruct (limit_read fs fo e a Qceiling n t _ Hf Hs eq_refl ltac:(apply MB; tauto) ceiling_z Et) as (x & X1' & X2' & X3). exists x. split; [|exact X2']. destruct t; [congruence|exact X1']. }
      destruct X1 as (lo & X1 & Y1), X2 as (hi & X2 & Y2). exists lo, hi. split; [exact RA|]. cbn [r_min r_max r_continuous]. split; [exact X1|]. split; [exact X2|]. split.
      + intros _. unfold limit_as_meant. unfold get_min_max in Y1, Y2. pose proof (s_limits e a Hs) as SL. destruct (a_const a) as [c|] eqn:Ec.
        * assert (NN : a_discrete a = true -> is_nan c = false).
          { intros D. specialize (SL c ltac:(tauto)). destruct c as [z|[q|]|b]; try reflexivity. congruence. }
          destruct (a_discrete a) eqn:D; cbn [orb] in Y1, Y2.
          -- rewrite NN by reflexivity. cbn [fst snd] in Y1, Y2. split; [destruct (a_min a); exact Y1|destruct (a_max a); exact Y2].
          -- destruct (is_nan c); cbn [negb fst snd] in Y1, Y2; (split; [destruct (a_min a); exact Y1|destruct (a_max a); exact Y2]).
        * destruct (a_array a) as [l|]; cbn [fst snd] in Y1, Y2; [|destruct (a_min a), (a_max a); tauto]. unfold or_else in Y1, Y2. split.
          -- destruct (a_min a); [exact Y1|]. pose proof (lowest_known l) as LK. unfold of_array. destruct (lowest (known l)) as [q|]; cbn [option_map] in Y1; [|left; tauto].
             right. exists q. split; [exact LK|]. unfold meant in Y1. destruct (a_discrete a); [|exact Y1]. destruct Y1 as (q' & [= <-] & ->). now rewrite Qfloor_Z.
          -- destruct (a_max a); [exact Y2|]. pose proof (highest_known l) as LK. unfold of_array. destruct (highest (known l)) as [q|]; cbn [option_map] in Y2; [|left; tauto].
             right. exists q. split; [exact LK|]. unfold meant in Y2. destruct (a_discrete a); [|exact Y2]. destruct Y2 as (q' & [= <-] & ->). now rewrite Qceiling_Z.
      + intros H. exfalso. apply andb_prop in B as [B B3]. apply andb_prop in B as [B1 B2]. destruct (a_lookup a); [discriminate|]. destruct (a_points a); [discriminate|]. rewrite B1 in H. destruct H as [H|[H|H]]; congruence.
    - subst mm. exists None, None. split; [exact RA|]. cbn [r_min r_max r_continuous limit_of fst snd]. split; [reflexivity|]. split; [reflexivity|]. split; [|tauto].
      intros (B1 & B2 & B3). rewrite B1, B2, B3 in B. discriminate. }
  intros n [-> | ->]; [apply (G (fun _ n => n) view_memory)|apply (G (reread Ordinary) view_stored)].
Qed.
Print Assumptions C79_limits.

(** ** Example *)
(** a text for rationals, and its reading *)
Definition ex_str (x : option Q) : str :=
  match x with None => L "nan" | Some q => fmt_int (Qnum q) ++ ch "/" :: fmt_int (Zpos (Qden q)) end.
Definition ex_of (t : str) : res (option Q) :=
  if str_eqb t (L "nan") then Ok None
  else match find_chr (ch "/") t with
       | None => do z <- parse_int t; Ok (Some (inject_Z z))
       | Some k => do n <- parse_int (upto t k); do d <- parse_int (from t (k + 1)); Ok (Some (n # Z.to_pos d))
       end.
Lemma slash_free z : ~ In (ch "/") (fmt_int z).
Proof.
  intros H. pose proof (good_int z) as G. unfold good in G. destruct (fmt_int z) as [|c t]; [destruct G|]. destruct G as [G1 G2]. destruct H as [->|H].
  - destruct G1 as [G1|G1]; discriminate.
  - rewrite forallb_forall in G2. apply G2 in H. discriminate.
Qed.
Lemma n_free z t : str_eqb (fmt_int z ++ t) (L "nan") = false /\ str_eqb (lower (fmt_int z ++ t)) (L "none") = false.
Proof.
  pose proof (good_int z) as G. unfold good in G. destruct (fmt_int z) as [|c s]; [destruct G|]. destruct G as [G1 _].
  assert (X : chr_eqb (lower_chr c) "n" = false) by (destruct G1 as [G1| ->]; [now apply numch_space|reflexivity]).
  assert (Y : chr_eqb c "n" = false) by (destruct (chr_eqb c "n") eqn:E; [|reflexivity]; destruct (chr_eqb_spec c "n"%char) as [->|]; discriminate).
  cbn [app]. unfold lower. cbn [map]. change (L "nan") with ("n"%char :: L "an"). change (L "none") with ("n"%char :: L "one"). cbn [str_eqb]. now rewrite X, Y.
Qed.
Lemma ex_floats : floats_ok ex_str ex_of.
Proof.
  split.
  - intros [q|].
    + cbn [ex_str]. destruct (n_free (Qnum q) (ch "/" :: fmt_int (Zpos (Qden q)))) as [N1 N2]. split; [|split; [|assumption]].
      * unfold ex_of. rewrite N1. rewrite find_chr_app by apply slash_free. rewrite upto_app, from_app1, !parse_fmt_int. cbn [bind]. destruct q; reflexivity.
      * destruct (int_word (Qnum q)) as [W1 W2]. destruct (int_word (Zpos (Qden q))) as [W3 W4]. split; [destruct (fmt_int (Qnum q)); [congruence|discriminate]|].
        intros c Hc. apply in_app_iff in Hc as [Hc|[<-|Hc]]; [now apply W2|reflexivity|now apply W4].
    + split; [reflexivity|]. split; [|reflexivity]. split; [discriminate|]. intros c Hc. repeat (destruct Hc as [<-|Hc]; [reflexivity|]). destruct Hc.
  - intros z. unfold ex_of. destruct (n_free z []) as [N1 _]. rewrite app_nil_r in N1. rewrite N1. rewrite (proj2 (find_chr_none _ _) (slash_free z)). now rewrite parse_fmt_int.
Qed.
Definition ex_env : env :=
  Env (fun u => if u =? 7 then Some (L "grid one") else None) (fun u => if u =? 7 then Some (L "obj_IjkGridRepresentation") else if u =? 9 then Some (L "obj_StringTableLookup") else None)
    [(L "my kind", 21)] 22 (fun u => if u =? 8 then Some 5 else None) (Some 3) (Some [2; 3; 4]) (L "someone") (L "2026-01-01T00:00:00Z") (L "resqpy")
    (fun k => str_eqb k (L "porosity")) (fun u => str_eqb u (L "Euc") || str_eqb u (L "m3/m3")) None (Some 7) (Some 2).
Definition ex_args : args :=
  Args None (Some [Some (1 # 4)%Q; None; Some (3 # 4)%Q]) (L "my property") (L "my kind") None (Some (L "what")) (Some (L "net")) false (Some 8) (Some 3) (Some (L "furlong")) None None (Some (L "a deck")) true
    (Some (NInt 0)) None (Some 1) None None true None 1 false [(L "rank", L "A & B")] None false 77.
Example C79_example_suitable : env_ok ex_env /\ suitable ex_env ex_args.
Proof.
  assert (TD : forall t, blank t = false -> existsb (chr_eqb cr) t = false -> strip is_space t = t -> tidy t).
  { intros t H1 H2 H3. split; [split; [assumption|now apply literal_cr]|assumption]. }
  split.
  - constructor; cbn [ex_env e_type e_title e_user e_now e_format]; try (apply literal_cr; reflexivity).
    + intros u t. destruct (u =? 7); [intros [= <-]; apply literal_cr; reflexivity|]. destruct (u =? 9); [intros [= <-]; apply literal_cr; reflexivity|discriminate].
    + intros u t. destruct (u =? 7); [intros [= <-]; apply literal_cr; reflexivity|discriminate].
  - constructor; cbn [ex_args a_title a_kind a_points a_indexable a_ts a_time a_discrete a_facet_type a_facet a_originator a_source a_extra a_min a_max a_const].
    + apply TD; reflexivity.
    + apply TD; reflexivity.
    + split; discriminate.
    + discriminate.
    + exists 7. split; [reflexivity|]. split; [split; [discriminate|reflexivity]|]. intros _. eexists. reflexivity.
    + intros _. right. discriminate.
    + discriminate.
    + intros ts t [= <-] [= <-]. split; [split; [discriminate|reflexivity]|]. exists 5. split; [reflexivity|lia].
    + discriminate.
    + discriminate.
    + intros n [[= <-]|[H|H]]; [exact Logic.I|discriminate|discriminate].
    + intros ft f [= <-] [= <-]. split; (split; [reflexivity|apply literal_cr; reflexivity]).
    + apply TD; reflexivity.
    + discriminate.
    + intros s [= <-]. right. apply TD; reflexivity.
    + split; [repeat constructor; intros []|]. intros k x [[= <- <-]|[]]. split; [apply TD; reflexivity|]. split; [apply TD; reflexivity|discriminate].
Qed.
(** read by a collection elsewhere: the local kind 21 and the unit 'furlong' are recovered *)
Example C79_example : exists root r, create_xml ex_str ex_env ex_args = Ok root /\ add_part ex_of ex_env false None root = Ok r /\
  r_uom r = Some (L "furlong") /\ r_kind_uuid r = Some (uuid_str 21) /\ r_real r = Some 1 /\ r_time r = Some 3 /\
  limit_for_part ex_of r (r_min r) = Ok (Some (NFloat (Some 0%Q))) /\ limit_for_part ex_of r (r_max r) = Ok (Some (NFloat (Some (3 # 4)%Q))).
Proof. do 2 eexists. split; [vm_compute; reflexivity|]. split; [vm_compute; reflexivity|]. repeat split; vm_compute; reflexivity. Qed.

(** ** Findings *)
Definition with_const (a : args) (discrete : bool) (null : option Z) (c : option num) (l : option (list (option Q))) (uom : option str) (extra : dict str str) (mn : option num) : args :=
  Args (a_ext a) l (a_title a) (a_kind a) (a_support a) (a_facet_type a) (a_facet a) discrete (a_ts a) (a_time a) uom null (a_originator a) (a_source a) (a_min_max a)
    mn (a_max a) (a_real a) (a_lookup a) (a_kind_uuid a) (a_find_kinds a) (a_indexable a) (a_count a) (a_points a) extra c (a_expand a) (a_uuid a).
(** A discrete property with a constant value given as a float (such as 3.0) is created, but
    no collection can read it: its text is not an integer's. *)
Theorem C79_float_constant_refuted : forall float_str float_of, float_str (Some 3%Q) = L "3.0" ->
  exists e a root, a_discrete a = true /\ a_const a = Some (NFloat (Some 3%Q)) /\ create_xml float_str e a = Ok root /\ forall trust guess, add_part float_of e trust guess root = Err ValueError.
Proof.
  intros fs fo E. exists ex_env, (with_const ex_args true None (Some (NFloat (Some 3%Q))) None None [] (Some (NInt 3))). eexists. split; [reflexivity|]. split; [reflexivity|]. split.
  - transitivity (create_xml (fun _ => L "3.0") ex_env (with_const ex_args true None (Some (NFloat (Some 3%Q))) None None [] (Some (NInt 3)))); [|vm_compute; reflexivity].
    vm_compute. vm_compute in E. now rewrite E.
  - intros trust guess. vm_compute. reflexivity.
Qed.
Print Assumptions C79_float_constant_refuted.
(** The null value of a constant array is not kept. *)
Theorem C79_null_of_a_constant_refuted : exists e a root r, a_discrete a = true /\ a_null a = Some (-99) /\ create_xml ex_str e a = Ok root /\ add_part ex_of e true None root = Ok r /\ r_null r = None.
Proof.
  exists ex_env, (with_const ex_args true (Some (-99)) (Some (NInt 5)) None None [] None). do 2 eexists. do 2 (split; [reflexivity|]). split; [vm_compute; reflexivity|]. split; [vm_compute; reflexivity|reflexivity].
Qed.
Print Assumptions C79_null_of_a_constant_refuted.
(** An item of extra metadata named 'Uom' replaces the unit 'Euc'. *)
Theorem C79_uom_item_refuted : exists e a root r, a_uom a = Some (L "Euc") /\ create_xml ex_str e a = Ok root /\ add_part ex_of e true None root = Ok r /\ r_uom r = Some (L "furlong").
Proof.
  exists ex_env, (with_const ex_args false None None (Some [Some 1%Q]) (Some (L "Euc")) [(L "Uom", L "furlong")] None). do 2 eexists. split; [reflexivity|]. split; [vm_compute; reflexivity|]. split; [vm_compute; reflexivity|reflexivity].
Qed.
Print Assumptions C79_uom_item_refuted.
(** A given minimum is dropped when neither an array nor a constant is passed. *)
Theorem C79_given_minimum_refuted : exists e a root r, a_min_max a = true /\ a_min a = Some (NInt 4) /\ create_xml ex_str e a = Ok root /\ add_part ex_of e true None root = Ok r /\ r_min r = None.
Proof.
  exists ex_env, (with_const ex_args false None None None None [] (Some (NInt 4))). do 2 eexists. do 2 (split; [reflexivity|]). split; [vm_compute; reflexivity|]. split; [vm_compute; reflexivity|reflexivity].
Qed.
Print Assumptions C79_given_minimum_refuted.
(** Null values count as values of a discrete array: here the minimum kept is the null value. *)
Theorem C79_null_as_minimum_refuted : exists e a root r, a_discrete a = true /\ a_null a = Some (-1) /\ a_array a = Some [Some (-1 # 1)%Q; Some (3 # 1)%Q; Some (7 # 1)%Q] /\
  create_xml ex_str e a = Ok root /\ add_part ex_of e true None root = Ok r /\ r_null r = Some (-1) /\ limit_for_part ex_of r (r_min r) = Ok (Some (NInt (-1))).
Proof.
  exists ex_env, (with_const ex_args true (Some (-1)) None (Some [Some (-1 # 1)%Q; Some (3 # 1)%Q; Some (7 # 1)%Q]) None [] None). do 2 eexists. do 3 (split; [reflexivity|]). split; [vm_compute; reflexivity|].
  split; [vm_compute; reflexivity|]. split; vm_compute; reflexivity.
Qed.
Print Assumptions C79_null_as_minimum_refuted.
