(** XmlProps.v: property theorems about xml searching and writing (C38, C39, C40, C44, C45). *)
From Coq Require Import Sorted.
From Verif Require Import Base StrModel StrProofs PyDict XmlModel XmlSpec XmlProofs XmlHead XmlRound.

(** * C38: element text survives escaping *)
Theorem C38_text_round_trip : forall t, unescape (escape_text t) = Some t /\ ~ In (ch "<") (escape_text t) /\ ~ In (ch ">") (escape_text t).
Proof.
  intros t. split; [rewrite <- (app_nil_r (escape_text t)), unescape_escape_app; cbn; now rewrite app_nil_r|].
  split; intros H; apply escape_no_markup in H; tauto.
Qed.
Print Assumptions C38_text_round_trip.
Example C38_example : escape_text (L "a<b & &lt; >c") = L "a&lt;b &amp; &amp;lt; &gt;c".
Proof. reflexivity. Qed.

(** * C44: a stored xml part reads back as the same tree *)
(** Every tree in scope (see [wf] in XmlSpec) is written without error, the reported node
    count is the number of elements, and a reader gets back the tree described by [reread]. *)
Theorem C44_document_round_trip : forall k n standalone, kind_ok k -> wf k n -> (forall s, standalone = Some s -> ~ In (ch ">") s) ->
  exists out, write_xml standalone n = Ok (out, count_nodes n) /\ parse_doc out = Some (reread k 0 n).
Proof. intros k n sa. apply write_doc. Qed.
Print Assumptions C44_document_round_trip.

Lemma lstrip_space_app a b : forallb is_space a = true -> lstrip is_space (a ++ b) = lstrip is_space b.
Proof. induction a as [|c a IH]; [reflexivity|]. cbn [forallb app lstrip]. intros H. apply andb_prop in H as [-> H]. now apply IH. Qed.
Lemma lstrip_app_nonblank a b : blank a = false -> lstrip is_space (a ++ b) = lstrip is_space a ++ b.
Proof.
  induction a as [|c a IH]; [discriminate|]. unfold blank. cbn [forallb app lstrip]. destruct (is_space c) eqn:E; [|reflexivity]. intros H. now apply IH.
Qed.
Lemma forallb_rev {A} (p : A -> bool) l : forallb p (rev l) = forallb p l.
Proof. induction l as [|x l IH]; [reflexivity|]. cbn. rewrite forallb_app, IH. cbn. rewrite andb_true_r. apply andb_comm. Qed.
Lemma strip_blank t : blank t = true -> strip is_space t = [].
Proof.
  intros H. unfold strip. assert (E : lstrip is_space t = []) by (rewrite <- (app_nil_r t), lstrip_space_app by assumption; reflexivity). now rewrite E.
Qed.
Lemma strip_app_blank a b : blank b = true -> strip is_space (a ++ b) = strip is_space a.
Proof.
  intros Hb. destruct (blank a) eqn:Ha.
  - rewrite (strip_blank a Ha). apply strip_blank. unfold blank in *. now rewrite forallb_app, Ha.
  - unfold strip. rewrite lstrip_app_nonblank by assumption. unfold rstrip. rewrite rev_app_distr, lstrip_space_app; [reflexivity|]. now rewrite forallb_rev.
Qed.
Lemma blank_indent n : blank (newline :: spaces n) = true.
Proof. unfold blank. cbn [forallb]. change (is_space newline) with true. cbn [andb]. apply forallb_forall. intros x Hx. apply repeat_spec in Hx. now subst. Qed.
Definition is_title (n : node) : bool := endswith (n_tag n) (L "Title").
(** What resqpy sees of each element: the same tag, the same stripped text (except that
    a Title with no text becomes 'untitled'), the same attribute names, the same values for
    all attributes other than the type, and children one for one. *)
Theorem C44_what_is_seen_is_preserved : forall level n,
  let m := reread Ordinary level n in
  n_tag m = n_tag n /\
  node_text (Some m) = (if blank (n_text n) && is_title n then Some (L "untitled") else node_text (Some n)) /\
  map fst (n_attrib m) = map fst (n_attrib n) /\
  (forall key v, match_tag key (L "type") = false -> In (key, v) (n_attrib m) <-> In (key, v) (n_attrib n)) /\
  n_children m = map (reread Ordinary (S level)) (n_children n).
Proof.
  intros level [tag at_ text cs]. cbn [reread n_tag n_attrib n_text n_children is_special]. repeat split.
  - unfold is_title. cbn [n_tag]. unfold node_text. cbn [n_text].
    assert (E : strip is_space (match cs with [] => out_text tag text | _ :: _ => out_text tag text ++ newline :: spaces (3 * S level) end) = strip is_space (out_text tag text)).
    { destruct cs; [reflexivity|]. apply strip_app_blank, blank_indent. }
    rewrite E. unfold out_text. destruct (blank text) eqn:B; cbn [andb].
    + destruct (endswith tag (L "Title")); [reflexivity|]. rewrite B. now rewrite (strip_blank text B).
    + now rewrite B.
  - rewrite map_map. reflexivity.
  - intros H1. apply in_map_iff in H1 as ([key' v'] & E & Hin). cbn [fst snd] in E. injection E as -> E. unfold reread_value in E. rewrite H in E. cbn [andb is_special] in E. now subst.
  - intros H1. apply in_map_iff. exists (key, v). split; [|assumption]. cbn [fst snd]. unfold reread_value. rewrite H. reflexivity.
Qed.
Print Assumptions C44_what_is_seen_is_preserved.

Lemma stripped_qualify u local : ~ In (ch "}") local -> stripped_of_prefix (qualify u local) = local.
Proof. intros H. unfold stripped_of_prefix, qualify. rewrite app_comm_cons, rfind_chr_app by assumption. apply from_app1. Qed.
Lemma stripped_colon p local : good_name p -> good_name local -> stripped_of_prefix (p ++ ch ":" :: local) = local.
Proof.
  intros Hp Hl. unfold stripped_of_prefix. assert (N : ~ In (ch "}") (p ++ ch ":" :: local)).
  { rewrite in_app_iff. intros [H|[H|H]]; [apply (name_no_brace p) in H; tauto|discriminate|apply (name_no_brace local) in H; tauto]. }
  apply rfind_chr_none in N. rewrite N. rewrite rfind_chr_app by (apply Hl). apply from_app1.
Qed.
(** The type seen by resqpy is the same, for types '{uri}name', 'prefix:name' or plain. *)
Definition type_form (v : str) : Prop := (exists u l, v = qualify u l /\ good_name l) \/ match v with c :: _ => c <> ch "{" | [] => True end.
Theorem C44_type_is_preserved : forall level n strip_obj,
  (forall key v, In (key, v) (n_attrib n) -> match_tag key (L "type") = true -> type_form v) ->
  node_type (reread Ordinary level n) strip_obj = node_type n strip_obj.
Proof.
  intros level [tag at_ text cs] so. cbn [n_attrib reread]. unfold node_type. cbn [n_attrib]. intros H.
  induction at_ as [|[key v] l IH]; [reflexivity|]. cbn [map List.find fst snd]. destruct (match_tag key (L "type")) eqn:M.
  - unfold reread_value. rewrite M. specialize (H key v (or_introl eq_refl) M).
    assert (E : stripped_of_prefix (match fst (colon_prefixed v) with Some t => t | None => v end) = stripped_of_prefix v).
    { destruct H as [(u & lo & -> & Hl)|H].
      - destruct (inv_ns u) as [p|] eqn:Eu.
        + rewrite (colon_qualify _ _ _ Eu Hl). cbn [fst]. change (L ":" ++ lo) with (ch ":" :: lo). rewrite stripped_colon; [|apply inv_known, known_good in Eu; apply Eu|assumption].
          now rewrite stripped_qualify by (apply name_no_brace; assumption).
        + unfold colon_prefixed, qualify. rewrite chr_eqb_refl. cbn [negb].
          rewrite app_comm_cons. rewrite rfind_chr_app by (now apply name_no_brace).
          assert (X : upto (u ++ ch "}" :: lo) (List.length (ch "{" :: u) - 1) = u).
          { replace (List.length (ch "{" :: u) - 1)%nat with (List.length u) by (cbn; lia). apply upto_app. }
          rewrite X, Eu. reflexivity.
      - destruct v as [|c v]; [reflexivity|]. unfold colon_prefixed. destruct (chr_eqb_spec c (ch "{")); [contradiction|]. cbn [negb]. destruct (find_chr _ _); reflexivity. }
    now rewrite E.
  - apply IH. intros k' v' Hin. apply H. now right.
Qed.
Print Assumptions C44_type_is_preserved.

(** A representative part meets the hypotheses. *)
Definition eml_uri := L "http://www.energistics.org/energyml/data/commonv2".
Definition rq_uri := L "http://www.energistics.org/energyml/data/resqmlv2".
Definition xsi_uri := L "http://www.w3.org/2001/XMLSchema-instance".
Definition ex_part : node :=
  Node (qualify rq_uri (L "Grid")) [(L "schemaVersion", L "2.0"); (qualify xsi_uri (L "type"), qualify rq_uri (L "obj_Grid"))] [newline]
    [ Node (qualify eml_uri (L "Citation")) [] [newline] [ Node (qualify eml_uri (L "Title")) [(qualify xsi_uri (L "type"), qualify eml_uri (L "Str"))] (L "a<b & c") [] ];
      Node (qualify rq_uri (L "Ni")) [] (L "5") [] ].
Ltac notin := cbv; intuition discriminate.
Ltac gname := split; [discriminate|split; [reflexivity|notin]].
Lemma ex_part_wf : wf Ordinary ex_part.
Proof.
  assert (T : forall u p l, inv_ns u = Some p -> p <> L "content_types" -> p <> L "rels" -> good_name l -> tag_ok Ordinary (qualify u l)).
  { intros u p l Hu H1 H2 Hl. exists p, u, l. repeat split; try assumption; try apply Hl. intros [H|H]; contradiction. }
  assert (PV : forall v, (existsb (fun c => existsb (chr_eqb c) [quote; ch "<"; ch "&"; ascii_of_N 9; newline; ascii_of_N 13]) v) = false -> plain_value v).
  { intros v Hv. assert (A : forall c, In c v -> ~ In c [quote; ch "<"; ch "&"; ascii_of_N 9; newline; ascii_of_N 13]).
    { intros c Hc Hi. assert (X : existsb (fun c => existsb (chr_eqb c) [quote; ch "<"; ch "&"; ascii_of_N 9; newline; ascii_of_N 13]) v = true).
      { apply existsb_exists. exists c. split; [assumption|]. apply existsb_exists. exists c. split; [assumption|apply chr_eqb_refl]. } congruence. }
    repeat split; intros Hc; apply (A _ Hc); cbn; tauto. }
  assert (XT : key_ok (qualify xsi_uri (L "type"))).
  { right. exists (L "xsi"), xsi_uri, (L "type"). split; [reflexivity|]. split; [vm_compute; reflexivity|]. split; [intros [H|H]; discriminate|gname]. }
  unfold ex_part. constructor.
  - eapply T; [vm_compute; reflexivity|discriminate|discriminate|gname].
  - split; [|split; [|split]].
    + repeat constructor; cbv; intuition discriminate.
    + constructor; [|constructor; [|constructor]]; cbn [fst snd]; (split; [|apply PV; vm_compute; reflexivity]); [|exact XT]. left. split; [gname|discriminate].
    + vm_compute. repeat constructor; intuition discriminate.
    + constructor; [|constructor; [|constructor]]; cbn [fst snd]; [intros X; discriminate X|]. intros _. split; [discriminate|vm_compute; discriminate].
  - notin.
  - assert (A0 : attrib_ok []) by (repeat split; constructor).
    constructor; [|constructor; [|constructor]]; constructor.
    + eapply T; [vm_compute; reflexivity|discriminate|discriminate|gname].
    + exact A0.
    + notin.
    + constructor; [|constructor]. constructor; [eapply T; [vm_compute; reflexivity|discriminate|discriminate|gname]| |notin|constructor].
      split; [|split; [|split]].
      * repeat constructor. intros [].
      * constructor; [|constructor]. cbn [fst snd]. split; [exact XT|apply PV; vm_compute; reflexivity].
      * vm_compute. repeat constructor. intros [].
      * constructor; [|constructor]. cbn [fst snd]. intros _. split; [discriminate|vm_compute; discriminate].
    + eapply T; [vm_compute; reflexivity|discriminate|discriminate|gname].
    + exact A0.
    + notin.
    + constructor.
Qed.
Example C44_example : exists out, write_xml None ex_part = Ok (out, 4) /\ parse_doc out = Some (reread Ordinary 0 ex_part).
Proof. apply (C44_document_round_trip Ordinary ex_part None Logic.I ex_part_wf). discriminate. Qed.

(** Findings: outside that scope the writer produces documents that no reader accepts, or
    that read back differently. *)
(** An attribute value is written unescaped (a quote or '&' in, say, a rels target). *)
Theorem C44_attribute_values_refuted : exists n out, write_xml None n = Ok (out, 1) /\ parse_doc out = None /\
  n = Node (qualify rq_uri (L "Grid")) [(L "note", L "a&b")] [] [].
Proof. exists (Node (qualify rq_uri (L "Grid")) [(L "note", L "a&b")] [] []). eexists. split; [vm_compute; reflexivity|]. split; [|reflexivity]. vm_compute. reflexivity. Qed.
Print Assumptions C44_attribute_values_refuted.
Theorem C44_attribute_entities_refuted : exists n out m, write_xml None n = Ok (out, 1) /\ parse_doc out = Some m /\
  n_attrib n = [(L "note", L "&lt;")] /\ n_attrib m = [(L "note", L "<")].
Proof.
  exists (Node (qualify rq_uri (L "Grid")) [(L "note", L "&lt;")] [] []). do 2 eexists. split; [vm_compute; reflexivity|]. split; [vm_compute; reflexivity|]. split; reflexivity.
Qed.
Print Assumptions C44_attribute_entities_refuted.
(** Two attributes from one not yet declared namespace declare it twice. *)
Theorem C44_two_attributes_one_namespace_refuted : exists n out, write_xml None n = Ok (out, 1) /\ parse_doc out = None /\
  n = Node (qualify rq_uri (L "Grid")) [(qualify xsi_uri (L "type"), qualify rq_uri (L "obj_Grid")); (qualify xsi_uri (L "schemaLocation"), L "x.xsd")] [] [].
Proof. exists (Node (qualify rq_uri (L "Grid")) [(qualify xsi_uri (L "type"), qualify rq_uri (L "obj_Grid")); (qualify xsi_uri (L "schemaLocation"), L "x.xsd")] [] []). eexists. split; [vm_compute; reflexivity|]. split; [|reflexivity]. vm_compute. reflexivity. Qed.
Print Assumptions C44_two_attributes_one_namespace_refuted.
(** A tag from a namespace resqpy does not know is written with its braces. *)
Theorem C44_unknown_namespace_refuted : exists n out, write_xml None n = Ok (out, 1) /\ parse_doc out = None /\
  n = Node (qualify (L "http://www.example.org/v1") (L "Extra")) [] (L "5") [].
Proof. exists (Node (qualify (L "http://www.example.org/v1") (L "Extra")) [] (L "5") []). eexists. split; [vm_compute; reflexivity|]. split; [|reflexivity]. vm_compute. reflexivity. Qed.
Print Assumptions C44_unknown_namespace_refuted.
(** A type whose prefix resqpy does not know cannot be written at all. *)
Theorem C44_unknown_type_prefix_refuted :
  write_xml None (Node (qualify rq_uri (L "Grid")) [(qualify xsi_uri (L "type"), L "witsml:Thing")] [] []) = Err KeyError.
Proof. vm_compute. reflexivity. Qed.
Print Assumptions C44_unknown_type_prefix_refuted.
(** A blank title does not survive. *)
Theorem C44_blank_title_refuted : exists n out m, write_xml None n = Ok (out, 1) /\ parse_doc out = Some m /\
  node_text (Some n) = None /\ node_text (Some m) = Some (L "untitled").
Proof.
  exists (Node (qualify eml_uri (L "Title")) [] (L " ") []). do 2 eexists. split; [vm_compute; reflexivity|]. split; [vm_compute; reflexivity|]. split; reflexivity.
Qed.
Print Assumptions C44_blank_title_refuted.

(** * C39: binary search *)
Definition sorted_z (a : list Z) : Prop := StronglySorted Z.le a.
Lemma sorted_nth a : sorted_z a -> forall i j x y, (i <= j)%nat -> nth_error a i = Some x -> nth_error a j = Some y -> x <= y.
Proof.
  induction 1 as [|z a H1 IH H2]; intros i j x y Hij Hi Hj; [destruct i; discriminate|].
  destruct i as [|i], j as [|j]; cbn in *.
  - injection Hi as <-. injection Hj as <-. lia.
  - injection Hi as <-. apply nth_error_In in Hj. rewrite Forall_forall in H2. auto.
  - lia.
  - eapply IH; [|eassumption|eassumption]. lia.
Qed.
Lemma walk_back_spec v a : forall mid, sorted_z a -> nth_error a mid = Some v ->
  nth_error a (walk_back v a mid) = Some v /\ forall i x, (i < walk_back v a mid)%nat -> nth_error a i = Some x -> x < v.
Proof.
  induction mid as [|m IH]; intros Hs Hm; cbn [walk_back]; [split; [assumption|intros; lia]|].
  destruct (nth_error a m) as [x|] eqn:E.
  - destruct (Z.eqb_spec x v) as [->|N]; [now apply IH|]. split; [assumption|]. intros i y Hi Hy.
    assert (y <= x) by (eapply (sorted_nth a Hs i m); [lia|assumption|assumption]).
    assert (x <= v) by (eapply (sorted_nth a Hs m (S m)); [lia|assumption|assumption]). lia.
  - exfalso. apply nth_error_None in E. assert (nth_error a (S m) = None) by (apply nth_error_None; lia). congruence.
Qed.
Lemma find_subset_spec v a : sorted_z a -> forall fuel s e, (e <= List.length a)%nat -> (2 * (e - s) + 1 <= fuel)%nat ->
  (forall i x, (i < s)%nat -> nth_error a i = Some x -> x < v) -> (forall i x, (e <= i)%nat -> nth_error a i = Some x -> v < x) ->
  match find_in_subset fuel v a s e with
  | Ok (Some k) => nth_error a k = Some v /\ forall i x, (i < k)%nat -> nth_error a i = Some x -> x < v
  | Ok None => ~ In v a
  | Err _ => False
  end.
Proof.
  intros Hs. induction fuel as [|f IH]; intros s e He Hf Hlo Hhi; [lia|]. cbn [find_in_subset].
  destruct (Nat.leb_spec e s) as [Hse|Hse].
  - intros Hin. apply In_nth_error in Hin as [i Hi]. destruct (Nat.lt_ge_cases i s).
    + specialize (Hlo i v H Hi). lia.
    + assert (E : v < v) by (apply (Hhi i v); [lia|assumption]). lia.
  - set (mid := (s + (e - s) / 2)%nat). assert (Hmid : (s <= mid < e)%nat).
    { unfold mid. pose proof (Nat.div_lt (e - s) 2). lia. }
    assert (Hm2 : ((e - s) / 2 * 2 <= e - s)%nat) by (rewrite Nat.mul_comm; apply Nat.mul_div_le; lia).
    destruct (nth_error a mid) as [x|] eqn:E; [|apply nth_error_None in E; lia].
    destruct (Z.eqb_spec x v) as [->|N]; [now apply walk_back_spec|].
    destruct (Z.ltb_spec v x) as [L1|L1].
    + apply IH; [lia|lia|assumption|]. intros i y Hi Hy. assert (x <= y) by (eapply (sorted_nth a Hs mid i); eassumption). lia.
    + destruct (Nat.eqb_spec mid s) as [Es|Es].
      * apply IH; [lia|lia| |assumption]. intros i y Hi Hy. assert (y <= x) by (eapply (sorted_nth a Hs i mid); [lia|assumption|assumption]). lia.
      * apply IH; [lia|lia| |assumption]. intros i y Hi Hy. assert (y <= x) by (eapply (sorted_nth a Hs i mid); [lia|assumption|assumption]). lia.
Qed.
Theorem C39_binary_search : forall v a, sorted_z a ->
  (exists k, find_in_ordered_data v a = Ok (Some k) /\ nth_error a k = Some v /\ forall i, (i < k)%nat -> nth_error a i <> Some v) \/
  (find_in_ordered_data v a = Ok None /\ ~ In v a).
Proof.
  intros v a Hs. unfold find_in_ordered_data.
  pose proof (find_subset_spec v a Hs (2 * List.length a + 2) 0 (List.length a)) as H.
  destruct (find_in_subset _ v a 0 _) as [[k|]|]; [left|right|].
  - destruct H as [H1 H2]; [lia|lia|intros; lia|intros i x Hi Hx|].
    + assert (nth_error a i = None) by (apply nth_error_None; lia). congruence.
    + exists k. split; [reflexivity|]. split; [assumption|]. intros i Hi Hv. specialize (H2 i v Hi Hv). lia.
  - split; [reflexivity|]. apply H; [lia|lia|intros; lia|intros i x Hi Hx]. assert (nth_error a i = None) by (apply nth_error_None; lia). congruence.
  - exfalso. apply H; [lia|lia|intros; lia|intros i x Hi Hx]. assert (nth_error a i = None) by (apply nth_error_None; lia). congruence.
Qed.
Print Assumptions C39_binary_search.
Example C39_example : sorted_z [1; 3; 3; 3; 7] /\ find_in_ordered_data 3 [1; 3; 3; 3; 7] = Ok (Some 1%nat) /\ find_in_ordered_data 5 [1; 3; 3; 3; 7] = Ok None.
Proof. split; [repeat constructor; lia|]. split; reflexivity. Qed.

(** * C40: tag matching *)
Definition no_sep (s : str) : Prop := ~ In (ch ":") s /\ ~ In (ch "}") s.
Lemma match_tag_iff x name : match_tag x name = true <-> x = name \/ exists a c, (c = ch "}" \/ c = ch ":") /\ x = a ++ c :: name.
Proof.
  unfold match_tag. destruct (Nat.ltb_spec (List.length name) (List.length x)) as [H|H].
  - destruct (nth_error x (List.length x - List.length name - 1)) as [c|] eqn:E; [|apply nth_error_None in E; lia].
    apply nth_error_split in E as (a & b & -> & La).
    assert (Eb : from (a ++ c :: b) (List.length (a ++ c :: b) - List.length name) = b).
    { rewrite app_length in *. cbn [List.length] in *. replace (List.length a + S (List.length b) - List.length name)%nat with (List.length a + 1)%nat by lia. apply from_app1. }
    rewrite Eb. split.
    + destruct (chr_eqb_spec c (ch "}")) as [->|]; [|destruct (chr_eqb_spec c (ch ":")) as [->|]]; cbn [negb andb]; [| |discriminate]; intros X; apply str_eqb_eq in X; subst b; right; eauto.
    + intros [X|(a' & c' & Hc & X)].
      * subst name. lia.
      * assert (EQ : a = a' /\ c :: b = c' :: name).
        { assert (LL : List.length a = List.length a'). { apply (f_equal (@List.length _)) in X. rewrite !app_length in *. cbn [List.length] in *. lia. }
          revert X LL. clear. revert a'. induction a as [|y a IH]; intros [|y' a'] X LL; try discriminate LL; [auto|].
          cbn in X. injection X as -> X. injection LL as LL. destruct (IH a' X LL) as [-> ->]. auto. }
        destruct EQ as [-> EQ]. injection EQ as -> ->. rewrite str_eqb_refl. destruct Hc as [-> | ->]; reflexivity.
  - destruct (Nat.eqb_spec (List.length x) (List.length name)) as [E|E].
    + rewrite str_eqb_eq. split; [auto|]. intros [X|(a & c & _ & X)]; [assumption|]. subst x. rewrite app_length in E. cbn in E. lia.
    + split; [discriminate|]. intros [->|(a & c & _ & ->)]; [lia|]. rewrite app_length in *. cbn [List.length] in *. lia.
Qed.
(** For a name without separators: match succeeds exactly when stripping the prefix gives
    the name, for every tag whose local part has no colon. *)
Theorem C40_match_is_prefix_stripping : forall x name, no_sep name -> (forall a b, x = a ++ ch "}" :: b -> ~ In (ch "}") b -> ~ In (ch ":") b) ->
  match_tag x name = true <-> stripped_of_prefix x = name.
Proof.
  intros x name [N1 N2] Hx. rewrite match_tag_iff. unfold stripped_of_prefix. destruct (rfind_chr (ch "}") x) as [k|] eqn:E.
  - apply rfind_chr_some in E as (a & b & -> & <- & Hb). rewrite from_app1. specialize (Hx a b eq_refl Hb). split.
    + intros [X|(a' & c & [-> | ->] & X)].
      * subst name. elim N2. apply in_or_app. right. now left.
      * assert (EQ := rfind_chr_app (ch "}") a b Hb). rewrite X, rfind_chr_app in EQ by assumption. injection EQ as EQ.
        apply (f_equal (fun s => from s (List.length a + 1))) in X. rewrite from_app1 in X. rewrite <- EQ, from_app1 in X. assumption.
      * exfalso. assert (HC : In (ch ":") b).
        { clear -X Hb N2 N1. revert a' X. induction a as [|y a IH]; intros [|y' a'] X; cbn in X.
          - injection X as X. discriminate.
          - injection X as <- ->. apply in_or_app. right. now left.
          - injection X as -> X. elim N2. rewrite <- X. apply in_or_app. right. now left.
          - injection X as -> X. eauto. }
        contradiction.
    + intros <-. right. eauto.
  - apply rfind_chr_none in E. destruct (rfind_chr (ch ":") x) as [k|] eqn:E2.
    + apply rfind_chr_some in E2 as (a & b & -> & <- & Hb). rewrite from_app1. split.
      * intros [X|(a' & c & [-> | ->] & X)].
        -- subst name. elim N1. apply in_or_app. right. now left.
        -- elim E. rewrite X. apply in_or_app. right. now left.
        -- assert (EQ := rfind_chr_app (ch ":") a b Hb). rewrite X, rfind_chr_app in EQ by assumption. injection EQ as EQ.
           apply (f_equal (fun s => from s (List.length a + 1))) in X. rewrite from_app1 in X. rewrite <- EQ, from_app1 in X. assumption.
      * intros <-. right. eauto.
    + apply rfind_chr_none in E2. split; [|auto]. intros [X|(a & c & [-> | ->] & ->)]; [assumption| |].
      * elim E. apply in_or_app. right. now left.
      * elim E2. apply in_or_app. right. now left.
Qed.
Print Assumptions C40_match_is_prefix_stripping.
Example C40_example : match_tag (L "{http://x}Citation") (L "Citation") = true /\ match_tag (L "eml:Citation") (L "Citation") = true /\ match_tag (L "MyCitation") (L "Citation") = false.
Proof. repeat split. Qed.
(** Finding: with a colon in the local part the two disagree. *)
Theorem C40_colon_in_local_part_refuted : exists x name, no_sep name /\ match_tag x name = true /\ stripped_of_prefix x <> name.
Proof. exists (L "{u}a:b"), (L "b"). split; [split; notin|]. split; [reflexivity|discriminate]. Qed.
Print Assumptions C40_colon_in_local_part_refuted.
(** The search functions agree: the list is the matching children in order, the count is
    its length, and the first match is its head (or an error if one is required). *)
Lemma fold_filter {A} (p : A -> bool) l : forall acc, fold_left (fun acc c => if p c then acc ++ [c] else acc) l acc = acc ++ filter p l.
Proof. induction l as [|x l IH]; intros acc; cbn; [now rewrite app_nil_r|]. destruct (p x); rewrite IH; [now rewrite <- app_assoc|reflexivity]. Qed.
Theorem C40_searches_agree : forall r name must,
  list_of_tag r name = filter (fun c => match_tag (n_tag c) name) (n_children r) /\
  count_tag r name = Z.of_nat (List.length (list_of_tag r name)) /\
  find_tag (Some r) name must = (match list_of_tag r name with c :: _ => Ok (Some c) | [] => if must then Err ValueError else Ok None end) /\
  find_tag_text (Some r) name must = (match list_of_tag r name with c :: _ => Ok (node_text (Some c)) | [] => if must then Err ValueError else Ok None end) /\
  (forall m, In m (list_of_descendant_tag r name) <-> In m (descendants r) /\ match_tag (n_tag m) name = true).
Proof.
  intros r name must. set (p := fun c => match_tag (n_tag c) name).
  assert (E : list_of_tag r name = filter p (n_children r)) by (unfold list_of_tag; apply (fold_filter p _ [])).
  split; [exact E|]. split; [|split; [|split]].
  - rewrite E. unfold count_tag. assert (G : forall l k, fold_left (fun k c => if match_tag (n_tag c) name then k + 1 else k) l k = k + Z.of_nat (List.length (filter p l))).
    { induction l as [|x l IH]; intros k; cbn; [lia|]. fold (p x). destruct (p x); rewrite IH; cbn; lia. }
    now rewrite G.
  - rewrite E. clear E. unfold find_tag. fold p. induction (n_children r) as [|x l IH]; [reflexivity|]. cbn. fold (p x). destruct (p x); [reflexivity|exact IH].
  - rewrite E. clear E. unfold find_tag_text. fold p. induction (n_children r) as [|x l IH]; [reflexivity|]. cbn. fold (p x). destruct (p x); [reflexivity|exact IH].
  - intros m. unfold list_of_descendant_tag. rewrite (fold_filter p _ []). cbn [app]. rewrite filter_In. reflexivity.
Qed.
Print Assumptions C40_searches_agree.

(** A nested search descends through the first child with each tag in turn. *)
Inductive NestedPath : node -> list str -> node -> Prop :=
  | np_last r t c rest : list_of_tag r t = c :: rest -> NestedPath r [t] c
  | np_step r t c rest ts n : list_of_tag r t = c :: rest -> NestedPath c ts n -> NestedPath r (t :: ts) n.
Theorem C40_nested_search : forall tags r n, find_nested_tags (Some r) tags = Some n <-> NestedPath r tags n.
Proof.
  induction tags as [|t ts IH]; intros r n; [split; [discriminate|intros H; inversion H]|].
  cbn [find_nested_tags]. destruct (C40_searches_agree r t false) as (_ & _ & E & _). rewrite E.
  destruct (list_of_tag r t) as [|c rest] eqn:El.
  - split; [discriminate|]. intros H; inversion H; congruence.
  - destruct ts as [|t2 ts].
    + split; [intros [= <-]; econstructor; exact El|]. intros H; inversion H; subst; [congruence|].
      match goal with X : NestedPath _ [] _ |- _ => inversion X end.
    + rewrite IH. split; [intros H; econstructor; eassumption|].
      intros H; inversion H; subst. assert (c0 = c) by congruence. now subst.
Qed.
Print Assumptions C40_nested_search.

(** Reference listing gives the outermost DataObjectReference nodes, each once, in
    document order, optionally without the hdf5 proxies. *)
Definition is_reference (n : node) : Prop := exists k v, In (k, v) (n_attrib n) /\ match_tag v (L "DataObjectReference") = true.
Inductive Outer : node -> node -> Prop :=
  | outer_here n : Outer n n
  | outer_in r c n : ~ is_reference r -> In c (n_children r) -> Outer c n -> Outer r n.
Lemma is_reference_iff n : existsb (fun kv => match_tag (snd kv) (L "DataObjectReference")) (n_attrib n) = true <-> is_reference n.
Proof.
  rewrite existsb_exists. split.
  - intros [[k v] [H1 H2]]. exists k, v. auto.
  - intros (k & v & H1 & H2). exists (k, v). auto.
Qed.
Theorem C40_references_are_the_outermost : forall skip r n, In n (list_obj_references skip r) <->
  Outer r n /\ is_reference n /\ (skip = true -> match_tag (n_tag n) (L "HdfProxy") = false).
Proof.
  intros skip. induction r as [tag at_ tx cs IH] using node_ind'. intros n.
  cbn [list_obj_references]. pose proof (is_reference_iff (Node tag at_ tx cs)) as Hr. cbn [n_attrib] in Hr.
  destruct (existsb _ at_).
  - assert (R : is_reference (Node tag at_ tx cs)) by now apply Hr.
    assert (One : forall x, Outer (Node tag at_ tx cs) x <-> x = Node tag at_ tx cs).
    { intros x. split; [intros H; inversion H; subst; [reflexivity|contradiction]|intros ->; constructor]. }
    rewrite One. destruct skip; cbn [andb].
    + destruct (match_tag tag (L "HdfProxy")) eqn:E; cbn [In]; split.
      * intros [].
      * intros (-> & _ & H). cbn [n_tag] in H. rewrite E in H. discriminate (H eq_refl).
      * intros [<-|[]]. auto.
      * intros (-> & _). now left.
    + cbn [In]. split; [intros [<-|[]]; repeat split; auto; discriminate|]. intros (-> & _). now left.
  - assert (R : ~ is_reference (Node tag at_ tx cs)) by (intros X; apply Hr in X; discriminate).
    assert (G : forall l, Forall (fun c => forall n, In n (list_obj_references skip c) <->
        Outer c n /\ is_reference n /\ (skip = true -> match_tag (n_tag n) (L "HdfProxy") = false)) l ->
      (In n ((fix go l := match l with [] => [] | c :: l' => list_obj_references skip c ++ go l' end) l) <->
       (exists c, In c l /\ Outer c n) /\ is_reference n /\ (skip = true -> match_tag (n_tag n) (L "HdfProxy") = false))).
    { induction l as [|c l IHl]; intros F; [split; [intros []|intros ((c & [] & _) & _)]|].
      inversion F; subst. rewrite in_app_iff, IHl, H1 by assumption. split.
      - intros [(O & X)|((c' & Hc & O) & X)]; (split; [|exact X]); eauto using in_eq, in_cons.
      - intros ((c' & [<-|Hc] & O) & X); eauto 7. }
    rewrite G by exact IH. split.
    + intros ((c & Hc & O) & X). split; [|exact X]. eapply outer_in; eauto.
    + intros (O & X). split; [|exact X]. inversion O; subst; [destruct X; contradiction|]. eauto.
Qed.
Print Assumptions C40_references_are_the_outermost.

(** node_type: the type attribute without its prefix, and without obj_ on request. *)
Theorem C40_node_type : forall tag pre k v post text cs,
  (forall k' v', In (k', v') pre -> match_tag k' (L "type") = false) -> match_tag k (L "type") = true ->
  forall local, stripped_of_prefix v = local ->
  node_type (Node tag (pre ++ (k, v) :: post) text cs) false = Some local /\
  (forall cls, local = L "obj_" ++ cls -> node_type (Node tag (pre ++ (k, v) :: post) text cs) true = Some cls) /\
  ((~ exists cls, local = L "obj_" ++ cls) -> node_type (Node tag (pre ++ (k, v) :: post) text cs) true = Some local).
Proof.
  intros tag pre k v post text cs Hp Hk local El. unfold node_type. cbn [n_attrib].
  replace (List.find (fun kv => match_tag (fst kv) (L "type")) (pre ++ (k, v) :: post)) with (Some (k, v)).
  - rewrite El. split; [reflexivity|]. cbn [andb]. split.
    + intros cls ->. replace (startswith (L "obj_" ++ cls) (L "obj_")) with true by (symmetry; apply startswith_iff; eauto). reflexivity.
    + intros N. destruct (startswith local (L "obj_")) eqn:E; [|reflexivity]. exfalso. apply N. now apply startswith_iff in E.
  - symmetry. induction pre as [|[k' v'] pre IH]; cbn [app List.find fst]; [now rewrite Hk|]. rewrite (Hp k' v') by now left. apply IH. intros a b H. eapply Hp. right. exact H.
Qed.
Print Assumptions C40_node_type.
Example C40_references_example :
  let r := Node (L "Crs") [(L "{http://www.w3.org/2001/XMLSchema-instance}type", L "eml:DataObjectReference")] [] [] in
  let h := Node (L "HdfProxy") [(L "type", L "eml:DataObjectReference")] [] [] in
  let root := Node (L "Grid") [(L "type", L "resqml:obj_Grid")] [] [Node (L "a") [] [] [r]; h] in
  list_obj_references true root = [r] /\ list_obj_references false root = [r; h] /\ node_type root true = Some (L "Grid") /\
  find_nested_tags (Some root) [L "a"; L "Crs"] = Some r.
Proof. repeat split; vm_compute; reflexivity. Qed.

(** * C45: handedness *)
(** Axis directions as (easting, northing) components; z is +1 upwards. *)
Definition axis_vec (s : str) : option (Z * Z) :=
  if str_eqb s (L "easting") then Some (1, 0) else if str_eqb s (L "northing") then Some (0, 1)
  else if str_eqb s (L "westing") then Some (-1, 0) else if str_eqb s (L "southing") then Some (0, -1) else None.
(** triple product of the x, y and z axis directions *)
Definition triple (a b : Z * Z) (z_down : bool) : Z := (fst a * snd b - snd a * fst b) * (if z_down then -1 else 1).
Theorem C45_handedness_is_geometric : forall axes zd h, xyz_handedness (Some axes) (Some zd) = h -> h <> HUnknown ->
  exists a b va vb, split_ws (lower axes) = [a; b] /\ axis_vec a = Some va /\ axis_vec b = Some vb /\
    (h = HRight <-> triple va vb zd = 1) /\ (h = HLeft <-> triple va vb zd = -1).
Proof.
  intros axes zd h H N. unfold xyz_handedness in H. destruct (split_ws (lower axes)) as [|a [|b [|? ?]]]; try (cbn in H; congruence).
  change (negb (List.length [a; b] =? 2)%nat) with false in H. cbv iota in H.
  assert (M : forall l, mem_strs [a; b] l = true <-> In [a; b] l).
  { intros l. unfold mem_strs. rewrite existsb_exists. assert (SE : forall x y, strs_eqb x y = true <-> x = y).
    { induction x as [|s x IH]; intros [|t y]; cbn; split; try congruence. - intros X. apply andb_prop in X as [X1 X2]. apply str_eqb_eq in X1. apply IH in X2. congruence.
      - intros X. injection X as -> ->. rewrite str_eqb_refl. apply IH. reflexivity. }
    split; [intros (x & Hx & E); apply SE in E; now subst|]. intros Hi. exists [a; b]. split; [assumption|now apply SE]. }
  destruct (mem_strs [a; b] [[L "easting"; L "northing"]; [L "northing"; L "easting"]; [L "westing"; L "southing"]; [L "southing"; L "westing"]; [L "northing"; L "westing"]; [L "westing"; L "northing"]]) eqn:E; [|cbn in H; congruence].
  apply M in E. cbn [In] in E. cbv iota in H. cbn [negb] in H.
  repeat (destruct E as [E|E]; [injection E as <- <-; do 4 eexists; split; [reflexivity|]; split; [reflexivity|]; split; [reflexivity|]; subst h; destruct zd; vm_compute; intuition (try discriminate; reflexivity)|]).
  destruct E.
Qed.
Print Assumptions C45_handedness_is_geometric.
(** The answer is unknown only when an argument is missing or the axes are not one of the
    six pairs RESQML allows. *)
Theorem C45_allowed_axes_are_known : forall a b zd, In (a, b) [("easting", "northing"); ("northing", "easting"); ("westing", "southing"); ("southing", "westing"); ("northing", "westing"); ("westing", "northing")]%string ->
  xyz_handedness (Some (L a ++ ch " " :: L b)) (Some zd) <> HUnknown.
Proof. intros a b zd H. cbn [In] in H. repeat (destruct H as [H|H]; [injection H as <- <-; destruct zd; vm_compute; discriminate|]). destruct H. Qed.
Print Assumptions C45_allowed_axes_are_known.
Example C45_example : xyz_handedness (Some (L "Easting northing")) (Some true) = HLeft /\ xyz_handedness (Some (L "northing  easting")) (Some true) = HRight.
Proof. split; vm_compute; reflexivity. Qed.
