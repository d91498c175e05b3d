(** PropXmlProofs.v: lemmas for the xml of properties. *)
From Coq Require Import QArith Qround.
From Verif Require Import Base QBase TextModel StrModel StrProofs UuidModel UuidProofs PyDict AsciiModel AsciiProofs AsciiProofs2 XmlModel XmlSpec XmlProofs XmlHead XmlRound XmlProps NormModel PropXmlModel.
Open Scope Z_scope.

(** ** Texts *)
Definition cr : ascii := ascii_of_N 13.
(** a text that is kept: not blank, and without a carriage return *)
Definition clean (t : str) : Prop := blank t = false /\ ~ In cr t.
(** and without white space around *)
Definition tidy (t : str) : Prop := clean t /\ strip is_space t = t.
Definition word (t : str) : Prop := t <> [] /\ forall c, In c t -> is_space c = false.
Lemma word_tidy t : word t -> tidy t.
Proof.
  intros [N H]. split; [split|].
  - destruct t as [|c t]; [congruence|]. unfold blank. cbn [forallb]. now rewrite (H c (or_introl eq_refl)).
  - intros X. apply H in X. discriminate.
  - now apply strip_id.
Qed.
Lemma tidy_node_text t : tidy t -> match strip is_space t with [] => None | t => Some t end = Some t.
Proof. intros [[B _] ->]. destruct t; [discriminate|reflexivity]. Qed.
Lemma numch_space c : numch c = true -> is_space c = false /\ chr_eqb (lower_chr c) "n" = false.
Proof. destruct c as [[] [] [] [] [] [] [] []]; vm_compute; intros H; try discriminate H; split; reflexivity. Qed.
Lemma int_word z : word (fmt_int z).
Proof.
  pose proof (good_int z) as G. unfold good in G. destruct (fmt_int z) as [|c t]; [destruct G|]. destruct G as [G1 G2]. split; [discriminate|].
  intros x [<-|Hx].
  - destruct G1 as [G1| ->]; [now apply numch_space|reflexivity].
  - rewrite forallb_forall in G2. now apply numch_space, G2.
Qed.
Lemma int_not_none z : str_eqb (lower (fmt_int z)) (L "none") = false.
Proof.
  pose proof (good_int z) as G. unfold good in G. destruct (fmt_int z) as [|c t]; [destruct G|]. destruct G as [G1 _].
  cbn [lower map]. change (L "none") with ("n"%char :: L "one"). cbn [str_eqb].
  assert (X : chr_eqb (lower_chr c) "n" = false) by (destruct G1 as [G1| ->]; [now apply numch_space|reflexivity]). unfold lower. cbn [map str_eqb]. now rewrite X.
Qed.
Lemma hexch_space c : hexch c -> is_space c = false.
Proof. intros (d & Hd & ->). revert d Hd. apply hex_cases. intros d Hd. repeat (destruct Hd as [<-|Hd]; [reflexivity|]). destruct Hd. Qed.
Lemma uuid_word n : word (uuid_str n).
Proof.
  split; [pose proof (uuid_str_length n) as E; destruct (uuid_str n); discriminate|]. intros c Hc. apply uuid_str_chars in Hc as [H| ->]; [now apply hexch_space|reflexivity].
Qed.
Lemma uuid_plain n : plain_value (uuid_str n).
Proof.
  assert (A : forall x, uuid_char x -> existsb (chr_eqb x) [quote; ch "<"; ch "&"; ascii_of_N 9; newline; ascii_of_N 13] = false).
  { intros x [(d & Hd & ->)| ->]; [|reflexivity]. revert d Hd. apply hex_cases. intros d Hd. repeat (destruct Hd as [<-|Hd]; [reflexivity|]). destruct Hd. }
  repeat split; intros Hc; apply uuid_str_chars, A in Hc; discriminate.
Qed.

(** ** Views: the tree in memory, and the tree read back from a stored file *)
Definition typed (n : node) : Prop := forall key val, In (key, val) (n_attrib n) -> match_tag key (L "type") = true -> type_form val.
Record view (v : nat -> node -> node) : Prop := {
  v_tag : forall l n, n_tag (v l n) = n_tag n;
  v_kids : forall l n, n_children (v l n) = map (v (S l)) (n_children n);
  v_leaf : forall l n, n_children n = [] -> blank (n_text n) = false -> n_text (v l n) = n_text n;
  v_type : forall l n, typed n -> node_type (v l n) false = node_type n false }.
Lemma view_memory : view (fun _ n => n).
Proof. constructor; auto. intros _ n. now rewrite map_id. Qed.
Lemma view_stored : view (reread Ordinary).
Proof.
  constructor.
  - intros l [t at_ x cs]. reflexivity.
  - intros l [t at_ x cs]. reflexivity.
  - intros l [t at_ x cs]. cbn [n_children n_text reread]. intros -> B. cbn [is_special]. unfold out_text. rewrite B. cbn [andb]. now rewrite B.
  - intros l n H. now apply C44_type_is_preserved.
Qed.

(** ** Finding children *)
Lemma match_curly u l t : ~ In (ch ":") l -> ~ In (ch "}") l -> no_sep t -> match_tag (curly u l) t = str_eqb l t.
Proof.
  intros H1 H2 Ht. apply eq_iff_eq_true. rewrite str_eqb_eq. change (curly u l) with (qualify u l). rewrite C40_match_is_prefix_stripping; [now rewrite stripped_qualify|assumption|].
  intros a b E Hb. assert (X : b = l); [|now subst].
  unfold qualify in E. rewrite app_comm_cons in E. pose proof (rfind_chr_app (ch "}") (ch "{" :: u) l H2) as R1. rewrite E, rfind_chr_app in R1 by assumption. injection R1 as R1.
  apply (f_equal (fun s => from s (List.length a + 1))) in E. rewrite from_app1 in E. rewrite R1, from_app1 in E. congruence.
Qed.
Section V.
  Context (v : nat -> node -> node) (Hv : view v).
  Lemma find_view l t cs : List.find (fun c => match_tag (n_tag c) t) (map (v l) cs) = option_map (v l) (List.find (fun c => match_tag (n_tag c) t) cs).
  Proof. induction cs as [|c cs IH]; [reflexivity|]. cbn [map List.find]. rewrite (v_tag v Hv). destruct (match_tag (n_tag c) t); [reflexivity|exact IH]. Qed.
  Lemma child_view l n t : child (v l n) t = option_map (v (S l)) (child n t).
  Proof. unfold child. rewrite (v_kids v Hv). apply find_view. Qed.
  Lemma list_view l n t : list_of_tag (v l n) t = map (v (S l)) (list_of_tag n t).
  Proof.
    destruct (C40_searches_agree (v l n) t false) as (-> & _). destruct (C40_searches_agree n t false) as (-> & _). rewrite (v_kids v Hv).
    induction (n_children n) as [|c cs IH]; [reflexivity|]. cbn [map filter]. rewrite (v_tag v Hv). destruct (match_tag (n_tag c) t); cbn [map]; now rewrite IH.
  Qed.
End V.

Definition tagged (t : str) (l : list node) : Prop := Forall (fun n => n_tag n = t) l.
Fixpoint pick (x : str) (tags : list str) (segs : list (list node)) : option node :=
  match tags, segs with
  | t :: ts, s :: ss => if match_tag t x then match hd_error s with Some n => Some n | None => pick x ts ss end else pick x ts ss
  | _, _ => None
  end.
Lemma find_tagged t x l : tagged t l -> List.find (fun c => match_tag (n_tag c) x) l = if match_tag t x then hd_error l else None.
Proof. induction 1 as [|n l E _ IH]; [now destruct (match_tag t x)|]. cbn [List.find hd_error]. rewrite E. destruct (match_tag t x); [reflexivity|exact IH]. Qed.
Lemma find_app {A} (p : A -> bool) a b : List.find p (a ++ b) = match List.find p a with Some x => Some x | None => List.find p b end.
Proof. induction a as [|x a IH]; [reflexivity|]. cbn. destruct (p x); [reflexivity|exact IH]. Qed.
Lemma find_segs x tags segs : Forall2 tagged tags segs -> List.find (fun c => match_tag (n_tag c) x) (List.concat segs) = pick x tags segs.
Proof.
  induction 1 as [|t s ts ss H _ IH]; [reflexivity|]. cbn [List.concat pick]. rewrite find_app, (find_tagged t x s H), IH. destruct (match_tag t x); [destruct (hd_error s); reflexivity|reflexivity].
Qed.
Fixpoint pick_all (x : str) (tags : list str) (segs : list (list node)) : list node :=
  match tags, segs with t :: ts, s :: ss => (if match_tag t x then s else []) ++ pick_all x ts ss | _, _ => [] end.
Lemma list_segs x tags segs : Forall2 tagged tags segs -> filter (fun c => match_tag (n_tag c) x) (List.concat segs) = pick_all x tags segs.
Proof.
  induction 1 as [|t s ts ss H _ IH]; [reflexivity|]. cbn [List.concat pick_all]. rewrite filter_app, IH. f_equal. clear IH. induction H as [|n l E _ IH]; [now destruct (match_tag t x)|].
  cbn [filter]. rewrite E, IH. destruct (match_tag t x); reflexivity.
Qed.
Fixpoint pickb (bs : list bool) (segs : list (list node)) : option node :=
  match bs, segs with
  | b :: bs, s :: ss => if b then match hd_error s with Some n => Some n | None => pickb bs ss end else pickb bs ss
  | _, _ => None
  end.
Lemma pick_bools x tags segs : pick x tags segs = pickb (map (fun t => match_tag t x) tags) segs.
Proof. revert segs. induction tags as [|t ts IH]; intros [|s ss]; cbn; try reflexivity; now rewrite IH. Qed.
Fixpoint pick_allb (bs : list bool) (segs : list (list node)) : list node :=
  match bs, segs with b :: bs, s :: ss => (if b then s else []) ++ pick_allb bs ss | _, _ => [] end.
Lemma pick_all_bools x tags segs : pick_all x tags segs = pick_allb (map (fun t => match_tag t x) tags) segs.
Proof. revert segs. induction tags as [|t ts IH]; intros [|s ss]; cbn; try reflexivity; now rewrite IH. Qed.
Ltac bools := match goal with |- context [map (fun t => match_tag t ?x) ?ts] => let r := eval vm_compute in (map (fun t => match_tag t x) ts) in change (map (fun t => match_tag t x) ts) with r end.
(** compute the matches between literal tags *)
Ltac matches := repeat match goal with |- context [match_tag ?a ?b] => let r := eval vm_compute in (match_tag a b) in (match r with true => idtac | false => idtac end); change (match_tag a b) with r end.

(** ** Well formed trees *)
Definition good_nameb (s : str) : bool := match s with [] => false | _ => forallb name_chr s && negb (existsb (chr_eqb (ch ":")) s) end.
Lemma good_nameb_ok s : good_nameb s = true -> good_name s.
Proof.
  unfold good_nameb, good_name. destruct s as [|c s]; [discriminate|]. rewrite andb_true_iff, negb_true_iff. intros [H1 H2]. split; [discriminate|]. split; [assumption|].
  intros X. assert (Y : existsb (chr_eqb (ch ":")) (c :: s) = true) by (apply existsb_exists; eexists; split; [exact X|apply chr_eqb_refl]). congruence.
Qed.
Lemma rq_ok x : good_nameb (L x) = true -> tag_ok Ordinary (rq x).
Proof. intros H. exists (L "resqml2"), (L "http://www.energistics.org/energyml/data/resqmlv2"), (L x). split; [reflexivity|]. split; [vm_compute; reflexivity|]. split; [now apply good_nameb_ok|]. intros [X|X]; discriminate X. Qed.
Lemma eml_ok x : good_nameb (L x) = true -> tag_ok Ordinary (eml x).
Proof. intros H. exists (L "eml"), (L "http://www.energistics.org/energyml/data/commonv2"), (L x). split; [reflexivity|]. split; [vm_compute; reflexivity|]. split; [now apply good_nameb_ok|]. intros [X|X]; discriminate X. Qed.
Definition plain_valueb (v : str) : bool := negb (existsb (fun c => existsb (chr_eqb c) [quote; ch "<"; ch "&"; ascii_of_N 9; newline; ascii_of_N 13]) v).
Lemma plain_valueb_ok v : plain_valueb v = true -> plain_value v.
Proof.
  unfold plain_valueb. rewrite negb_true_iff. intros Hv. assert (A : forall c, In c v -> ~ In c [quote; ch "<"; ch "&"; ascii_of_N 9; newline; ascii_of_N 13]).
  { intros c Hc Hi. assert (X : existsb (fun c => existsb (chr_eqb c) [quote; ch "<"; ch "&"; ascii_of_N 9; newline; ascii_of_N 13]) v = true).
    { apply existsb_exists. exists c. split; [assumption|]. apply existsb_exists. exists c. split; [assumption|apply chr_eqb_refl]. } congruence. }
  repeat split; intros Hc; apply (A _ Hc); cbn; tauto.
Qed.
Lemma xsi_type_ok : key_ok xsi_type.
Proof. right. exists (L "xsi"), (L "http://www.w3.org/2001/XMLSchema-instance"), (L "type"). split; [reflexivity|]. split; [vm_compute; reflexivity|]. split; [intros [H|H]; discriminate H|now apply good_nameb_ok]. Qed.
Definition type_okb (ty : str) : bool :=
  plain_valueb ty && match ty with [] => false | _ => true end &&
  match truthy (snd (colon_prefixed ty)) with Some p => match ns_get p with Some _ => true | None => false end | None => true end.
Lemma wf_elem tag ty text cs : tag_ok Ordinary tag -> type_okb ty = true -> ~ In cr text -> Forall (wf Ordinary) cs -> wf Ordinary (elem tag ty text cs).
Proof.
  intros Ht Hy Hx Hc. unfold type_okb in Hy. apply andb_prop in Hy as [Hy H3]. apply andb_prop in Hy as [H1 H2].
  constructor; [assumption| |assumption|assumption]. split; [|split; [|split]].
  - constructor; [intros []|constructor].
  - constructor; [|constructor]. cbn [fst snd]. split; [exact xsi_type_ok|now apply plain_valueb_ok].
  - cbn [omap fst]. destruct (key_prefix xsi_type); repeat constructor. intros [].
  - constructor; [|constructor]. cbn [fst snd]. intros _. split; [now destruct ty|]. destruct (truthy (snd (colon_prefixed ty))) as [p|]; [|exact Logic.I]. destruct (ns_get p); [discriminate|discriminate H3].
Qed.
Lemma null_ok : ~ In cr null_text.
Proof. intros [H|[]]. discriminate H. Qed.
Lemma clean_cr t : clean t -> ~ In cr t.
Proof. now intros []. Qed.
Lemma word_cr t : word t -> ~ In cr t.
Proof. intros H. apply word_tidy in H. apply H. Qed.
Lemma literal_cr (t : str) : existsb (chr_eqb cr) t = false -> ~ In cr t.
Proof. intros H X. assert (existsb (chr_eqb cr) t = true) by (apply existsb_exists; eexists; split; [exact X|apply chr_eqb_refl]). congruence. Qed.
