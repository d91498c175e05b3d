(** XmlProofs.v: lemmas about the xml writer and the specification reader. *)
From Verif Require Import Base StrModel StrProofs PyDict XmlModel XmlSpec.

Lemma seqb_iff a b : str_eqb a b = true <-> a = b. Proof. apply str_eqb_eq. Qed.
(** ** Reader primitives *)
Lemma span_app p a rest : forallb p a = true -> (match rest with [] => True | c :: _ => p c = false end) -> span p (a ++ rest) = (a, rest).
Proof.
  induction a as [|c a IH]; intros Ha Hr; cbn.
  - destruct rest as [|c r]; [reflexivity|]. cbn. now rewrite Hr.
  - cbn in Ha. apply andb_prop in Ha as [-> Ha]. now rewrite IH.
Qed.
Lemma expect_app p r : expect p (p ++ r) = Some r.
Proof. induction p as [|c p IH]; [reflexivity|]. cbn. now rewrite chr_eqb_refl. Qed.
Lemma unescape_plain s : ~ In (ch "&") s -> forall t, unescape (s ++ t) = option_map (app s) (unescape t).
Proof.
  unfold unescape. induction s as [|c s IH]; intros H t; cbn [app]; [now destruct (unescape_aux t 0)|].
  cbn [unescape_aux]. destruct (chr_eqb_spec c (ch "&")) as [->|N]; [elim H; now left|].
  rewrite IH by (intros X; apply H; now right). now destruct (unescape_aux t 0).
Qed.
Lemma unescape_id s : ~ In (ch "&") s -> unescape s = Some s.
Proof. intros H. rewrite <- (app_nil_r s) at 1. rewrite unescape_plain by assumption. cbn. now rewrite app_nil_r. Qed.

(** ** Text escaping *)
Definition esc (c : ascii) : str :=
  if chr_eqb c (ch "&") then L "&amp;" else if chr_eqb c (ch "<") then L "&lt;" else if chr_eqb c (ch ">") then L "&gt;" else [c].
Lemma escape_cons c t : escape_text (c :: t) = escape_text [c] ++ escape_text t.
Proof.
  unfold escape_text. change (c :: t) with ([c] ++ t).
  change (L "&") with [ch "&"]. change (L "<") with [ch "<"]. change (L ">") with [ch ">"]. now rewrite !replace_chr_app.
Qed.
Lemma escape_one c : escape_text [c] = esc c.
Proof.
  unfold esc. destruct (chr_eqb_spec c (ch "&")) as [->|N1]; [reflexivity|].
  destruct (chr_eqb_spec c (ch "<")) as [->|N2]; [reflexivity|]. destruct (chr_eqb_spec c (ch ">")) as [->|N3]; [reflexivity|].
  unfold escape_text. change (L "&") with [ch "&"]. change (L "<") with [ch "<"]. change (L ">") with [ch ">"].
  rewrite (replace_chr_absent (ch "&") _ [c]) by (intros [H|[]]; congruence).
  rewrite (replace_chr_absent (ch "<") _ [c]) by (intros [H|[]]; congruence).
  now rewrite (replace_chr_absent (ch ">") _ [c]) by (intros [H|[]]; congruence).
Qed.
Lemma escape_flat t : escape_text t = flat_map esc t.
Proof. induction t as [|c t IH]; [reflexivity|]. rewrite escape_cons, escape_one, IH. reflexivity. Qed.
Lemma unescape_esc c r : unescape (esc c ++ r) = option_map (cons c) (unescape r).
Proof.
  unfold esc. destruct (chr_eqb_spec c (ch "&")) as [->|N1]; [reflexivity|].
  destruct (chr_eqb_spec c (ch "<")) as [->|N2]; [reflexivity|]. destruct (chr_eqb_spec c (ch ">")) as [->|N3]; [reflexivity|].
  unfold unescape. cbn [app unescape_aux]. destruct (chr_eqb_spec c (ch "&")); [contradiction|reflexivity].
Qed.
Lemma unescape_escape_app t r : unescape (escape_text t ++ r) = option_map (app t) (unescape r).
Proof.
  rewrite escape_flat. induction t as [|c t IH]; cbn [flat_map app]; [now destruct (unescape r)|].
  rewrite <- app_assoc, unescape_esc, IH. now destruct (unescape r).
Qed.
Lemma esc_no_markup c x : In x (esc c) -> x <> ch "<" /\ x <> ch ">".
Proof.
  unfold esc. destruct (chr_eqb_spec c (ch "&")); [|destruct (chr_eqb_spec c (ch "<")); [|destruct (chr_eqb_spec c (ch ">"))]];
    intros H; cbn in H; repeat (destruct H as [<-|H]; [split; (discriminate || assumption)|]); destruct H.
Qed.
Lemma escape_no_markup t x : In x (escape_text t) -> x <> ch "<" /\ x <> ch ">".
Proof. rewrite escape_flat, in_flat_map. intros (c & _ & H). now apply esc_no_markup in H. Qed.
Definition notlt (c : ascii) : bool := negb (chr_eqb c (ch "<")).
Lemma forallb_notlt s : ~ In (ch "<") s -> forallb notlt s = true.
Proof. intros H. apply forallb_forall. intros x Hx. unfold notlt. destruct (chr_eqb_spec x (ch "<")) as [->|]; [contradiction|reflexivity]. Qed.
Lemma spaces_not c n : c <> ch " " -> ~ In c (spaces n).
Proof. intros N H. apply repeat_spec in H. congruence. Qed.

(** ** Attribute lists *)
Definition attr_good (nv : str * str) : Prop :=
  fst nv <> [] /\ forallb name_chr (fst nv) = true /\ ~ In quote (snd nv) /\ ~ In (ch "<") (snd nv) /\ ~ In (ch "&") (snd nv).
Lemma name_chr_not c x : name_chr c = true -> name_chr x = false -> c <> x.
Proof. intros H1 H2 ->. congruence. Qed.
Lemma name_head s : s <> [] -> forallb name_chr s = true -> exists c r, s = c :: r /\ name_chr c = true.
Proof. destruct s as [|c r]; [contradiction|]. cbn. intros _ H. apply andb_prop in H. eexists _, _. split; [reflexivity|tauto]. Qed.
Lemma parse_attrs_out l : Forall attr_good l -> forall f tl rest emp, (List.length l < f)%nat ->
  (tl = L ">" /\ emp = false \/ tl = L "/>" /\ emp = true) -> parse_attrs f (flat_map attr_out l ++ tl ++ rest) = Some (l, emp, rest).
Proof.
  induction 1 as [|[n v] l Hg Hl IH]; intros f tl rest emp Hf Ht.
  - destruct f; [cbn in Hf; lia|]. cbn [flat_map app]. destruct Ht as [[-> ->]|[-> ->]]; reflexivity.
  - destruct f; [cbn in Hf; lia|]. destruct Hg as (G1 & G2 & G3 & G4 & G5). cbn [fst snd] in *.
    assert (EQ : flat_map attr_out ((n, v) :: l) ++ tl ++ rest = ch " " :: n ++ (ch "=" :: [quote]) ++ v ++ [quote] ++ flat_map attr_out l ++ tl ++ rest).
    { cbn [flat_map]. unfold attr_out at 1. cbn [fst snd app]. rewrite <- !app_assoc. cbn [app]. rewrite <- !app_assoc. reflexivity. }
    rewrite EQ. clear EQ. set (R := flat_map attr_out l ++ tl ++ rest) in *.
    destruct (name_head n G1 G2) as (c & r & -> & Hc).
    cbn [parse_attrs].
    assert (SP : forall s, span is_space (ch " " :: (c :: r) ++ s) = ([ch " "], (c :: r) ++ s)).
    { intros s. change (ch " " :: (c :: r) ++ s) with ([ch " "] ++ (c :: r) ++ s). apply span_app; [reflexivity|].
      cbn. unfold name_chr in Hc. destruct (is_space c); [discriminate|reflexivity]. }
    rewrite SP. cbn [snd].
    assert (E1 : forall s, expect (L ">") ((c :: r) ++ s) = None).
    { intros s. change (L ">") with [ch ">"]. cbn [expect app]. destruct (chr_eqb_spec (ch ">") c) as [<-|]; [discriminate|reflexivity]. }
    assert (E2 : forall s, expect (L "/>") ((c :: r) ++ s) = None).
    { intros s. change (L "/>") with [ch "/"; ch ">"]. cbn [expect app]. destruct (chr_eqb_spec (ch "/") c) as [<-|]; [discriminate|reflexivity]. }
    rewrite E1, E2. rewrite span_app; [|assumption|reflexivity].
    rewrite expect_app. rewrite span_app.
    + rewrite expect_app, unescape_id by assumption. unfold R. rewrite (IH f tl rest emp); [reflexivity|cbn in Hf; lia|assumption].
    + apply forallb_forall. intros x Hx. destruct (chr_eqb_spec x quote) as [->|]; [contradiction|].
      destruct (chr_eqb_spec x (ch "<")) as [->|]; [contradiction|reflexivity].
    + reflexivity.
Qed.

(** ** Namespace table *)
Lemma inv_ns_ns u p : inv_ns u = Some p -> ns_get p = Some u.
Proof.
  unfold inv_ns. destruct (find _ namespaces) as [[k v]|] eqn:E; [|discriminate]. cbn [option_map fst]. intros H. injection H as <-.
  apply find_some in E. destruct E as [Hin Hu]. apply str_eqb_eq in Hu. cbn [snd] in Hu. subst v.
  assert (A : forallb (fun kv => match ns_get (fst kv) with Some w => str_eqb w (snd kv) | None => false end) namespaces = true) by (vm_compute; reflexivity).
  rewrite forallb_forall in A. specialize (A _ Hin). cbn [fst snd] in A. destruct (ns_get k) as [w|]; [|discriminate]. apply str_eqb_eq in A.
  now subst.
Qed.
Definition prefix_good (p : str) : bool :=
  match p with [] => false | _ => forallb name_chr p && negb (existsb (chr_eqb (ch ":")) p) && negb (str_eqb p (L "xmlns")) end.
Definition uri_good (u : str) : bool :=
  negb (existsb (fun c => chr_eqb c quote || chr_eqb c (ch "<") || chr_eqb c (ch "&") || chr_eqb c (ch "}")) u).
Lemma ns_get_good p u : ns_get p = Some u -> prefix_good p = true /\ uri_good u = true.
Proof.
  intros H. apply (dget_in str_eqb seqb_iff) in H.
  assert (A : forallb (fun kv => prefix_good (fst kv) && uri_good (snd kv)) namespaces = true) by (vm_compute; reflexivity).
  rewrite forallb_forall in A. specialize (A _ H). now apply andb_prop in A.
Qed.
Lemma prefix_good_spec p : prefix_good p = true -> good_name p /\ p <> L "xmlns".
Proof.
  unfold prefix_good, good_name. destruct p as [|c p]; [discriminate|]. intros H. apply andb_prop in H as [H H3]. apply andb_prop in H as [H1 H2].
  split; [split; [discriminate|split; [assumption|]]|].
  - intros Hin. rewrite negb_true_iff in H2. assert (X : existsb (chr_eqb (ch ":")) (c :: p) = true) by (apply existsb_exists; exists (ch ":"); split; [assumption|apply chr_eqb_refl]). congruence.
  - intros E. rewrite E in H3. discriminate.
Qed.
Lemma uri_good_spec u : uri_good u = true -> ~ In quote u /\ ~ In (ch "<") u /\ ~ In (ch "&") u /\ ~ In (ch "}") u.
Proof.
  unfold uri_good. rewrite negb_true_iff. intros H.
  assert (A : forall c, In c u -> (chr_eqb c quote || chr_eqb c (ch "<") || chr_eqb c (ch "&") || chr_eqb c (ch "}")) = false).
  { intros c Hc. destruct (_ || _) eqn:E; [|reflexivity]. assert (X : existsb (fun c => chr_eqb c quote || chr_eqb c (ch "<") || chr_eqb c (ch "&") || chr_eqb c (ch "}")) u = true) by (apply existsb_exists; eauto). congruence. }
  repeat split; intros Hc; specialize (A _ Hc); discriminate.
Qed.

Lemma upto_app (a b : str) : upto (a ++ b) (List.length a) = a.
Proof. apply firstn_app_exact. reflexivity. Qed.
Lemma from_app1 (a : str) c b : from (a ++ c :: b) (List.length a + 1) = b.
Proof. unfold from. change (c :: b) with ([c] ++ b). rewrite app_assoc. apply skipn_app_exact. rewrite app_length. cbn. lia. Qed.
(** the coloned form of a qualified name *)
Lemma name_no_brace local : good_name local -> ~ In (ch "}") local /\ ~ In (ch "{") local.
Proof.
  intros (_ & H & _). rewrite forallb_forall in H. split; intros X; apply H in X; discriminate.
Qed.
Lemma colon_qualify u p local : inv_ns u = Some p -> good_name local -> colon_prefixed (qualify u local) = (Some (p ++ L ":" ++ local), Some p).
Proof.
  intros Hu Hl. unfold colon_prefixed, qualify. rewrite chr_eqb_refl. cbn [negb].
  rewrite app_comm_cons. rewrite rfind_chr_app by (now apply name_no_brace).
  assert (E : upto (u ++ ch "}" :: local) (List.length (ch "{" :: u) - 1) = u).
  { replace (List.length (ch "{" :: u) - 1)%nat with (List.length u) by (cbn; lia). apply upto_app. }
  rewrite E, Hu. now rewrite from_app1.
Qed.
Lemma colon_plain key : good_name key -> colon_prefixed key = (Some key, None).
Proof.
  intros G. unfold colon_prefixed. pose proof (name_no_brace key G) as [_ B]. destruct G as (G1 & _ & G3). destruct key as [|c r]; [contradiction|].
  destruct (chr_eqb_spec c (ch "{")) as [->|]; [elim B; now left|]. cbn [negb]. apply find_chr_none in G3. now rewrite G3.
Qed.
Lemma qualify_inj u u' l l' : ~ In (ch "}") u -> ~ In (ch "}") u' -> qualify u l = qualify u' l' -> u = u' /\ l = l'.
Proof.
  intros H H' E. unfold qualify in E. injection E as E. revert u' H' E. induction u as [|c u IH]; intros u' H' E.
  - destruct u' as [|c' u']; [injection E as ->; auto|]. injection E as <- E. elim H'. now left.
  - destruct u' as [|c' u']; [injection E as -> E; elim H; now left|]. injection E as <- E.
    destruct (IH (fun X => H (or_intror X)) u' (fun X => H' (or_intror X)) E) as [-> ->]. auto.
Qed.
