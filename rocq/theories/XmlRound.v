(** XmlRound.v: reading what write_xml_node wrote. *)
From Verif Require Import Base StrModel StrProofs PyDict XmlModel XmlSpec XmlProofs XmlHead.

Definition Inv (k : kind) (keys : list str) (env : scope) : Prop :=
  forall p, In p keys -> known p /\ dget str_eqb env (scope_name k p) = Some (uri_of p).

Lemma declares_decl k p : known p -> declares (decl k p) = Some (scope_name k p, uri_of p).
Proof.
  intros H. unfold declares, decl. cbn [fst snd]. destruct (scope_name k p) as [|c r] eqn:E; [reflexivity|].
  unfold decl_name. destruct (str_eqb_spec (L "xmlns:" ++ c :: r) (L "xmlns")) as [X|_]; [discriminate|]. now rewrite expect_app.
Qed.
Lemma expect_some p s r : expect p s = Some r -> s = p ++ r.
Proof.
  revert s. induction p as [|c p IH]; intros s; cbn [expect]; [intros H; now injection H as ->|].
  destruct s as [|x s]; [discriminate|]. destruct (chr_eqb_spec c x) as [->|]; [|discriminate]. intros H. apply IH in H. now subst.
Qed.
Lemma colon_split a b c d : ~ In (ch ":") a -> ~ In (ch ":") c -> a ++ ch ":" :: b = c ++ ch ":" :: d -> a = c /\ b = d.
Proof.
  revert c. induction a as [|x a IH]; intros c Ha Hc E.
  - destruct c as [|y c]; [injection E as ->; auto|]. injection E as <- E. elim Hc. now left.
  - destruct c as [|y c]; [injection E as -> E; elim Ha; now left|]. injection E as <- E.
    destruct (IH c) as [-> ->]; auto; [intros X; apply Ha; now right|intros X; apply Hc; now right].
Qed.
Lemma ckey_cases key : key_ok key ->
  (good_name key /\ key <> L "xmlns" /\ ckey key = key /\ key_prefix key = None) \/
  (exists p u lo, key = qualify u lo /\ inv_ns u = Some p /\ ~ special_prefix p /\ good_name lo /\ ckey key = p ++ ch ":" :: lo /\ key_prefix key = Some p).
Proof.
  intros [[G N]|(p & u & lo & -> & Hu & Hs & Hl)]; unfold ckey, key_prefix.
  - left. now rewrite (colon_plain _ G).
  - right. exists p, u, lo. rewrite (colon_qualify _ _ _ Hu Hl). auto 10.
Qed.
Lemma declares_attr key v : key_ok key -> declares (ckey key, v) = None.
Proof.
  intros H. unfold declares. cbn [fst snd]. apply ckey_cases in H as [((G1 & G2 & G3) & N & -> & _)|(p & u & lo & _ & Hu & _ & Hl & -> & _)].
  - destruct (str_eqb_spec key (L "xmlns")); [contradiction|]. destruct (expect (L "xmlns:") key) as [r|] eqn:E; [|reflexivity].
    apply expect_some in E. elim G3. rewrite E. apply in_or_app. left. cbn. tauto.
  - destruct (str_eqb_spec (p ++ ch ":" :: lo) (L "xmlns")) as [E|_].
    { assert (X : In (ch ":") (L "xmlns")) by (rewrite <- E; apply in_or_app; right; now left). cbn in X. exfalso. intuition discriminate. }
    destruct (expect (L "xmlns:") (p ++ ch ":" :: lo)) as [r|] eqn:E; [|reflexivity]. apply expect_some in E.
    apply inv_known, known_good in Hu. destruct Hu as [(_ & _ & P3) PN].
    change (L "xmlns:" ++ r) with (L "xmlns" ++ ch ":" :: r) in E. apply colon_split in E; [|assumption|cbn; intuition discriminate].
    now destruct E.
Qed.
Lemma omap_app {A B} (f : A -> option B) a b : omap f (a ++ b) = omap f a ++ omap f b.
Proof. induction a as [|x a IH]; [reflexivity|]. cbn. destruct (f x); [cbn; now rewrite IH|assumption]. Qed.
Definition decls_of (k : kind) (new : list str) : scope := map (fun p => (scope_name k p, uri_of p)) new.
Lemma omap_declares k new at_ : (forall q, In q new -> known q) -> (forall kv, In kv at_ -> key_ok (fst kv)) ->
  omap declares (map (decl k) new ++ map (out_attr k) at_) = decls_of k new.
Proof.
  intros Hn Ha. rewrite omap_app.
  assert (E2 : omap declares (map (out_attr k) at_) = []).
  { induction at_ as [|kv l IH]; [reflexivity|]. cbn [map omap]. unfold out_attr at 1. rewrite declares_attr by (apply Ha; now left). apply IH. intros; apply Ha; now right. }
  rewrite E2, app_nil_r. clear -Hn. induction new as [|p l IH]; [reflexivity|]. cbn [map omap decls_of]. rewrite declares_decl by (apply Hn; now left).
  f_equal. apply IH. intros; apply Hn; now right.
Qed.
Lemma scope_inj k p q : known p -> known q -> scope_name k p = scope_name k q -> p = q.
Proof.
  intros Hp Hq. apply known_good in Hp. apply known_good in Hq. destruct Hp as [(P & _) _]. destruct Hq as [(Q & _) _]. destruct k as [|r]; [auto|]. cbn.
  destruct (str_eqb_spec p r), (str_eqb_spec q r); try congruence.
Qed.
Lemma dget_app (a b : scope) x : dget str_eqb (a ++ b) x = match dget str_eqb a x with Some v => Some v | None => dget str_eqb b x end.
Proof. induction a as [|[y v] a IH]; [reflexivity|]. cbn [app dget]. destruct (str_eqb y x); [reflexivity|assumption]. Qed.
Lemma dget_decls k new p : (forall q, In q new -> known q) -> known p ->
  dget str_eqb (decls_of k new) (scope_name k p) = if str_in p new then Some (uri_of p) else None.
Proof.
  intros Hn Hp. induction new as [|q l IH]; [reflexivity|]. cbn [decls_of map dget str_in existsb].
  destruct (str_eqb_spec p q) as [->|N].
  - now rewrite str_eqb_refl.
  - destruct (str_eqb_spec (scope_name k q) (scope_name k p)) as [E|_]; [apply scope_inj in E; [congruence|apply Hn; now left|assumption]|].
    cbn [orb]. apply IH. intros; apply Hn; now right.
Qed.
Lemma Inv_extend k keys env new : Inv k keys env -> (forall q, In q new -> ~ In q keys /\ known q) -> Inv k (keys ++ new) (decls_of k new ++ env).
Proof.
  intros HI Hn p Hp. assert (KP : known p) by (apply in_app_or in Hp as [H|H]; [now apply HI|now apply Hn]). split; [assumption|].
  rewrite dget_app, dget_decls by (auto; intros q Hq; now apply Hn). destruct (str_in p new) eqn:E; [reflexivity|].
  apply str_in_false in E. apply in_app_or in Hp as [H|H]; [now apply HI|contradiction].
Qed.
Lemma uri_of_inv u p : inv_ns u = Some p -> uri_of p = u.
Proof. intros H. apply inv_ns_ns in H. unfold uri_of. now rewrite H. Qed.
Lemma resolve_wtag k keys env p u local : kind_ok k -> Inv k keys env -> In p keys -> inv_ns u = Some p -> good_name local ->
  match k with Ordinary => True | Special q => p = q end -> resolve_tag env (wtag k p local) = Some (qualify u local).
Proof.
  intros HK HI Hp Hu (L1 & L2 & L3) Hk. destruct (HI p Hp) as [KP E]. rewrite (uri_of_inv _ _ Hu) in E. unfold resolve_tag, wtag. destruct k as [|q]; cbn [is_special scope_name] in *.
  - apply known_good in KP. destruct KP as [(_ & _ & P3) _]. change (p ++ L ":" ++ local) with (p ++ ch ":" :: local).
    rewrite find_chr_app by assumption. rewrite upto_app, E, from_app1. reflexivity.
  - subst q. rewrite str_eqb_refl in E. apply find_chr_none in L3. rewrite L3, E. reflexivity.
Qed.
Lemma resolve_key k keys env key : Inv k keys env -> key_ok key -> (forall q, k = Special q -> special_prefix q) -> (forall q, key_prefix key = Some q -> In q keys) ->
  resolve_attr env (ckey key) = Some key.
Proof.
  intros HI H HS Hin. unfold resolve_attr. apply ckey_cases in H as [((G1 & G2 & G3) & N & -> & _)|(p & u & lo & -> & Hu & Hs & Hl & -> & Ek)].
  - apply find_chr_none in G3. now rewrite G3.
  - destruct (HI p (Hin p Ek)) as [KP E]. pose proof (known_good _ KP) as [(_ & _ & P3) _]. rewrite find_chr_app by assumption. rewrite upto_app, from_app1.
    assert (SN : scope_name k p = p).
    { destruct k as [|q]; [reflexivity|]. cbn. destruct (str_eqb_spec p q) as [->|]; [|reflexivity]. elim Hs. now apply HS. }
    rewrite SN in E. rewrite E, (uri_of_inv _ _ Hu). reflexivity.
Qed.
Lemma resolve_attrs_app env a b : (forall nv, In nv a -> exists d, declares nv = Some d) -> resolve_attrs env (a ++ b) = resolve_attrs env b.
Proof.
  intros H. induction a as [|x a IH]; [reflexivity|]. cbn [app resolve_attrs]. destruct (H x (or_introl eq_refl)) as [d ->]. apply IH. intros; apply H; now right.
Qed.
Lemma resolve_all k keys env at_ : Inv k keys env -> kind_ok k -> (forall kv, In kv at_ -> key_ok (fst kv)) ->
  (forall kv q, In kv at_ -> key_prefix (fst kv) = Some q -> In q keys) ->
  resolve_attrs env (map (out_attr k) at_) = Some (map (fun kv => (fst kv, reread_value k (fst kv) (snd kv))) at_).
Proof.
  intros HI HK Ha Hp. induction at_ as [|kv l IH]; [reflexivity|]. cbn [map resolve_attrs]. unfold out_attr at 1. rewrite declares_attr by (apply Ha; now left).
  unfold out_attr at 1. cbn [fst]. rewrite (resolve_key k keys); [|assumption|apply Ha; now left| |intros q; apply Hp; now left].
  - rewrite IH; [reflexivity| |]; [intros x Hx; apply Ha; now right|intros x q Hx; apply Hp; now right].
  - intros q ->. exact HK.
Qed.
Lemma nodup_names_iff l : nodup_names l = true <-> NoDup l.
Proof.
  induction l as [|x l IH]; cbn [nodup_names]; [split; [constructor|reflexivity]|]. rewrite andb_true_iff, negb_true_iff, IH. change (existsb (str_eqb x) l) with (str_in x l).
  rewrite str_in_false. split; [intros [H1 H2]; now constructor|intros H; inversion H; auto].
Qed.
Lemma NoDup_map_in {A B} (f : A -> B) l : NoDup l -> (forall x y, In x l -> In y l -> f x = f y -> x = y) -> NoDup (map f l).
Proof.
  induction 1 as [|x l H1 H2 IH]; intros Hf; cbn; constructor.
  - rewrite in_map_iff. intros (y & E & Hy). apply Hf in E; [subst; contradiction|now right|now left].
  - apply IH. intros; apply Hf; auto; now right.
Qed.
Lemma ckey_inj a b : key_ok a -> key_ok b -> ckey a = ckey b -> a = b.
Proof.
  intros Ha Hb E. apply ckey_cases in Ha as [((_ & _ & G3) & _ & Ea & _)|(p & u & lo & -> & Hu & _ & _ & Ea & _)];
    apply ckey_cases in Hb as [((_ & _ & F3) & _ & Eb & _)|(p' & u' & lo' & -> & Hu' & _ & _ & Eb & _)]; rewrite Ea, Eb in E.
  - assumption.
  - elim G3. rewrite E. apply in_or_app. right. now left.
  - elim F3. rewrite <- E. apply in_or_app. right. now left.
  - apply colon_split in E; [|apply inv_known, known_good in Hu; apply Hu|apply inv_known, known_good in Hu'; apply Hu'].
    destruct E as [-> ->]. apply inv_ns_ns in Hu. apply inv_ns_ns in Hu'. congruence.
Qed.
Lemma NoDup_app_in {A} (a b : list A) : NoDup a -> NoDup b -> (forall x, In x a -> ~ In x b) -> NoDup (a ++ b).
Proof.
  induction a as [|x a IH]; intros Ha Hb Hd; [assumption|]. inversion Ha; subst. cbn. constructor.
  - rewrite in_app_iff. intros [H|H]; [contradiction|]. apply (Hd x); [now left|assumption].
  - apply IH; auto. intros y Hy. apply Hd. now right.
Qed.
Lemma raw_nodup k new at_ : NoDup new -> (forall q, In q new -> known q) -> NoDup (map fst at_) -> (forall kv, In kv at_ -> key_ok (fst kv)) ->
  NoDup (map fst (map (decl k) new ++ map (out_attr k) at_)).
Proof.
  intros N1 K N2 H. rewrite map_app, !map_map. apply NoDup_app_in.
  - apply NoDup_map_in; [assumption|]. intros x y Hx Hy E. apply (scope_inj k); auto.
    pose proof (declares_decl k x (K x Hx)) as X. pose proof (declares_decl k y (K y Hy)) as Y. unfold declares in X, Y. rewrite E in X.
    destruct (str_eqb (fst (decl k y)) (L "xmlns")); [congruence|]. destruct (expect (L "xmlns:") (fst (decl k y))); congruence.
  - assert (E : map (fun x => fst (out_attr k x)) at_ = map ckey (map fst at_)) by (rewrite map_map; reflexivity). rewrite E.
    apply NoDup_map_in; [assumption|]. intros x y Hx Hy. apply in_map_iff in Hx as (kx & <- & Hx). apply in_map_iff in Hy as (ky & <- & Hy). apply ckey_inj; auto.
  - intros x Hx Hy. apply in_map_iff in Hx as (p & <- & Hp). apply in_map_iff in Hy as (kv & E & Hkv). unfold out_attr in E. cbn [fst] in E.
    pose proof (declares_decl k p (K p Hp)) as X. pose proof (declares_attr (fst kv) [] (H kv Hkv)) as Y. unfold declares in *. cbn [fst snd] in Y. rewrite E in Y.
    destruct (str_eqb (fst (decl k p)) (L "xmlns")); [discriminate|]. destruct (expect (L "xmlns:") (fst (decl k p))); discriminate.
Qed.

(** ** The pieces written are readable *)
Lemma name_app a b : forallb name_chr (a ++ b) = forallb name_chr a && forallb name_chr b.
Proof. apply forallb_app. Qed.
Lemma in_colon c : In c (L ":") -> c = ch ":". Proof. intros [H|[]]. now symmetry. Qed.
Lemma colon_val_chars v t pre c : colon_prefixed v = (Some t, pre) -> In c t -> In c v \/ c = ch ":" \/ exists p, known p /\ In c p.
Proof.
  unfold colon_prefixed. destruct v as [|x v]; [discriminate|]. destruct (negb _).
  - destruct (find_chr _ _); intros E Hc; injection E as <- _; auto.
  - destruct (rfind_chr (ch "}") (x :: v)) as [n|].
    + destruct (inv_ns _) as [p|] eqn:Ei; intros E Hc; injection E as <- _; [|auto]. rewrite !in_app_iff in Hc. destruct Hc as [Hc|[<-|Hc]].
      * right. right. exists p. split; [eapply inv_known; eassumption|assumption].
      * auto.
      * left. unfold from in Hc. rewrite <- (firstn_skipn (n + 1) (x :: v)). apply in_or_app. now right.
    + destruct (inv_ns _) as [p|] eqn:Ei; intros E Hc; injection E as <- _; [|auto]. rewrite !in_app_iff in Hc. destruct Hc as [Hc|[<-|Hc]]; auto.
      right. right. exists p. split; [eapply inv_known; eassumption|assumption].
Qed.
Lemma reread_value_plain k key v : plain_value v -> ~ In quote (reread_value k key v) /\ ~ In (ch "<") (reread_value k key v) /\ ~ In (ch "&") (reread_value k key v).
Proof.
  intros (V1 & V2 & V3 & _). unfold reread_value. destruct (match_tag key (L "type")).
  - destruct (colon_prefixed v) as [[t|] pre] eqn:E; cbn [fst]; [|auto].
    assert (A : forall c, name_chr c = false -> c <> ch ":" -> ~ In c v -> ~ In c t).
    { intros c N1 N2 N3 Hc. destruct (colon_val_chars _ _ _ _ E Hc) as [H|[H|(p & Kp & H)]]; [contradiction|contradiction|].
      apply known_good in Kp. destruct Kp as [(_ & G & _) _]. rewrite forallb_forall in G. apply G in H. congruence. }
    repeat split; apply A; auto; discriminate.
  - destruct (_ && _ && _); [|auto]. repeat split; intros H; (destruct H as [H|H]; [discriminate|contradiction]).
Qed.
Lemma raw_good k new at_ : (forall q, In q new -> known q) -> (forall kv, In kv at_ -> key_ok (fst kv) /\ plain_value (snd kv)) ->
  Forall attr_good (map (decl k) new ++ map (out_attr k) at_).
Proof.
  intros K H. apply Forall_app. split; apply Forall_forall; intros x Hx; apply in_map_iff in Hx as (y & <- & Hy); unfold attr_good.
  - unfold decl. cbn [fst snd].
    assert (U : uri_good (uri_of y) = true).
    { specialize (K y Hy). unfold known in K. unfold uri_of. destruct (ns_get y) eqn:E; [|contradiction]. now apply ns_get_good in E. }
    apply uri_good_spec in U. split; [|split; [|tauto]].
    + unfold decl_name. destruct (scope_name k y); discriminate.
    + unfold decl_name. specialize (K y Hy). apply known_good in K. destruct K as [(_ & G & _) _].
      assert (S : forallb name_chr (scope_name k y) = true) by (destruct k as [|q]; [assumption|]; unfold scope_name; destruct (str_eqb y q); [reflexivity|assumption]).
      destruct (scope_name k y); [reflexivity|]. rewrite name_app. rewrite S. reflexivity.
  - unfold out_attr. cbn [fst snd]. destruct (H y Hy) as [H1 H2]. pose proof (reread_value_plain k (fst y) (snd y) H2) as (R1 & R2 & R3).
    apply ckey_cases in H1 as [((G1 & G2 & G3) & N & -> & _)|(p & u & lo & _ & Hu & _ & (L1 & L2 & L3) & -> & _)]; [auto|].
    apply inv_known, known_good in Hu. destruct Hu as [(P1 & P2 & _) _]. split; [destruct p; discriminate|]. split; [|auto].
    rewrite name_app, P2. cbn [forallb andb]. now rewrite L2.
Qed.
Lemma endswith_sep a c local t : ~ In c t -> endswith (a ++ c :: local) t = endswith local t.
Proof.
  intros H. unfold endswith. rewrite rev_app_distr. cbn [rev]. rewrite <- app_assoc. cbn [app].
  assert (G : forall l t' r, ~ In c t' -> startswith (l ++ c :: r) t' = startswith l t').
  { clear. induction l as [|x l IH]; intros t' r Ht; destruct t' as [|y t']; [reflexivity| |reflexivity|].
    - cbn [app startswith]. destruct (chr_eqb_spec y c) as [->|]; [elim Ht; now left|reflexivity].
    - cbn [app startswith]. rewrite IH; [reflexivity|]. intros X. apply Ht. now right. }
  apply G. rewrite <- in_rev. assumption.
Qed.
Lemma out_text_wtag k p u local text : out_text (wtag k p local) text = out_text (qualify u local) text.
Proof.
  assert (T : forall c, c = ch ":" \/ c = ch "}" -> ~ In c (L "Title")) by (intros c [-> | ->]; cbn; intuition discriminate).
  assert (E : endswith (wtag k p local) (L "Title") = endswith (qualify u local) (L "Title")).
  { unfold qualify. rewrite app_comm_cons. rewrite (endswith_sep (ch "{" :: u)) by (apply T; auto). unfold wtag. destruct (is_special k); [reflexivity|].
    change (p ++ L ":" ++ local) with (p ++ ch ":" :: local). apply endswith_sep. apply T; auto. }
  unfold out_text. now rewrite E.
Qed.

(** ** Induction over trees *)
Section NodeInd.
  Variable P : node -> Prop.
  Hypothesis H : forall tag at_ text cs, Forall P cs -> P (Node tag at_ text cs).
  Fixpoint node_ind' (n : node) : P n :=
    let '(Node tag at_ text cs) := n in
    H tag at_ text cs ((fix go l : Forall P l := match l with [] => Forall_nil P | c :: l' => Forall_cons c (node_ind' c) (go l') end) cs).
End NodeInd.
Fixpoint sz (n : node) : nat := let '(Node _ _ _ cs) := n in (2 + list_sum (map (fun c => S (sz c)) cs))%nat.

Fixpoint write_children (level : nat) (keys : list str) (cs : list node) : res (str * Z) :=
  match cs with
  | [] => Ok ([], 0)
  | c :: l' => do a <- write_node level keys c; do b <- write_children level keys l'; Ok (fst a ++ fst b, snd a + snd b)
  end.
Lemma write_node_eq level keys tag at_ text cs : write_node level keys (Node tag at_ text cs) =
  (do h <- write_head keys tag at_;
   let open_ := spaces (3 * level) ++ ch "<" :: wh_tag h ++ flat_map attr_out (wh_attrs h) in
   if wh_ct h && (match cs with [] => true | _ => false end) then Ok (open_ ++ L "/>" ++ [newline], 1)
   else
    do sub <- write_children (S level) (wh_keys h) cs;
    let '(before, indent) := match cs with [] => ([], []) | _ => ([newline], spaces (3 * level)) end in
    Ok (open_ ++ ch ">" :: escape_text (out_text (wh_tag h) text) ++ before ++ fst sub ++ indent ++ L "</" ++ wh_tag h ++ ch ">" :: [newline],
        1 + snd sub)).
Proof.
  cbn [write_node]. destruct (write_head keys tag at_) as [h|e]; [|reflexivity]. cbn [bind].
  assert (E : forall l, (fix go (l : list node) : res (str * Z) :=
       match l with
       | [] => Ok ([], 0)
       | c :: l' => do a <- write_node (S level) (wh_keys h) c; do b <- go l'; Ok (fst a ++ fst b, snd a + snd b)
       end) l = write_children (S level) (wh_keys h) l).
  { induction l as [|c l IH]; [reflexivity|]. cbn [write_children]. rewrite IH. reflexivity. }
  rewrite E. reflexivity.
Qed.

Definition nonlt : ascii -> bool := fun c => negb (chr_eqb c (ch "<")).
Definition node_reads (n : node) : Prop := forall k level keys env, kind_ok k -> wf k n -> Inv k keys env ->
  exists body, write_node level keys n = Ok (spaces (3 * level) ++ ch "<" :: body ++ [newline], count_nodes n) /\
    (sz n < List.length body)%nat /\ expect (L "</") (ch "<" :: body) = None /\ body <> [] /\
    forall f rest, (sz n <= f)%nat -> parse_elem f env (ch "<" :: body ++ rest) = Some (reread k level n, rest).
Definition szs (cs : list node) : nat := (1 + list_sum (map (fun c => S (sz c)) cs))%nat.
Lemma children_read cs : Forall node_reads cs -> forall k level keys env, kind_ok k -> Forall (wf k) cs -> Inv k keys env ->
  exists out, write_children level keys cs = Ok (out, fold_right Z.add 0 (map count_nodes cs)) /\
    (szs cs <= S (List.length out))%nat /\
    forall r j, exists s, span nonlt (out ++ spaces j ++ L "</" ++ r) = (match cs with [] => spaces j | _ => spaces (3 * level) end, s) /\
      forall f, (szs cs <= f)%nat -> parse_children f env s = Some (map (reread k level) cs, L "</" ++ r).
Proof.
  induction 1 as [|c cs Hc Hcs IH]; intros k level keys env HK HW HI.
  - exists []. split; [reflexivity|]. split; [cbn; lia|]. intros r j. exists (L "</" ++ r). split.
    + cbn [app]. apply span_app; [|reflexivity]. apply forallb_forall. intros x Hx. apply repeat_spec in Hx. now subst.
    + intros [|f] Hf; [cbn in Hf; lia|]. cbn [parse_children]. now rewrite expect_app.
  - inversion HW as [|? ? W1 W2]; subst. destruct (Hc k level keys env HK W1 HI) as (body & E1 & S1 & X1 & NB & P1).
    destruct (IH k level keys env HK W2 HI) as (out & E2 & S2 & P2).
    exists ((spaces (3 * level) ++ ch "<" :: body ++ [newline]) ++ out). cbn [write_children]. rewrite E1. cbn [bind]. rewrite E2. cbn [bind fst snd].
    split; [reflexivity|]. split.
    { unfold szs in *. cbn [map list_sum fold_right]. fold (list_sum (map (fun c => S (sz c)) cs)). rewrite app_length, app_length. cbn [List.length]. rewrite app_length. cbn [List.length]. lia. }
    intros r j. destruct (P2 r j) as (s2 & SP2 & PC2).
    exists (ch "<" :: body ++ newline :: out ++ spaces j ++ L "</" ++ r). split.
    { rewrite <- !app_assoc. cbn [app]. rewrite <- app_assoc. cbn [app]. apply span_app; [|reflexivity]. apply forallb_forall. intros x Hx. apply repeat_spec in Hx. now subst. }
    intros [|f] Hf; [unfold szs in Hf; cbn in Hf; lia|]. cbn [parse_children].
    assert (XN : expect (L "</") (ch "<" :: body ++ newline :: out ++ spaces j ++ L "</" ++ r) = None).
    { destruct body as [|b body]; [contradiction|]. revert X1. change (L "</") with [ch "<"; ch "/"]. cbn [expect app]. rewrite !chr_eqb_refl. destruct (chr_eqb (ch "/") b); [discriminate|reflexivity]. }
    rewrite XN. unfold szs in *. cbn [map list_sum fold_right] in Hf. fold (list_sum (map (fun c => S (sz c)) cs)) in Hf.
    rewrite P1 by lia.
    assert (SP : span nonlt (newline :: out ++ spaces j ++ L "</" ++ r) = (newline :: match cs with [] => spaces j | _ => spaces (3 * level) end, s2)).
    { cbn [span]. change (nonlt newline) with true. cbv iota. rewrite SP2. reflexivity. }
    unfold nonlt in SP. rewrite SP.
    assert (UN : unescape (newline :: match cs with [] => spaces j | _ => spaces (3 * level) end) = Some (newline :: match cs with [] => spaces j | _ => spaces (3 * level) end)).
    { apply unescape_id. intros [H|H]; [discriminate|]. destruct cs; now apply spaces_not in H. }
    rewrite UN. rewrite PC2 by (unfold szs; lia). reflexivity.
Qed.
Lemma flat_attr_length l : Forall attr_good l -> (List.length l <= List.length (flat_map attr_out l))%nat.
Proof. induction 1 as [|x l H _ IH]; [cbn; lia|]. cbn [flat_map]. rewrite app_length. unfold attr_out at 1. cbn [List.length]. lia. Qed.
Lemma expect_close name r : expect (L "</" ++ name ++ L ">") (L "</" ++ name ++ ch ">" :: r) = Some r.
Proof.
  change (ch ">" :: r) with (L ">" ++ r). replace (L "</" ++ name ++ L ">" ++ r) with ((L "</" ++ name ++ L ">") ++ r) by (now rewrite <- !app_assoc). apply expect_app.
Qed.
Lemma wtag_good k p u local : inv_ns u = Some p -> good_name local -> wtag k p local <> [] /\ forallb name_chr (wtag k p local) = true.
Proof.
  intros Hu (L1 & L2 & L3). unfold wtag. destruct (is_special k); [auto|]. apply inv_known, known_good in Hu. destruct Hu as [(P1 & P2 & _) _].
  split; [destruct p; discriminate|]. rewrite !forallb_app, P2, L2. reflexivity.
Qed.
Lemma attrs_end l tl rest : Forall attr_good l -> (tl = L ">" \/ tl = L "/>") ->
  match flat_map attr_out l ++ tl ++ rest with [] => True | c :: _ => name_chr c = false end.
Proof. intros _ [-> | ->]; destruct l; reflexivity. Qed.
Lemma all_read n : node_reads n.
Proof.
  induction n as [tag at_ text cs IHc] using node_ind'. intros k level keys env HK HW HI.
  inversion HW as [? ? ? ? HT HA HX HC]; subst.
  destruct (head_shape k keys tag at_ HK HT HA) as (p & u & local & new & -> & Hu & Hl & Hk & EH & N1 & N2 & N3 & N4).
  rewrite write_node_eq, EH. cbn [bind wh_tag wh_ct wh_keys wh_attrs].
  destruct HA as (A1 & A2 & _ & _). rewrite Forall_forall in A2.
  assert (KN : forall q, In q new -> known q) by (intros q Hq; now apply N2).
  assert (KO : forall kv, In kv at_ -> key_ok (fst kv)) by (intros kv Hkv; now apply A2).
  set (raw := map (decl k) new ++ map (out_attr k) at_) in *. set (name := wtag k p local) in *.
  assert (RG : Forall attr_good raw) by (apply raw_good; auto).
  assert (RN : nodup_names (map fst raw) = true) by (apply nodup_names_iff, raw_nodup; auto).
  assert (OD : omap declares raw = decls_of k new) by (apply omap_declares; auto).
  pose proof (Inv_extend k keys env new HI N2) as HI2.
  assert (RT : resolve_tag (decls_of k new ++ env) name = Some (qualify u local)) by (eapply resolve_wtag; eauto).
  assert (RA : resolve_attrs (decls_of k new ++ env) raw = Some (map (fun kv => (fst kv, reread_value k (fst kv) (snd kv))) at_)).
  { unfold raw. rewrite resolve_attrs_app; [eapply resolve_all; eauto|]. intros nv Hnv. apply in_map_iff in Hnv as (q & <- & Hq). rewrite declares_decl by auto. eauto. }
  assert (RN2 : nodup_names (map fst (map (fun kv : str * str => (fst kv, reread_value k (fst kv) (snd kv))) at_)) = true).
  { apply nodup_names_iff. rewrite map_map. cbn [fst]. exact A1. }
  destruct (wtag_good k p u local Hu Hl) as [G1 G2]. fold name in G1, G2.
  assert (HEAD : forall f tl emp rest, (tl = L ">" /\ emp = false \/ tl = L "/>" /\ emp = true) ->
     parse_elem (S f) env (ch "<" :: name ++ flat_map attr_out raw ++ tl ++ rest) =
       if emp then Some (Node (qualify u local) (map (fun kv => (fst kv, reread_value k (fst kv) (snd kv))) at_) [] [], rest)
       else (let '(rtext, s4) := span nonlt rest in
             dop text <- unescape rtext;
             dop cr <- parse_children f (decls_of k new ++ env) s4;
             let '(cs, s5) := cr in
             dop s6 <- expect (L "</" ++ name ++ L ">") s5;
             Some (Node (qualify u local) (map (fun kv => (fst kv, reread_value k (fst kv) (snd kv))) at_) text cs, s6))).
  { intros f tl emp rest Ht. cbn [parse_elem]. change (ch "<" :: name ++ flat_map attr_out raw ++ tl ++ rest) with (L "<" ++ (name ++ flat_map attr_out raw ++ tl ++ rest)).
    rewrite expect_app. rewrite span_app; [|assumption|apply attrs_end; [assumption|tauto]].
    rewrite (parse_attrs_out raw RG _ tl rest emp); [|rewrite app_length; pose proof (flat_attr_length raw RG); lia|assumption].
    rewrite RN. cbn [negb]. rewrite OD, RT, RA, RN2. cbn [negb].
    destruct name as [|c0 nm]; [contradiction|]. destruct emp; reflexivity. }
  assert (NH : forall s, expect (L "</") (ch "<" :: name ++ s) = None).
  { intros s. destruct (name_head name G1 G2) as (c & r & -> & Hc). change (L "</") with [ch "<"; ch "/"]. cbn [expect app]. rewrite chr_eqb_refl.
    destruct (chr_eqb_spec (ch "/") c) as [<-|]; [discriminate|reflexivity]. }
  assert (LN : (1 <= List.length name)%nat) by (destruct name; [contradiction|cbn; lia]).
  destruct cs as [|c0 cs0].
  - (* no children *)
    destruct (is_special k) eqn:EK; cbn [andb].
    + exists (name ++ flat_map attr_out raw ++ L "/>"). split.
      { cbn [count_nodes map fold_right]. rewrite <- !app_assoc. rewrite <- !app_comm_cons, <- !app_assoc. reflexivity. }
      split; [rewrite !app_length; cbn [sz map list_sum fold_right List.length L list_ascii_of_string]; lia|].
      split; [apply NH|]. split; [destruct name; [contradiction|discriminate]|].
      intros [|f] rest Hf; [cbn in Hf; lia|]. rewrite <- !app_assoc. rewrite (HEAD f (L "/>") true rest) by auto. cbn [reread map]. now rewrite EK.
    + exists (name ++ flat_map attr_out raw ++ L ">" ++ escape_text (out_text name text) ++ L "</" ++ name ++ L ">"). split.
      { cbn [write_children bind fst snd app count_nodes map fold_right]. do 5 (rewrite <- ?app_assoc; cbn [app]). reflexivity. }
      split; [rewrite !app_length; cbn [sz map list_sum fold_right List.length L list_ascii_of_string]; lia|].
      split; [apply NH|]. split; [destruct name; [contradiction|discriminate]|].
      intros [|f] rest Hf; [cbn in Hf; lia|]. rewrite <- !app_assoc. rewrite (HEAD f (L ">") false) by auto.
      rewrite span_app; [| |reflexivity].
      2:{ apply forallb_forall. intros x Hx. apply escape_no_markup in Hx. unfold nonlt. destruct (chr_eqb_spec x (ch "<")); [tauto|reflexivity]. }
      rewrite <- (app_nil_r (escape_text _)), unescape_escape_app. cbn [unescape unescape_aux option_map]. rewrite app_nil_r.
      destruct f as [|f]; [cbn in Hf; lia|]. cbn [parse_children]. rewrite expect_app.
      change (L ">" ++ rest) with (ch ">" :: rest). rewrite expect_close. cbn [reread map]. rewrite EK. unfold name. now rewrite (out_text_wtag k p u).
  - (* children *)
    rewrite andb_false_r.
    destruct (children_read (c0 :: cs0) IHc k (S level) (keys ++ new) (decls_of k new ++ env) HK HC HI2) as (out & EW & SZ & PC).
    rewrite EW. cbn [bind fst snd].
    exists (name ++ flat_map attr_out raw ++ L ">" ++ escape_text (out_text name text) ++ [newline] ++ out ++ spaces (3 * level) ++ L "</" ++ name ++ L ">"). split.
    { cbn [count_nodes]. do 5 (rewrite <- ?app_assoc; cbn [app]). reflexivity. }
    split. { rewrite !app_length. unfold szs in SZ. cbn [sz List.length L list_ascii_of_string]. lia. }
    split; [apply NH|]. split; [destruct name; [contradiction|discriminate]|].
    intros [|f] rest Hf; [cbn in Hf; lia|]. rewrite <- !app_assoc. rewrite (HEAD f (L ">") false) by auto.
    destruct (PC (name ++ ch ">" :: rest) (3 * level)%nat) as (s & SP & PF).
    change (L ">" ++ rest) with (ch ">" :: rest).
    assert (SP2 : span nonlt (escape_text (out_text name text) ++ [newline] ++ out ++ spaces (3 * level) ++ L "</" ++ name ++ ch ">" :: rest)
                  = (escape_text (out_text name text) ++ newline :: spaces (3 * S level), s)).
    { assert (G : forall a b x s, forallb nonlt a = true -> span nonlt b = (x, s) -> span nonlt (a ++ b) = (a ++ x, s)).
      { clear. induction a as [|c a IH]; intros b x s Ha Hb; [assumption|]. cbn [app span]. cbn [forallb] in Ha. apply andb_prop in Ha as [-> Ha]. now rewrite (IH _ _ _ Ha Hb). }
      apply G.
      - apply forallb_forall. intros x Hx. apply escape_no_markup in Hx. unfold nonlt. destruct (chr_eqb_spec x (ch "<")); [tauto|reflexivity].
      - change (newline :: spaces (3 * S level)) with ([newline] ++ spaces (3 * S level)). apply G; [reflexivity|]. exact SP. }
    rewrite SP2. rewrite unescape_escape_app. rewrite unescape_id by (intros [H|H]; [discriminate|now apply spaces_not in H]). cbn [option_map].
    rewrite PF by (unfold szs; cbn [sz] in Hf; lia). rewrite expect_close. cbn [reread]. unfold name. now rewrite (out_text_wtag k p u).
Qed.
Lemma blank_spaces_nl : blank [newline] = true. Proof. reflexivity. Qed.
Lemma write_doc k n sa : kind_ok k -> wf k n -> (forall s, sa = Some s -> ~ In (ch ">") s) ->
  exists out, write_xml sa n = Ok (out, count_nodes n) /\ parse_doc out = Some (reread k 0 n).
Proof.
  intros HK HW HS. destruct (all_read n k 0%nat [] [] HK HW) as (body & E & SZ & _ & NB & P); [intros q []|].
  unfold write_xml. rewrite E. cbn [bind fst snd]. eexists. split; [reflexivity|]. cbn [Nat.mul spaces repeat app].
  unfold parse_doc, xml_line.
  set (D := L "version=" ++ quote :: L "1.0" ++ quote :: L " encoding=" ++ quote :: L "UTF-8" ++ quote :: match sa with None => [] | Some s => L " standalone=" ++ quote :: s ++ [quote] end ++ L "?").
  assert (EQ : (L "<?xml version=" ++ quote :: L "1.0" ++ quote :: L " encoding=" ++ quote :: L "UTF-8" ++ quote ::
     match sa with None => [] | Some s => L " standalone=" ++ quote :: s ++ [quote] end ++ L "?>" ++ [newline]) ++ ch "<" :: body ++ [newline]
     = L "<?xml " ++ D ++ L ">" ++ [newline] ++ ch "<" :: body ++ [newline]).
  { unfold D. change (L "?>") with (L "?" ++ L ">"). change (L "<?xml version=") with (L "<?xml " ++ L "version="). repeat (rewrite <- ?app_assoc; cbn [app]). reflexivity. }
  match goal with |- context [expect (L "<?xml ") ?s] => replace s with (L "<?xml " ++ D ++ L ">" ++ [newline] ++ ch "<" :: body ++ [newline]) by (symmetry; exact EQ) end.
  rewrite expect_app. rewrite span_app; [| |reflexivity].
  2:{ apply forallb_forall. intros x Hx. destruct (chr_eqb_spec x (ch ">")) as [->|]; [|reflexivity]. exfalso. unfold D in Hx.
      destruct sa as [s|].
      - specialize (HS s eq_refl). repeat (apply in_app_or in Hx; destruct Hx as [Hx|Hx]; [cbn in Hx; intuition discriminate|destruct Hx as [Hx|Hx]; [discriminate|]]).
        apply in_app_or in Hx. destruct Hx as [Hx|Hx]; [|cbn in Hx; intuition discriminate].
        apply in_app_or in Hx. destruct Hx as [Hx|[Hx|Hx]]; [cbn in Hx; intuition discriminate|discriminate|].
        apply in_app_or in Hx. destruct Hx as [Hx|[Hx|[]]]; [contradiction|discriminate].
      - cbn in Hx. intuition discriminate. }
  rewrite expect_app. change (ch "<" :: body ++ [newline]) with (L "<" ++ body ++ [newline]). rewrite span_app; [|reflexivity|reflexivity]. cbn [snd].
  change (L "<" ++ body ++ [newline]) with (ch "<" :: body ++ [newline]). rewrite P by (cbn [List.length]; rewrite app_length; lia). reflexivity.
Qed.
