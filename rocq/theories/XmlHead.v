(** XmlHead.v: what the opening tag written by write_xml_node declares and contains. *)
From Verif Require Import Base StrModel StrProofs PyDict XmlModel XmlSpec XmlProofs.

Lemma str_in_iff x l : str_in x l = true <-> In x l.
Proof.
  unfold str_in. rewrite existsb_exists. split.
  - intros (y & Hy & E). apply str_eqb_eq in E. now subst.
  - intros H. exists x. split; [assumption|apply str_eqb_refl].
Qed.
Lemma str_in_false x l : str_in x l = false <-> ~ In x l.
Proof. rewrite <- str_in_iff. destruct (str_in x l); split; congruence. Qed.
Definition uri_of (p : str) : str := match ns_get p with Some u => u | None => [] end.
Definition scope_name (k : kind) (p : str) : str := match k with Special q => if str_eqb p q then [] else p | Ordinary => p end.
Definition decl_name (s : str) : str := match s with [] => L "xmlns" | _ => L "xmlns:" ++ s end.
Definition decl (k : kind) (p : str) : str * str := (decl_name (scope_name k p), uri_of p).
Definition ckey (key : str) : str := match fst (colon_prefixed key) with Some x => x | None => key end.
Definition out_attr (k : kind) (kv : str * str) : str * str := (ckey (fst kv), reread_value k (fst kv) (snd kv)).
Definition wtag (k : kind) (p local : str) : str := if is_special k then local else p ++ L ":" ++ local.
Definition known (p : str) : Prop := ns_get p <> None.
Lemma known_good p : known p -> good_name p /\ p <> L "xmlns".
Proof. unfold known. destruct (ns_get p) eqn:E; [|contradiction]. intros _. apply ns_get_good in E. now apply prefix_good_spec. Qed.
Lemma known_truthy p : known p -> truthy (Some p) = Some p.
Proof. intros H. apply known_good in H. destruct H as [(H & _) _]. now destruct p. Qed.
Lemma inv_known u p : inv_ns u = Some p -> known p.
Proof. intros H. apply inv_ns_ns in H. unfold known. congruence. Qed.
Lemma key_prefix_known key q : key_ok key -> key_prefix key = Some q -> known q /\ ~ special_prefix q.
Proof.
  unfold key_prefix. intros [[G _]|(p & u & l & -> & Hu & Hs & Hl)].
  - rewrite (colon_plain _ G). discriminate.
  - rewrite (colon_qualify _ _ _ Hu Hl). cbn. intros H. injection H as <-. split; [eapply inv_known; eassumption|assumption].
Qed.

Lemma attr_loop_shape k keys : forall l acc, Forall (fun kv => key_ok (fst kv)) l ->
  Forall (fun kv => match_tag (fst kv) (L "type") = true -> snd kv <> [] /\ match truthy (snd (colon_prefixed (snd kv))) with Some p => ns_get p <> None | None => True end) l ->
  match truthy (wa_type acc) with Some p => known p | None => True end ->
  exists ty, attr_loop keys (is_special k) acc l =
    Ok (WAcc (wa_ns acc ++ filter (fun p => negb (str_in p keys)) (omap (fun kv => key_prefix (fst kv)) l)) (wa_list acc ++ map (out_attr k) l) ty) /\
    match truthy ty with Some p => known p | None => True end.
Proof.
  induction l as [|[key v] l IH]; intros acc HK HT HA; cbn [attr_loop].
  - exists (wa_type acc). destruct acc as [a b c]. cbn. rewrite !app_nil_r. auto.
  - inversion HK as [|? ? K1 K2]; subst. inversion HT as [|? ? T1 T2]; subst. cbn [fst snd] in *.
    cbn [omap map]. change (key_prefix (fst (key, v))) with (snd (colon_prefixed key)).
    set (NS := match truthy (snd (colon_prefixed key)) with Some p => if str_in p keys then wa_ns acc else wa_ns acc ++ [p] | None => wa_ns acc end).
    assert (CK : fst (colon_prefixed key) = Some (ckey key)).
    { unfold ckey. destruct K1 as [[G _]|(p & u & lo & -> & Hu & _ & Hl)]; [rewrite (colon_plain _ G)|rewrite (colon_qualify _ _ _ Hu Hl)]; reflexivity. }
    assert (PN : str_eqb (ckey key) (L "PartName") = str_eqb key (L "PartName")).
    { unfold ckey. destruct K1 as [[G _]|(p & u & lo & -> & Hu & _ & Hl)]; [now rewrite (colon_plain _ G)|]. rewrite (colon_qualify _ _ _ Hu Hl). cbn [fst].
      transitivity false.
      - destruct (str_eqb_spec (p ++ L ":" ++ lo) (L "PartName")) as [E|]; [|reflexivity].
        assert (X : In (ch ":") (L "PartName")) by (rewrite <- E; apply in_or_app; right; now left). cbn in X. exfalso. intuition discriminate.
      - reflexivity. }
    assert (FT : filter (fun p => negb (str_in p keys)) (match snd (colon_prefixed key) with Some y => y :: omap (fun kv => key_prefix (fst kv)) l | None => omap (fun kv => key_prefix (fst kv)) l end)
               = (match truthy (snd (colon_prefixed key)) with Some p => if str_in p keys then [] else [p] | None => [] end) ++ filter (fun p => negb (str_in p keys)) (omap (fun kv => key_prefix (fst kv)) l)).
    { destruct (snd (colon_prefixed key)) as [p|] eqn:E; [|reflexivity].
      apply (key_prefix_known key p K1) in E. rewrite (known_truthy p) by tauto. cbn [filter]. destruct (str_in p keys); reflexivity. }
    rewrite FT.
    assert (ST : exists ty, attr_step keys (is_special k) acc (key, v) = Ok (WAcc NS (wa_list acc ++ [out_attr k (key, v)]) ty) /\ match truthy ty with Some p => known p | None => True end).
    { unfold attr_step, out_attr, reread_value. cbn [fst snd]. fold NS. rewrite <- PN.
      destruct (colon_prefixed key) as [ck pre] eqn:EC. cbn [fst snd] in *. rewrite CK.
      destruct (match_tag key (L "type")) eqn:EM.
      - destruct (T1 eq_refl) as [T11 T12]. destruct (colon_prefixed v) as [[ty|] tp] eqn:EV.
        + exists tp. split; [reflexivity|]. exact T12.
        + exfalso. unfold colon_prefixed in EV. destruct v as [|c v]; [contradiction|]. destruct (negb _).
          * destruct (find_chr _ _); discriminate.
          * destruct (rfind_chr _ _); [destruct (inv_ns _); discriminate|destruct (inv_ns _); discriminate].
      - exists (wa_type acc). split; [|assumption]. destruct (_ && _ && _); reflexivity. }
    destruct ST as (ty & -> & HT'). cbn [bind].
    destruct (IH (WAcc NS (wa_list acc ++ [out_attr k (key, v)]) ty) K2 T2 HT') as (ty' & -> & HT''). exists ty'. split; [|assumption].
    cbn [wa_ns wa_list]. rewrite <- !app_assoc. cbn [app]. f_equal. f_equal. unfold NS.
    destruct (truthy (snd (colon_prefixed key))) as [p|]; [|reflexivity]. destruct (str_in p keys); [reflexivity|]. now rewrite <- app_assoc.
Qed.
Lemma ns_decls_ok l : Forall known l -> ns_decls l = Ok (map (fun p => (L "xmlns:" ++ p, uri_of p)) l).
Proof.
  induction 1 as [|p l H _ IH]; [reflexivity|]. cbn [ns_decls map]. unfold uri_of at 1. unfold known in H. destruct (ns_get p); [|contradiction].
  now rewrite IH.
Qed.
Lemma scope_plain k p : known p -> (forall q, k = Special q -> p <> q) -> decl k p = (L "xmlns:" ++ p, uri_of p).
Proof.
  intros H N. unfold decl. assert (E : scope_name k p = p).
  { destruct k as [|q]; [reflexivity|]. cbn. destruct (str_eqb_spec p q); [elim (N q eq_refl); assumption|reflexivity]. }
  rewrite E. apply known_good in H. destruct H as [(H & _) _]. now destruct p.
Qed.
Lemma head_shape k keys tag at_ : kind_ok k -> tag_ok k tag -> attrib_ok at_ ->
  exists p u local new,
    tag = qualify u local /\ inv_ns u = Some p /\ good_name local /\ match k with Ordinary => True | Special q => p = q end /\
    write_head keys tag at_ = Ok (WHead (wtag k p local) (is_special k) (keys ++ new) (map (decl k) new ++ map (out_attr k) at_)) /\
    NoDup new /\ (forall q, In q new -> ~ In q keys /\ known q) /\ In p (keys ++ new) /\
    (forall kv q, In kv at_ -> key_prefix (fst kv) = Some q -> In q (keys ++ new)).
Proof.
  intros HK (p & u & local & -> & Hu & Hl & Hk) (A1 & A2 & A3 & A4).
  exists p, u, local. pose proof (inv_known _ _ Hu) as KP.
  unfold write_head. rewrite (colon_qualify _ _ _ Hu Hl).
  assert (CT : (str_eqb p (L "content_types") || str_eqb p (L "rels")) = is_special k).
  { destruct k as [|q]; cbn [is_special].
    - destruct (str_eqb_spec p (L "content_types")) as [->|]; [elim Hk; now left|]. destruct (str_eqb_spec p (L "rels")) as [->|]; [elim Hk; now right|]. reflexivity.
    - subst q. destruct HK as [-> | ->]; reflexivity. }
  rewrite CT. rewrite known_truthy by assumption.
  assert (WT : (if str_eqb p (L "content_types") then from (p ++ L ":" ++ local) 14 else if str_eqb p (L "rels") then from (p ++ L ":" ++ local) 5 else p ++ L ":" ++ local) = wtag k p local).
  { unfold wtag. destruct k as [|q]; cbn [is_special] in *.
    - apply orb_false_iff in CT as [-> ->]. reflexivity.
    - subst q. destruct HK as [-> | ->]; reflexivity. }
  rewrite WT.
  set (new0 := if str_in p keys then [] else [p]).
  assert (S0 : (if str_in p keys then Ok ([], keys)
                else match ns_get p with Some u0 => Ok ([(if is_special k then L "xmlns" else L "xmlns:" ++ p, u0)], keys ++ [p]) | None => Err KeyError end)
               = Ok (map (decl k) new0, keys ++ new0)).
  { unfold new0. destruct (str_in p keys); [now rewrite app_nil_r|]. cbn [map]. unfold decl, uri_of.
    pose proof (proj1 (known_good _ KP)) as KG. unfold known in KP. destruct (ns_get p) as [w|]; [|contradiction]. do 4 f_equal.
    destruct k as [|q]; cbn [is_special scope_name].
    - destruct KG as (X & _). now destruct p.
    - subst q. now rewrite str_eqb_refl. }
  rewrite S0. cbn [bind]. set (keys1 := keys ++ new0).
  destruct (attr_loop_shape k keys1 at_ (WAcc [] [] None)) as (ty & -> & HT).
  { eapply Forall_impl; [|exact A2]. cbn. tauto. }
  { exact A4. }
  { cbn; exact Logic.I. }
  cbn [bind wa_ns wa_list wa_type app]. set (nsl := filter (fun p => negb (str_in p keys1)) (omap (fun kv => key_prefix (fst kv)) at_)).
  assert (OM : forall q, In q (omap (fun kv => key_prefix (fst kv)) at_) <-> exists kv, In kv at_ /\ key_prefix (fst kv) = Some q).
  { clear. intros q. induction at_ as [|kv l IH]; cbn [omap]; [split; [intros []|intros (x & [] & _)]|].
    destruct (key_prefix (fst kv)) as [y|] eqn:E.
    - cbn [In]. rewrite IH. split.
      + intros [<-|(x & H1 & H2)]; [exists kv; split; [now left|assumption]|exists x; split; [now right|assumption]].
      + intros (x & [<-|H] & H2); [left; congruence|right; eauto].
    - rewrite IH. split.
      + intros (x & H1 & H2). exists x. split; [now right|assumption].
      + intros (x & [<-|H] & H2); [congruence|eauto]. }
  assert (NK : forall q, In q nsl -> ~ In q keys1 /\ known q /\ ~ special_prefix q).
  { intros q Hq. apply filter_In in Hq as [Hq Hk1]. rewrite negb_true_iff, str_in_false in Hk1. apply OM in Hq as (kv & Hin & E).
    rewrite Forall_forall in A2. destruct (A2 kv Hin) as [KO _]. apply (key_prefix_known _ _ KO) in E. tauto. }
  rewrite ns_decls_ok by (apply Forall_forall; intros q Hq; now apply NK).
  cbn [bind].
  assert (PIN : In p keys1).
  { unfold keys1, new0. apply in_or_app. destruct (str_in p keys) eqn:E; [left; now apply str_in_iff|right; now left]. }
  set (keys2 := keys1 ++ nsl).
  set (new2 := match truthy ty with Some q => if str_in q keys2 then [] else [q] | None => [] end).
  assert (N2 : forall q, In q new2 -> ~ In q keys2 /\ known q).
  { unfold new2. intros q Hq. destruct (truthy ty) as [r|]; [|destruct Hq]. destruct (str_in r keys2) eqn:E; [destruct Hq|].
    destruct Hq as [<-|[]]. apply str_in_false in E. auto. }
  assert (SP : forall q, In q nsl \/ In q new2 -> decl k q = (L "xmlns:" ++ q, uri_of q)).
  { intros q Hq. apply scope_plain; [destruct Hq as [Hq|Hq]; [now apply NK|now apply N2]|].
    intros r E. subst k. subst r. intros ->. destruct Hq as [Hq|Hq]; [apply NK in Hq; tauto|]. apply N2 in Hq. apply (proj1 Hq). unfold keys2. apply in_or_app. now left. }
  assert (S2 : (match truthy ty with
                | Some p0 => if str_in p0 keys2 then Ok ([], keys2) else do d <- ns_decls [p0]; Ok (d, keys2 ++ [p0])
                | None => Ok ([], keys2)
                end) = Ok (map (decl k) new2, keys2 ++ new2)).
  { unfold new2 in *. destruct (truthy ty) as [r|]; [|now rewrite app_nil_r]. destruct (str_in r keys2) eqn:E; [now rewrite app_nil_r|].
    rewrite ns_decls_ok by (constructor; [assumption|constructor]). cbn [bind map]. rewrite SP by (right; now left). reflexivity. }
  match goal with |- context [bind ?m _] => replace m with (Ok (map (decl k) new2, keys2 ++ new2)) by (symmetry; exact S2) end. cbn [bind].
  exists (new0 ++ nsl ++ new2).
  split; [reflexivity|]. split; [assumption|]. split; [assumption|]. split; [destruct k; [exact Logic.I|assumption]|].
  split.
  { f_equal. f_equal.
    - unfold keys2, keys1. now rewrite <- !app_assoc.
    - rewrite !map_app, <- !app_assoc. f_equal. f_equal. apply map_ext_in. intros q Hq. symmetry. apply SP. now left. }
  split.
  { assert (D0 : NoDup new0) by (unfold new0; destruct (str_in p keys); repeat constructor; intros []).
    assert (D1 : NoDup nsl) by (apply NoDup_filter; assumption).
    assert (D2 : NoDup new2) by (unfold new2; destruct (truthy ty) as [r|]; [destruct (str_in r keys2)|]; repeat constructor; intros []).
    assert (APP : forall (a b : list str), NoDup a -> NoDup b -> (forall x, In x a -> ~ In x b) -> NoDup (a ++ b)).
    { clear. induction a as [|x a IH]; intros b Ha Hb Hd; [assumption|]. inversion Ha; subst. cbn. constructor.
      - rewrite in_app_iff. intros [H|H]; [contradiction|]. apply (Hd x); [now left|assumption].
      - apply IH; auto. intros y Hy. apply Hd. now right. }
    apply APP; [assumption|apply APP; [assumption|assumption|]|].
    - intros x Hx Hx2. apply N2 in Hx2. apply (proj1 Hx2). unfold keys2. apply in_or_app. now right.
    - intros x Hx Hx2. apply in_app_or in Hx2 as [H|H].
      + apply NK in H. apply (proj1 H). unfold keys1. apply in_or_app. now right.
      + apply N2 in H. apply (proj1 H). unfold keys2, keys1. apply in_or_app. left. apply in_or_app. now right. }
  split.
  { intros q Hq. apply in_app_or in Hq as [Hq|Hq].
    - unfold new0 in Hq. destruct (str_in p keys) eqn:E; [destruct Hq|]. destruct Hq as [<-|[]]. apply str_in_false in E. auto.
    - apply in_app_or in Hq as [Hq|Hq].
      + apply NK in Hq. destruct Hq as (H1 & H2 & _). split; [|assumption]. intros X. apply H1. unfold keys1. apply in_or_app. now left.
      + apply N2 in Hq. destruct Hq as (H1 & H2). split; [|assumption]. intros X. apply H1. unfold keys2, keys1. rewrite !in_app_iff. auto. }
  split.
  { rewrite !app_assoc. apply in_or_app. left. apply in_or_app. left. exact PIN. }
  intros kv q Hin E.
  destruct (str_in q keys1) eqn:EQ.
  - apply str_in_iff in EQ. unfold keys1 in EQ. rewrite !in_app_iff in *. tauto.
  - rewrite !in_app_iff. right. right. left. apply filter_In. split; [apply OM; eauto|]. now rewrite EQ.
Qed.
