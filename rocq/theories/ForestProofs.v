(** ForestProofs.v: invariants of the part catalogue and relationships. *)
From Verif Require Import Base TextModel StrModel StrProofs UuidModel UuidProofs PyDict ForestModel.

Lemma str_eqb_iff a b : str_eqb a b = true <-> a = b.
Proof. apply str_eqb_eq. Qed.
Lemma zeqb_iff a b : Z.eqb a b = true <-> a = b.
Proof. apply Z.eqb_eq. Qed.
Arguments dkeys : simpl never.
Notation sget := (dget str_eqb).
Notation zget := (dget Z.eqb).

(** * Catalogue consistency, stated on the public dictionaries *)
Record Cat (m : mdl) : Prop := {
  c_parts_nodup : NoDup (dkeys (parts m));
  c_uuids_nodup : NoDup (dkeys (u2p m));
  (* a part's recorded uuid is catalogued, for that part, and is the one in its name *)
  c_part_uuid : forall p ct u t, sget (parts m) p = Some (ct, u, t) ->
                zget (u2p m) u = Some p /\ uuid_in_part_name p = Ok (Some u);
  (* a catalogued uuid names a part which records that uuid *)
  c_uuid_part : forall u p, zget (u2p m) u = Some p -> exists ct t, sget (parts m) p = Some (ct, u, t);
  (* the object parts and the package's content list are the same parts in the same order *)
  c_objs : dkeys (objs m) = filter is_obj_part (dkeys (parts m));
  c_main : main m = dkeys (parts m) }.

Lemma cat_new rp : Cat (new_model rp).
Proof. constructor; cbn; try constructor; discriminate. Qed.

Lemma cat_ext m m' : parts m' = parts m -> objs m' = objs m -> u2p m' = u2p m -> main m' = main m -> Cat m -> Cat m'.
Proof. intros E1 E2 E3 E4 [H1 H2 H3 H4 H5 H6]. constructor; rewrite ?E1, ?E2, ?E3, ?E4; assumption. Qed.

(** Shape of the state after adding a part *)
Lemma add_uuid_relations_fields m u p m' r : add_uuid_relations m u p = (m', r) ->
  parts m' = parts m /\ objs m' = objs m /\ u2p m' = u2p m /\ main m' = main m /\ relsf m' = relsf m /\ rels_present m' = rels_present m.
Proof.
  unfold add_uuid_relations. destruct (is_ext_name p); [intros [= <- _]; auto 6|].
  destruct (sget (parts m) p) as [[[ct v] t]|]; intros [= <- _]; auto 6.
Qed.
Lemma add_part_fields m ct u t ar sub ad m' : add_part m ct u t ar sub ad = (m', Ok tt) ->
  exists ct' p x, p = x ++ uuid_str u ++ L ".xml" /\ part_name_for_object ct' u false sub = Ok p /\
    parts m' = dset str_eqb (parts m) p (ct', u, t) /\
    objs m' = (if is_obj_part p then dset str_eqb (objs m) p tt else objs m) /\
    u2p m' = dset Z.eqb (u2p m) u p /\ main m' = main m ++ [p] /\ rels_present m' = rels_present m /\
    (relsf m' = relsf m \/ exists rp, rels_part_name_for_part p = Some rp /\ relsf m' = dset str_eqb (relsf m) rp (u, [])) /\
    (urels m' = urels m \/ urels m' = add_refs (urels m) u (obj_refs t)) /\
    (ad = true -> is_ext_name p = false -> urels m' = add_refs (urels m) u (obj_refs t)) /\
    (is_ext_name p = true -> urels m' = urels m) /\
    (ct' = ct \/ ct' = L "obj_" ++ ct).
Proof.
  unfold add_part. destruct ct as [|c ct0]; [discriminate|].
  set (ct' := if is_upper_chr c then _ else _).
  assert (Hct : ct' = c :: ct0 \/ ct' = L "obj_" ++ c :: ct0) by (unfold ct'; destruct (is_upper_chr c); auto).
  clearbody ct'.
  destruct (part_name_for_object ct' u false sub) as [p|] eqn:Ep; [|discriminate].
  destruct (part_name_shape _ _ _ _ _ Ep) as [x Hx]. intros H. exists ct', p, x.
  split; [exact Hx|]. split; [exact Ep|].
  revert H. set (m3 := set_main _ _).
  assert (F3 : parts m3 = dset str_eqb (parts m) p (ct', u, t) /\
    objs m3 = (if is_obj_part p then dset str_eqb (objs m) p tt else objs m) /\
    u2p m3 = dset Z.eqb (u2p m) u p /\ main m3 = main m ++ [p] /\ rels_present m3 = rels_present m /\ relsf m3 = relsf m /\ urels m3 = urels m).
  { unfold m3, set_main, set_uuid_to_part, add_to_object_parts. destruct (is_obj_part p); cbn; auto 8. }
  clearbody m3. destruct F3 as (F1 & F2 & F3 & F4 & F5 & F6 & F7).
  set (m4 := if ar && rels_present m3 then _ else m3).
  assert (F8 : parts m4 = parts m3 /\ objs m4 = objs m3 /\ u2p m4 = u2p m3 /\ main m4 = main m3 /\ rels_present m4 = rels_present m3 /\
    (relsf m4 = relsf m \/ exists rp, rels_part_name_for_part p = Some rp /\ relsf m4 = dset str_eqb (relsf m) rp (u, [])) /\ urels m4 = urels m3).
  { unfold m4. destruct (ar && rels_present m3); [|auto 8]. destruct (rels_part_name_for_part p) as [rp|]; [|auto 8].
    cbn. rewrite F6. repeat split; eauto. }
  clearbody m4. destruct F8 as (G1 & G2 & G3 & G4 & G5 & G6 & G7). intros H.
  assert (FF : parts m' = parts m4 /\ objs m' = objs m4 /\ u2p m' = u2p m4 /\ main m' = main m4 /\ relsf m' = relsf m4 /\ rels_present m' = rels_present m4).
  { destruct ad; [now apply add_uuid_relations_fields in H|]. injection H as <-. auto 7. }
  destruct FF as (P1 & P2 & P3 & P4 & P5 & P6).
  assert (U : (urels m' = urels m \/ urels m' = add_refs (urels m) u (obj_refs t)) /\
    (ad = true -> is_ext_name p = false -> urels m' = add_refs (urels m) u (obj_refs t)) /\
    (is_ext_name p = true -> urels m' = urels m)).
  { destruct ad.
    - unfold add_uuid_relations in H. destruct (is_ext_name p).
      + injection H as <-. split; [left; congruence|]. split; [discriminate|congruence].
      + rewrite G1, F1, (dget_dset_eq str_eqb str_eqb_iff) in H. injection H as <-. cbn. rewrite G7, F7. split; [auto|]. split; [auto|discriminate].
    - injection H as <-. split; [left; congruence|]. split; [discriminate|congruence]. }
  destruct U as (U1 & U2 & U3).
  rewrite P1, P2, P3, P4, P5, P6, G1, G2, G3, G4, G5, F1, F2, F3, F4, F5. auto 13.
Qed.

Lemma filter_app_one {A} (f : A -> bool) l x : filter f (l ++ [x]) = if f x then filter f l ++ [x] else filter f l.
Proof. rewrite filter_app. cbn. destruct (f x); [reflexivity|apply app_nil_r]. Qed.

Lemma cat_add m ct u t ar sub ad m' : Cat m -> IsUuid u -> zget (u2p m) u = None ->
  add_part m ct u t ar sub ad = (m', Ok tt) -> Cat m'.
Proof.
  intros C Hu Hf H. apply add_part_fields in H.
  destruct H as (ct' & p & x & Hp & Hname & E1 & E2 & E3 & E4 & _).
  assert (Hup : uuid_in_part_name p = Ok (Some u)) by (rewrite Hp; now apply uuid_in_name).
  assert (Hnp : sget (parts m) p = None).
  { destruct (sget (parts m) p) as [[[c v] w]|] eqn:E; [|reflexivity].
    destruct (c_part_uuid m C _ _ _ _ E) as [H1 H2]. rewrite Hup in H2. injection H2 as <-. congruence. }
  assert (Hnp' : ~ In p (dkeys (parts m))) by (now apply (dget_none str_eqb str_eqb_iff)).
  constructor; rewrite ?E1, ?E2, ?E3, ?E4.
  - apply (dset_nodup str_eqb str_eqb_iff), C.
  - apply (dset_nodup Z.eqb zeqb_iff), C.
  - intros q c v w Hq. destruct (str_eqb q p) eqn:Eqp.
    + apply str_eqb_iff in Eqp. subst q. rewrite (dget_dset_eq str_eqb str_eqb_iff) in Hq. injection Hq as <- <- <-.
      rewrite (dget_dset_eq Z.eqb zeqb_iff). auto.
    + assert (q <> p) by (intros ->; rewrite str_eqb_refl in Eqp; discriminate).
      rewrite (dget_dset_neq str_eqb str_eqb_iff) in Hq by assumption.
      destruct (c_part_uuid m C _ _ _ _ Hq) as [H1 H2]. split; [|assumption].
      rewrite (dget_dset_neq Z.eqb zeqb_iff); [assumption|]. intros ->. congruence.
  - intros v q Hv. destruct (Z.eq_dec v u) as [->|N].
    + rewrite (dget_dset_eq Z.eqb zeqb_iff) in Hv. injection Hv as <-. exists ct', t. apply (dget_dset_eq str_eqb str_eqb_iff).
    + rewrite (dget_dset_neq Z.eqb zeqb_iff) in Hv by assumption. destruct (c_uuid_part m C _ _ Hv) as (c & w & Hw).
      exists c, w. rewrite (dget_dset_neq str_eqb str_eqb_iff); [assumption|]. intros ->. congruence.
  - rewrite (dkeys_dset_absent str_eqb str_eqb_iff) by assumption. rewrite filter_app_one. destruct (is_obj_part p) eqn:Eo.
    + rewrite (dkeys_dset_absent str_eqb str_eqb_iff).
      * f_equal. apply C.
      * rewrite (c_objs m C). rewrite filter_In. tauto.
    + apply C.
  - rewrite (dkeys_dset_absent str_eqb str_eqb_iff) by assumption. f_equal. apply C.
Qed.

Lemma cat_patch_fields m p ct u t t' : Cat m -> sget (parts m) p = Some (ct, u, t) ->
  Cat (set_parts m (dset str_eqb (parts m) p (ct, u, t'))).
Proof.
  intros C Hp. assert (Hin : In p (dkeys (parts m))) by (apply (dkeys_dget str_eqb str_eqb_iff); eauto).
  constructor; cbn.
  - apply (dset_nodup str_eqb str_eqb_iff), C.
  - apply C.
  - intros q c v w Hq. destruct (str_eqb q p) eqn:Eqp.
    + apply str_eqb_iff in Eqp. subst q. rewrite (dget_dset_eq str_eqb str_eqb_iff) in Hq. injection Hq as <- <- <-.
      now apply (c_part_uuid m C) in Hp.
    + assert (q <> p) by (intros ->; rewrite str_eqb_refl in Eqp; discriminate).
      rewrite (dget_dset_neq str_eqb str_eqb_iff) in Hq by assumption. now apply (c_part_uuid m C) in Hq.
  - intros v q Hv. destruct (c_uuid_part m C _ _ Hv) as (c & w & Hw).
    destruct (str_eqb q p) eqn:Eqp.
    + apply str_eqb_iff in Eqp. subst q. rewrite Hp in Hw. injection Hw as <- <- <-.
      exists ct, t'. apply (dget_dset_eq str_eqb str_eqb_iff).
    + assert (q <> p) by (intros ->; rewrite str_eqb_refl in Eqp; discriminate).
      exists c, w. now rewrite (dget_dset_neq str_eqb str_eqb_iff).
  - rewrite (dkeys_dset_present str_eqb str_eqb_iff) by assumption. apply C.
  - rewrite (dkeys_dset_present str_eqb str_eqb_iff) by assumption. apply C.
Qed.
Lemma objs_idem m p : Cat m -> In p (dkeys (parts m)) -> Cat (add_to_object_parts m p).
Proof.
  intros C Hin. unfold add_to_object_parts. destruct (is_obj_part p) eqn:E; [|assumption].
  destruct C as [H1 H2 H3 H4 H5 H6]. constructor; cbn; try assumption.
  rewrite (dkeys_dset_present str_eqb str_eqb_iff); [assumption|]. rewrite H5. now apply filter_In.
Qed.

Lemma remove_first_filter p l : NoDup l -> remove_first p l = filter (fun x => negb (str_eqb x p)) l.
Proof.
  induction 1 as [|x l Hx Hn IH]; cbn; [reflexivity|]. destruct (str_eqb x p) eqn:E; cbn.
  - apply str_eqb_iff in E. subst x. symmetry. clear IH Hn.
    induction l as [|y l IH]; cbn; [reflexivity|].
    assert (str_eqb y p = false) as ->.
    { apply not_true_iff_false. rewrite str_eqb_iff. intros ->. apply Hx. now left. }
    cbn. f_equal. apply IH. intros H. apply Hx. now right.
  - now rewrite IH.
Qed.
Lemma filter_filter {A} (f g : A -> bool) l : filter f (filter g l) = filter (fun x => g x && f x) l.
Proof. induction l as [|x l IH]; cbn; [reflexivity|]. destruct (g x); cbn; [destruct (f x); now rewrite IH|assumption]. Qed.
Lemma filter_comm {A} (f g : A -> bool) l : filter f (filter g l) = filter g (filter f l).
Proof. rewrite !filter_filter. apply filter_ext. intros. apply andb_comm. Qed.

Lemma remove_entries_fields m p m' : remove_part_entries m p = (m', Ok tt) ->
  exists ct u t d, sget (parts m) p = Some (ct, u, t) /\ del_uuid_relations (urels m) u = (d, Ok tt) /\ urels m' = d /\
    In p (dkeys (objs m)) /\
    parts m' = ddel str_eqb (parts m) p /\ objs m' = ddel str_eqb (objs m) p /\ main m' = remove_first p (main m) /\
    relsf m' = relsf m /\ rels_present m' = rels_present m /\
    u2p m' = match uuid_in_part_name p with Ok (Some v) => ddel Z.eqb (u2p m) v | _ => u2p m end.
Proof.
  unfold remove_part_entries. set (m1 := del_uuid_to_part m p).
  assert (F : parts m1 = parts m /\ objs m1 = objs m /\ main m1 = main m /\ relsf m1 = relsf m /\ urels m1 = urels m /\ rels_present m1 = rels_present m /\
    u2p m1 = match uuid_in_part_name p with Ok (Some v) => ddel Z.eqb (u2p m) v | _ => u2p m end).
  { unfold m1, del_uuid_to_part. destruct (uuid_in_part_name p) as [[v|]|]; cbn; auto 8. }
  clearbody m1. destruct F as (F1 & F2 & F3 & F4 & F5 & F6 & F7). unfold uuid_for_part. rewrite F1.
  destruct (sget (parts m) p) as [[[ct u] t]|] eqn:Ep; [|discriminate]. rewrite F5.
  destruct (del_uuid_relations (urels m) u) as [d [[]|e]] eqn:Ed; [|discriminate]. cbn.
  rewrite F2. destruct (sget (objs m) p) as [[]|] eqn:Eo; [|discriminate]. intros [= <-]. cbn.
  exists ct, u, t, d. rewrite ?F1, ?F2, ?F3, ?F4, ?F6, ?F7. repeat split; auto.
  apply (dkeys_dget str_eqb str_eqb_iff). eauto.
Qed.

Lemma cat_remove_entries m p m' : Cat m -> remove_part_entries m p = (m', Ok tt) -> Cat m'.
Proof.
  intros C H. apply remove_entries_fields in H.
  destruct H as (ct & u & t & d & Hp & _ & _ & Hobj & E1 & E2 & E3 & _ & _ & E5).
  destruct (c_part_uuid m C _ _ _ _ Hp) as [Hu Hn]. rewrite Hn in E5.
  constructor; rewrite ?E1, ?E2, ?E3, ?E5.
  - apply ddel_nodup, C.
  - apply ddel_nodup, C.
  - intros q c v w Hq. destruct (str_eqb q p) eqn:Eqp.
    + apply str_eqb_iff in Eqp. subst q. rewrite (dget_ddel_eq str_eqb) in Hq. discriminate.
    + assert (q <> p) by (intros ->; rewrite str_eqb_refl in Eqp; discriminate).
      rewrite (dget_ddel_neq str_eqb str_eqb_iff) in Hq by assumption.
      destruct (c_part_uuid m C _ _ _ _ Hq) as [H1 H2]. split; [|assumption].
      rewrite (dget_ddel_neq Z.eqb zeqb_iff); [assumption|]. intros ->. congruence.
  - intros v q Hv. destruct (Z.eq_dec v u) as [->|N]; [rewrite (dget_ddel_eq Z.eqb) in Hv; discriminate|].
    rewrite (dget_ddel_neq Z.eqb zeqb_iff) in Hv by assumption. destruct (c_uuid_part m C _ _ Hv) as (c & w & Hw).
    exists c, w. rewrite (dget_ddel_neq str_eqb str_eqb_iff); [assumption|]. intros ->. rewrite Hp in Hw. congruence.
  - rewrite !(dkeys_ddel str_eqb). rewrite (c_objs m C). apply filter_comm.
  - rewrite (dkeys_ddel str_eqb), (c_main m C). apply remove_first_filter, C.
Qed.

Lemma prune_fields p l : forall m m' r, prune_relatives m p l = (m', r) ->
  parts m' = parts m /\ objs m' = objs m /\ u2p m' = u2p m /\ main m' = main m /\ urels m' = urels m /\ rels_present m' = rels_present m /\
  dkeys (relsf m') = dkeys (relsf m) /\ (forall rp, option_map fst (sget (relsf m') rp) = option_map fst (sget (relsf m) rp)).
Proof.
  induction l as [|q l IH]; intros m m' r; cbn [prune_relatives]; [intros [= <- _]; auto 9|].
  destruct (rels_part_name_for_part q) as [rp|]; [|intros [= <- _]; auto 9].
  destruct (sget (relsf m) rp) as [[u tg]|] eqn:E; [|intros [= <- _]; auto 9].
  intros H. apply IH in H. cbn in H. destruct H as (H1 & H2 & H3 & H4 & H5 & H6 & H7 & H8).
  repeat split; try assumption.
  - rewrite H7. apply (dkeys_dset_present str_eqb str_eqb_iff). apply (dkeys_dget str_eqb str_eqb_iff). eauto.
  - intros rq. rewrite H8. destruct (str_eqb rq rp) eqn:Eq.
    + apply str_eqb_iff in Eq. subst rq. rewrite (dget_dset_eq str_eqb str_eqb_iff), E. reflexivity.
    + rewrite (dget_dset_neq str_eqb str_eqb_iff); [reflexivity|]. intros ->. rewrite str_eqb_refl in Eq. discriminate.
Qed.

(** A successful removal is a successful removal of the entries from a state that
    differs only in its rels parts. *)
Lemma remove_part_ok m p rr m' : remove_part m p rr = (m', Ok tt) -> exists m1,
  parts m1 = parts m /\ objs m1 = objs m /\ u2p m1 = u2p m /\ main m1 = main m /\ urels m1 = urels m /\
  rels_present m1 = rels_present m /\ remove_part_entries m1 p = (m', Ok tt) /\
  (forall rp u tg, sget (relsf m1) rp = Some (u, tg) -> exists tg', sget (relsf m) rp = Some (u, tg')) /\
  (rr = true -> forall rp, rels_part_name_for_part p = Some rp -> sget (relsf m1) rp = None).
Proof.
  unfold remove_part. destruct rr; [|intros H; exists m; repeat split; eauto; discriminate].
  destruct (uuid_in_part_name p) as [[u|]|]; try discriminate.
  destruct (filtered_by_related m (dkeys (objs m)) u None) as [[rl|]|]; try discriminate.
  destruct (prune_relatives m p rl) as [m1 [[]|e]] eqn:Ep; [|discriminate].
  destruct (rels_part_name_for_part p) as [rp|]; [|discriminate].
  destruct (sget (relsf m1) rp) as [[v tg]|] eqn:E; [|discriminate]. intros H.
  apply prune_fields in Ep. destruct Ep as (H1 & H2 & H3 & H4 & H5 & H6 & H7 & H8).
  exists (set_relsf m1 (ddel str_eqb (relsf m1) rp)). cbn. repeat split; try assumption.
  - intros rq w tgq Hq. destruct (str_eqb rq rp) eqn:Eq.
    + apply str_eqb_iff in Eq. subst rq. rewrite (dget_ddel_eq str_eqb) in Hq. discriminate.
    + rewrite (dget_ddel_neq str_eqb str_eqb_iff) in Hq by (intros ->; rewrite str_eqb_refl in Eq; discriminate).
      specialize (H8 rq). rewrite Hq in H8. cbn in H8. destruct (sget (relsf m) rq) as [[w' tg']|]; [|discriminate].
      cbn in H8. injection H8 as ->. eauto.
  - intros _ rq [= <-]. apply (dget_ddel_eq str_eqb).
Qed.

Lemma cat_remove m p rr m' : Cat m -> remove_part m p rr = (m', Ok tt) -> Cat m'.
Proof.
  intros C H. destruct (remove_part_ok _ _ _ _ H) as (m1 & H1 & H2 & H3 & H4 & _ & _ & H5 & _).
  eapply cat_remove_entries; [|exact H5]. eapply cat_ext; eauto.
Qed.

Lemma relate_fields m a b av m' r : relate m a b av = (m', r) ->
  parts m' = parts m /\ objs m' = objs m /\ u2p m' = u2p m /\ main m' = main m /\ rels_present m' = rels_present m.
Proof.
  unfold relate. destruct (negb (rels_present m)); [intros [= <- _]; auto 6|].
  destruct (part_name_for_object _ _ _ _) as [pa|]; [|intros [= <- _]; auto 6].
  destruct (part_name_for_object _ _ _ _) as [pb|]; [|intros [= <- _]; auto 6].
  destruct (rels_part_name_for_part pa) as [ra|]; [|intros [= <- _]; auto 6].
  destruct (rels_part_name_for_part pb) as [rb|]; [|intros [= <- _]; auto 6].
  destruct (sget (relsf m) ra) as [[ua ta]|]; [|intros [= <- _]; auto 6].
  destruct (sget (relsf m) rb) as [[ub tb]|]; [|intros [= <- _]; auto 6].
  destruct (dget str_eqb _ rb) as [[? tb']|]; [|intros [= <- _]; auto 6].
  destruct (is_ext_name ra || is_ext_name rb); intros [= <- _]; cbn; auto 6.
Qed.

Lemma cat_support m p o n m' r : Cat m -> change_support m p o n = (m', r) -> Cat m'.
Proof.
  intros C. unfold change_support. destruct (sget (parts m) p) as [[[ct u] t]|] eqn:Ep; [|intros [= <- _]; assumption].
  destruct (t_support t) as [s|]; [|intros [= <- _]; assumption].
  destruct (negb (s =? o)); [intros [= <- _]; assumption|].
  destruct (zget (urels m) (t_uuid t)) as [r0|]; [|intros [= <- _]; assumption].
  destruct (dget Z.eqb _ o) as [ro|]; [|intros [= <- _]; apply (cat_ext m); auto].
  destruct (dget Z.eqb _ n) as [rn|]; [|intros [= <- _]; apply (cat_ext m); auto].
  intros [= <- _]. eapply (cat_ext (set_parts m _)); [reflexivity|reflexivity|reflexivity|reflexivity|].
  eapply cat_patch_fields; eassumption.
Qed.

(** * Histories of accepted operations *)
(** The caller supplies a new uuid when adding a part (resqpy's own add_part does not
    check; duplicate_node does). *)
Definition FreshOp (m : mdl) (o : fop) : Prop :=
  match o with
  | AddPart _ u _ _ _ _ => IsUuid u /\ zget (u2p m) u = None
  | CopyPart u nu => IsUuid nu /\ zget (u2p m) nu = None
  | DuplicateNode t _ => IsUuid (t_uuid t)
  | _ => True
  end.
Inductive Run (P : mdl -> fop -> Prop) : mdl -> list fop -> mdl -> Prop :=
  | run_nil m : Run P m [] m
  | run_cons m m1 m2 o os : P m o -> fstep m o = (m1, Ok tt) -> Run P m1 os m2 -> Run P m (o :: os) m2.

Lemma step_cat m o m' : Cat m -> FreshOp m o -> fstep m o = (m', Ok tt) -> Cat m'.
Proof.
  intros C Hf H. destruct o as [ct u t ar sub ad|p t|p rr|u nu|t ad|a b av|p o n]; cbn [fstep] in H.
  - destruct Hf. eapply cat_add; eauto.
  - unfold patch_root_for_part in H. destruct (sget (parts m) p) as [[[ct u] t0]|] eqn:Ep; [|discriminate].
    destruct (u =? t_uuid t); [|discriminate]. injection H as <-.
    apply objs_idem; [eapply cat_patch_fields; eassumption|]. cbn. apply (dkeys_dget str_eqb str_eqb_iff).
    rewrite (dget_dset_eq str_eqb str_eqb_iff). eauto.
  - eapply cat_remove; eauto.
  - unfold copy_part in H. destruct (zget (u2p m) u) as [p|]; [|injection H as <-; assumption].
    destruct (sget (parts m) p) as [[[ct ou] t]|]; [|discriminate]. destruct (ou =? u); [|discriminate].
    destruct Hf. eapply cat_add; [| | |exact H]; assumption.
  - unfold duplicate_node in H. destruct (zget (u2p m) (t_uuid t)) eqn:E; [injection H as <-; assumption|].
    eapply cat_add; [| | |exact H]; assumption.
  - apply relate_fields in H. destruct H as (H1 & H2 & H3 & H4 & _). eapply cat_ext; eauto.
  - destruct (change_support m p o n) as [m1 r] eqn:E. destruct r; [|discriminate]. injection H as <-. eapply cat_support; eauto.
Qed.
Lemma run_cat m os m' : Run FreshOp m os m' -> Cat m -> Cat m'.
Proof. induction 1; intros C; [assumption|]. apply IHRun. eapply step_cat; eauto. Qed.

(** * Relationships *)
Definition K3 : list kind := [Ref; Refd; Soft].
Lemma kind_eq_dec (a b : kind) : {a = b} + {a <> b}. Proof. decide equality. Defined.
Lemma rget_rset k r s k' : rget k' (rset k r s) = if kind_eq_dec k' k then s else rget k' r.
Proof. destruct k, k'; reflexivity. Qed.

(** What a reldict says: the members of set k of uuid u. *)
Notation R := sets_of.
Lemma R_dset d u r k' u' : R (dset Z.eqb d u r) k' u' = if Z.eq_dec u' u then rget k' r else R d k' u'.
Proof.
  unfold sets_of. destruct (Z.eq_dec u' u) as [->|N].
  - now rewrite (dget_dset_eq Z.eqb zeqb_iff).
  - now rewrite (dget_dset_neq Z.eqb zeqb_iff).
Qed.
Lemma R_update d u r k s k' u' : zget d u = Some r ->
  R (dset Z.eqb d u (rset k r s)) k' u' = if Z.eq_dec u' u then (if kind_eq_dec k' k then s else R d k' u') else R d k' u'.
Proof.
  intros H. rewrite R_dset. destruct (Z.eq_dec u' u) as [->|]; [|reflexivity]. rewrite rget_rset.
  destruct (kind_eq_dec k' k); [reflexivity|]. unfold sets_of. now rewrite H.
Qed.
Lemma R_some d u r k : zget d u = Some r -> R d k u = rget k r.
Proof. unfold sets_of. now intros ->. Qed.
Lemma R_in_some d k u v : In v (R d k u) -> exists r, zget d u = Some r.
Proof. unfold sets_of. destruct (zget d u); [eauto|intros []]. Qed.

Lemma R_radd d k u v k' u' :
  R (radd d k u v) k' u' = if Z.eq_dec u' u then (if kind_eq_dec k' k then sadd v (R d k u) else R d k' u') else R d k' u'.
Proof.
  unfold radd. destruct (zget d u) as [r|] eqn:E.
  - rewrite (R_update d u r) by assumption. now rewrite (R_some d u r k E).
  - rewrite R_dset. destruct (Z.eq_dec u' u) as [->|]; [|reflexivity]. rewrite rget_rset. unfold sets_of. rewrite E.
    destruct (kind_eq_dec k' k); [reflexivity|]. now destruct k'.
Qed.

Record RelInv (d : reldict) : Prop := {
  ri_nodup : forall k u, NoDup (R d k u);
  ri_hard : forall u v, In v (R d Ref u) <-> In u (R d Refd v) }.
Definition SoftSym (d : reldict) : Prop := (forall u v, In v (R d Soft u) -> In u (R d Soft v)) /\ (forall u, ~ In u (R d Soft u)).

Lemma relinv_new : RelInv []. Proof. constructor; [intros; constructor|cbn; tauto]. Qed.
Lemma softsym_new : SoftSym []. Proof. split; cbn; tauto. Qed.

Lemma in_R_add_ref d u v k x y : In y (R (add_ref d u v) k x) <->
  In y (R d k x) \/ (k = Ref /\ x = u /\ y = v) \/ (k = Refd /\ x = v /\ y = u).
Proof.
  unfold add_ref. rewrite R_radd. rewrite !R_radd. destruct (Z.eq_dec x v), (kind_eq_dec k Refd), (Z.eq_dec x u), (kind_eq_dec k Ref), (kind_eq_dec Refd Ref), (Z.eq_dec v u);
  subst; try discriminate; try contradiction; rewrite ?in_sadd; intuition (try discriminate; try congruence).
Qed.
Lemma nodup_R_add_ref d u v : (forall k x, NoDup (R d k x)) -> forall k x, NoDup (R (add_ref d u v) k x).
Proof.
  intros H k x. unfold add_ref. rewrite R_radd.
  assert (G : forall k x, NoDup (R (radd d Ref u v) k x)).
  { intros k' x'. rewrite R_radd. destruct (Z.eq_dec x' u); [destruct (kind_eq_dec k' Ref); [apply sadd_nodup|]|]; apply H. }
  destruct (Z.eq_dec x v); [destruct (kind_eq_dec k Refd); [apply sadd_nodup|]|]; apply G.
Qed.
Lemma relinv_add_ref d u v : RelInv d -> RelInv (add_ref d u v).
Proof.
  intros [H1 H2]. constructor; [now apply nodup_R_add_ref|]. intros x y. rewrite !in_R_add_ref, H2. intuition discriminate.
Qed.
Lemma softsym_add_ref d u v : SoftSym d -> SoftSym (add_ref d u v).
Proof.
  intros [H1 H2]. split.
  - intros x y. rewrite !in_R_add_ref. intros [H|[(E & _)|(E & _)]]; try discriminate. auto.
  - intros x. rewrite in_R_add_ref. intros [H|[(E & _)|(E & _)]]; try discriminate. eapply H2; eassumption.
Qed.
Lemma relinv_add_refs refs u : forall d, RelInv d -> RelInv (add_refs d u refs).
Proof. induction refs as [|[[] v] refs IH]; intros d H; cbn; [assumption|now apply IH|]. apply IH. now apply relinv_add_ref. Qed.
Lemma softsym_add_refs refs u : forall d, SoftSym d -> SoftSym (add_refs d u refs).
Proof. induction refs as [|[[] v] refs IH]; intros d H; cbn; [assumption|now apply IH|]. apply IH. now apply softsym_add_ref. Qed.

(** Deleting *)
Lemma del_from_ok k u l : forall d, NoDup l -> (forall v, In v l -> In u (R d k v)) ->
  exists d', del_from d k u l = (d', Ok tt) /\ dkeys d' = dkeys d /\
    forall k' v, R d' k' v = if kind_eq_dec k' k then (if in_dec Z.eq_dec v l then sdel u (R d k v) else R d k v) else R d k' v.
Proof.
  induction l as [|v l IH]; intros d Hn H; cbn [del_from].
  - exists d. repeat split. intros k' v. destruct (kind_eq_dec k' k) as [->|]; reflexivity.
  - inversion Hn as [|? ? Hv Hn']; subst.
    destruct (R_in_some d k v u (H v (or_introl eq_refl))) as [r Hr]. rewrite Hr.
    assert (zmem u (rget k r) = true) as ->.
    { apply zmem_iff. rewrite <- (R_some d v r k Hr). apply H. now left. }
    set (d1 := dset Z.eqb d v _).
    assert (G : forall k' x, R d1 k' x = if Z.eq_dec x v then (if kind_eq_dec k' k then sdel u (R d k v) else R d k' x) else R d k' x).
    { intros k' x. unfold d1. rewrite (R_update d v r) by assumption. now rewrite (R_some d v r k Hr). }
    destruct (IH d1 Hn') as (d' & E & Ek & ER).
    { intros x Hx. rewrite G. destruct (Z.eq_dec x v) as [->|]; [contradiction|]. apply H. now right. }
    exists d'. split; [assumption|]. split.
    + rewrite Ek. unfold d1. apply (dkeys_dset_present Z.eqb zeqb_iff). apply (dkeys_dget Z.eqb zeqb_iff). eauto.
    + intros k' x. rewrite ER, !G. destruct (kind_eq_dec k' k) as [->|N].
      * destruct (kind_eq_dec k k); [|contradiction].
        destruct (in_dec Z.eq_dec x l) as [Hi|Hi], (in_dec Z.eq_dec x (v :: l)) as [Hj|Hj], (Z.eq_dec x v) as [->|Nx];
          try reflexivity; try contradiction; try (exfalso; cbn in Hj; intuition congruence).
      * destruct (Z.eq_dec x v); reflexivity.
Qed.
Lemma del_soft_ok u l : forall d, NoDup l -> ~ In u l -> (forall v, In v l -> In u (R d Soft v)) ->
  exists d', del_soft d u l = (d', Ok tt) /\ dkeys d' = dkeys d /\
    forall k' v, R d' k' v = if kind_eq_dec k' Soft then (if in_dec Z.eq_dec v l then sdel u (R d Soft v) else R d Soft v) else R d k' v.
Proof.
  induction l as [|v l IH]; intros d Hn Hu H; cbn [del_soft].
  - exists d. repeat split. intros k' v. destruct (kind_eq_dec k' Soft) as [->|]; reflexivity.
  - inversion Hn as [|? ? Hv Hn']; subst.
    destruct (R_in_some d Soft v u (H v (or_introl eq_refl))) as [r Hr]. rewrite Hr.
    assert (zmem u (r_soft r) = true) as ->.
    { apply zmem_iff. change (r_soft r) with (rget Soft r). rewrite <- (R_some d v r Soft Hr). apply H. now left. }
    assert (v =? u = false) as -> by (apply Z.eqb_neq; intros ->; apply Hu; now left).
    set (d1 := dset Z.eqb d v _).
    assert (G : forall k' x, R d1 k' x = if Z.eq_dec x v then (if kind_eq_dec k' Soft then sdel u (R d Soft v) else R d k' x) else R d k' x).
    { intros k' x. unfold d1. rewrite (R_update d v r) by assumption. now rewrite (R_some d v r Soft Hr). }
    destruct (IH d1 Hn') as (d' & E & Ek & ER).
    { intros Hx. apply Hu. now right. }
    { intros x Hx. rewrite G. destruct (Z.eq_dec x v) as [->|]; [contradiction|]. apply H. now right. }
    exists d'. split; [assumption|]. split.
    + rewrite Ek. unfold d1. apply (dkeys_dset_present Z.eqb zeqb_iff). apply (dkeys_dget Z.eqb zeqb_iff). eauto.
    + intros k' x. rewrite ER, !G. destruct (kind_eq_dec k' Soft) as [->|N].
      * destruct (kind_eq_dec Soft Soft); [|contradiction].
        destruct (in_dec Z.eq_dec x l) as [Hi|Hi], (in_dec Z.eq_dec x (v :: l)) as [Hj|Hj], (Z.eq_dec x v) as [->|Nx];
          try reflexivity; try contradiction; try (exfalso; cbn in Hj; intuition congruence).
      * destruct (Z.eq_dec x v); reflexivity.
Qed.

Lemma R_ddel d u k v : R (ddel Z.eqb d u) k v = if Z.eq_dec v u then [] else R d k v.
Proof.
  unfold sets_of. destruct (Z.eq_dec v u) as [->|N].
  - now rewrite (dget_ddel_eq Z.eqb).
  - now rewrite (dget_ddel_neq Z.eqb zeqb_iff).
Qed.
Lemma sdel_absent x s : ~ In x s -> sdel x s = s.
Proof.
  induction s as [|y s IH]; cbn; [reflexivity|]. intros H. destruct (Z.eqb_spec y x); [exfalso; apply H; auto|]. cbn.
  f_equal. apply IH. tauto.
Qed.
Definition first_two (d : reldict) (u : Z) : reldict * res unit :=
  match del_from d Refd u (R d Ref u) with
  | (d1, Err e) => (d1, Err e)
  | (d1, Ok _) => del_from d1 Ref u (R d1 Refd u)
  end.
Lemma first_two_ok d u : RelInv d -> exists d2, first_two d u = (d2, Ok tt) /\ dkeys d2 = dkeys d /\
  (forall v, v <> u -> R d2 Ref v = sdel u (R d Ref v) /\ R d2 Refd v = sdel u (R d Refd v)) /\
  forall v, R d2 Soft v = R d Soft v.
Proof.
  intros [Hn Hh]. unfold first_two.
  destruct (del_from_ok Refd u (R d Ref u) d (Hn _ _)) as (d1 & -> & K1 & E1).
  { intros v Hv. now apply Hh. }
  assert (Hl : R d1 Refd u = sdel u (R d Refd u)).
  { rewrite E1. destruct (kind_eq_dec Refd Refd); [|contradiction]. destruct (in_dec Z.eq_dec u (R d Ref u)) as [|Ni]; [reflexivity|].
    symmetry. apply sdel_absent. intros Hx. apply Ni. now apply Hh. }
  destruct (del_from_ok Ref u (R d1 Refd u) d1) as (d2 & E & K2 & E2).
  { rewrite Hl. apply sdel_nodup, Hn. }
  { intros v Hv. rewrite Hl in Hv. apply in_sdel in Hv. rewrite E1. destruct (kind_eq_dec Ref Refd); [discriminate|]. apply Hh. tauto. }
  exists d2. split; [assumption|]. split; [congruence|]. split.
  - intros v Nv. rewrite !E2, !E1. destruct (kind_eq_dec Ref Ref); [|contradiction].
    destruct (kind_eq_dec Refd Ref); [discriminate|]. destruct (kind_eq_dec Refd Refd); [|contradiction].
    destruct (kind_eq_dec Ref Refd); [discriminate|].
    assert (Hin : In v (R d1 Refd u) <-> In u (R d Ref v)).
    { rewrite Hl, in_sdel, <- Hh. tauto. }
    assert (HR1 : R d1 Ref v = R d Ref v) by (rewrite E1; destruct (kind_eq_dec Ref Refd); [discriminate|reflexivity]).
    split.
    + destruct (kind_eq_dec Refd Refd); [|contradiction].
      destruct (in_dec Z.eq_dec v _) as [Hi|Hi]; [congruence|]. symmetry. apply sdel_absent.
      intros Hx. apply Hi. destruct (in_dec Z.eq_dec u (R d Ref u)) as [Hs|Hs].
      * apply in_sdel. split; [assumption|]. now apply Hh.
      * now apply Hh.
    + destruct (in_dec Z.eq_dec v (R d Ref u)) as [Hi|Hi]; [reflexivity|]. symmetry. apply sdel_absent.
      intros Hx. apply Hi. now apply Hh.
  - intros v. pose proof (E2 Soft v) as A. pose proof (E1 Soft v) as B. cbn in A, B. congruence.
Qed.

Lemma del_unfold d u : del_uuid_relations d u =
  match zget d u with
  | None => (d, Err KeyError)
  | Some _ => match first_two d u with
              | (d2, Err e) => (d2, Err e)
              | (d2, Ok _) => match del_soft d2 u (R d2 Soft u) with
                              | (d3, Err e) => (d3, Err e)
                              | (d3, Ok _) => (ddel Z.eqb d3 u, Ok tt)
                              end
              end
  end.
Proof.
  unfold del_uuid_relations, first_two. destruct (zget d u); [|reflexivity].
  destruct (del_from d Refd u (R d Ref u)) as [d1 [[]|]]; reflexivity.
Qed.

(** Whenever removal succeeds, hard relations stay symmetric. *)
Lemma del_soft_hard u l : forall d d' r, del_soft d u l = (d', r) ->
  (forall v, R d' Ref v = R d Ref v /\ R d' Refd v = R d Refd v) /\ dkeys d' = dkeys d /\
  (forall v, R d' Soft v = R d Soft v \/ R d' Soft v = sdel u (R d Soft v)).
Proof.
  assert (sdel_idem : forall s, sdel u (sdel u s) = sdel u s).
  { intros s. apply sdel_absent. rewrite in_sdel. tauto. }
  induction l as [|v l IH]; intros d d' r; cbn [del_soft]; [intros [= <- _]; auto|].
  destruct (zget d v) as [rv|] eqn:E; [|apply IH].
  destruct (zmem u (r_soft rv)); [|intros [= <- _]; auto].
  set (d1 := dset Z.eqb d v _).
  assert (G : forall k' x, R d1 k' x = if Z.eq_dec x v then (if kind_eq_dec k' Soft then sdel u (R d Soft v) else R d k' x) else R d k' x).
  { intros k' x. unfold d1. rewrite (R_update d v rv) by assumption. now rewrite (R_some d v rv Soft E). }
  assert (K : dkeys d1 = dkeys d).
  { apply (dkeys_dset_present Z.eqb zeqb_iff). apply (dkeys_dget Z.eqb zeqb_iff). eauto. }
  assert (B : (forall x, R d1 Ref x = R d Ref x /\ R d1 Refd x = R d Refd x) /\ dkeys d1 = dkeys d /\
    (forall x, R d1 Soft x = R d Soft x \/ R d1 Soft x = sdel u (R d Soft x))).
  { repeat split; try assumption; rewrite ?G; try (destruct (Z.eq_dec x v); reflexivity).
    intros x. rewrite G. destruct (Z.eq_dec x v) as [->|]; cbn; auto. }
  clearbody d1. destruct (v =? u); [intros [= <- _]; exact B|]. intros H. apply IH in H. destruct H as (H1 & H2 & H3).
  destruct B as (B1 & B2 & B3). repeat split; try congruence.
  - destruct (H1 v0), (B1 v0). congruence.
  - destruct (H1 v0), (B1 v0). congruence.
  - intros x. destruct (H3 x) as [-> | ->], (B3 x) as [-> | ->]; rewrite ?sdel_idem; auto.
Qed.

Lemma del_hard d u d' : RelInv d -> del_uuid_relations d u = (d', Ok tt) ->
  RelInv d' /\ (forall v, v <> u -> R d' Ref v = sdel u (R d Ref v) /\ R d' Refd v = sdel u (R d Refd v)) /\
  (forall k, R d' k u = []) /\ zget d' u = None.
Proof.
  intros HI. rewrite del_unfold. destruct (zget d u) eqn:Eu; [|discriminate].
  destruct (first_two_ok d u HI) as (d2 & -> & K2 & E2 & S2).
  destruct (del_soft d2 u (R d2 Soft u)) as [d3 [[]|e]] eqn:E3; [|discriminate]. intros [= <-].
  destruct (del_soft_hard _ _ _ _ _ E3) as (H3 & K3' & S3).
  assert (A : forall v, v <> u -> R (ddel Z.eqb d3 u) Ref v = sdel u (R d Ref v) /\ R (ddel Z.eqb d3 u) Refd v = sdel u (R d Refd v)).
  { intros v Nv. rewrite !R_ddel. destruct (Z.eq_dec v u); [contradiction|]. destruct (H3 v) as [-> ->]. auto. }
  assert (B : forall k, R (ddel Z.eqb d3 u) k u = []).
  { intros k. rewrite R_ddel. destruct (Z.eq_dec u u); [reflexivity|contradiction]. }
  split; [|split; [exact A|split; [exact B|apply (dget_ddel_eq Z.eqb)]]].
  destruct HI as [Hn Hh]. constructor.
  - intros k v. rewrite R_ddel. destruct (Z.eq_dec v u); [constructor|]. destruct k.
    + rewrite (proj1 (H3 v)), (proj1 (E2 v n)). apply sdel_nodup, Hn.
    + rewrite (proj2 (H3 v)), (proj2 (E2 v n)). apply sdel_nodup, Hn.
    + destruct (S3 v) as [->| ->]; rewrite S2; [|apply sdel_nodup]; apply Hn.
  - intros x y. destruct (Z.eq_dec x u) as [->|Nx]; destruct (Z.eq_dec y u) as [->|Ny]; rewrite ?B.
    + tauto.
    + rewrite (proj2 (A y Ny)), in_sdel. cbn. tauto.
    + rewrite (proj1 (A x Nx)), in_sdel. cbn. tauto.
    + rewrite (proj1 (A x Nx)), (proj2 (A y Ny)), !in_sdel, Hh. tauto.
Qed.

(** With mutual soft relations, removal of an entry that exists succeeds and leaves
    no mention. *)
Lemma del_total d u : RelInv d -> SoftSym d -> zget d u <> None ->
  exists d', del_uuid_relations d u = (d', Ok tt).
Proof.
  intros HI [S1 S2] Hu. rewrite del_unfold. destruct (zget d u) eqn:Eu; [|contradiction].
  destruct (first_two_ok d u HI) as (d2 & -> & K2 & E2 & S).
  destruct (del_soft_ok u (R d2 Soft u) d2) as (d3 & -> & _ & _).
  - rewrite S. apply HI.
  - rewrite S. apply S2.
  - intros v. rewrite !S. apply S1.
  - eauto.
Qed.
Lemma del_soft_sym d u d' : RelInv d -> SoftSym d -> del_uuid_relations d u = (d', Ok tt) ->
  SoftSym d' /\ (forall v, v <> u -> R d' Soft v = sdel u (R d Soft v)).
Proof.
  intros HI [S1 S2]. rewrite del_unfold. destruct (zget d u) eqn:Eu; [|discriminate].
  destruct (first_two_ok d u HI) as (d2 & -> & K2 & E2 & S).
  destruct (del_soft_ok u (R d2 Soft u) d2) as (d3 & -> & _ & E3).
  - rewrite S. apply HI.
  - rewrite S. apply S2.
  - intros v. rewrite !S. apply S1.
  - intros [= <-].
    assert (A : forall v, v <> u -> R (ddel Z.eqb d3 u) Soft v = sdel u (R d Soft v)).
    { intros v Nv. rewrite R_ddel. destruct (Z.eq_dec v u); [contradiction|]. rewrite E3.
      destruct (kind_eq_dec Soft Soft); [|contradiction]. rewrite !S.
      destruct (in_dec Z.eq_dec v (R d Soft u)) as [|Ni]; [reflexivity|].
      symmetry. apply sdel_absent. intros Hx. apply Ni. now apply S1. }
    split; [|exact A].
    assert (B : R (ddel Z.eqb d3 u) Soft u = []) by (rewrite R_ddel; destruct (Z.eq_dec u u); [reflexivity|contradiction]).
    split.
    + intros x y. destruct (Z.eq_dec x u) as [->|Nx]; [rewrite B; intros []|]. rewrite (A x Nx), in_sdel. intros [Ny Hy].
      rewrite (A y Ny), in_sdel. auto.
    + intros x. destruct (Z.eq_dec x u) as [->|Nx]; [rewrite B; intros []|]. rewrite (A x Nx), in_sdel. intros [_ Hy]. now apply (S2 x).
Qed.

(** Soft relations *)
Lemma R_soft_half d u v k x : R (soft_half d u v) k x =
  if Z.eq_dec x u then
    if kind_eq_dec k Soft then
      match zget d u with
      | Some r => if zmem v (r_ref r) || zmem v (r_refd r) then R d k x else sadd v (R d Soft u)
      | None => R d k x
      end
    else R d k x
  else R d k x.
Proof.
  unfold soft_half. destruct (zget d u) as [r|] eqn:E.
  - destruct (zmem v (r_ref r) || zmem v (r_refd r)).
    + destruct (Z.eq_dec x u), (kind_eq_dec k Soft); reflexivity.
    + rewrite (R_update d u r) by assumption. destruct (Z.eq_dec x u) as [->|]; [|reflexivity].
      destruct (kind_eq_dec k Soft) as [->|]; [|reflexivity].
      change (r_soft r) with (rget Soft r). now rewrite <- (R_some d u r Soft E).
  - destruct (Z.eq_dec x u), (kind_eq_dec k Soft); reflexivity.
Qed.
Lemma soft_half_hard d u v k x : k <> Soft -> R (soft_half d u v) k x = R d k x.
Proof. intros N. rewrite R_soft_half. destruct (kind_eq_dec k Soft); [contradiction|]. now destruct (Z.eq_dec x u). Qed.
Lemma soft_half_nodup d u v : (forall k x, NoDup (R d k x)) -> forall k x, NoDup (R (soft_half d u v) k x).
Proof.
  intros H k x. rewrite R_soft_half. destruct (Z.eq_dec x u); [|apply H]. destruct (kind_eq_dec k Soft); [|apply H].
  destruct (zget d u) as [r|]; [|apply H]. destruct (zmem _ _ || _); [apply H|apply sadd_nodup, H].
Qed.
Lemma relinv_soft d u v : RelInv d -> RelInv (soft_half d u v).
Proof.
  intros [H1 H2]. constructor; [now apply soft_half_nodup|]. intros x y. now rewrite !soft_half_hard by discriminate.
Qed.
Lemma in_soft_half d u v x y : u <> v -> zget d u <> None ->
  (In y (R (soft_half d u v) Soft x) <-> In y (R d Soft x) \/ (x = u /\ y = v /\ ~ In v (R d Ref u) /\ ~ In v (R d Refd u))).
Proof.
  intros N Hu. rewrite R_soft_half. destruct (zget d u) as [r|] eqn:E; [|contradiction].
  destruct (Z.eq_dec x u) as [->|Nx]; [|tauto].
  destruct (kind_eq_dec Soft Soft); [|contradiction].
  rewrite (R_some d u r Ref E), (R_some d u r Refd E). cbn.
  destruct (zmem v (r_ref r)) eqn:E1; cbn.
  - apply zmem_iff in E1. tauto.
  - apply zmem_false in E1. destruct (zmem v (r_refd r)) eqn:E2.
    + apply zmem_iff in E2. tauto.
    + apply zmem_false in E2. rewrite in_sadd. tauto.
Qed.
Lemma soft_half_some d u v w : zget d w <> None -> zget (soft_half d u v) w <> None.
Proof.
  intros H. unfold soft_half. destruct (zget d u) as [r|] eqn:E; [|assumption]. destruct (_ || _); [assumption|].
  destruct (Z.eq_dec w u) as [->|]; [rewrite (dget_dset_eq Z.eqb zeqb_iff); discriminate|].
  now rewrite (dget_dset_neq Z.eqb zeqb_iff).
Qed.
Lemma softsym_soft d a b : RelInv d -> SoftSym d -> a <> b -> zget d a <> None -> zget d b <> None ->
  SoftSym (soft_half (soft_half d a b) b a).
Proof.
  intros [Hn Hh] [S1 S2] N Ha Hb.
  assert (G : forall x y, In y (R (soft_half (soft_half d a b) b a) Soft x) <->
    In y (R d Soft x) \/ (((x = a /\ y = b) \/ (x = b /\ y = a)) /\ ~ In b (R d Ref a) /\ ~ In b (R d Refd a))).
  { intros x y. rewrite in_soft_half, in_soft_half; [|assumption|assumption|congruence|now apply soft_half_some].
    rewrite !soft_half_hard by discriminate. rewrite (Hh b a), <- (Hh a b). tauto. }
  split.
  - intros x y. rewrite !G. intros [H|H]; [left; now apply S1|]. right. tauto.
  - intros x. rewrite G. intros [H|[[[-> ->]|[-> ->]] _]]; [now apply (S2 x)|now apply N|now apply N].
Qed.

(** rels parts record the uuid in their name *)
Definition RelsNamed (m : mdl) : Prop := forall rp u tg, sget (relsf m) rp = Some (u, tg) -> uuid_in_part_name rp = Ok (Some u).

(** Documented use: uuids are real uuids; related nodes are different parts, both of
    which already take part in some relationship or are external parts. *)
Definition GoodOp (m : mdl) (o : fop) : Prop :=
  match o with
  | AddPart _ u _ _ _ _ => IsUuid u
  | CopyPart _ nu => IsUuid nu
  | DuplicateNode t _ => IsUuid (t_uuid t)
  | Relate a b _ => IsUuid (t_uuid a) /\ IsUuid (t_uuid b) /\ t_uuid a <> t_uuid b /\
                    zget (urels m) (t_uuid a) <> None /\ zget (urels m) (t_uuid b) <> None
  | _ => True
  end.
Definition UuidOp (m : mdl) (o : fop) : Prop :=
  match o with
  | AddPart _ u _ _ _ _ => IsUuid u
  | CopyPart _ nu => IsUuid nu
  | DuplicateNode t _ => IsUuid (t_uuid t)
  | Relate a b _ => IsUuid (t_uuid a) /\ IsUuid (t_uuid b)
  | _ => True
  end.
Lemma good_uuid m o : GoodOp m o -> UuidOp m o.
Proof. destruct o; cbn; tauto. Qed.

Lemma named_set m rp u tg m' : RelsNamed m -> uuid_in_part_name rp = Ok (Some u) ->
  relsf m' = dset str_eqb (relsf m) rp (u, tg) -> RelsNamed m'.
Proof.
  intros H Hr E rq v tg'. rewrite E. destruct (str_eqb rq rp) eqn:Eq.
  - apply str_eqb_iff in Eq. subst. rewrite (dget_dset_eq str_eqb str_eqb_iff). intros [= <- _]. assumption.
  - rewrite (dget_dset_neq str_eqb str_eqb_iff) by (intros ->; rewrite str_eqb_refl in Eq; discriminate). apply H.
Qed.
Lemma add_named m ct u t ar sub ad m' : RelsNamed m -> IsUuid u -> add_part m ct u t ar sub ad = (m', Ok tt) -> RelsNamed m'.
Proof.
  intros H Hu Ha. apply add_part_fields in Ha. destruct Ha as (ct' & p & x & Hp & _ & _ & _ & _ & _ & _ & [E|(rp & Er & E)] & _).
  - intros rq v tg. rewrite E. apply H.
  - eapply named_set; [exact H| |exact E]. rewrite Hp in Er. destruct (rels_name x u Hu) as (q & Hq & Hn). congruence.
Qed.

(** Relate's effect on the relationship dictionary *)
Lemma relate_effect m a b av m' : RelsNamed m -> IsUuid (t_uuid a) -> IsUuid (t_uuid b) -> relate m a b av = (m', Ok tt) ->
  RelsNamed m' /\ (urels m' = urels m \/ urels m' = soft_half (soft_half (urels m) (t_uuid a) (t_uuid b)) (t_uuid b) (t_uuid a)).
Proof.
  intros HN Ha Hb. unfold relate. destruct (negb (rels_present m)); [discriminate|].
  destruct (part_name_for_object (t_type a) _ _ _) as [pa|] eqn:Ea; [|discriminate].
  destruct (part_name_for_object (t_type b) _ _ _) as [pb|] eqn:Eb; [|discriminate].
  destruct (part_name_shape _ _ _ _ _ Ea) as [xa Hxa]. destruct (part_name_shape _ _ _ _ _ Eb) as [xb Hxb].
  destruct (rels_name xa _ Ha) as (ra & Hra & Hna). destruct (rels_name xb _ Hb) as (rb & Hrb & Hnb).
  rewrite Hxa, Hra, Hxb, Hrb.
  destruct (sget (relsf m) ra) as [[ua ta]|] eqn:E1; [|discriminate].
  destruct (sget (relsf m) rb) as [[ub tb]|] eqn:E2; [|discriminate].
  assert (ua = t_uuid a) as -> by (apply HN in E1; congruence).
  assert (ub = t_uuid b) as -> by (apply HN in E2; congruence).
  set (f1 := dset str_eqb (relsf m) ra _). destruct (dget str_eqb f1 rb) as [[w tb']|]; [|discriminate].
  set (m1 := set_relsf m _). assert (N1 : RelsNamed m1).
  { eapply (named_set (set_relsf m f1)); [|exact Hnb|reflexivity]. eapply named_set; [exact HN|exact Hna|reflexivity]. }
  destruct (is_ext_name ra || is_ext_name rb); intros [= <-]; (split; [exact N1|]); cbn; auto.
Qed.

Lemma support_effect m p o n m' r : change_support m p o n = (m', Ok r) -> relsf m' = relsf m /\
  (urels m' = urels m \/ exists u, zget (urels m) u <> None /\
    (forall x y, In y (R (urels m') Ref x) <-> (In y (R (urels m) Ref x) /\ ~ (x = u /\ y = o)) \/ (x = u /\ y = n)) /\
    (forall x y, In x (R (urels m') Refd y) <-> (In x (R (urels m) Refd y) /\ ~ (x = u /\ y = o)) \/ (x = u /\ y = n)) /\
    (forall x, R (urels m') Soft x = R (urels m) Soft x) /\
    ((forall k x, NoDup (R (urels m) k x)) -> forall k x, NoDup (R (urels m') k x))).
Proof.
  unfold change_support. destruct (sget (parts m) p) as [[[ct pu] t]|]; [|discriminate].
  destruct (t_support t) as [s|]; [|intros [= <- <-]; auto]. destruct (negb (s =? o)); [intros [= <- <-]; auto|].
  set (u := t_uuid t). destruct (zget (urels m) u) as [r0|] eqn:Eu; [|discriminate].
  set (d1 := dset Z.eqb (urels m) u _). destruct (dget Z.eqb d1 o) as [ro|] eqn:Eo; [|discriminate].
  set (d2 := dset Z.eqb d1 o _). destruct (dget Z.eqb d2 n) as [rn|] eqn:En; [|discriminate].
  intros [= <- _]. cbn [relsf urels set_parts set_urels]. split; [reflexivity|]. right. exists u. split; [congruence|].
  assert (G1 : forall k x, R d1 k x = if Z.eq_dec x u then (if kind_eq_dec k Ref then sadd n (sdel o (R (urels m) Ref u)) else R (urels m) k x) else R (urels m) k x).
  { intros. unfold d1. rewrite (R_update _ _ r0) by assumption. change (r_ref r0) with (rget Ref r0). now rewrite <- (R_some _ u r0 Ref Eu). }
  assert (G2 : forall k x, R d2 k x = if Z.eq_dec x o then (if kind_eq_dec k Refd then sdel u (R d1 Refd o) else R d1 k x) else R d1 k x).
  { intros. unfold d2. rewrite (R_update _ _ ro) by assumption. change (r_refd ro) with (rget Refd ro). now rewrite <- (R_some _ o ro Refd Eo). }
  set (d3 := dset Z.eqb d2 n _).
  assert (G3 : forall k x, R d3 k x = if Z.eq_dec x n then (if kind_eq_dec k Refd then sadd u (R d2 Refd n) else R d2 k x) else R d2 k x).
  { intros. change d3 with (dset Z.eqb d2 n (rset Refd rn (sadd u (r_refd rn)))). rewrite (R_update _ _ rn) by assumption. change (r_refd rn) with (rget Refd rn). now rewrite <- (R_some _ n rn Refd En). }
  clearbody d1 d2 d3.
  assert (D1 : forall x, R d1 Refd x = R (urels m) Refd x) by (intros; rewrite G1; destruct (Z.eq_dec x u); reflexivity).
  clearbody u.
  assert (RR : forall x, R d3 Ref x = if Z.eq_dec x u then sadd n (sdel o (R (urels m) Ref u)) else R (urels m) Ref x).
  { intros x. pose proof (G3 Ref x) as A3. pose proof (G2 Ref x) as A2. pose proof (G1 Ref x) as A1. cbn in A1, A2, A3.
    destruct (Z.eq_dec x n), (Z.eq_dec x o), (Z.eq_dec x u); congruence. }
  assert (RD : forall y, R d2 Refd y = if Z.eq_dec y o then sdel u (R (urels m) Refd y) else R (urels m) Refd y).
  { intros y. pose proof (G2 Refd y) as A2. cbn in A2. rewrite !D1 in A2. destruct (Z.eq_dec y o) as [->|]; assumption. }
  split; [|split; [|split]].
  - intros x y. rewrite RR. destruct (Z.eq_dec x u) as [->|N]; [|tauto]. rewrite in_sadd, in_sdel. tauto.
  - intros x y. rewrite G3. cbn. rewrite !RD. destruct (Z.eq_dec y n) as [->|N].
    + rewrite in_sadd. destruct (Z.eq_dec n o) as [->|N2]; rewrite ?in_sdel; destruct (Z.eq_dec x u); tauto.
    + destruct (Z.eq_dec y o) as [->|N2]; rewrite ?in_sdel; tauto.
  - intros x. pose proof (G3 Soft x) as A3. pose proof (G2 Soft x) as A2. pose proof (G1 Soft x) as A1. cbn in A1, A2, A3.
    destruct (Z.eq_dec x n), (Z.eq_dec x o), (Z.eq_dec x u); congruence.
  - intros H k x.
    assert (N1 : forall k x, NoDup (R d1 k x)).
    { intros k' x'. rewrite G1. destruct (Z.eq_dec x' u); [|apply H]. destruct (kind_eq_dec k' Ref); [|apply H]. apply sadd_nodup, sdel_nodup, H. }
    assert (N2 : forall k x, NoDup (R d2 k x)).
    { intros k' x'. rewrite G2. destruct (Z.eq_dec x' o); [|apply N1]. destruct (kind_eq_dec k' Refd); [|apply N1]. apply sdel_nodup, N1. }
    rewrite G3. destruct (Z.eq_dec x n); [|apply N2]. destruct (kind_eq_dec k Refd); [|apply N2]. apply sadd_nodup, N2.
Qed.

Record RInv (m : mdl) : Prop := { rv_rel : RelInv (urels m); rv_named : RelsNamed m }.
Lemma rinv_new rp : RInv (new_model rp).
Proof. constructor; [apply relinv_new|]. intros rq u tg. discriminate. Qed.

Lemma step_add_rinv m ct u t ar sub ad m' : RInv m -> IsUuid u -> add_part m ct u t ar sub ad = (m', Ok tt) ->
  RInv m' /\ (SoftSym (urels m) -> SoftSym (urels m')).
Proof.
  intros [H1 H2] Hu H. assert (HN := add_named _ _ _ _ _ _ _ _ H2 Hu H). apply add_part_fields in H.
  destruct H as (ct' & p & x & _ & _ & _ & _ & _ & _ & _ & _ & E & _). split.
  - constructor; [|assumption]. destruct E as [->| ->]; [assumption|now apply relinv_add_refs].
  - intros S. destruct E as [->| ->]; [assumption|now apply softsym_add_refs].
Qed.

Lemma step_rinv m o m' : RInv m -> UuidOp m o -> fstep m o = (m', Ok tt) ->
  RInv m' /\ (SoftSym (urels m) -> GoodOp m o -> SoftSym (urels m')).
Proof.
  intros [HR HN] Hu H. destruct o as [ct u t ar sub ad|p t|p rr|u nu|t ad|a b av|p o n]; cbn [fstep] in H; cbn in Hu.
  - destruct (step_add_rinv m ct u t ar sub ad m' (Build_RInv m HR HN) Hu H). auto.
  - unfold patch_root_for_part in H. destruct (sget (parts m) p) as [[[ct u] t0]|]; [|discriminate].
    destruct (u =? t_uuid t); [|discriminate]. injection H as <-. unfold add_to_object_parts.
    destruct (is_obj_part p); cbn; (split; [constructor; assumption|auto]).
  - destruct (remove_part_ok _ _ _ _ H) as (m1 & _ & _ & _ & _ & Eu & _ & He & Hrels & _).
    apply remove_entries_fields in He. destruct He as (ct & u & t & d & _ & Hd & Ed & _ & _ & _ & _ & Er & _).
    rewrite Eu in Hd. destruct (del_hard _ _ _ HR Hd) as (HI & _). rewrite <- Ed in HI, Hd. split.
    + constructor; [assumption|]. intros rq v tg. rewrite Er. intros Hq. apply Hrels in Hq. destruct Hq as [tg' Hq]. eapply HN; eassumption.
    + intros S _. now apply (del_soft_sym _ _ _ HR S Hd).
  - unfold copy_part in H. destruct (zget (u2p m) u) as [p|]; [|injection H as <-; split; [constructor; assumption|auto]].
    destruct (sget (parts m) p) as [[[ct ou] t]|]; [|discriminate]. destruct (ou =? u); [|discriminate].
    destruct (step_add_rinv _ _ _ _ _ _ _ _ (Build_RInv m HR HN) Hu H). auto.
  - unfold duplicate_node in H. destruct (zget (u2p m) (t_uuid t)); [injection H as <-; split; [constructor; assumption|auto]|].
    destruct (step_add_rinv _ _ _ _ _ _ _ _ (Build_RInv m HR HN) Hu H). auto.
  - destruct Hu as [Ha Hb]. destruct (relate_effect _ _ _ _ _ HN Ha Hb H) as [HN' E]. split.
    + constructor; [|assumption]. destruct E as [->| ->]; [assumption|]. now apply relinv_soft, relinv_soft.
    + intros S (_ & _ & Nab & Hea & Heb). destruct E as [->| ->]; [assumption|]. now apply softsym_soft.
  - destruct (change_support m p o n) as [m1 [r|]] eqn:E; [|discriminate]. injection H as <-.
    destruct (support_effect _ _ _ _ _ _ E) as [Er [Eu|(u & _ & E1 & E2 & E3 & E4)]].
    + split; [|rewrite Eu; auto]. constructor; [now rewrite Eu|]. intros rq v tg. rewrite Er. apply HN.
    + split.
      * constructor; [|intros rq v tg; rewrite Er; apply HN]. constructor; [apply E4, HR|].
        intros x y. rewrite E1, E2, (ri_hard _ HR). tauto.
      * intros [S1 S2] _. split; [intros x y; rewrite !E3; apply S1|intros x; rewrite E3; apply S2].
Qed.
Lemma run_rinv m os m' : Run UuidOp m os m' -> RInv m -> RInv m'.
Proof. induction 1; intros; [assumption|]. apply IHRun. eapply step_rinv; eauto. Qed.
Lemma run_soft m os m' : Run GoodOp m os m' -> RInv m -> SoftSym (urels m) -> RInv m' /\ SoftSym (urels m').
Proof.
  induction 1; intros HI HS; [auto|]. destruct (step_rinv m o m1 HI (good_uuid _ _ H) H0) as [H2 H3]. apply IHRun; auto.
Qed.
