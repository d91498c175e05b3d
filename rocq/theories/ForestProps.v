(** ForestProps.v: property theorems about the part catalogue (C18, C19, C22). *)
From Verif Require Import Base TextModel StrModel StrProofs UuidModel UuidProofs PyDict ForestModel ForestProofs.

Lemma run_impl (P Q : mdl -> fop -> Prop) m os m' : (forall a o, P a o -> Q a o) -> Run P m os m' -> Run Q m os m'.
Proof. intros H. induction 1; [constructor|]. econstructor; eauto. Qed.

(** * C18 *)
(** [Run FreshOp (new_model rp) os m]: m is reached from a new model by the accepted
    operations os, each addition using a uuid not yet in the catalogue. *)
Theorem C18_catalogue_consistent_partial : forall rp os m, Run FreshOp (new_model rp) os m ->
  (* a catalogued uuid names exactly the part recording that uuid *)
  (forall u p, zget (u2p m) u = Some p <-> exists ct t, sget (parts m) p = Some (ct, u, t)) /\
  (* distinct parts record distinct uuids, found in their names *)
  (forall p q ct ct' u t t', sget (parts m) p = Some (ct, u, t) -> sget (parts m) q = Some (ct', u, t') -> p = q) /\
  (forall p ct u t, sget (parts m) p = Some (ct, u, t) -> uuid_in_part_name p = Ok (Some u)) /\
  (* no part is listed twice; list_of_parts and the content list agree with the forest *)
  NoDup (dkeys (parts m)) /\ dkeys (objs m) = filter is_obj_part (dkeys (parts m)) /\ main m = dkeys (parts m).
Proof.
  intros rp os m H. apply run_cat in H; [|apply cat_new].
  split; [|split; [|split; [|split; [|split]]]].
  - intros u p. split; [apply H|]. intros (ct & t & E). now apply (c_part_uuid m H) in E.
  - intros p q ct ct' u t t' E1 E2. apply (c_part_uuid m H) in E1, E2. destruct E1, E2. congruence.
  - intros p ct u t E. now apply (c_part_uuid m H) in E.
  - apply H.
  - apply H.
  - apply H.
Qed.
Print Assumptions C18_catalogue_consistent_partial.

(** An added part is found by its uuid ... *)
Theorem C18_added_part_is_found : forall m ct u t ar sub ad m', IsUuid u ->
  add_part m ct u t ar sub ad = (m', Ok tt) ->
  exists p ct', zget (u2p m') u = Some p /\ sget (parts m') p = Some (ct', u, t) /\ uuid_in_part_name p = Ok (Some u) /\
    (ct' = ct \/ ct' = L "obj_" ++ ct).
Proof.
  intros m ct u t ar sub ad m' Hu H. apply add_part_fields in H.
  destruct H as (ct' & p & x & Hp & Hn & E1 & _ & E3 & _ & _ & _ & _ & _ & _ & Hct).
  exists p, ct'. rewrite E1, E3, (dget_dset_eq str_eqb str_eqb_iff), (dget_dset_eq Z.eqb zeqb_iff). repeat split; [|assumption].
  rewrite Hp. now apply uuid_in_name.
Qed.
Print Assumptions C18_added_part_is_found.

(** ... and stays in the model, with the same class and uuid, through any accepted
    history that does not remove it. *)
Definition removes (p : str) (o : fop) : bool := match o with RemovePart q _ => str_eqb q p | _ => false end.
Lemma step_persist m o m' p ct u t : Cat m -> FreshOp m o -> fstep m o = (m', Ok tt) -> removes p o = false ->
  sget (parts m) p = Some (ct, u, t) -> exists t', sget (parts m') p = Some (ct, u, t').
Proof.
  intros C Hf H Hr Hp. destruct (c_part_uuid m C _ _ _ _ Hp) as [Hu Hn].
  assert (ADD : forall ct v t ar sub ad, IsUuid v -> zget (u2p m) v = None -> add_part m ct v t ar sub ad = (m', Ok tt) ->
    exists t', sget (parts m') p = Some (ct, u, t') \/ sget (parts m') p = sget (parts m) p).
  { intros ct0 v t0 ar sub ad Hv Hfr Ha. apply add_part_fields in Ha.
    destruct Ha as (ct' & q & x & Hq & _ & E1 & _). exists t. right. rewrite E1.
    apply (dget_dset_neq str_eqb str_eqb_iff). intros ->. subst q. rewrite (uuid_in_name x v Hv) in Hn. congruence. }
  assert (ADD' : forall ct0 v t0 ar sub ad, IsUuid v -> zget (u2p m) v = None -> add_part m ct0 v t0 ar sub ad = (m', Ok tt) ->
    exists t', sget (parts m') p = Some (ct, u, t')).
  { intros ct0 v t0 ar sub ad Hv Hfr Ha. apply add_part_fields in Ha.
    destruct Ha as (ct' & q & x & Hq & _ & E1 & _). exists t. rewrite E1.
    rewrite (dget_dset_neq str_eqb str_eqb_iff); [assumption|]. intros ->. subst q. rewrite (uuid_in_name x v Hv) in Hn. congruence. }
  clear ADD.
  assert (SET : forall q ct0 v t0 t1, sget (parts m) q = Some (ct0, v, t0) ->
    exists t', sget (dset str_eqb (parts m) q (ct0, v, t1)) p = Some (ct, u, t')).
  { intros q ct0 v t0 t1 Hq. destruct (str_eqb p q) eqn:E.
    - apply str_eqb_iff in E. subst q. rewrite (dget_dset_eq str_eqb str_eqb_iff). rewrite Hp in Hq. injection Hq as <- <- <-. eauto.
    - rewrite (dget_dset_neq str_eqb str_eqb_iff) by (intros ->; rewrite str_eqb_refl in E; discriminate). eauto. }
  destruct o as [ct0 v t0 ar sub ad|q t0|q rr|v nu|t0 ad|a b av|q o n]; cbn [fstep] in H.
  - destruct Hf. eapply ADD'; eauto.
  - unfold patch_root_for_part in H. destruct (sget (parts m) q) as [[[ct0 v] t1]|] eqn:Eq; [|discriminate].
    destruct (v =? t_uuid t0); [|discriminate]. injection H as <-. unfold add_to_object_parts.
    destruct (is_obj_part q); cbn; eapply SET; eassumption.
  - destruct (remove_part_ok _ _ _ _ H) as (m1 & E1 & _ & _ & _ & _ & _ & He & _).
    apply remove_entries_fields in He. destruct He as (_ & _ & _ & _ & _ & _ & _ & _ & E & _). rewrite E, E1.
    rewrite (dget_ddel_neq str_eqb str_eqb_iff); [eauto|]. intros ->. cbn in Hr. rewrite str_eqb_refl in Hr. discriminate.
  - unfold copy_part in H. destruct (zget (u2p m) v) as [q|]; [|injection H as <-; eauto].
    destruct (sget (parts m) q) as [[[ct0 ou] t1]|]; [|discriminate]. destruct (ou =? v); [|discriminate].
    destruct Hf. eapply ADD'; [| |exact H]; assumption.
  - unfold duplicate_node in H. destruct (zget (u2p m) (t_uuid t0)) eqn:E; [injection H as <-; eauto|].
    eapply ADD'; [| |exact H]; assumption.
  - apply relate_fields in H. destruct H as (-> & _). eauto.
  - unfold change_support in H. destruct (sget (parts m) q) as [[[ct0 v] t1]|] eqn:Eq; [|discriminate].
    destruct (t_support t1) as [s|]; [|injection H as <-; eauto]. destruct (negb (s =? o)); [injection H as <-; eauto|].
    destruct (zget (urels m) (t_uuid t1)) as [r0|]; [|discriminate].
    destruct (dget Z.eqb _ o) as [ro|]; [|discriminate]. destruct (dget Z.eqb _ n) as [rn|]; [|discriminate].
    injection H as <-. cbn. eapply SET; eassumption.
Qed.
Theorem C18_parts_persist : forall rp os1 m os2 m' p ct u t, Run FreshOp (new_model rp) os1 m -> Run FreshOp m os2 m' ->
  forallb (fun o => negb (removes p o)) os2 = true -> sget (parts m) p = Some (ct, u, t) ->
  (exists t', sget (parts m') p = Some (ct, u, t')) /\ zget (u2p m') u = Some p.
Proof.
  intros rp os1 m os2 m' p ct u t H1 H2 Hr Hp. apply run_cat in H1; [|apply cat_new].
  assert (G : (exists t', sget (parts m') p = Some (ct, u, t')) /\ Cat m').
  { revert t Hp. induction H2 as [m|m m1 m2 o os Hf Hs Hrun IH]; intros t Hp; [split; eauto|].
    cbn in Hr. apply andb_true_iff in Hr. destruct Hr as [Hr1 Hr2]. apply negb_true_iff in Hr1.
    destruct (step_persist m o m1 p ct u t H1 Hf Hs Hr1 Hp) as [t1 Ht1].
    apply (IH (step_cat _ _ _ H1 Hf Hs) Hr2 _ Ht1). }
  destruct G as [[t' Ht'] C]. split; [eauto|]. now apply (c_part_uuid m' C) in Ht'.
Qed.
Print Assumptions C18_parts_persist.

(** The uuid in the root of each part's xml is the uuid the part is catalogued under, when
    additions pass a root that carries the uuid given. *)
Definition RootedOp (m : mdl) (o : fop) : Prop :=
  match o with AddPart _ u t _ _ _ => t_uuid t = u | _ => True end.
Definition Rooted (m : mdl) : Prop := forall p ct u t, sget (parts m) p = Some (ct, u, t) -> t_uuid t = u.
Lemma rooted_set m p ct u t : Rooted m -> t_uuid t = u ->
  forall q c v w, sget (dset str_eqb (parts m) p (ct, u, t)) q = Some (c, v, w) -> t_uuid w = v.
Proof.
  intros R E q c v w H. destruct (str_eqb q p) eqn:Eq.
  - apply str_eqb_iff in Eq. subst q. rewrite (dget_dset_eq str_eqb str_eqb_iff) in H. injection H as <- <- <-. exact E.
  - rewrite (dget_dset_neq str_eqb str_eqb_iff) in H by (intros ->; rewrite str_eqb_refl in Eq; discriminate). eapply R; eassumption.
Qed.
Lemma step_rooted m o m' : Rooted m -> RootedOp m o -> fstep m o = (m', Ok tt) -> Rooted m'.
Proof.
  intros R Ho H.
  assert (ADD : forall ct u t ar sub ad, t_uuid t = u -> add_part m ct u t ar sub ad = (m', Ok tt) -> Rooted m').
  { intros ct u t ar sub ad E Ha. apply add_part_fields in Ha. destruct Ha as (ct' & p & x & _ & _ & E1 & _).
    intros q c v w. rewrite E1. now apply rooted_set. }
  destruct o as [ct u t ar sub ad|q t0|q rr|v nu|t0 ad|a b av|q o n]; cbn [fstep RootedOp] in *.
  - eapply ADD; eauto.
  - unfold patch_root_for_part in H. destruct (sget (parts m) q) as [[[ct v] t1]|] eqn:Eq; [|discriminate].
    destruct (v =? t_uuid t0) eqn:E; [|discriminate]. apply Z.eqb_eq in E. injection H as <-. unfold add_to_object_parts, Rooted.
    destruct (is_obj_part q); cbn; now apply rooted_set.
  - destruct (remove_part_ok _ _ _ _ H) as (m1 & E1 & _ & _ & _ & _ & _ & He & _).
    apply remove_entries_fields in He. destruct He as (_ & _ & _ & _ & _ & _ & _ & _ & E & _).
    intros p c v w. rewrite E, E1. destruct (str_eqb p q) eqn:Eq.
    + apply str_eqb_iff in Eq. subst p. rewrite dget_ddel_eq. discriminate.
    + rewrite (dget_ddel_neq str_eqb str_eqb_iff) by (intros ->; rewrite str_eqb_refl in Eq; discriminate). apply R.
  - unfold copy_part in H. destruct (zget (u2p m) v) as [q|]; [|injection H as <-; assumption].
    destruct (sget (parts m) q) as [[[ct0 ou] t1]|]; [|discriminate]. destruct (ou =? v); [|discriminate].
    eapply ADD; [|exact H]. reflexivity.
  - unfold duplicate_node in H. destruct (zget (u2p m) (t_uuid t0)); [injection H as <-; assumption|].
    eapply ADD; [|exact H]. reflexivity.
  - apply relate_fields in H. destruct H as (E & _). unfold Rooted. now rewrite E.
  - unfold change_support in H. destruct (sget (parts m) q) as [[[ct0 v] t1]|] eqn:Eq; [|discriminate].
    destruct (t_support t1) as [s|]; [|injection H as <-; assumption]. destruct (negb (s =? o)); [injection H as <-; assumption|].
    destruct (zget (urels m) (t_uuid t1)) as [r0|]; [|discriminate].
    destruct (dget Z.eqb _ o) as [ro|]; [|discriminate]. destruct (dget Z.eqb _ n) as [rn|]; [|discriminate].
    injection H as <-. unfold Rooted. cbn. apply rooted_set; [assumption|]. cbn. eapply R; eassumption.
Qed.
Theorem C18_roots_carry_their_uuid : forall rp os m, Run RootedOp (new_model rp) os m ->
  forall p ct u t, sget (parts m) p = Some (ct, u, t) -> t_uuid t = u.
Proof.
  intros rp os m H. assert (G : forall a b os, Run RootedOp a os b -> Rooted a -> Rooted b).
  { clear. intros a b os H. induction H; intros R; [assumption|]. apply IHRun. eapply step_rooted; eauto. }
  apply (G _ _ _ H). intros p ct u t E. discriminate.
Qed.
Print Assumptions C18_roots_carry_their_uuid.

(** Finding: add_part does not refuse a uuid already in use by a part of another
    class, which leaves the earlier part in the forest but out of the catalogue. *)
Definition mk_tree (ty : string) (u : Z) (refs : list Z) : tree :=
  Tree (L ty) u (map (fun r => (false, r)) refs) None (L "t") (L "2020") [] [].
Definition AnyOp (m : mdl) (o : fop) : Prop := True.
Theorem C18_catalogue_consistent_refuted : exists os m p ct t, Run AnyOp (new_model true) os m /\
  sget (parts m) p = Some (ct, 7, t) /\ zget (u2p m) 7 <> Some p.
Proof.
  exists [AddPart (L "obj_A") 7 (mk_tree "obj_A" 7 []) true None true; AddPart (L "obj_B") 7 (mk_tree "obj_B" 7 []) true None true].
  eexists. exists (L "obj_A_00000000-0000-0000-0000-000000000007.xml"), (L "obj_A"), (mk_tree "obj_A" 7 []).
  split; [|split].
  - eapply run_cons; [exact Logic.I|vm_compute; reflexivity|]. eapply run_cons; [exact Logic.I|vm_compute; reflexivity|]. apply run_nil.
  - vm_compute. reflexivity.
  - vm_compute. discriminate.
Qed.
Print Assumptions C18_catalogue_consistent_refuted.

(** A history used as an example below: a crs, a grid on it, a property of the grid. *)
Definition ex_ops : list fop :=
  [ AddPart (L "obj_LocalDepth3dCrs") 1 (mk_tree "obj_LocalDepth3dCrs" 1 []) true None true;
    AddPart (L "obj_IjkGridRepresentation") 2 (mk_tree "obj_IjkGridRepresentation" 2 [1]) true None true;
    AddPart (L "ContinuousProperty") 3 (mk_tree "obj_ContinuousProperty" 3 [2]) true None true;
    Relate (mk_tree "obj_ContinuousProperty" 3 [2]) (mk_tree "obj_LocalDepth3dCrs" 1 []) true;
    Relate (mk_tree "obj_ContinuousProperty" 3 [2]) (mk_tree "obj_IjkGridRepresentation" 2 [1]) true ].
Definition FGOp (m : mdl) (o : fop) : Prop := FreshOp m o /\ GoodOp m o.
(** Running a history by computation, checking each operation first. *)
Definition uuidb (u : Z) : bool := (0 <=? u) && (u <? uuid_bound).
Definition is_none {A} (o : option A) : bool := match o with None => true | _ => false end.
Definition uopb (m : mdl) (o : fop) : bool :=
  match o with
  | AddPart _ u _ _ _ _ => uuidb u | CopyPart _ nu => uuidb nu | DuplicateNode t _ => uuidb (t_uuid t)
  | Relate a b _ => uuidb (t_uuid a) && uuidb (t_uuid b) | _ => true
  end.
Definition fgb (m : mdl) (o : fop) : bool :=
  uopb m o && match o with
  | AddPart _ u _ _ _ _ => is_none (zget (u2p m) u) | CopyPart _ nu => is_none (zget (u2p m) nu)
  | Relate a b _ => negb (t_uuid a =? t_uuid b) && negb (is_none (zget (urels m) (t_uuid a))) && negb (is_none (zget (urels m) (t_uuid b)))
  | _ => true
  end.
Fixpoint run_b (f : mdl -> fop -> bool) (m : mdl) (os : list fop) : option mdl :=
  match os with
  | [] => Some m
  | o :: os => if f m o then match fstep m o with (m', Ok _) => run_b f m' os | _ => None end else None
  end.
Definition run_or (f : mdl -> fop -> bool) (os : list fop) : mdl := match run_b f (new_model true) os with Some m => m | None => new_model true end.
Lemma run_b_ok f (P : mdl -> fop -> Prop) os : (forall m o, f m o = true -> P m o) -> forall m m', run_b f m os = Some m' -> Run P m os m'.
Proof.
  intros Hf. induction os as [|o os IH]; intros m m' H; cbn in H; [injection H as <-; constructor|].
  destruct (f m o) eqn:E; [|discriminate]. destruct (fstep m o) as [m1 [[]|]] eqn:Es; [|discriminate]. econstructor; eauto.
Qed.
Lemma run_or_ok f (P : mdl -> fop -> Prop) os : (forall m o, f m o = true -> P m o) -> is_none (run_b f (new_model true) os) = false -> Run P (new_model true) os (run_or f os).
Proof. intros Hf H. apply (run_b_ok f P os Hf). unfold run_or. destruct (run_b f (new_model true) os); [reflexivity|discriminate]. Qed.
Lemma uopb_ok m o : uopb m o = true -> UuidOp m o.
Proof. destruct o; cbn; unfold uuidb, IsUuid; intros; repeat rewrite andb_true_iff in *; repeat split; lia. Qed.
Lemma is_none_ok {A} (o : option A) : is_none o = true -> o = None. Proof. destruct o; [discriminate|reflexivity]. Qed.
Lemma is_none_no {A} (o : option A) : negb (is_none o) = true -> o <> None. Proof. destruct o; [discriminate|discriminate]. Qed.
Lemma fgb_ok m o : fgb m o = true -> FGOp m o.
Proof.
  unfold fgb, FGOp. rewrite andb_true_iff. intros [H1 H2]. apply uopb_ok in H1.
  destruct o; cbn in *; repeat rewrite andb_true_iff in *; repeat match goal with H : _ /\ _ |- _ => destruct H end;
  repeat split; auto using is_none_ok, is_none_no.
  all: unfold IsUuid in *; try lia.
Qed.
Ltac runs f ok := apply (run_or_ok f); [exact ok|vm_compute; reflexivity].
Lemma ex_run : exists m, Run FGOp (new_model true) ex_ops m /\ zget (u2p m) 3 = Some (L "obj_ContinuousProperty_00000000-0000-0000-0000-000000000003.xml")
  /\ R (urels m) Soft 3 = [1] /\ R (urels m) Ref 3 = [2] /\ R (urels m) Refd 2 = [3].
Proof. exists (run_or fgb ex_ops). split; [runs fgb fgb_ok|]. repeat split; vm_compute; reflexivity. Qed.
Example C18_example : exists m, Run FreshOp (new_model true) ex_ops m.
Proof. destruct ex_run as (m & H & _). exists m. eapply run_impl; [|exact H]. intros a o [Ha _]. exact Ha. Qed.

(** * C19 *)
(** [UuidOp]: the uuids passed are uuids. *)
Theorem C19_references_symmetric : forall rp os m, Run UuidOp (new_model rp) os m ->
  forall u v, In v (R (urels m) Ref u) <-> In u (R (urels m) Refd v).
Proof. intros rp os m H. apply run_rinv in H; [|apply rinv_new]. apply H. Qed.
Print Assumptions C19_references_symmetric.

(** Soft relations are mutual too, when relationships are only created between
    different parts that already take part in some relationship. *)
Theorem C19_soft_relations_mutual_partial : forall rp os m, Run GoodOp (new_model rp) os m ->
  forall u v, (In v (R (urels m) Soft u) <-> In u (R (urels m) Soft v)) /\ ~ In u (R (urels m) Soft u).
Proof.
  intros rp os m H u v. apply run_soft in H; [|apply rinv_new|apply softsym_new].
  destruct H as [_ [S1 S2]]. split; [split; apply S1|apply S2].
Qed.
Print Assumptions C19_soft_relations_mutual_partial.

(** Hence "is related to", as used by the related_uuid filter, is symmetric. *)
Theorem C19_relatedness_symmetric_partial : forall rp os m, Run GoodOp (new_model rp) os m ->
  forall u v, In v (rel_all (urels m) u) <-> In u (rel_all (urels m) v).
Proof.
  intros rp os m H u v. apply run_soft in H; [|apply rinv_new|apply softsym_new].
  destruct H as [[[_ Hh] _] [S1 _]]. unfold rel_all. rewrite !in_app_iff, (Hh u v), (Hh v u).
  assert (In v (R (urels m) Soft u) <-> In u (R (urels m) Soft v)) by (split; apply S1). tauto.
Qed.
Print Assumptions C19_relatedness_symmetric_partial.

(** No relation mentions a removed part. *)
Theorem C19_no_dangling_after_removal_partial : forall rp os m p rr m' u ct t, Run GoodOp (new_model rp) os m ->
  sget (parts m) p = Some (ct, u, t) -> remove_part m p rr = (m', Ok tt) ->
  forall k v, ~ In u (R (urels m') k v) /\ R (urels m') k u = [].
Proof.
  intros rp os m p rr m' u ct t H Hp Hr k v. apply run_soft in H; [|apply rinv_new|apply softsym_new].
  destruct H as [[HR _] HS]. destruct (remove_part_ok _ _ _ _ Hr) as (m1 & E1 & _ & _ & _ & Eu & _ & He & _).
  apply remove_entries_fields in He. destruct He as (ct' & u' & t' & d & Hp' & Hd & Ed & _).
  rewrite E1, Hp in Hp'. injection Hp' as <- <- <-. rewrite Eu in Hd. rewrite Ed.
  destruct (del_hard _ _ _ HR Hd) as (_ & A & B & _). destruct (del_soft_sym _ _ _ HR HS Hd) as [_ D].
  split; [|apply B]. destruct (Z.eq_dec v u) as [->|N]; [rewrite B; intros []|].
  destruct k; [rewrite (proj1 (A v N))|rewrite (proj2 (A v N))|rewrite (D v N)]; rewrite in_sdel; tauto.
Qed.
Print Assumptions C19_no_dangling_after_removal_partial.

(** In a model built by additions (add_to_rels_dict left True), the recorded
    references of every part are exactly the references in its xml. *)
Definition BuildOp (m : mdl) (o : fop) : Prop :=
  match o with
  | AddPart _ u _ _ _ ad => IsUuid u /\ zget (u2p m) u = None /\ ad = true
  | CopyPart _ nu => IsUuid nu /\ zget (u2p m) nu = None
  | DuplicateNode t ad => IsUuid (t_uuid t) /\ ad = true
  | Relate a b _ => IsUuid (t_uuid a) /\ IsUuid (t_uuid b)
  | PatchRoot _ _ | RemovePart _ _ | ChangeSupport _ _ _ => False
  end.
Definition Mirror (m : mdl) : Prop := forall u v, In v (R (urels m) Ref u) <->
  exists p ct t, sget (parts m) p = Some (ct, u, t) /\ is_ext_name p = false /\ In (false, v) (obj_refs t).
Lemma in_R_add_refs refs u : forall d x y, In y (R (add_refs d u refs) Ref x) <-> In y (R d Ref x) \/ (x = u /\ In (false, y) refs).
Proof.
  induction refs as [|[[] v] refs IH]; intros d x y; cbn.
  - tauto.
  - fold (add_refs d u refs). rewrite IH. intuition discriminate.
  - fold (add_refs (add_ref d u v) u refs). rewrite IH, in_R_add_ref.
    assert (E : (false, v) = (false, y) <-> y = v) by (split; congruence). rewrite E. intuition (try discriminate).
Qed.
Lemma mirror_add m ct u t ar sub m' : Cat m -> Mirror m -> IsUuid u -> zget (u2p m) u = None ->
  add_part m ct u t ar sub true = (m', Ok tt) -> Mirror m'.
Proof.
  intros C M Hu Hf H. apply add_part_fields in H.
  destruct H as (ct' & p & x & Hp & _ & E1 & _ & _ & _ & _ & _ & _ & Ea & Ee & _).
  assert (Hup : uuid_in_part_name p = Ok (Some u)) by (rewrite Hp; now apply uuid_in_name).
  assert (Hnone : forall q c w, sget (parts m) q <> Some (c, u, w)).
  { intros q c w Hq. apply (c_part_uuid m C) in Hq. destruct Hq. congruence. }
  assert (Hnp : sget (parts m) p = None).
  { destruct (sget (parts m) p) as [[[c v] w]|] eqn:E; [|reflexivity]. exfalso.
    destruct (c_part_uuid m C _ _ _ _ E) as [_ H2]. rewrite Hup in H2. injection H2 as <-. eapply Hnone; eassumption. }
  intros a b. assert (GP : (exists q c w, sget (parts m') q = Some (c, a, w) /\ is_ext_name q = false /\ In (false, b) (obj_refs w)) <->
    (exists q c w, sget (parts m) q = Some (c, a, w) /\ is_ext_name q = false /\ In (false, b) (obj_refs w)) \/
    (a = u /\ is_ext_name p = false /\ In (false, b) (obj_refs t))).
  { rewrite E1. split.
    - intros (q & c & w & Hq & Hx & Hb). destruct (str_eqb q p) eqn:E.
      + apply str_eqb_iff in E. subst q. rewrite (dget_dset_eq str_eqb str_eqb_iff) in Hq. injection Hq as <- <- <-. auto.
      + rewrite (dget_dset_neq str_eqb str_eqb_iff) in Hq by (intros ->; rewrite str_eqb_refl in E; discriminate). left. eauto 7.
    - intros [(q & c & w & Hq & Hx & Hb)|(-> & Hx & Hb)].
      + exists q, c, w. rewrite (dget_dset_neq str_eqb str_eqb_iff); [auto|]. intros ->. congruence.
      + exists p, ct', t. rewrite (dget_dset_eq str_eqb str_eqb_iff). auto. }
  rewrite GP. destruct (is_ext_name p) eqn:Ex.
  - rewrite (Ee eq_refl), (M a b). intuition discriminate.
  - rewrite (Ea eq_refl eq_refl), in_R_add_refs, (M a b). tauto.
Qed.
Lemma step_mirror m o m' : Cat m -> RInv m -> Mirror m -> BuildOp m o -> fstep m o = (m', Ok tt) -> Cat m' /\ RInv m' /\ Mirror m'.
Proof.
  intros C HI M Hb H.
  assert (F : FreshOp m o) by (destruct o; cbn in *; tauto).
  assert (U : UuidOp m o) by (destruct o; cbn in *; tauto).
  split; [eapply step_cat; eauto|]. split; [eapply step_rinv; eauto|].
  destruct o as [ct u t ar sub ad|p t|p rr|u nu|t ad|a b av|p o n]; cbn [fstep] in H; try contradiction.
  - destruct Hb as (Hu & Hf & ->). eapply mirror_add; eauto.
  - unfold copy_part in H. destruct (zget (u2p m) u) as [p|]; [|injection H as <-; assumption].
    destruct (sget (parts m) p) as [[[ct ou] t]|]; [|discriminate]. destruct (ou =? u); [|discriminate].
    destruct Hb. eapply mirror_add; [| | | |exact H]; assumption.
  - destruct Hb as [Hu ->]. unfold duplicate_node in H. destruct (zget (u2p m) (t_uuid t)) eqn:E; [injection H as <-; assumption|].
    eapply mirror_add; [| | | |exact H]; assumption.
  - destruct Hb as [Ha Hb]. assert (P : parts m' = parts m) by (now apply relate_fields in H).
    destruct (relate_effect _ _ _ _ _ (rv_named m HI) Ha Hb H) as [_ E]. intros x y. rewrite P, <- (M x y).
    destruct E as [->| ->]; [tauto|]. now rewrite !soft_half_hard by discriminate.
Qed.
Theorem C19_relations_mirror_xml : forall rp os m, Run BuildOp (new_model rp) os m ->
  forall p ct u t, sget (parts m) p = Some (ct, u, t) -> is_ext_name p = false ->
  forall v, In v (R (urels m) Ref u) <-> In (false, v) (obj_refs t).
Proof.
  intros rp os m H p ct u t Hp Hx v.
  assert (G : forall a b os, Run BuildOp a os b -> Cat a -> RInv a -> Mirror a -> Cat b /\ Mirror b).
  { clear. intros a b os H. induction H; intros C HI M; [auto|].
    destruct (step_mirror _ _ _ C HI M H H0) as (C' & HI' & M'). auto. }
  destruct (G _ _ _ H (cat_new rp) (rinv_new rp)) as [C M].
  { intros a b. cbn. split; [tauto|]. intros (q & c & w & Hq & _). discriminate. }
  rewrite (M u v). split.
  - intros (q & c & w & Hq & _ & Hb). destruct (c_part_uuid m C _ _ _ _ Hp), (c_part_uuid m C _ _ _ _ Hq).
    assert (q = p) by congruence. subst q. rewrite Hp in Hq. injection Hq as <- <-. assumption.
  - intros Hb. eauto 7.
Qed.
Print Assumptions C19_relations_mirror_xml.

Definition buildb (m : mdl) (o : fop) : bool :=
  fgb m o && match o with AddPart _ _ _ _ _ ad => ad | DuplicateNode _ ad => ad | CopyPart _ _ | Relate _ _ _ => true | _ => false end.
Lemma buildb_ok m o : buildb m o = true -> BuildOp m o.
Proof.
  unfold buildb. rewrite andb_true_iff. intros [H1 H2]. apply fgb_ok in H1. destruct H1 as [F G]. destruct o; cbn in *; try discriminate; tauto.
Qed.
Example C19_example : exists m, Run GoodOp (new_model true) ex_ops m /\ Run BuildOp (new_model true) ex_ops m.
Proof.
  exists (run_or buildb ex_ops). split; [|runs buildb buildb_ok]. apply (run_or_ok buildb); [|vm_compute; reflexivity].
  intros m o H. apply andb_true_iff in H. destruct H as [H _]. apply fgb_ok in H; destruct H as [_ H]; exact H.
Qed.

(** Finding: relating a part that takes part in relationships to one that does not
    yet records the soft relation on one side only. *)
Theorem C19_soft_relations_mutual_refuted : exists os m u v, Run UuidOp (new_model true) os m /\
  In v (R (urels m) Soft u) /\ ~ In u (R (urels m) Soft v).
Proof.
  pose (ops := [ AddPart (L "obj_A") 1 (mk_tree "obj_A" 1 []) true None true;
           AddPart (L "obj_B") 2 (mk_tree "obj_B" 2 [1]) true None true;
           AddPart (L "obj_C") 3 (mk_tree "obj_C" 3 []) true None true;
           Relate (mk_tree "obj_B" 2 [1]) (mk_tree "obj_C" 3 []) true ]).
  exists ops, (run_or uopb ops). exists 2, 3. split; [runs uopb uopb_ok|]. split; vm_compute; intuition discriminate.
Qed.
Print Assumptions C19_soft_relations_mutual_refuted.

(** ... after which removing that other part, once something refers to it, leaves a
    relation to a part that is gone. *)
Theorem C19_no_dangling_after_removal_refuted : exists os m p m' u ct t, Run UuidOp (new_model true) os m /\
  sget (parts m) p = Some (ct, u, t) /\ remove_part m p true = (m', Ok tt) /\ exists v, In u (R (urels m') Soft v).
Proof.
  pose (ops := [ AddPart (L "obj_A") 1 (mk_tree "obj_A" 1 []) true None true;
           AddPart (L "obj_B") 2 (mk_tree "obj_B" 2 [1]) true None true;
           AddPart (L "obj_C") 3 (mk_tree "obj_C" 3 []) true None true;
           Relate (mk_tree "obj_B" 2 [1]) (mk_tree "obj_C" 3 []) true;
           AddPart (L "obj_D") 4 (mk_tree "obj_D" 4 [3]) true None true ]).
  exists ops, (run_or uopb ops). exists (L "obj_C_00000000-0000-0000-0000-000000000003.xml"). eexists. exists 3, (L "obj_C"), (mk_tree "obj_C" 3 []).
  split; [runs uopb uopb_ok|]. split; [vm_compute; reflexivity|]. split; [vm_compute; reflexivity|].
  exists 2. vm_compute. auto.
Qed.
Print Assumptions C19_no_dangling_after_removal_refuted.

(** Finding: replacing a part's xml does not update its relations. *)
Theorem C19_relations_mirror_xml_refuted : exists os m p ct u t v, Run FGOp (new_model true) os m /\
  sget (parts m) p = Some (ct, u, t) /\ In (false, v) (obj_refs t) /\ ~ In v (R (urels m) Ref u).
Proof.
  pose (ops := [ AddPart (L "obj_A") 1 (mk_tree "obj_A" 1 []) true None true;
           PatchRoot (L "obj_A_00000000-0000-0000-0000-000000000001.xml") (mk_tree "obj_A" 1 [5]) ]).
  exists ops, (run_or fgb ops). exists (L "obj_A_00000000-0000-0000-0000-000000000001.xml"), (L "obj_A"), 1, (mk_tree "obj_A" 1 [5]), 5.
  split; [runs fgb fgb_ok|]. split; [vm_compute; reflexivity|]. split; vm_compute; auto.
Qed.
Print Assumptions C19_relations_mirror_xml_refuted.

(** Finding: changing a supporting representation to one that takes part in no
    relationship raises, after the relations have been altered on one side only. *)
Theorem C19_references_symmetric_refuted : exists os m p m' u v, Run FGOp (new_model true) os m /\
  change_support m p 1 v = (m', Err KeyError) /\ In v (R (urels m') Ref u) /\ ~ In u (R (urels m') Refd v).
Proof.
  set (pt := Tree (L "obj_P") 2 [] (Some 1) (L "t") (L "2020") [] []).
  pose (ops := [ AddPart (L "obj_A") 1 (mk_tree "obj_A" 1 []) true None true;
           AddPart (L "obj_P") 2 pt true None true;
           AddPart (L "obj_A") 3 (mk_tree "obj_A" 3 []) true None true ]).
  exists ops, (run_or fgb ops). exists (L "obj_P_00000000-0000-0000-0000-000000000002.xml"). eexists. exists 2, 3.
  split; [runs fgb fgb_ok|]. split; [vm_compute; reflexivity|]. split; vm_compute; auto.
Qed.
Print Assumptions C19_references_symmetric_refuted.

(** * C22 *)
(** A removal that is accepted leaves no trace of the part, and nothing else changes. *)
Theorem C22_removal_is_complete : forall rp os m p rr m', Run FGOp (new_model rp) os m -> remove_part m p rr = (m', Ok tt) ->
  exists ct u t, sget (parts m) p = Some (ct, u, t) /\
    sget (parts m') p = None /\ zget (u2p m') u = None /\ ~ In p (dkeys (objs m')) /\ ~ In p (main m') /\
    zget (urels m') u = None /\ (forall k v, ~ In u (R (urels m') k v)) /\
    (forall q, q <> p -> sget (parts m') q = sget (parts m) q) /\
    (forall v, v <> u -> zget (u2p m') v = zget (u2p m) v) /\
    (forall k v w, v <> u -> w <> u -> (In w (R (urels m') k v) <-> In w (R (urels m) k v))).
Proof.
  intros rp os m p rr m' H Hr.
  assert (C : Cat m). { eapply run_cat; [|apply cat_new]. eapply run_impl; [|exact H]. intros a o [Ha _]. exact Ha. }
  assert (G : RInv m /\ SoftSym (urels m)). { eapply run_soft; [|apply rinv_new|apply softsym_new]. eapply run_impl; [|exact H]. intros a o [_ Ha]. exact Ha. }
  destruct G as [[HR HN] HS].
  destruct (remove_part_ok _ _ _ _ Hr) as (m1 & E1 & E2 & E3 & E4 & E5 & _ & He & _).
  apply remove_entries_fields in He. destruct He as (ct & u & t & d & Hp & Hd & Ed & _ & F1 & F2 & F3 & _ & _ & F4).
  rewrite E1 in *. rewrite E2, E3, E4, E5 in *. destruct (c_part_uuid m C _ _ _ _ Hp) as [Hu Hn]. rewrite Hn in F4.
  destruct (del_hard _ _ _ HR Hd) as (_ & A & B & Z0). destruct (del_soft_sym _ _ _ HR HS Hd) as [_ D].
  exists ct, u, t. split; [exact Hp|]. rewrite F1, F2, F3, F4, Ed.
  split; [apply (dget_ddel_eq str_eqb)|]. split; [apply (dget_ddel_eq Z.eqb)|]. split; [|split; [|split; [exact Z0|split; [|split; [|split]]]]].
  - rewrite (dkeys_ddel str_eqb), filter_In. rewrite str_eqb_refl. intros [_ E]. discriminate.
  - rewrite (c_main m C), remove_first_filter by apply C. rewrite filter_In, str_eqb_refl. intros [_ E]. discriminate.
  - intros k v. destruct (Z.eq_dec v u) as [->|N]; [rewrite B; intros []|].
    destruct k; [rewrite (proj1 (A v N))|rewrite (proj2 (A v N))|rewrite (D v N)]; rewrite in_sdel; tauto.
  - intros q Nq. now apply (dget_ddel_neq str_eqb str_eqb_iff).
  - intros v Nv. now apply (dget_ddel_neq Z.eqb zeqb_iff).
  - intros k v w Nv Nw. destruct k; [rewrite (proj1 (A v Nv))|rewrite (proj2 (A v Nv))|rewrite (D v Nv)]; rewrite in_sdel; tauto.
Qed.
Print Assumptions C22_removal_is_complete.

Lemma filter_related_ok m rels l : Cat m -> incl l (dkeys (parts m)) -> exists f, filter_related m rels l = Ok f /\ incl f l.
Proof.
  intros C. induction l as [|p l IH]; intros Hi; cbn; [exists []; split; [reflexivity|intros x []]|].
  destruct IH as (f & E & Hf). { intros x Hx. apply Hi. now right. }
  assert (Hp : In p (dkeys (parts m))) by (apply Hi; now left). apply (dkeys_dget str_eqb str_eqb_iff) in Hp.
  destruct Hp as [[[ct u] t] Hp]. unfold uuid_for_part. rewrite Hp. cbn. rewrite E. cbn. eexists. split; [reflexivity|].
  intros x. destruct (zmem u rels); [intros [->|Hx]; [now left|]|intros Hx]; right; auto.
Qed.
Lemma prune_ok p l : forall m, (forall q, In q l -> exists rp, rels_part_name_for_part q = Some rp /\ In rp (dkeys (relsf m))) ->
  exists m', prune_relatives m p l = (m', Ok tt).
Proof.
  induction l as [|q l IH]; intros m H; cbn; [eauto|].
  destruct (H q (or_introl eq_refl)) as (rp & -> & Hrp). apply (dkeys_dget str_eqb str_eqb_iff) in Hrp. destruct Hrp as [[u tg] E].
  rewrite E. apply IH. intros q' Hq'. destruct (H q' (or_intror Hq')) as (rp' & H1 & H2). exists rp'. split; [assumption|]. cbn.
  rewrite (dkeys_dset_present str_eqb str_eqb_iff); [assumption|]. apply (dkeys_dget str_eqb str_eqb_iff). eauto.
Qed.
Lemma remove_entries_ok m p ct u t d : sget (parts m) p = Some (ct, u, t) -> del_uuid_relations (urels m) u = (d, Ok tt) ->
  In p (dkeys (objs m)) -> exists m', remove_part_entries m p = (m', Ok tt).
Proof.
  intros Hp Hd Ho. unfold remove_part_entries. set (m1 := del_uuid_to_part m p).
  assert (F : parts m1 = parts m /\ objs m1 = objs m /\ urels m1 = urels m).
  { unfold m1, del_uuid_to_part. destruct (uuid_in_part_name p) as [[v|]|]; cbn; auto. }
  clearbody m1. destruct F as (F1 & F2 & F3). unfold uuid_for_part. rewrite F1, Hp, F3, Hd. cbn. rewrite F2.
  apply (dkeys_dget str_eqb str_eqb_iff) in Ho. destruct Ho as [[] ->]. eauto.
Qed.
(** An object part that takes part in some relationship can always be removed, with
    its relationships when all object parts have a rels part. *)
Theorem C22_removal_succeeds_partial : forall rp os m p ct u t rr, Run FGOp (new_model rp) os m ->
  sget (parts m) p = Some (ct, u, t) -> is_obj_part p = true -> zget (urels m) u <> None ->
  (rr = true -> rels_present m = true /\
     forall q, In q (dkeys (objs m)) -> exists rq, rels_part_name_for_part q = Some rq /\ In rq (dkeys (relsf m))) ->
  exists m', remove_part m p rr = (m', Ok tt).
Proof.
  intros rp os m p ct u t rr H Hp Ho Hr Hrr.
  assert (C : Cat m). { eapply run_cat; [|apply cat_new]. eapply run_impl; [|exact H]. intros a o [Ha _]. exact Ha. }
  assert (G : RInv m /\ SoftSym (urels m)). { eapply run_soft; [|apply rinv_new|apply softsym_new]. eapply run_impl; [|exact H]. intros a o [_ Ha]. exact Ha. }
  destruct G as [[HR HN] HS]. destruct (del_total _ _ HR HS Hr) as [d Hd].
  assert (Hin : In p (dkeys (objs m))).
  { rewrite (c_objs m C). apply filter_In. split; [|assumption]. apply (dkeys_dget str_eqb str_eqb_iff). eauto. }
  unfold remove_part. destruct rr; [|eapply remove_entries_ok; eassumption].
  destruct (Hrr eq_refl) as [Hpres Hrels]. destruct (c_part_uuid m C _ _ _ _ Hp) as [_ ->].
  unfold filtered_by_related. rewrite Hpres. cbn [negb]. destruct (zget (urels m) u) as [r|] eqn:Er; [|contradiction].
  destruct (filter_related_ok m (r_ref r ++ r_refd r ++ r_soft r) (dkeys (objs m)) C) as (f & -> & Hf).
  { rewrite (c_objs m C). intros x Hx. apply filter_In in Hx. tauto. }
  cbn [bind]. destruct (prune_ok p f m) as [m1 E1]. { intros q Hq. apply Hrels. auto. }
  rewrite E1. destruct (Hrels p Hin) as (rq & -> & Hrq).
  destruct (prune_fields _ _ _ _ _ E1) as (P1 & P2 & P3 & P4 & P5 & P6 & P7 & P8).
  rewrite <- P7 in Hrq. apply (dkeys_dget str_eqb str_eqb_iff) in Hrq. destruct Hrq as [[v tg] ->].
  eapply remove_entries_ok; cbn; rewrite ?P1, ?P2, ?P5; eassumption.
Qed.
Print Assumptions C22_removal_succeeds_partial.

Example C22_example : exists m p u ct t, Run FGOp (new_model true) ex_ops m /\ sget (parts m) p = Some (ct, u, t) /\
  is_obj_part p = true /\ zget (urels m) u <> None /\ rels_present m = true /\
  (forall q, In q (dkeys (objs m)) -> exists rq, rels_part_name_for_part q = Some rq /\ In rq (dkeys (relsf m))).
Proof.
  exists (run_or fgb ex_ops), (L "obj_IjkGridRepresentation_00000000-0000-0000-0000-000000000002.xml"), 2. do 2 eexists.
  split; [runs fgb fgb_ok|]. split; [vm_compute; reflexivity|]. split; [vm_compute; reflexivity|].
  split; [vm_compute; discriminate|]. split; [reflexivity|].
  intros q Hq. vm_compute in Hq. repeat (destruct Hq as [<-|Hq]; [eexists; split; [vm_compute; reflexivity|vm_compute; tauto]|]). contradiction.
Qed.

(** Finding: a part that takes part in no relationship cannot be removed: the call
    raises KeyError, by when its uuid and rels part have already gone. *)
Theorem C22_removal_is_atomic_refuted : exists os m p u m', Run FGOp (new_model true) os m /\
  zget (u2p m) u = Some p /\ remove_part m p true = (m', Err KeyError) /\
  In p (dkeys (parts m')) /\ zget (u2p m') u = None /\ relsf m' <> relsf m.
Proof.
  pose (ops := [AddPart (L "obj_LocalDepth3dCrs") 1 (mk_tree "obj_LocalDepth3dCrs" 1 []) true None true]).
  exists ops, (run_or fgb ops). exists (L "obj_LocalDepth3dCrs_00000000-0000-0000-0000-000000000001.xml"), 1. eexists.
  split; [runs fgb fgb_ok|]. split; [vm_compute; reflexivity|]. split; [vm_compute; reflexivity|].
  split; [vm_compute; auto|]. split; [vm_compute; reflexivity|]. vm_compute. discriminate.
Qed.
Print Assumptions C22_removal_is_atomic_refuted.
