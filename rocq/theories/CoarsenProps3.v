(** CoarsenProps3.v: a whole collection carried to a coarser grid (C80). *)
From Verif Require Import Base QBase BisectModel BisectProofs BisectProofs4 TriModel TriProofs3 GcsNexusProofs StrModel BoxModel BoxProofs FineCoarseModel
  FineCoarseProofs FineCoarseProofs2 ProportionProofs FineCoarseProps PropSelModel CoarsenModel CoarsenProofs CoarsenProps CoarsenProps2.
From Verif Require PropSelProofs.
From Coq Require Import Lqa Permutation.
Open Scope Z_scope.

(** ** Each part once *)
Lemma perm_flat_map_app {A B} (f g : A -> list B) l : Permutation (flat_map (fun x => f x ++ g x) l) (flat_map f l ++ flat_map g l).
Proof.
  induction l as [|x l IH]; [constructor|]. cbn [flat_map]. rewrite IH, <- !app_assoc. apply Permutation_app_head.
  rewrite !app_assoc. apply Permutation_app_tail, Permutation_app_comm.
Qed.
Lemma one_of_each {A} (Ps : list (A -> bool)) l : (forall x, In x l -> List.length (filter (fun p => p x) Ps) = 1%nat) ->
  Permutation (flat_map (fun p => filter p l) Ps) l.
Proof.
  induction l as [|x l IH]; intro H.
  - cbn [filter]. clear. induction Ps; [constructor|exact IHPs].
  - transitivity (flat_map (fun p : A -> bool => (if p x then [x] else []) ++ filter p l) Ps).
    + clear. induction Ps as [|p Ps IH]; [constructor|]. cbn [flat_map filter]. rewrite IH. now destruct (p x).
    + rewrite perm_flat_map_app, IH by (intros; apply H; now right).
      assert (E : flat_map (fun p : A -> bool => if p x then [x] else []) Ps = [x]).
      { pose proof (H x (or_introl eq_refl)) as H1. clear -H1.
        assert (G : flat_map (fun p : A -> bool => if p x then [x] else []) Ps = repeat x (List.length (filter (fun p => p x) Ps))).
        { clear. induction Ps as [|p Ps IH]; [reflexivity|]. cbn [flat_map filter]. rewrite IH. now destruct (p x). }
        now rewrite G, H1. }
      rewrite E. reflexivity.
Qed.
Lemma filter_filter {A} (f g : A -> bool) l : filter f (filter g l) = filter (fun x => g x && f x) l.
Proof. induction l as [|x l IH]; [reflexivity|]. cbn [filter]. destruct (g x); cbn [filter andb]; rewrite IH; reflexivity. Qed.

Section Whole.
  Context (co : fc) (bx : option box) (realization : option Z) (copy_all : bool).
  Notation taken := (taken realization copy_all).
  Notation of_kind := (of_kind realization).
  Definition parts_in (s : st) : list part := map fst (imported s).
  Lemma coarsen_one_parts f s p r : coarsen_one bx f s p = Ok r -> parts_in (fst r) = parts_in s ++ [p].
  Proof.
    unfold coarsen_one. cbn [new]. destruct (f _ _) as [c|]; [|discriminate]. cbn [bind]. intros [= <-]. cbn [fst]. unfold parts_in. cbn [add_to_imported imported].
    now rewrite map_app.
  Qed.
  Lemma each_parts body : (forall s p r, body s p = Ok r -> parts_in (fst r) = parts_in s ++ [p]) ->
    forall l s last r, each realization copy_all body l s last = Ok r -> parts_in (fst r) = parts_in s ++ filter taken l.
  Proof.
    intro H. induction l as [|p l IH]; intros s last r; cbn [each filter]; [intros [= <-]; cbn; now rewrite app_nil_r|].
    destruct (taken p).
    - destruct (body s p) as [x|] eqn:E; [|discriminate]. cbn [bind]. intro G. rewrite (IH _ _ _ G), (H _ _ _ E), <- app_assoc. reflexivity.
    - apply IH.
  Qed.
  Lemma whole_parts other s s' : extend_with_coarsening co bx realization copy_all other s = Ok s' ->
    parts_in s' = parts_in s ++ filter taken (of_kind (L "rock volume") other) ++ filter taken (of_kind (L "net to gross ratio") other) ++
      filter taken (of_kind (L "porosity") other) ++ filter taken (of_kind (L "saturation") other) ++ filter taken (of_kind (L "rock permeability") other) ++
      filter taken (of_kind (L "cell length") other) ++ filter taken (filter (fun p => negb (existsb (str_eqb (p_kind p)) handled)) other).
  Proof.
    unfold extend_with_coarsening.
    destruct (coarsen_rock_volume _ _ _ _ other s) as [[s1 rv]|] eqn:E1; [|discriminate]. cbn [bind].
    destruct (coarsen_kind _ _ _ _ (L "net to gross ratio") other rv s1) as [[s2 ntg]|] eqn:E2; [|discriminate]. cbn [bind].
    destruct (net_volumes ntg rv s2) as [[s3 nrv]|] eqn:E3; [|discriminate]. cbn [bind].
    destruct (coarsen_kind _ _ _ _ (L "porosity") other nrv s3) as [[s4 poro]|] eqn:E4; [|discriminate]. cbn [bind].
    destruct (pore_volumes poro nrv s4) as [s5|] eqn:E5; [|discriminate]. cbn [bind].
    destruct (coarsen_kind _ _ _ _ (L "saturation") other nrv s5) as [[s6 x6]|] eqn:E6; [|discriminate]. cbn [bind].
    destruct (coarsen_kind _ _ _ _ (L "rock permeability") other nrv s6) as [[s7 x7]|] eqn:E7; [|discriminate]. cbn [bind].
    destruct (coarsen_lengths _ _ _ _ other s7) as [s8|] eqn:E8; [|discriminate]. cbn [bind]. intro E9.
    assert (K1 : parts_in s1 = parts_in s ++ filter taken (of_kind (L "rock volume") other)).
    { unfold coarsen_rock_volume in E1. destruct (of_kind (L "rock volume") other) as [|p0 l0]; [injection E1 as <- _; cbn; now rewrite app_nil_r|].
      apply (each_parts _ (fun _ _ _ H => coarsen_one_parts _ _ _ _ H) _ _ _ (s1, rv)) in E1. exact E1. }
    assert (KK : forall k w u x y, coarsen_kind co bx realization copy_all k other w u = Ok (x, y) -> parts_in x = parts_in u ++ filter taken (of_kind k other)).
    { intros k w u x y H. apply (each_parts _ (fun _ _ _ H => coarsen_one_parts _ _ _ _ H) _ _ _ (x, y)) in H. exact H. }
    assert (K3 : parts_in s3 = parts_in s2).
    { unfold net_volumes in E3. destruct ntg as [[f|] [c|]]; try (injection E3 as <- _; reflexivity).
      destruct rv as [[rf|] [rc|]]; try discriminate. cbn [new] in E3. now injection E3 as <- _. }
    assert (K5 : parts_in s5 = parts_in s4).
    { unfold pore_volumes in E5. destruct poro as [[f|] [c|]]; try (injection E5 as <-; reflexivity).
      destruct nrv as [[rf|] [rc|]]; try discriminate. now injection E5 as <-. }
    assert (K8 : parts_in s8 = parts_in s7 ++ filter taken (of_kind (L "cell length") other)).
    { unfold coarsen_lengths in E8. match type of E8 with (do r <- ?x; _) = _ => destruct x as [r|] eqn:E; [|discriminate] end. cbn [bind] in E8. injection E8 as <-.
      apply each_parts in E; [exact E|]. intros u p r' H. destruct (assert_ _); [|discriminate]. cbn [bind] in H. destruct (p_axis p); [|discriminate]. now apply coarsen_one_parts in H. }
    assert (K9 : parts_in s' = parts_in s8 ++ filter taken (filter (fun p => negb (existsb (str_eqb (p_kind p)) handled)) other)).
    { unfold coarsen_other in E9. match type of E9 with (do r <- ?x; _) = _ => destruct x as [r|] eqn:E; [|discriminate] end. cbn [bind] in E9. injection E9 as <-.
      apply each_parts in E; [exact E|]. intros u p r' H. now apply coarsen_one_parts in H. }
    rewrite K9, K8, (KK _ _ _ _ _ E7), (KK _ _ _ _ _ E6), K5, (KK _ _ _ _ _ E4), K3, (KK _ _ _ _ _ E2), K1. now rewrite <- !app_assoc.
  Qed.
End Whole.

(** nothing is lost or repeated: the parts imported are those with the realization asked for
    (all of them if so asked), each once *)
Theorem C80_every_part_once : forall co bx realization copy_all oe we fv cv other s,
  realization = None \/ copy_all = false ->
  extend_coarsening co bx realization copy_all oe we fv cv other = Ok s ->
  Permutation (map fst (imported s)) (filter (fun p => copy_all || real_eqb (p_real p) realization) other).
Proof.
  intros co bx realization copy_all oe we fv cv other s HR H. unfold extend_coarsening in H.
  destruct (match bx with None => _ | Some _ => _ end) as [[]|]; [|discriminate]. cbn [bind] in H.
  destruct (assert_ _) as [[]|]; [|discriminate]. cbn [bind] in H.
  apply whole_parts in H. unfold parts_in in H. rewrite H. cbn [imported map app].
  change (fun p => copy_all || real_eqb (p_real p) realization) with (taken realization copy_all).
  set (k1 := fun k p => wanted_real realization (p_real p) && same_property_kind (p_kind p) k).
  set (k7 := fun p : part => negb (existsb (str_eqb (p_kind p)) handled)).
  transitivity (flat_map (fun g => filter g (filter (taken realization copy_all) other))
     [k1 (L "rock volume"); k1 (L "net to gross ratio"); k1 (L "porosity"); k1 (L "saturation"); k1 (L "rock permeability"); k1 (L "cell length"); k7]).
  - cbn [flat_map]. rewrite app_nil_r. unfold of_kind. fold (k1 (L "rock volume")).
    assert (SW : forall g l, filter (taken realization copy_all) (filter g l) = filter g (filter (taken realization copy_all) l)).
    { intros g l. rewrite !filter_filter. apply filter_ext. intro x. apply andb_comm. }
    rewrite !SW. reflexivity.
  - apply one_of_each. intros p Hp. apply filter_In in Hp. destruct Hp as [_ Hp].
    assert (W : wanted_real realization (p_real p) = true).
    { unfold taken, wanted_real in *. destruct realization as [z|]; [|reflexivity]. destruct HR as [HR|HR]; [discriminate|]. rewrite HR in Hp. cbn [orb] in Hp.
      unfold real_eqb in Hp. destruct (p_real p); [exact Hp|discriminate]. }
    subst k1 k7. cbn [filter List.length]. rewrite W. cbn [andb]. unfold handled. cbn [existsb].
    unfold same_property_kind.
    destruct (str_eqb (p_kind p) (L "rock volume")) eqn:E1; [apply PropSelProofs.str_eqb_ok in E1; rewrite ?E1; vm_compute; reflexivity|].
    destruct (str_eqb (p_kind p) (L "net to gross ratio")) eqn:E2; [apply PropSelProofs.str_eqb_ok in E2; rewrite ?E2; vm_compute; reflexivity|].
    destruct (str_eqb (p_kind p) (L "porosity")) eqn:E3; [apply PropSelProofs.str_eqb_ok in E3; rewrite ?E3; vm_compute; reflexivity|].
    destruct (str_eqb (p_kind p) (L "saturation")) eqn:E4; [apply PropSelProofs.str_eqb_ok in E4; rewrite ?E4; vm_compute; reflexivity|].
    destruct (str_eqb (p_kind p) (L "permeability rock")) eqn:E5; [apply PropSelProofs.str_eqb_ok in E5; rewrite ?E5; vm_compute; reflexivity|].
    destruct (str_eqb (p_kind p) (L "rock permeability")) eqn:E6; [apply PropSelProofs.str_eqb_ok in E6; rewrite ?E6; vm_compute; reflexivity|].
    destruct (str_eqb (p_kind p) (L "cell length")) eqn:E7; [apply PropSelProofs.str_eqb_ok in E7; rewrite ?E7; vm_compute; reflexivity|].
    reflexivity.
Qed.
Print Assumptions C80_every_part_once.

(** ** What the arrays are *)
(** [Right co bx p a]: a is what the part's values come to, for the kinds that need no weights *)
(** the part of an array in the box, if there is one *)
Definition boxed {A} (bx : option box) (a : arr A) : arr A :=
  match bx with
  | None => a
  | Some b => Arr (T (tk (hi b) - tk (lo b) + 1) (tj (hi b) - tj (lo b) + 1) (ti (hi b) - ti (lo b) + 1))
                  (fun c => el a (T (tk (lo b) + tk c) (tj (lo b) + tj c) (ti (lo b) + ti c)))
  end.
Definition Right (co : fc) (bx : option box) (p : part) (a : arr value) : Prop :=
  let fine := boxed bx (p_array p) in
  (p_kind p = L "rock volume" -> coarsening_sum co fine None = Ok a) /\
  (p_kind p = L "cell length" -> exists d, p_axis p = Some d /\ coarsening_sum co fine (Some d) = Ok a) /\
  (~ In (p_kind p) handled -> p_cont p = false -> coarsening_sample co None fine = Ok a).
Section Arrays.
  Context (co : fc) (bx : option box) (realization : option Z) (copy_all : bool).
  Notation taken := (taken realization copy_all).
  Definition Good (s : st) : Prop :=
    forall p n, In (p, n) (imported s) -> (n < List.length (arrays s))%nat /\ Right co bx p (nth n (arrays s) nothing).
  Lemma good_new s a : Good s -> Good (fst (new s a)).
  Proof.
    intros G p n H. destruct (G p n H) as [H1 H2]. cbn [new fst arrays]. rewrite app_length. split; [lia|]. now rewrite app_nth1.
  Qed.
  Lemma coarsen_one_good f s p r : (forall s' c, f s' (array_box (p_array p) bx) = Ok c -> Right co bx p c) -> Good s -> coarsen_one bx f s p = Ok r -> Good (fst r).
  Proof.
    intros Hf G. unfold coarsen_one. destruct (new s (array_box (p_array p) bx)) as [s1 v] eqn:E1.
    assert (look s1 v = array_box (p_array p) bx) as ->.
    { injection E1 as <- <-. unfold look. cbn [fst snd arrays array_box]. now rewrite app_nth2, Nat.sub_diag by lia. }
    destruct (f s1 _) as [c|] eqn:Ec; [|discriminate]. cbn [bind]. destruct (new s1 c) as [s2 w] eqn:E2. intros [= <-]. cbn [fst].
    pose proof (good_new s (array_box (p_array p) bx) G) as G1. rewrite E1 in G1. cbn [fst] in G1.
    pose proof (good_new s1 c G1) as G2. rewrite E2 in G2. cbn [fst] in G2.
    intros q n H. cbn [add_to_imported imported arrays] in *. apply in_app_iff in H. destruct H as [H|[H|[]]]; [now apply G2|].
    injection H as <- <-. injection E2 as <- <-. cbn [fst arrays]. rewrite app_length. split; [cbn; lia|].
    rewrite app_nth2, Nat.sub_diag by lia. cbn [nth]. now apply (Hf s1).
  Qed.
  Lemma each_good body l : (forall s p r, In p l -> Good s -> body s p = Ok r -> Good (fst r)) ->
    forall s last r, Good s -> each realization copy_all body l s last = Ok r -> Good (fst r).
  Proof.
    induction l as [|p l IH]; intros H s last r G; cbn [each]; [intros [= <-]; exact G|].
    assert (IH' := IH (fun s p r Hp => H s p r (or_intror Hp))). destruct (taken p).
    - destruct (body s p) as [x|] eqn:E; [|discriminate]. cbn [bind]. intro K1. apply (IH' _ _ _ (H _ _ _ (or_introl eq_refl) G E) K1).
    - apply IH'. exact G.
  Qed.
  Lemma each_none body l : (forall p, In p l -> taken p = false) -> forall s last, each realization copy_all body l s last = Ok (s, last).
  Proof.
    induction l as [|p l IH]; intros H s last; [reflexivity|]. cbn [each]. rewrite (H p (or_introl eq_refl)). apply IH. intros; apply H; now right.
  Qed.
  Lemma right_by_kind k p c : In k handled -> k <> L "rock volume" -> k <> L "cell length" -> same_property_kind (p_kind p) k = true -> Right co bx p c.
  Proof.
    intros Hk H1 H2 E. unfold same_property_kind in E.
    assert (D : p_kind p = k \/ p_kind p = L "permeability rock" \/ p_kind p = L "rock permeability").
    { apply orb_true_iff in E. destruct E as [E|E]; [left; now apply PropSelProofs.str_eqb_ok|]. apply andb_true_iff in E. destruct E as [E _].
      apply orb_true_iff in E. right. destruct E as [E|E]; apply PropSelProofs.str_eqb_ok in E; auto. }
    assert (HH : In (p_kind p) handled). { destruct D as [->|[->| ->]]; [exact Hk|unfold handled; cbn [In]; tauto..]. }
    split; [|split].
    - intro E'. exfalso. destruct D as [D|[D|D]]; rewrite D in E'; [contradiction|discriminate|discriminate].
    - intro E'. exfalso. destruct D as [D|[D|D]]; rewrite D in E'; [contradiction|discriminate|discriminate].
    - intro E'. contradiction.
  Qed.
  Lemma kind_only k p : (k = L "rock volume" \/ k = L "cell length") -> same_property_kind (p_kind p) k = true -> p_kind p = k.
  Proof.
    intros Hk E. unfold same_property_kind in E. apply orb_true_iff in E. destruct E as [E|E]; [now apply PropSelProofs.str_eqb_ok|].
    apply andb_true_iff in E. destruct E as [_ E]. destruct Hk as [->| ->]; vm_compute in E; discriminate.
  Qed.
End Arrays.

(** ** Cases *)
Definition ex_fe := T 2 1 4.
Definition ex_ce := T 1 1 2.
Definition ex_s0 := FC (zip3 (fun f c => Ax f c None None true None) ex_fe ex_ce) None.
Definition ex_os := [OpConst K; OpConst J; OpVec I [1; 3]].
Definition ex_map := fc_run ex_s0 ex_os.
Lemma ex_mapping : Mapping ex_fe ex_ce ex_map.
Proof.
  split; [intros []; reflexivity|]. exists ex_s0, ex_os. split; [reflexivity|]. split; [reflexivity|].
  split; [intros []; eexists; vm_compute; reflexivity|]. split; [reflexivity|]. intros []; left; split; reflexivity.
Qed.
Definition const_arr (n : BoxModel.cell) (q : Q) : arr value := Arr n (fun _ => Some q).
Definition ex_rv := Part (L "rv") None true 1 (L "cells") (L "rock volume") None None (Arr ex_fe (fun c => Some (inject_Z (10 + ti c)))).
Definition ex_poro := Part (L "poro") None true 1 (L "cells") (L "porosity") None None (const_arr ex_fe (1 # 4)).
Definition ex_ntg := Part (L "ntg") None true 1 (L "cells") (L "net to gross ratio") None None (Arr ex_fe (fun c => Some (inject_Z (ti c) / 4)%Q)).
Definition ex_region := Part (L "region") None false 1 (L "cells") (L "region") None None (Arr ex_fe (fun c => Some (inject_Z (ti c)))).
Definition ex_dx := Part (L "dx") None true 1 (L "cells") (L "cell length") (Some I) (Some I) (const_arr ex_fe 5).
(** [held s]: the parts imported and the values held for the two coarse cells *)
Definition held (r : res st) : list (str * list value) :=
  match r with
  | Ok s => map (fun e => (p_id (fst e), map (fun c => option_map Qred (el (nth (snd e) (arrays s) nothing) c)) (indices ex_ce))) (imported s)
  | Err _ => []
  end.
Definition run other := extend_coarsening ex_map None None false ex_fe ex_ce (const_arr ex_fe 7) (const_arr ex_ce 9) other.
Example C80_example : held (run [ex_dx; ex_ntg; ex_region; ex_rv]) =
  [(L "rv", [Some 20; Some 72]); (L "ntg", [Some 0; Some (37 # 72)]); (L "dx", [Some 5; Some 15]); (L "region", [Some 0; Some 1])]%Q.
Proof. vm_compute. reflexivity. Qed.
Example C80_example_refine : exists r, resample ex_fe ex_map ex_dx (const_arr ex_ce 6) = Ok (Some r) /\
  map (fun c => option_map Qred (el r c)) (indices ex_fe) = [Some 6; Some 2; Some 2; Some 2; Some 6; Some 2; Some 2; Some 2]%Q.
Proof. eexists. split; vm_compute; reflexivity. Qed.

(** with a porosity (and no net to gross ratio) the rock volumes imported are not the totals:
    they have been multiplied by the porosity in place *)
Theorem C80_rock_volume_with_porosity_refuted : exists fe ce s other st n p c q,
  Mapping fe ce s /\ extend_coarsening s None None false fe ce (const_arr fe 1) (const_arr ce 1) other = Ok st /\
  In (p, n) (imported st) /\ In p other /\ p_kind p = L "rock volume" /\ shape (p_array p) = fe /\ InExtent c ce /\
  el (nth n (arrays st) nothing) c = Some q /\
  exists b t, fine_box_for_coarse s c = Ok b /\ TotalOver (fun f => InBox f b) (fun f => num (el (p_array p) f)) t /\ ~ (q == t)%Q.
Proof.
  exists ex_fe, ex_ce, ex_map, [ex_rv; ex_poro]. eexists. exists 3%nat, ex_rv, (T 0 0 0). eexists.
  split; [exact ex_mapping|]. split; [vm_compute; reflexivity|]. split; [cbn; left; reflexivity|]. split; [now left|]. split; [reflexivity|]. split; [reflexivity|].
  split; [intros []; cbn; lia|]. split; [vm_compute; reflexivity|]. eexists. eexists. split; [vm_compute; reflexivity|]. split; [apply total_box|].
  vm_compute. discriminate.
Qed.
Print Assumptions C80_rock_volume_with_porosity_refuted.
Example C80_rock_volume_with_porosity : held (run [ex_rv; ex_poro; ex_region]) =
  [(L "rv", [Some 5; Some 18]); (L "poro", [Some (1 # 4); Some (1 # 4)]); (L "region", [Some 0; Some 1])]%Q.
Proof. vm_compute. reflexivity. Qed.
(** without a rock volume property it is the volumes held by the two grids that are changed *)
Theorem C80_grid_volumes_refuted : exists fe ce s other fv cv st c,
  Mapping fe ce s /\ extend_coarsening s None None false fe ce fv cv other = Ok st /\ InExtent c fe /\
  el (nth 0 (arrays st) nothing) c <> el fv c.
Proof.
  exists ex_fe, ex_ce, ex_map, [ex_poro], (const_arr ex_fe 7), (const_arr ex_ce 9). eexists. exists (T 0 0 0).
  split; [exact ex_mapping|]. split; [vm_compute; reflexivity|]. split; [intros []; cbn; lia|]. vm_compute. discriminate.
Qed.
Print Assumptions C80_grid_volumes_refuted.
(** a missing fine value counts as zero, so the mean can be below every value *)
Theorem C80_missing_value_refuted : exists fe ce s a fw r c b m,
  Mapping fe ce s /\ shape a = fe /\ shape fw = fe /\ coarsening_weighted_mean s a fw None None = Ok r /\ InExtent c ce /\ fine_box_for_coarse s c = Ok b /\
  (forall f, el fw f = Some 1%Q) /\ (forall f v, InBox f b -> el a f = Some v -> (6 <= v)%Q) /\ (exists f, InBox f b /\ el a f = Some 6%Q) /\
  el r c = Some m /\ (m < 6)%Q.
Proof.
  exists ex_fe, ex_ce, ex_map, (Arr ex_fe (fun c => if ti c =? 1 then None else Some 6%Q)), (const_arr ex_fe 1). eexists. exists (T 0 0 1). eexists. eexists.
  split; [exact ex_mapping|]. split; [reflexivity|]. split; [reflexivity|]. split; [vm_compute; reflexivity|]. split; [intros []; cbn; lia|].
  split; [vm_compute; reflexivity|]. split; [reflexivity|]. split.
  - intros f v _. cbn [el]. destruct (ti f =? 1); [discriminate|]. intros [= <-]. lra.
  - split; [exists (T 0 0 2); split; [intros []; cbn; lia|reflexivity]|]. split; [vm_compute; reflexivity|]. vm_compute. reflexivity.
Qed.
Print Assumptions C80_missing_value_refuted.
(** asking for a realization and for all realizations: the second is not ignored *)
Theorem C80_all_realizations_refuted : exists fe ce s other st p,
  Mapping fe ce s /\ extend_coarsening s None (Some 3) true fe ce (const_arr fe 1) (const_arr ce 1) other = Ok st /\
  In p (map fst (imported st)) /\ p_real p <> Some 3.
Proof.
  exists ex_fe, ex_ce, ex_map, [ex_region]. eexists. exists ex_region.
  split; [exact ex_mapping|]. split; [vm_compute; reflexivity|]. split; [now left|]. discriminate.
Qed.
Print Assumptions C80_all_realizations_refuted.
(** a property that is not for cells stops a refinement *)
Theorem C80_refine_other_elements_refuted : exists fe ce s p, Mapping fe ce s /\ shape (p_array p) = ce /\
  extend_refining s None None false fe [p] = Err AssertionError.
Proof.
  exists ex_fe, ex_ce, ex_map, (Part (L "x") None true 1 (L "columns") (L "depth") None None (const_arr ex_ce 1)).
  split; [exact ex_mapping|]. split; [reflexivity|]. vm_compute. reflexivity.
Qed.
Print Assumptions C80_refine_other_elements_refuted.
