(** CoarsenProps4.v: C80, the weights that each mean takes in a whole coarsening. *)
From Verif Require Import Base QBase StrModel TriModel PropSelModel BoxModel BoxProofs FineCoarseModel CoarsenModel CoarsenProofs CoarsenProps CoarsenProps3.
From Coq Require Import Lqa.
Open Scope Z_scope.

Section Weights.
  Context (co : fc) (bx : option box) (realization : option Z) (copy_all : bool) (fv cv : arr value) (other : list part).
  (** the parts of a kind that are copied: with the realization asked for, if one was; else, unless all
      realizations were asked for, those without one *)
  Definition asked (p : part) : bool :=
    match realization with
    | Some z => match p_real p with Some y => y =? z | None => false end
    | None => copy_all || match p_real p with Some _ => false | None => true end
    end.
  Definition copied (k : str) : list part := filter (fun p => asked p && str_eqb (p_kind p) k) other.
  Definition LastOf (k : str) (p : part) : Prop := exists l, copied k = l ++ [p].
  Definition product (a b : arr value) : arr value :=
    Arr (shape a) (fun c => match el a c, el b c with Some x, Some y => Some (x * y)%Q | _, _ => None end).
  Definition Mean (zero : value) (fw cw : arr value) (p : part) (a : arr value) : Prop :=
    coarsening_weighted_mean co (boxed bx (p_array p)) fw (Some cw) zero = Ok a.
  (** rock volumes: of the last property of that kind, or, if there is none of any realization wanted, of the grids *)
  Definition RockWeights (fw cw : arr value) : Prop :=
    (exists p, LastOf (L "rock volume") p /\ fw = boxed bx (p_array p) /\ coarsening_sum co fw None = Ok cw) \/
    ((forall p, In p other -> p_kind p = L "rock volume" -> realization <> None /\ p_real p <> realization) /\ fw = boxed bx fv /\ cw = cv).
  (** net rock volumes *)
  Definition NetWeights (fw cw : arr value) : Prop := exists rf rc, RockWeights rf rc /\
    ((exists p c, LastOf (L "net to gross ratio") p /\ Mean (Some 0%Q) rf rc p c /\ fw = product rf (boxed bx (p_array p)) /\ cw = product rc c) \/
     (copied (L "net to gross ratio") = [] /\ fw = rf /\ cw = rc)).
  (** pore volumes *)
  Definition PoreWeights (fw cw : arr value) : Prop := exists rf rc, NetWeights rf rc /\
    ((exists p c, LastOf (L "porosity") p /\ Mean (Some 0%Q) rf rc p c /\ fw = product rf (boxed bx (p_array p)) /\ cw = product rc c) \/
     (copied (L "porosity") = [] /\ fw = rf /\ cw = rc)).
  Definition RightMean (p : part) (a : arr value) : Prop :=
    Right co bx p a /\
    (p_kind p = L "net to gross ratio" -> exists fw cw, RockWeights fw cw /\ Mean (Some 0%Q) fw cw p a) /\
    (p_kind p = L "porosity" -> exists fw cw, NetWeights fw cw /\ Mean (Some 0%Q) fw cw p a) /\
    (p_kind p = L "saturation" \/ p_kind p = L "rock permeability" \/ p_kind p = L "permeability rock" ->
       exists fw cw, PoreWeights fw cw /\ Mean (Some 0%Q) fw cw p a) /\
    (~ In (p_kind p) handled -> p_cont p = true -> exists fw cw, RockWeights fw cw /\ Mean None fw cw p a).

  (** ** the memory *)
  Definition Holds (s : st) (v : view) (a : arr value) : Prop := (fst v < List.length (arrays s))%nat /\ look s v = a.
  (** later arrays and imports only *)
  Definition Grown (P : part -> arr value -> Prop) (s s' : st) : Prop := exists ex im,
    arrays s' = arrays s ++ ex /\ imported s' = imported s ++ im /\
    forall p n, In (p, n) im -> (List.length (arrays s) <= n < List.length (arrays s'))%nat /\ P p (nth n (arrays s') nothing).
  Lemma grown_refl P s : Grown P s s.
  Proof. exists [], []. rewrite !app_nil_r. split; [reflexivity|]. split; [reflexivity|]. intros p n []. Qed.
  Lemma grown_trans P s1 s2 s3 : Grown P s1 s2 -> Grown P s2 s3 -> Grown P s1 s3.
  Proof.
    intros (e1 & i1 & A1 & B1 & C1) (e2 & i2 & A2 & B2 & C2). exists (e1 ++ e2), (i1 ++ i2). split; [rewrite A2, A1; now rewrite app_assoc|].
    split; [rewrite B2, B1; now rewrite app_assoc|]. intros p n H. apply in_app_or in H. destruct H as [H|H].
    - destruct (C1 p n H) as [D1 D2]. rewrite A2 at 1. rewrite app_length. split; [lia|]. rewrite A2, app_nth1 by lia. exact D2.
    - destruct (C2 p n H) as [D1 D2]. rewrite A1, app_length in D1. split; [lia|exact D2].
  Qed.
  Lemma holds_grown P s s' v a : Grown P s s' -> Holds s v a -> Holds s' v a.
  Proof.
    intros (ex & im & A & _ & _) [H1 H2]. unfold Holds, look in *. rewrite A, app_length. split; [lia|]. now rewrite app_nth1.
  Qed.
  Lemma grown_weaken (P P' : part -> arr value -> Prop) s s' : (forall p a, P p a -> P' p a) -> Grown P s s' -> Grown P' s s'.
  Proof. intros H (ex & im & A & B & C). exists ex, im. split; [exact A|]. split; [exact B|]. intros p n Hp. destruct (C p n Hp). auto. Qed.
  Lemma new_holds P s a : let r := new s a in Grown P s (fst r) /\ Holds (fst r) (snd r) a /\ snd r = (List.length (arrays s), None) /\
    List.length (arrays (fst r)) = S (List.length (arrays s)).
  Proof.
    cbn. split; [|split; [|split; [reflexivity|rewrite app_length; cbn; lia]]].
    - exists [a], []. cbn. rewrite app_nil_r. split; [reflexivity|]. split; [reflexivity|]. intros p n [].
    - unfold Holds, look. cbn [fst snd arrays array_box]. rewrite app_length. cbn [List.length]. split; [lia|]. now rewrite app_nth2, Nat.sub_diag by lia.
  Qed.
  Lemma one_grown P f s p r : (forall s' c, Grown P s s' -> f s' (boxed bx (p_array p)) = Ok c -> P p c) -> coarsen_one bx f s p = Ok r ->
    Grown P s (fst r) /\ Holds (fst r) (fst (snd r)) (boxed bx (p_array p)) /\ exists c, P p c /\ Holds (fst r) (snd (snd r)) c /\ (List.length (arrays s) <= fst (snd (snd r)))%nat.
  Proof.
    intros Hf. unfold coarsen_one. change (array_box (p_array p) bx) with (boxed bx (p_array p)).
    destruct (new_holds P s (boxed bx (p_array p))) as (G1 & H1 & _). destruct (new s (boxed bx (p_array p))) as [s1 v]. cbn [fst snd] in *.
    rewrite (proj2 H1). destruct (f s1 (boxed bx (p_array p))) as [c|] eqn:E; [|discriminate]. cbn [bind]. specialize (Hf s1 c G1 E).
    cbv zeta. unfold new. intros [= <-]. cbn [fst snd].
    assert (A : (St (arrays s1 ++ [c]) (imported s1 ++ [(p, List.length (arrays s1))])) = add_to_imported (St (arrays s1 ++ [c]) (imported s1)) p (List.length (arrays s1), None)) by reflexivity.
    rewrite <- A. set (s3 := St (arrays s1 ++ [c]) (imported s1 ++ [(p, List.length (arrays s1))])).
    assert (G3 : Grown P s1 s3).
    { exists [c], [(p, List.length (arrays s1))]. split; [reflexivity|]. split; [reflexivity|]. intros q n [[= <- <-]|[]]. subst s3. cbn [arrays]. rewrite app_length. cbn [List.length].
      split; [lia|]. rewrite app_nth2, Nat.sub_diag by lia. exact Hf. }
    split; [now apply (grown_trans P s s1 s3)|]. split; [now apply (holds_grown P s1 s3)|]. exists c. split; [exact Hf|].
    unfold Holds, look. subst s3. cbn [fst snd arrays array_box]. rewrite app_length. cbn [List.length]. split; [split; [lia|]|].
    - now rewrite app_nth2, Nat.sub_diag by lia.
    - destruct G1 as (ex & im & A1 & _). rewrite A1, app_length. lia.
  Qed.
  (** the views left by a loop: those of the last part taken *)
  Definition LeftBy (P : part -> arr value -> Prop) (s0 s : st) (l : list part) (last r : arrays_so_far) : Prop :=
    (l = [] /\ r = last) \/
    exists l' p f c x, l = l' ++ [p] /\ r = (Some f, Some c) /\ Holds s f (boxed bx (p_array p)) /\ Holds s c x /\ P p x /\ (List.length (arrays s0) <= fst c)%nat.
  Lemma each_grown P body : forall l s last s' r,
    (forall s1 p r, In p l -> taken realization copy_all p = true -> Grown P s s1 -> body s1 p = Ok r ->
       Grown P s1 (fst r) /\ Holds (fst r) (fst (snd r)) (boxed bx (p_array p)) /\ exists c, P p c /\ Holds (fst r) (snd (snd r)) c /\ (List.length (arrays s1) <= fst (snd (snd r)))%nat) ->
    each realization copy_all body l s last = Ok (s', r) ->
    Grown P s s' /\ LeftBy P s s' (filter (taken realization copy_all) l) last r.
  Proof.
    induction l as [|p l IH]; intros s last s' r HB; cbn [each filter].
    - intros [= <- <-]. split; [apply grown_refl|left; auto].
    - destruct (taken realization copy_all p) eqn:Ht.
      + destruct (body s p) as [[s1 [f c]]|] eqn:E; [|discriminate]. cbn [bind fst snd]. intro H.
        destruct (HB s p _ (or_introl eq_refl) Ht (grown_refl P s) E) as (G1 & H1 & x & HP & H2 & H3). cbn [fst snd] in *.
        destruct (IH s1 (Some f, Some c) s' r) as [G2 L2]; [|exact H|].
        { intros s2 q r' Hq Htq Gq. apply (HB s2 q r'); [now right|assumption|now apply (grown_trans P s s1 s2)]. }
        split; [now apply (grown_trans P s s1 s')|]. right. destruct L2 as [[L2 ->]|(l' & q & f' & c' & x' & L2 & -> & L3)].
        * exists [], p, f, c, x. rewrite L2. split; [reflexivity|]. split; [reflexivity|]. split; [now apply (holds_grown P s1 s')|]. split; [now apply (holds_grown P s1 s')|]. split; [exact HP|exact H3].
        * exists (p :: l'), q, f', c', x'. rewrite L2. destruct L3 as (L3 & L4 & L5 & L6). split; [reflexivity|]. split; [reflexivity|]. split; [exact L3|]. split; [exact L4|]. split; [exact L5|].
          destruct G1 as (ex & im & A1 & _). rewrite A1, app_length in L6. lia.
      + intro H. apply (IH s last s' r); [|exact H]. intros s2 q r' Hq. apply HB. now right.
  Qed.
  Lemma taken_of_kind k : k <> L "rock permeability" -> k <> L "permeability rock" -> filter (taken realization copy_all) (of_kind realization k other) = copied k.
  Proof.
    intros N1 N2. unfold of_kind, copied. rewrite filter_filter. apply filter_ext. intro p. unfold taken, wanted_real, asked, real_eqb, same_property_kind.
    assert (D : str_eqb k (L "rock permeability") = false /\ str_eqb k (L "permeability rock") = false).
    { split; [destruct (str_eqb k (L "rock permeability")) eqn:E|destruct (str_eqb k (L "permeability rock")) eqn:E]; try reflexivity; apply PropSelProofs.str_eqb_ok in E; contradiction. }
    destruct D as [D1 D2]. rewrite ?D1, ?D2, ?orb_false_r, ?andb_false_r, ?orb_false_r.
    destruct realization as [z|], (p_real p) as [y|], copy_all, (str_eqb (p_kind p) k); cbn; rewrite ?andb_true_r, ?andb_false_r; try reflexivity; try (destruct (y =? z); reflexivity).
  Qed.

  (** the weights held for a loop *)
  Definition Views (W : arr value -> arr value -> Prop) (s : st) (v : arrays_so_far) : Prop :=
    v = (None, None) \/ exists f c a b, v = (Some f, Some c) /\ Holds s f a /\ Holds s c b /\ W a b.
  Lemma views_grown P W s s' v : Grown P s s' -> Views W s v -> Views W s' v.
  Proof.
    intros G [->|(f & c & a & b & -> & H1 & H2 & H3)]; [now left|right]. exists f, c, a, b. split; [reflexivity|].
    split; [now apply (holds_grown P s s')|]. split; [now apply (holds_grown P s s')|exact H3].
  Qed.
  Lemma weighted_mean W s s' P v zero p c : Views W s v -> Grown P s s' -> weighted co (fst v) (snd v) zero s' (boxed bx (p_array p)) = Ok c ->
    exists fw cw, W fw cw /\ Mean zero fw cw p c.
  Proof.
    intros HV G E. apply (views_grown P W s s' v G) in HV. unfold weighted in E. destruct (check_shape co (boxed bx (p_array p))) as [u|]; [|discriminate]. cbn [bind] in E.
    destruct HV as [->|(f & c' & x & y & -> & H1 & H2 & H3)]; [discriminate|]. cbn [fst snd look_opt option_map bind] in E.
    rewrite (proj2 H1), (proj2 H2) in E. exists x, y. split; assumption.
  Qed.
  Definition Kind (k : str) (W : arr value -> arr value -> Prop) (p : part) (a : arr value) : Prop :=
    same_property_kind (p_kind p) k = true /\ exists fw cw, W fw cw /\ Mean (Some 0%Q) fw cw p a.
  Lemma kind_stage k W s v s' r : Views W s v -> coarsen_kind co bx realization copy_all k other v s = Ok (s', r) ->
    Grown (Kind k W) s s' /\ LeftBy (Kind k W) s s' (filter (taken realization copy_all) (of_kind realization k other)) (None, None) r.
  Proof.
    intros HV E. unfold coarsen_kind in E. apply each_grown with (P := Kind k W) in E; [exact E|].
    intros s1 p r' Hp _ G. apply one_grown. intros s2 c G2 Hc. split.
    - apply filter_In in Hp. destruct Hp as [_ Hp]. apply andb_true_iff in Hp. apply Hp.
    - apply (weighted_mean W s s2 (Kind k W) v (Some 0%Q) p c HV); [|exact Hc]. now apply (grown_trans _ s s1 s2).
  Qed.
  Definition GoodMean (s : st) : Prop :=
    forall p n, In (p, n) (imported s) -> (n < List.length (arrays s))%nat /\ RightMean p (nth n (arrays s) nothing).
  Lemma good_grown s s' : GoodMean s -> Grown RightMean s s' -> GoodMean s'.
  Proof.
    intros G (ex & im & A & B & C) p n H. rewrite B in H. apply in_app_or in H. destruct H as [H|H].
    - destruct (G p n H) as [G1 G2]. rewrite A at 1. rewrite app_length. split; [lia|]. rewrite A, app_nth1 by lia. exact G2.
    - destruct (C p n H) as [C1 C2]. split; [lia|exact C2].
  Qed.
  Lemma kind_eq k p : k <> L "rock permeability" -> k <> L "permeability rock" -> same_property_kind (p_kind p) k = true -> p_kind p = k.
  Proof.
    intros N1 N2 E. unfold same_property_kind in E. apply orb_true_iff in E. destruct E as [E|E]; [now apply PropSelProofs.str_eqb_ok|].
    apply andb_true_iff in E. destruct E as [_ E]. apply orb_true_iff in E. destruct E as [E|E]; apply PropSelProofs.str_eqb_ok in E; contradiction.
  Qed.
  Lemma perm_eq p : same_property_kind (p_kind p) (L "rock permeability") = true -> p_kind p = L "rock permeability" \/ p_kind p = L "permeability rock".
  Proof.
    intro E. unfold same_property_kind in E. apply orb_true_iff in E. destruct E as [E|E]; [left; now apply PropSelProofs.str_eqb_ok|].
    apply andb_true_iff in E. destruct E as [E _]. apply orb_true_iff in E. destruct E as [E|E]; apply PropSelProofs.str_eqb_ok in E; auto.
  Qed.
  Ltac others K := repeat split; let X := fresh "X" in intro X; exfalso; rewrite K in X;
    first [discriminate | (let Y := fresh in destruct X as [Y|[Y|Y]]; discriminate) | apply X; cbn [handled In]; tauto].
  Lemma right_ntg p a : Kind (L "net to gross ratio") RockWeights p a -> RightMean p a.
  Proof.
    intros [K0 H]. pose proof (kind_eq (L "net to gross ratio") p ltac:(discriminate) ltac:(discriminate) K0) as K1.
    split; [apply (right_by_kind co bx (L "net to gross ratio")); [cbn [handled In]; tauto|discriminate|discriminate|exact K0]|].
    split; [intros _; exact H|]. others K1.
  Qed.
  Lemma right_poro p a : Kind (L "porosity") NetWeights p a -> RightMean p a.
  Proof.
    intros [K0 H]. pose proof (kind_eq (L "porosity") p ltac:(discriminate) ltac:(discriminate) K0) as K1.
    split; [apply (right_by_kind co bx (L "porosity")); [cbn [handled In]; tauto|discriminate|discriminate|exact K0]|].
    split; [others K1|]. split; [intros _; exact H|]. split; others K1.
  Qed.
  Lemma right_pore k p a : k = L "saturation" \/ k = L "rock permeability" -> Kind k PoreWeights p a -> RightMean p a.
  Proof.
    intros Hk [K0 H]. assert (K1 : p_kind p = L "saturation" \/ p_kind p = L "rock permeability" \/ p_kind p = L "permeability rock").
    { destruct Hk as [-> | ->]; [left; now apply kind_eq; [discriminate|discriminate|]|right; now apply perm_eq]. }
    split; [apply (right_by_kind co bx k); [|destruct Hk as [-> | ->]; discriminate|destruct Hk as [-> | ->]; discriminate|exact K0]; destruct Hk as [-> | ->]; cbn [handled In]; tauto|].
    split; [intro X; exfalso; rewrite X in K1; destruct K1 as [K1|[K1|K1]]; discriminate|].
    split; [intro X; exfalso; rewrite X in K1; destruct K1 as [K1|[K1|K1]]; discriminate|]. split; [intros _; exact H|].
    intro X. exfalso. apply X. destruct K1 as [-> |[-> | ->]]; cbn [handled In]; tauto.
  Qed.

  (** ** in place *)
  Lemma nth_upd {A} (l : list A) d : forall n x m, (n < List.length l)%nat -> nth m (upd l n x) d = if Nat.eqb m n then x else nth m l d.
  Proof.
    induction l as [|y l IH]; intros n x m Hn; [cbn in Hn; lia|]. destruct n as [|n], m as [|m]; cbn [upd nth Nat.eqb]; try reflexivity. apply IH. cbn in Hn. lia.
  Qed.
  Lemma length_upd {A} (l : list A) : forall n x, List.length (upd l n x) = List.length l.
  Proof. induction l as [|y l IH]; intros [|n] x; cbn [upd List.length]; auto. Qed.
  Lemma mul_whole s n x a b : Holds s (n, None) x -> shape x = shape x -> a = b ->
    let s' := mul_in_place s (n, None) a in
    imported s' = imported s /\ List.length (arrays s') = List.length (arrays s) /\
    (forall m, m <> n -> nth m (arrays s') nothing = nth m (arrays s) nothing) /\ Holds s' (n, None) (product x b).
  Proof.
    intros [H1 H2] _ <-. cbn [fst] in H1. unfold look in H2. cbn [fst snd array_box] in H2. cbv zeta. unfold mul_in_place. cbn [fst snd arrays imported].
    split; [reflexivity|]. split; [apply length_upd|]. split.
    - intros m Hm. rewrite nth_upd by assumption. now rewrite (proj2 (Nat.eqb_neq m n)) by assumption.
    - unfold Holds, look. cbn [fst snd arrays array_box]. rewrite length_upd. split; [assumption|]. rewrite nth_upd, Nat.eqb_refl by assumption. now rewrite H2.
  Qed.
  Lemma holds_same s s' v x : List.length (arrays s') = List.length (arrays s) -> nth (fst v) (arrays s') nothing = nth (fst v) (arrays s) nothing -> Holds s v x -> Holds s' v x.
  Proof. intros E1 E2 [H1 H2]. unfold Holds, look in *. rewrite E1, E2. auto. Qed.

  (** ** the weights are fixed *)
  Lemma last_unique k p q : LastOf k p -> LastOf k q -> p = q.
  Proof. intros [l E] [l' E']. rewrite E in E'. now apply app_inj_tail in E'. Qed.
  Lemma last_in k p : LastOf k p -> In p other /\ asked p = true /\ p_kind p = k.
  Proof.
    intros [l E]. assert (H : In p (copied k)) by (rewrite E; apply in_or_app; right; now left). apply filter_In in H. destruct H as [H1 H2]. apply andb_true_iff in H2. destruct H2 as [H2 H3].
    split; [exact H1|]. split; [exact H2|]. now apply PropSelProofs.str_eqb_ok.
  Qed.
  Lemma last_some k p : LastOf k p -> copied k <> []. Proof. intros [l ->]. now destruct l. Qed.
  Lemma rock_unique f c f' c' : RockWeights f c -> RockWeights f' c' -> f = f' /\ c = c'.
  Proof.
    assert (X : forall p, LastOf (L "rock volume") p -> ~ (forall p, In p other -> p_kind p = L "rock volume" -> realization <> None /\ p_real p <> realization)).
    { intros p HL H. destruct (last_in _ _ HL) as (A & B & C). destruct (H p A C) as [D1 D2]. unfold asked in B. destruct realization as [z|]; [|congruence].
      destruct (p_real p) as [y|]; [|discriminate]. apply Z.eqb_eq in B. congruence. }
    intros [(p & A1 & -> & A3)|(A1 & -> & ->)] [(q & B1 & -> & B3)|(B1 & -> & ->)].
    - rewrite (last_unique _ _ _ A1 B1) in *. split; [reflexivity|congruence].
    - exfalso. apply (X p A1 B1).
    - exfalso. apply (X q B1 A1).
    - auto.
  Qed.
  Lemma net_unique f c f' c' : NetWeights f c -> NetWeights f' c' -> f = f' /\ c = c'.
  Proof.
    intros (r & d & A & B) (r' & d' & A' & B'). destruct (rock_unique _ _ _ _ A A') as [<- <-].
    destruct B as [(p & x & P1 & P2 & -> & ->)|(N & -> & ->)], B' as [(p' & x' & P1' & P2' & -> & ->)|(N' & -> & ->)].
    - rewrite (last_unique _ _ _ P1 P1') in *. unfold Mean in *. rewrite P2 in P2'. injection P2' as <-. auto.
    - now apply last_some in P1.
    - now apply last_some in P1'.
    - auto.
  Qed.
  (** ** the whole run *)
  Lemma whole_weights s : (copied (L "net to gross ratio") <> [] \/ copied (L "porosity") = []) ->
    extend_with_coarsening co bx realization copy_all other (St [fv; cv] []) = Ok s -> GoodMean s.
  Proof.
    intro HN. unfold extend_with_coarsening. set (s0 := St [fv; cv] []).
    destruct (coarsen_rock_volume _ _ _ _ other s0) as [[s1 rv]|] eqn:E1; [|discriminate]. cbn [bind].
    destruct (coarsen_kind _ _ _ _ (L "net to gross ratio") other rv s1) as [[s2 ntg]|] eqn:E2; [|discriminate]. cbn [bind].
    destruct (net_volumes ntg rv s2) as [[s3 nrv]|] eqn:E3; [|discriminate]. cbn [bind].
    destruct (coarsen_kind _ _ _ _ (L "porosity") other nrv s3) as [[s4 poro]|] eqn:E4; [|discriminate]. cbn [bind].
    destruct (pore_volumes poro nrv s4) as [s5|] eqn:E5; [|discriminate]. cbn [bind].
    destruct (coarsen_kind _ _ _ _ (L "saturation") other nrv s5) as [[s6 x6]|] eqn:E6; [|discriminate]. cbn [bind].
    destruct (coarsen_kind _ _ _ _ (L "rock permeability") other nrv s6) as [[s7 x7]|] eqn:E7; [|discriminate]. cbn [bind].
    destruct (coarsen_lengths _ _ _ _ other s7) as [s8|] eqn:E8; [|discriminate]. cbn [bind]. intro E9.
    assert (G0 : GoodMean s0) by (intros p n []).
    (* rock volumes *)
    set (PR := fun p a => p_kind p = L "rock volume" /\ coarsening_sum co (boxed bx (p_array p)) None = Ok a).
    assert (S1 : Grown PR s0 s1 /\ Views RockWeights s1 rv).
    { unfold coarsen_rock_volume in E1. destruct (of_kind realization (L "rock volume") other) as [|p0 l0] eqn:EL.
      - injection E1 as <- <-. split; [apply grown_refl|]. right. exists (0%nat, bx), (1%nat, None), (boxed bx fv), cv. split; [reflexivity|].
        split; [split; [cbn; lia|destruct bx; reflexivity]|]. split; [split; [cbn; lia|reflexivity]|]. right. split; [|auto].
        intros p Hp Hk. assert (Hn : ~ In p (of_kind realization (L "rock volume") other)) by (rewrite EL; intros []). unfold of_kind in Hn. rewrite filter_In in Hn.
        assert (W : wanted_real realization (p_real p) = false).
        { destruct (wanted_real realization (p_real p)) eqn:W; [|reflexivity]. exfalso. apply Hn. split; [assumption|]. cbn [andb]. unfold same_property_kind. rewrite Hk.
          now rewrite (proj2 (PropSelProofs.str_eqb_ok (L "rock volume") (L "rock volume")) eq_refl). }
        unfold wanted_real in W. destruct realization as [z|]; [|discriminate]. split; [discriminate|]. destruct (p_real p) as [y|]; [|discriminate]. intros [= ->]. rewrite Z.eqb_refl in W. discriminate.
      - rewrite <- EL in E1. apply each_grown with (P := PR) in E1.
        + destruct E1 as [G1 L1]. split; [exact G1|]. rewrite (taken_of_kind (L "rock volume")) in L1 by discriminate.
          destruct L1 as [[_ ->]|(l' & p & f & c & x & Hl & -> & H1 & H2 & H3 & Hlow)]; [now left|right]. exists f, c, (boxed bx (p_array p)), x.
          split; [reflexivity|]. split; [exact H1|]. split; [exact H2|]. left. exists p. split; [now exists l'|]. split; [reflexivity|apply H3].
        + intros u p r Hp _ Gu. apply one_grown. intros u' c _ Hc. split; [|exact Hc].
          apply filter_In in Hp. destruct Hp as [_ Hp]. apply andb_true_iff in Hp. apply kind_eq; [discriminate|discriminate|apply Hp]. }
    destruct S1 as [G1 V1].
    assert (R1 : forall p a, PR p a -> RightMean p a).
    { intros p x [K1 H]. split; [|others K1]. split; [intros _; exact H|]. split; [intro X; rewrite K1 in X; discriminate|]. intro X. exfalso. apply X. rewrite K1. cbn [handled In]. tauto. }
    pose proof (good_grown s0 s1 G0 (grown_weaken PR RightMean s0 s1 R1 G1)) as M1.
    (* net to gross *)
    destruct (kind_stage _ RockWeights s1 rv s2 ntg V1 E2) as [G2 L2]. rewrite (taken_of_kind (L "net to gross ratio")) in L2 by discriminate.
    pose proof (good_grown s1 s2 M1 (grown_weaken _ RightMean s1 s2 right_ntg G2)) as M2. pose proof (views_grown _ _ _ _ _ G2 V1) as V2.
    (* net volumes *)
    set (fresh := fun (v : arrays_so_far) => v = (Some (List.length (arrays s2), None), Some (S (List.length (arrays s2)), None)) /\ List.length (arrays s3) = S (S (List.length (arrays s2)))).
    assert (S3 : Grown (fun _ _ => False) s2 s3 /\ Views NetWeights s3 nrv /\ (copied (L "net to gross ratio") <> [] -> fresh nrv)).
    { unfold net_volumes in E3. destruct L2 as [[N2 ->]|(l' & p & f & c & x & Hl & -> & H1 & H2 & H3 & Hlow)].
      - injection E3 as <- <-. split; [apply grown_refl|]. split; [|intro; contradiction].
        destruct V2 as [->|(f & c & x & y & -> & A1 & A2 & A3)]; [now left|right]. exists f, c, x, y. split; [reflexivity|]. split; [exact A1|]. split; [exact A2|].
        exists x, y. split; [exact A3|]. right. auto.
      - destruct V2 as [->|(rf & rc & x' & y' & -> & A1 & A2 & A3)]; [discriminate|].
        destruct (new_holds (fun _ _ => False) s2 (amul (look s2 rf) (look s2 f))) as (Ga & Ha & Va & La). destruct (new s2 _) as [sa va]. cbn [fst snd] in *.
        destruct (new_holds (fun _ _ => False) sa (amul (look sa rc) (look sa c))) as (Gb & Hb & Vb & Lb). destruct (new sa _) as [sb vb] eqn:Enb. cbn [fst snd] in *. injection E3 as <- <-.
        pose proof (holds_grown _ _ _ _ _ Ga A2) as A2'. pose proof (holds_grown _ _ _ _ _ Ga H2) as H2'.
        rewrite (proj2 A1), (proj2 H1) in Ha. rewrite (proj2 A2'), (proj2 H2') in Hb.
        split; [now apply (grown_trans _ s2 sa sb)|]. split.
        + right. exists va, vb, (product x' (boxed bx (p_array p))), (product y' x). split; [reflexivity|]. split; [apply (holds_grown _ _ _ _ _ Gb Ha)|]. split; [exact Hb|].
          exists x', y'. split; [exact A3|]. left. exists p, x. split; [now exists l'|]. split; [|split; reflexivity].
          destruct H3 as [_ (fw & cw & W & M)]. destruct (rock_unique _ _ _ _ W A3) as [-> ->]. exact M.
        + intros _. split; [now rewrite Va, Vb, La|]. now rewrite Lb, La. }
    destruct S3 as (G3 & V3 & F3). assert (NF : forall P : part -> arr value -> Prop, Grown P s2 s3) by (intro P; apply (grown_weaken (fun _ _ => False)); [intros ? ? []|exact G3]).
    pose proof (good_grown s2 s3 M2 (NF _)) as M3.
    (* porosity *)
    destruct (kind_stage _ NetWeights s3 nrv s4 poro V3 E4) as [G4 L4]. rewrite (taken_of_kind (L "porosity")) in L4 by discriminate.
    pose proof (good_grown s3 s4 M3 (grown_weaken _ RightMean s3 s4 right_poro G4)) as M4. pose proof (views_grown _ _ _ _ _ G4 V3) as V4.
    pose proof (views_grown _ _ _ _ _ G4 (views_grown _ _ _ _ _ G3 V2)) as W4.
    (* pore volumes *)
    assert (S5 : GoodMean s5 /\ Views PoreWeights s5 nrv /\ Views RockWeights s5 rv).
    { unfold pore_volumes in E5. destruct L4 as [[N4 ->]|(l' & p & f & c & x & Hl & -> & H1 & H2 & H3 & Hlow)].
      - injection E5 as <-. split; [exact M4|]. split; [|exact W4]. destruct V4 as [->|(f & c & x & y & -> & A1 & A2 & A3)]; [now left|right]. exists f, c, x, y.
        split; [reflexivity|]. split; [exact A1|]. split; [exact A2|]. exists x, y. split; [exact A3|]. right. auto.
      - assert (NN : copied (L "net to gross ratio") <> []) by (destruct HN as [HN|HN]; [exact HN|]; rewrite HN in Hl; now destruct l').
        destruct (F3 NN) as [-> L3]. set (n0 := List.length (arrays s2)) in *.
        destruct V4 as [|(nf & nc & u & v & [= <- <-] & A1 & A2 & A3)]; [discriminate|].
        injection E5 as <-. destruct H3 as [_ (fw & cw & W & M)]. destruct (net_unique _ _ _ _ W A3) as [-> ->].
        assert (Bp : forall (q : part) m, In (q, m) (imported s4) -> m <> n0 /\ m <> S n0).
        { intros q m Hm. destruct G4 as (ex4 & im4 & EA4 & EI4 & C4). destruct G3 as (ex3 & im3 & EA3 & EI3 & C3). rewrite EI4 in Hm. apply in_app_or in Hm. destruct Hm as [Hm|Hm].
          - rewrite EI3 in Hm. apply in_app_or in Hm. destruct Hm as [Hm|Hm]; [destruct (M2 q m Hm); lia|destruct (C3 q m Hm) as [_ []]].
          - destruct (C4 q m Hm). lia. }
        assert (Bv : forall v' y, In (Some v') [fst rv; snd rv] -> Holds s4 v' y -> (fst v' < n0)%nat -> True) by auto. clear Bv.
        destruct (mul_whole s4 n0 u (look s4 f) (boxed bx (p_array p)) A1 eq_refl (proj2 H1)) as (I1 & Le1 & O1 & P1). set (sa := mul_in_place s4 (n0, None) (look s4 f)) in *.
        assert (A2a : Holds sa (S n0, None) v) by (apply (holds_same s4); [assumption|apply O1; cbn [fst]; lia|assumption]).
        assert (Lc : look sa c = x).
        { assert (Hc : Holds sa c x); [|apply Hc]. apply (holds_same s4); [assumption| |assumption]. apply O1.
          lia. }
        destruct (mul_whole sa (S n0) v (look sa c) x A2a eq_refl Lc) as (I2 & Le2 & O2 & P2). set (sb := mul_in_place sa (S n0, None) (look sa c)) in *.
        split; [|split].
        + intros q m Hm. rewrite I2, I1 in Hm. destruct (Bp q m Hm) as [B1 B2]. destruct (M4 q m Hm) as [D1 D2]. rewrite Le2, Le1, O2, O1 by assumption. auto.
        + right. eexists _, _, _, _. split; [reflexivity|]. split; [apply (holds_same sa); [assumption|apply O2; cbn [fst]; lia|exact P1]|]. split; [exact P2|].
          exists u, v. split; [exact A3|]. left. exists p, x. split; [now exists l'|]. split; [exact M|]. split; reflexivity.
        + destruct V2 as [->|(rf & rc & y & z & -> & D1 & D2 & D3)]; [now left|right]. exists rf, rc, y, z. split; [reflexivity|].
          assert (KV : forall v' y', Holds s2 v' y' -> Holds sb v' y').
          { intros v' y' Hy. pose proof (proj1 Hy) as Lt. fold n0 in Lt. pose proof (holds_grown _ _ _ _ _ G4 (holds_grown _ _ _ _ _ G3 Hy)) as Hy4.
            apply (holds_same sa); [assumption|apply O2; lia|]. apply (holds_same s4); [assumption|apply O1; lia|assumption]. }
          auto. }
    destruct S5 as (M5 & V5 & W5).
    (* the others *)
    destruct (kind_stage _ PoreWeights s5 nrv s6 x6 V5 E6) as [G6 _].
    pose proof (good_grown s5 s6 M5 (grown_weaken _ RightMean s5 s6 (fun p a => right_pore (L "saturation") p a (or_introl eq_refl)) G6)) as M6. pose proof (views_grown _ _ _ _ _ G6 V5) as V6.
    destruct (kind_stage _ PoreWeights s6 nrv s7 x7 V6 E7) as [G7 _].
    pose proof (good_grown s6 s7 M6 (grown_weaken _ RightMean s6 s7 (fun p a => right_pore (L "rock permeability") p a (or_intror eq_refl)) G7)) as M7.
    assert (G8 : Grown RightMean s7 s8).
    { unfold coarsen_lengths in E8. match type of E8 with (do r <- ?x; _) = _ => destruct x as [[s8' r8]|] eqn:E; [|discriminate] end. cbn [bind fst] in E8. injection E8 as <-.
      apply each_grown with (P := RightMean) in E; [apply E|]. intros u p r' Hp _ Gu H. destruct (assert_ _); [|discriminate]. cbn [bind] in H.
      destruct (p_axis p) as [d|] eqn:EA; [|discriminate]. revert H. apply one_grown. intros u' c _ Hc.
      apply filter_In in Hp. destruct Hp as [_ Hp]. apply andb_true_iff in Hp. pose proof (kind_eq (L "cell length") p ltac:(discriminate) ltac:(discriminate) (proj2 Hp)) as K1.
      split; [|others K1]. split; [rewrite K1; discriminate|]. split; [intros _; exists d; auto|]. intro X. exfalso. apply X. rewrite K1. cbn [handled In]. tauto. }
    pose proof (good_grown s7 s8 M7 G8) as M8. pose proof (views_grown _ _ _ _ _ G8 (views_grown _ _ _ _ _ G7 (views_grown _ _ _ _ _ G6 W5))) as W8.
    unfold coarsen_other in E9. match type of E9 with (do r <- ?x; _) = _ => destruct x as [[s9 r9]|] eqn:E; [|discriminate] end. cbn [bind fst] in E9. injection E9 as <-.
    apply (good_grown s8 s9 M8). apply each_grown with (P := RightMean) in E; [apply E|]. intros u p r' Hp _ Gu. apply one_grown. intros u' c Gu' Hc.
    apply filter_In in Hp. destruct Hp as [_ Hp]. apply negb_true_iff in Hp.
    assert (NH : ~ In (p_kind p) handled).
    { intro HI. assert (existsb (str_eqb (p_kind p)) handled = true); [|congruence]. apply existsb_exists. exists (p_kind p). split; [exact HI|now apply PropSelProofs.str_eqb_ok]. }
    assert (NK : forall k, In k handled -> p_kind p <> k) by (intros k Hk E'; apply NH; now rewrite E').
    split; [split; [|split]|split; [|split; [|split]]].
    - intro E'. exfalso. revert E'. apply NK. cbn [handled In]. tauto.
    - intro E'. exfalso. revert E'. apply NK. cbn [handled In]. tauto.
    - intros _ HC. rewrite HC in Hc. exact Hc.
    - intro E'. exfalso. revert E'. apply NK. cbn [handled In]. tauto.
    - intro E'. exfalso. revert E'. apply NK. cbn [handled In]. tauto.
    - intros [E'|[E'|E']]; exfalso; revert E'; apply NK; cbn [handled In]; tauto.
    - intros _ HC. rewrite HC in Hc. apply (weighted_mean RockWeights s8 u' RightMean rv None p c W8); [now apply (grown_trans _ s8 u u')|exact Hc].
  Qed.
End Weights.

(** ** as callers see it *)
(** As long as a net to gross ratio is copied or no porosity is: every array is what its kind asks for:
    rock volumes are totals, net to gross ratios are weighted by rock volume, porosities by net volume,
    saturations and permeabilities by pore volume (or net volume without porosity), cell lengths are column
    averages, other continuous values are weighted by rock volume and discrete ones are samples. *)
Theorem C80_weights : forall co bx realization copy_all oe we fv cv other s,
  (copied realization copy_all other (L "net to gross ratio") <> [] \/ copied realization copy_all other (L "porosity") = []) ->
  extend_coarsening co bx realization copy_all oe we fv cv other = Ok s ->
  forall p n, In (p, n) (imported s) -> RightMean co bx realization copy_all fv cv other p (nth n (arrays s) nothing).
Proof.
  intros co bx realization copy_all oe we fv cv other s HP H. unfold extend_coarsening in H.
  destruct (match bx with None => _ | Some _ => _ end) as [[]|]; [|discriminate]. cbn [bind] in H.
  destruct (assert_ _) as [[]|]; [|discriminate]. cbn [bind] in H.
  intros p n Hin. exact (proj2 (whole_weights co bx realization copy_all fv cv other s HP H p n Hin)).
Qed.
Print Assumptions C80_weights.
Definition ex_sw := Part (L "sw") None true 1 (L "cells") (L "saturation") None None (Arr ex_fe (fun c => Some (inject_Z (ti c) / 4)%Q)).
Definition ex_poro2 := Part (L "poro") None true 1 (L "cells") (L "porosity") None None (Arr ex_fe (fun c => Some (inject_Z (1 + ti c) / 8)%Q)).
Example C80_weights_example : held (run [ex_sw; ex_poro2; ex_ntg; ex_rv]) =
  [(L "rv", [Some 20; Some 72]); (L "ntg", [Some 0; Some (37 # 72)]); (L "poro", [Some 0; Some (125 # 296)]); (L "sw", [Some 0; Some (317 # 500)])]%Q.
Proof. vm_compute. reflexivity. Qed.

(** the product in place: cells of the view are multiplied, and nothing else changes *)
Theorem C80_in_place (s : st) (n : nat) (b : box) (a : arr value) : (n < List.length (arrays s))%nat ->
  let s' := mul_in_place s (n, Some b) a in
  (forall m, m <> n -> nth m (arrays s') nothing = nth m (arrays s) nothing) /\ imported s' = imported s /\
  forall c, (InBox c b -> el (nth n (arrays s') nothing) c = vmul (el (nth n (arrays s) nothing) c) (el a (T (tk c - tk (lo b)) (tj c - tj (lo b)) (ti c - ti (lo b))))) /\
            (~ InBox c b -> el (nth n (arrays s') nothing) c = el (nth n (arrays s) nothing) c).
Proof.
  intros Hn. cbv zeta. unfold mul_in_place. cbn [fst snd arrays imported]. split; [|split; [reflexivity|]].
  - intros m Hm. rewrite nth_upd by assumption. now rewrite (proj2 (Nat.eqb_neq m n)) by assumption.
  - intro c. rewrite nth_upd, Nat.eqb_refl by assumption. cbn [el]. pose proof (cell_in_box_spec c b) as S. destruct (cell_in_box c b).
    + split; [reflexivity|]. intro N. exfalso. apply N, S. reflexivity.
    + split; [|reflexivity]. intro Y. apply S in Y. discriminate.
Qed.
Print Assumptions C80_in_place.

(** ** What is checked *)
(** A coarsening that succeeds was over a box within the other grid, of the fine extent of the mapping, onto a
    grid of its coarse extent, and had only cell lengths with one value for each cell and a direction. *)
Theorem C80_checked : forall co bx realization copy_all oe we fv cv other s,
  extend_coarsening co bx realization copy_all oe we fv cv other = Ok s ->
  (forall b, bx = Some b -> (forall a, 0 <= get (lo b) a <= get (hi b) a /\ get (hi b) a < get oe a) /\
     forall a, get (hi b) a - get (lo b) a + 1 = fine (get (ax co) a)) /\
  (forall a, get we a = coarse (get (ax co) a)) /\
  (forall p, In p other -> p_kind p = L "cell length" -> p_real p = realization -> p_count p = 1 /\ p_axis p <> None).
Proof.
  intros co bx realization copy_all oe we fv cv other s H. unfold extend_coarsening in H.
  assert (SS : forall x y, same_shape x y = true -> forall a, get x a = get y a).
  { intros x y E a. unfold same_shape in E. rewrite forall3_spec in E. apply Z.eqb_eq. apply E. }
  assert (B : forall b, bx = Some b -> valid_box b oe = true /\ same_shape (extent_of_box b) (map3 fine (ax co)) = true).
  { intros b ->. destruct (valid_box b oe); [|discriminate H]. destruct (same_shape (extent_of_box b) (map3 fine (ax co))); [|discriminate H]. split; reflexivity. }
  destruct (match bx with None => _ | Some _ => _ end) as [[]|]; [|discriminate]. cbn [bind] in H.
  destruct (same_shape we (map3 coarse (ax co))) eqn:E2; [|discriminate]. cbn [assert_ bind] in H.
  split; [|split].
  - intros b Eb. destruct (B b Eb) as [V E]. split.
    + intros a. unfold valid_box in V. rewrite forall3_spec in V. specialize (V a). lia.
    + intros a. specialize (SS _ _ E a). rewrite get_map3 in SS. rewrite <- SS. unfold extent_of_box. destruct a; cbn; lia.
  - intros a. specialize (SS _ _ E2 a). now rewrite get_map3 in SS.
  - intros p Hp Hk Hr. unfold extend_with_coarsening in H.
    destruct (coarsen_rock_volume _ _ _ _ other _) as [[s1 rv]|]; [|discriminate]. cbn [bind] in H.
    destruct (coarsen_kind _ _ _ _ (L "net to gross ratio") other rv s1) as [[s2 ntg]|]; [|discriminate]. cbn [bind] in H.
    destruct (net_volumes ntg rv s2) as [[s3 nrv]|]; [|discriminate]. cbn [bind] in H.
    destruct (coarsen_kind _ _ _ _ (L "porosity") other nrv s3) as [[s4 poro]|]; [|discriminate]. cbn [bind] in H.
    destruct (pore_volumes poro nrv s4) as [s5|]; [|discriminate]. cbn [bind] in H.
    destruct (coarsen_kind _ _ _ _ (L "saturation") other nrv s5) as [[s6 x6]|]; [|discriminate]. cbn [bind] in H.
    destruct (coarsen_kind _ _ _ _ (L "rock permeability") other nrv s6) as [[s7 x7]|]; [|discriminate]. cbn [bind] in H.
    destruct (coarsen_lengths _ _ _ _ other s7) as [s8|] eqn:E8; [|discriminate]. clear H.
    unfold coarsen_lengths in E8. match type of E8 with (do r <- ?x; _) = _ => destruct x as [r|] eqn:E; [|discriminate] end. clear E8.
    assert (I1 : In p (of_kind realization (L "cell length") other)).
    { unfold of_kind. apply filter_In. split; [exact Hp|]. rewrite Hk, Hr. apply andb_true_intro. split; [|reflexivity].
      unfold wanted_real. destruct realization; [apply Z.eqb_refl|reflexivity]. }
    assert (T1 : taken realization copy_all p = true).
    { unfold taken. rewrite Hr. apply orb_true_intro. right. destruct realization; [apply Z.eqb_refl|reflexivity]. }
    revert E I1. generalize (of_kind realization (L "cell length") other) as l. generalize s7, (None : option view, None : option view).
    intros s0 last l. revert s0 last. induction l as [|x l IH]; intros s0 last E I1; [destruct I1|]. cbn [each] in E.
    destruct I1 as [-> | I1].
    + rewrite T1 in E. destruct (Z.eqb_spec (p_count p) 1) as [C|C]; [|discriminate E]. split; [exact C|].
      destruct (p_axis p); [discriminate|]. discriminate E.
    + destruct (taken realization copy_all x); [|eapply IH; eassumption].
      match type of E with (do r <- ?b; _) = _ => destruct b as [r0|]; [|discriminate E] end. cbn [bind] in E. eapply IH; eassumption.
Qed.
Print Assumptions C80_checked.
(** Asking for all realizations along with one leaves out a rock volume that has none, although other
    properties that have none are copied. *)
Theorem C80_some_left_out_refuted : exists fe ce s st,
  Mapping fe ce s /\ extend_coarsening s None (Some 3) true fe ce (const_arr fe 1) (const_arr ce 1) [ex_rv; ex_region] = Ok st /\
  map fst (imported st) = [ex_region].
Proof. exists ex_fe, ex_ce, ex_map. eexists. split; [exact ex_mapping|]. split; [vm_compute; reflexivity|]. reflexivity. Qed.
Print Assumptions C80_some_left_out_refuted.
