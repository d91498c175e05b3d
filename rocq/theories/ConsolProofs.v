(** ConsolProofs.v: the consolidation map (C16) and part ordering (C17). *)
From Verif Require Import Base TextModel StrModel StrProofs ConsolModel.
From Coq Require Import Permutation Sorted.

Lemma lookup_update m k v k' : lookup (update m k v) k' = if k' =? k then Some v else lookup m k'.
Proof.
  induction m as [|[a b] m IH]; cbn [update lookup].
  - destruct (Z.eqb_spec k k'), (Z.eqb_spec k' k); congruence.
  - destruct (Z.eqb_spec a k) as [->|N]; cbn [lookup].
    + destruct (Z.eqb_spec k k'), (Z.eqb_spec k' k); try congruence.
    + rewrite IH. destruct (Z.eqb_spec a k'), (Z.eqb_spec k' k); congruence.
Qed.
Lemma mem_iff x l : mem x l = true <-> In x l.
Proof.
  unfold mem. rewrite existsb_exists. split; [intros (y & H & E); apply Z.eqb_eq in E; now subst|].
  intros H. exists x. split; [assumption|apply Z.eqb_refl].
Qed.
Lemma lookup_keys m k : In k (keys m) <-> exists v, lookup m k = Some v.
Proof.
  induction m as [|[a b] m IH]; cbn; [split; [tauto|intros [v E]; discriminate]|].
  destruct (Z.eqb_spec a k) as [->|N].
  - split; eauto.
  - rewrite IH. split; [intros [E|H]; [contradiction|assumption]|auto].
Qed.
Lemma lookup_value m k v : lookup m k = Some v -> In v (values m).
Proof.
  induction m as [|[a b] m IH]; cbn; [discriminate|]. destruct (a =? k); [intros [= ->]; now left|]. auto.
Qed.
Lemma update_values m k v x : In x (values (update m k v)) -> x = v \/ In x (values m).
Proof.
  induction m as [|[a b] m IH]; cbn [update values map]; [cbn; intuition|].
  destruct (a =? k); cbn; [intuition|]. intros [E|H]; [auto|]. destruct (IH H); auto.
Qed.
Lemma update_keys m k v x : In x (keys (update m k v)) <-> x = k \/ In x (keys m).
Proof.
  rewrite !lookup_keys. setoid_rewrite lookup_update. destruct (Z.eqb_spec x k) as [->|N].
  - split; eauto.
  - split; [auto|]. intros [E|H]; [contradiction|assumption].
Qed.

(** * Termination *)
Definition Ranked (m : cmap) : Prop := exists rank : Z -> nat, forall k v, lookup m k = Some v -> (rank v < rank k)%nat.

Lemma follow_end fuel m r x : follow fuel m r = Ok x -> lookup m x = None.
Proof.
  revert r. induction fuel as [|f IH]; intros r; cbn; destruct (lookup m r) eqn:E; try discriminate.
  - intros [= <-]. assumption.
  - apply IH.
  - intros [= <-]. assumption.
Qed.
Lemma follow_ranked m (rank : Z -> nat) : (forall k v, lookup m k = Some v -> (rank v < rank k)%nat) ->
  forall n r, (rank r <= n)%nat -> exists x, forall fuel, (n <= fuel)%nat -> follow fuel m r = Ok x.
Proof.
  intros H. induction n as [|n IH]; intros r Hr.
  - destruct (lookup m r) as [v|] eqn:E; [specialize (H r v E); lia|].
    exists r. intros [|f] _; cbn; now rewrite E.
  - destruct (lookup m r) as [v|] eqn:E.
    + destruct (IH v) as [x Hx]; [specialize (H r v E); lia|]. exists x. intros [|f] Hf; [lia|]. cbn. rewrite E. apply Hx. lia.
    + exists r. intros [|f] _; cbn; now rewrite E.
Qed.
(** The value found lies in the map's values or is the start. *)
Lemma follow_in fuel m r x : follow fuel m r = Ok x -> x = r \/ In x (values m).
Proof.
  revert r. induction fuel as [|f IH]; intros r; cbn; destruct (lookup m r) eqn:E; try discriminate.
  - intros [= <-]. auto.
  - intros H. destruct (IH _ H) as [->|]; [|auto]. right. eapply lookup_value; eassumption.
  - intros [= <-]. auto.
Qed.

Lemma search_spec fuel eqv ig m u rs : forall m' o, search fuel eqv ig m u rs = Ok (m', o) ->
  (m' = m /\ o = None) \/
  exists r x, In r rs /\ eqv u r = true /\ follow fuel m r = Ok x /\ m' = update m u x /\ o = Some x.
Proof.
  induction rs as [|r rs IH]; intros m' o; cbn [search].
  - intros [= <- <-]. auto.
  - destruct (ig && (r =? u)).
    + intros H. destruct (IH _ _ H) as [?|(r' & x & H1 & H2)]; [auto|]. right. exists r', x. split; [now right|assumption].
    + destruct (eqv u r) eqn:E.
      * destruct (follow fuel m r) as [x|] eqn:F; cbn [bind]; [|discriminate]. intros [= <- <-]. right.
        exists r, x. repeat split; auto. now left.
      * intros H. destruct (IH _ _ H) as [?|(r' & x & H1 & H2)]; [auto|]. right. exists r', x. split; [now right|assumption].
Qed.

(** * Documented use of a Consolidation object *)
(** Each call is made while the resident model holds the uuids [R]; parts are only
    added in between.  An immigrant part already resident is in its class list. *)
Definition DocOp (R : list Z) (o : cop) : Prop :=
  match o with
  | Equiv u c rs ig => ig = false /\ incl rs R /\ (In u R -> c = true -> In u rs)
  | Force a b => In b R
  end.
Inductive DocHist : list Z -> list cop -> Prop :=
  | doc_nil R : DocHist R []
  | doc_cons R R' o os : incl R R' -> DocOp R' o -> DocHist R' os -> DocHist R (o :: os).

Definition Inv (R : list Z) (m : cmap) : Prop := Ranked m /\ incl (values m) R.

Lemma ranked_update m a b : Ranked m -> ~ In a (values m) -> a <> b -> Ranked (update m a b).
Proof.
  intros [rank Hr] Hv Hne. exists (fun x => if x =? a then S (rank b) else rank x). intros k v.
  rewrite lookup_update. destruct (Z.eqb_spec k a) as [->|Nk].
  - intros [= <-]. destruct (Z.eqb_spec b a); [congruence|]. lia.
  - intros E. destruct (Z.eqb_spec v a) as [->|]; [exfalso; apply Hv; eapply lookup_value; eassumption|]. now apply Hr.
Qed.

Lemma search_total m rank eqv ig u : (forall k v, lookup m k = Some v -> (rank v < rank k)%nat) ->
  forall rs, exists n p, forall fuel, (n <= fuel)%nat -> search fuel eqv ig m u rs = Ok p.
Proof.
  intros Hr. induction rs as [|r rs (n & p & IH)]; [exists 0%nat, (m, None); reflexivity|]. cbn [search].
  destruct (ig && (r =? u)); [eauto|]. destruct (eqv u r); [|eauto].
  destruct (follow_ranked m rank Hr (rank r) r (le_n _)) as [x Hx].
  exists (rank r), (update m u x, Some x). intros fuel Hf. now rewrite (Hx fuel Hf).
Qed.

Lemma step_inv eqv R R' m o : Inv R m -> incl R R' -> DocOp R' o ->
  exists n m', (forall fuel, (n <= fuel)%nat -> cstep fuel eqv m o = Ok m') /\ Inv R' m'.
Proof.
  intros [Hr Hv] Hinc Hdoc. assert (Hv' : incl (values m) R') by (intros x Hx; auto).
  destruct o as [u c rs ig|a b]; cbn [cstep].
  - destruct Hdoc as (-> & Hrs & Hres). unfold equivalent_uuid_int.
    destruct (lookup m u) as [r0|] eqn:Elu; [exists 0%nat, m; split; [reflexivity|split; assumption]|].
    destruct c; cbn [negb]; [|exists 0%nat, m; split; [reflexivity|split; assumption]].
    cbn [andb]. destruct (mem u rs) eqn:Em; [exists 0%nat, m; split; [reflexivity|split; assumption]|].
    assert (HuR : ~ In u R'). { intros H. specialize (Hres H eq_refl). apply mem_iff in Hres. congruence. }
    assert (Hr' := Hr). destruct Hr' as [rank Hrank].
    destruct (search_total m rank eqv false u Hrank rs) as (n & [m' o] & Hs).
    exists n, m'. split; [intros fuel Hf; now rewrite (Hs fuel Hf)|].
    specialize (Hs n (le_n _)). destruct (search_spec _ _ _ _ _ _ _ _ Hs) as [[-> _]|(r & x & H1 & H2 & H3 & -> & _)].
    + split; assumption.
    + assert (HxR : In x R'). { destruct (follow_in _ _ _ _ H3) as [->|Hx]; auto. }
      split.
      * apply ranked_update; [assumption| |]. { intros H. apply HuR. auto. } { intros ->. contradiction. }
      * intros y Hy. apply update_values in Hy. destruct Hy as [->|Hy]; auto.
  - cbn in Hdoc. unfold force_int. destruct (Z.eqb_spec a b) as [->|Hne]; [exists 0%nat, m; split; [reflexivity|split; assumption]|].
    destruct (mem a (values m)) eqn:Em; cbn [negb assert_ bind].
    + exists 0%nat, m. split; [reflexivity|split; assumption].
    + exists 0%nat, (update m a b). split; [reflexivity|]. split.
      * apply ranked_update; [assumption| |assumption]. intros H. apply mem_iff in H. congruence.
      * intros y Hy. apply update_values in Hy. destruct Hy as [->|Hy]; auto.
Qed.

Lemma run_inv eqv os : forall R m, Inv R m -> DocHist R os ->
  exists n m', (forall fuel, (n <= fuel)%nat -> crun fuel eqv m os = Ok m') /\ Ranked m'.
Proof.
  induction os as [|o os IH]; intros R m Hi Hd.
  - exists 0%nat, m. split; [reflexivity|apply Hi].
  - inversion Hd as [|? R' ? ? Hinc Hop Hrest]; subst.
    destruct (step_inv eqv R R' m o Hi Hinc Hop) as (n1 & m1 & H1 & Hi1).
    destruct (IH R' m1 Hi1 Hrest) as (n2 & m2 & H2 & Hr2).
    exists (Nat.max n1 n2), m2. split; [|assumption]. intros fuel Hf. cbn [crun].
    rewrite H1 by lia. cbn [bind]. apply H2. lia.
Qed.

(** * Integrity *)
Definition Disjoint (m : cmap) : Prop := forall x, In x (keys m) -> In x (values m) -> False.
Lemma integrity_iff m : check_map_integrity m = true <-> Disjoint m.
Proof.
  unfold check_map_integrity. rewrite andb_true_iff, !forallb_forall. unfold Disjoint. split.
  - intros [H _] x Hk Hv. specialize (H x Hk). apply mem_iff in Hv. rewrite Hv in H. discriminate.
  - intros H. split; intros x Hx; apply negb_true_iff, not_true_iff_false; rewrite mem_iff; eauto.
Qed.
Lemma disjoint_update m a b : Disjoint m -> ~ In a (values m) -> ~ In b (keys m) -> a <> b -> Disjoint (update m a b).
Proof.
  intros H Ha Hb Hne x Hk Hv. apply update_keys in Hk. apply update_values in Hv.
  destruct Hk as [->|Hk], Hv as [->|Hv]; auto. eapply H; eassumption.
Qed.

(** Forced targets are not themselves mapped. *)
Fixpoint TargetsUnmapped (fuel : nat) (eqv : Z -> Z -> bool) (m : cmap) (os : list cop) : Prop :=
  match os with
  | [] => True
  | o :: os' =>
      (match o with Force a b => ~ In b (keys m) | _ => True end) /\
      match cstep fuel eqv m o with Ok m' => TargetsUnmapped fuel eqv m' os' | Err _ => True end
  end.

Lemma step_disjoint fuel eqv R R' m o m' : Inv R m -> incl R R' -> DocOp R' o -> Disjoint m ->
  (match o with Force a b => ~ In b (keys m) | _ => True end) ->
  cstep fuel eqv m o = Ok m' -> Disjoint m' /\ incl (values m') R'.
Proof.
  intros [_ Hv] Hinc Hdoc Hd Ht. assert (Hv' : incl (values m) R') by (intros x Hx; auto).
  destruct o as [u c rs ig|a b]; cbn [cstep].
  - destruct Hdoc as (-> & Hrs & Hres). unfold equivalent_uuid_int.
    destruct (lookup m u) as [r0|] eqn:Elu; cbn [bind]; [intros [= <-]; auto|].
    destruct c; cbn [negb]; [|intros [= <-]; auto].
    cbn [andb]. destruct (mem u rs) eqn:Em; [intros [= <-]; auto|].
    assert (HuR : ~ In u R'). { intros H. specialize (Hres H eq_refl). apply mem_iff in Hres. congruence. }
    destruct (search fuel eqv false m u rs) as [[m1 o1]|] eqn:Es; cbn [bind]; [|discriminate]. intros [= <-].
    destruct (search_spec _ _ _ _ _ _ _ _ Es) as [[-> _]|(r & x & H1 & H2 & H3 & -> & _)]; [auto|].
    assert (HxR : In x R') by (destruct (follow_in _ _ _ _ H3) as [->|Hx]; auto).
    split.
    + apply disjoint_update; auto.
      * apply follow_end in H3. rewrite lookup_keys. intros [v E]. congruence.
      * intros ->. contradiction.
    + intros y Hy. apply update_values in Hy. destruct Hy as [->|Hy]; auto.
  - cbn in Hdoc. unfold force_int. destruct (Z.eqb_spec a b) as [->|Hne]; [intros [= <-]; auto|].
    destruct (mem a (values m)) eqn:Em; cbn [negb assert_ bind]; intros [= <-]; [auto|]. split.
    + apply disjoint_update; auto. intros H. apply mem_iff in H. congruence.
    + intros y Hy. apply update_values in Hy. destruct Hy as [->|Hy]; auto.
Qed.

Lemma run_disjoint fuel eqv os : forall R m m', Ranked m -> incl (values m) R -> Disjoint m -> DocHist R os ->
  TargetsUnmapped fuel eqv m os -> crun fuel eqv m os = Ok m' -> Disjoint m'.
Proof.
  induction os as [|o os IH]; intros R m m' Hr Hv Hd Hdoc Ht; cbn [crun].
  - intros [= <-]. assumption.
  - inversion Hdoc as [|? R' ? ? Hinc Hop Hrest]; subst. destruct Ht as [Ht Ht'].
    destruct (cstep fuel eqv m o) as [m1|] eqn:E; cbn [bind]; [|discriminate].
    destruct (step_disjoint fuel eqv R R' m o m1 (conj Hr Hv) Hinc Hop Hd Ht E) as [H1 H2].
    destruct (step_inv eqv R R' m o (conj Hr Hv) Hinc Hop) as (n & m2 & Hm2 & [Hr2 _]).
    assert (Heq : m1 = m2).
    { (* more fuel gives the same answer *)
      clear -E Hm2. specialize (Hm2 (Nat.max n fuel) ltac:(lia)).
      assert (Hmono : forall f g m r x, (f <= g)%nat -> follow f m r = Ok x -> follow g m r = Ok x).
      { clear. induction f as [|f IH]; intros [|g] m r x Hle; cbn; destruct (lookup m r); try discriminate; try lia; auto.
        apply IH. lia. }
      assert (Hs : forall f g ig m u rs p, (f <= g)%nat -> search f eqv ig m u rs = Ok p -> search g eqv ig m u rs = Ok p).
      { clear -Hmono. intros f g ig m u. induction rs as [|r rs IH]; intros p Hle; cbn [search]; [auto|].
        destruct (ig && (r =? u)); [auto|]. destruct (eqv u r); [|auto].
        destruct (follow f m r) eqn:E; cbn [bind]; [|discriminate]. now rewrite (Hmono f g m r a Hle E). }
      destruct o as [u c rs ig|a b]; cbn [cstep] in *; [|congruence].
      unfold equivalent_uuid_int in *. destruct (lookup m u); [cbn in *; congruence|].
      destruct (negb c); [cbn in *; congruence|]. destruct (negb ig && mem u rs); [cbn in *; congruence|].
      destruct (search fuel eqv ig m u rs) as [[q p]|] eqn:Es; cbn [bind] in E; [|discriminate].
      apply (Hs _ (Nat.max n fuel)) in Es; [|lia]. rewrite Es in Hm2. cbn [bind] in Hm2. congruence. }
    subst m2. eapply IH; eauto.
Qed.

(** * Stability and soundness *)
Definition is_equiv (o : cop) : bool := match o with Equiv _ _ _ _ => true | _ => false end.
Lemma run_stable fuel eqv os : forall m m' u r, forallb is_equiv os = true -> lookup m u = Some r ->
  crun fuel eqv m os = Ok m' -> lookup m' u = Some r.
Proof.
  induction os as [|o os IH]; intros m m' u r Ho Hl; cbn [crun]; [congruence|].
  cbn [forallb] in Ho. apply andb_true_iff in Ho. destruct Ho as [Ho Hos].
  destruct o as [w c rs ig|]; [|discriminate]. cbn [cstep]. unfold equivalent_uuid_int.
  destruct (lookup m w) eqn:Ew; cbn [bind]; [eauto|]. destruct (negb c); cbn [bind]; [eauto|].
  destruct (negb ig && mem w rs); cbn [bind]; [eauto|].
  destruct (search fuel eqv ig m w rs) as [[m1 o1]|] eqn:Es; cbn [bind]; [|discriminate].
  apply IH; [assumption|].
  destruct (search_spec _ _ _ _ _ _ _ _ Es) as [[-> _]|(r' & x & _ & _ & _ & -> & _)]; [assumption|].
  rewrite lookup_update. destruct (Z.eqb_spec u w) as [->|]; [congruence|assumption].
Qed.

(** Equivalence generated by the comparisons made and the pairs forced. *)
Inductive Conn (eqv : Z -> Z -> bool) (forced : list (Z * Z)) : Z -> Z -> Prop :=
  | conn_refl x : Conn eqv forced x x
  | conn_eqv x y : eqv x y = true -> Conn eqv forced x y
  | conn_forced x y : In (x, y) forced -> Conn eqv forced x y
  | conn_sym x y : Conn eqv forced x y -> Conn eqv forced y x
  | conn_trans x y z : Conn eqv forced x y -> Conn eqv forced y z -> Conn eqv forced x z.
Definition forced_pairs (os : list cop) : list (Z * Z) :=
  flat_map (fun o => match o with Force a b => [(a, b)] | _ => [] end) os.

Lemma follow_conn fuel eqv fp m r x : (forall k v, lookup m k = Some v -> Conn eqv fp k v) ->
  follow fuel m r = Ok x -> Conn eqv fp r x.
Proof.
  intros H. revert r. induction fuel as [|f IH]; intros r; cbn; destruct (lookup m r) eqn:E; try discriminate.
  - intros [= <-]. apply conn_refl.
  - intros Hf. eapply conn_trans; [apply H; eassumption|]. now apply IH.
  - intros [= <-]. apply conn_refl.
Qed.

Lemma run_conn fuel eqv fp os : forall m m', incl (forced_pairs os) fp ->
  (forall k v, lookup m k = Some v -> Conn eqv fp k v) -> crun fuel eqv m os = Ok m' ->
  forall k v, lookup m' k = Some v -> Conn eqv fp k v.
Proof.
  induction os as [|o os IH]; intros m m' Hinc Hm; cbn [crun]; [intros [= <-]; assumption|].
  assert (Hinc' : incl (forced_pairs os) fp) by (intros x Hx; apply Hinc; cbn; apply in_app_iff; now right).
  destruct o as [w c rs ig|a b]; cbn [cstep].
  - unfold equivalent_uuid_int.
    destruct (lookup m w) eqn:Ew; cbn [bind]; [eauto|]. destruct (negb c); cbn [bind]; [eauto|].
    destruct (negb ig && mem w rs); cbn [bind]; [eauto|].
    destruct (search fuel eqv ig m w rs) as [[m1 o1]|] eqn:Es; cbn [bind]; [|discriminate].
    apply IH; [assumption|].
    destruct (search_spec _ _ _ _ _ _ _ _ Es) as [[-> _]|(r' & x & _ & He & Hf & -> & _)]; [assumption|].
    intros k v. rewrite lookup_update. destruct (Z.eqb_spec k w) as [->|]; [|apply Hm].
    intros [= <-]. eapply conn_trans; [apply conn_eqv; eassumption|]. eapply follow_conn; eassumption.
  - assert (Hf : Conn eqv fp a b) by (apply conn_forced, Hinc; cbn; now left).
    unfold force_int. destruct (a =? b); cbn [bind]; [eauto|].
    destruct (assert_ _); cbn [bind]; [|eauto]. apply IH; [assumption|].
    intros k v. rewrite lookup_update. destruct (Z.eqb_spec k a) as [->|]; [intros [= <-]; assumption|apply Hm].
Qed.

(** * Sorting *)
Lemma str_leb_total a b : str_leb a b = true \/ str_leb b a = true.
Proof.
  revert b. induction a as [|x a IH]; intros [|y b]; cbn; auto.
  destruct (N.ltb_spec (N_of_ascii x) (N_of_ascii y)), (N.ltb_spec (N_of_ascii y) (N_of_ascii x)); auto; lia.
Qed.
Lemma ascii_eq_N x y : N_of_ascii x = N_of_ascii y -> x = y.
Proof. intros H. rewrite <- (ascii_N_embedding x), <- (ascii_N_embedding y). congruence. Qed.
Lemma str_leb_antisym a b : str_leb a b = true -> str_leb b a = true -> a = b.
Proof.
  revert b. induction a as [|x a IH]; intros [|y b]; cbn; try discriminate; auto.
  destruct (N.ltb_spec (N_of_ascii x) (N_of_ascii y)), (N.ltb_spec (N_of_ascii y) (N_of_ascii x)); try discriminate; try lia.
  intros H1 H2. f_equal; [apply ascii_eq_N; lia|auto].
Qed.
Lemma str_leb_trans a b c : str_leb a b = true -> str_leb b c = true -> str_leb a c = true.
Proof.
  revert b c. induction a as [|x a IH]; intros [|y b] [|z c]; cbn; try discriminate; auto.
  destruct (N.ltb_spec (N_of_ascii x) (N_of_ascii y)), (N.ltb_spec (N_of_ascii y) (N_of_ascii x)); try discriminate; try lia;
  destruct (N.ltb_spec (N_of_ascii y) (N_of_ascii z)), (N.ltb_spec (N_of_ascii z) (N_of_ascii y)); try discriminate; try lia;
  destruct (N.ltb_spec (N_of_ascii x) (N_of_ascii z)), (N.ltb_spec (N_of_ascii z) (N_of_ascii x)); try discriminate; try lia; eauto.
Qed.
Lemma pair_leb_total p q : pair_leb p q = true \/ pair_leb q p = true.
Proof.
  unfold pair_leb. destruct (Z.ltb_spec (fst p) (fst q)), (Z.ltb_spec (fst q) (fst p)); auto. apply str_leb_total.
Qed.
Lemma pair_leb_antisym p q : pair_leb p q = true -> pair_leb q p = true -> p = q.
Proof.
  destruct p as [i s], q as [j t]. unfold pair_leb. cbn.
  destruct (Z.ltb_spec i j), (Z.ltb_spec j i); try discriminate; try lia.
  intros H1 H2. f_equal; [lia|]. now apply str_leb_antisym.
Qed.
Lemma pair_leb_trans p q r : pair_leb p q = true -> pair_leb q r = true -> pair_leb p r = true.
Proof.
  destruct p as [i s], q as [j t], r as [k w]. unfold pair_leb. cbn.
  destruct (Z.ltb_spec i j), (Z.ltb_spec j i); try discriminate; try lia;
  destruct (Z.ltb_spec j k), (Z.ltb_spec k j); try discriminate; try lia;
  destruct (Z.ltb_spec i k), (Z.ltb_spec k i); try discriminate; try lia; auto.
  apply str_leb_trans.
Qed.
Lemma pair_leb_fst p q : pair_leb p q = true -> fst p <= fst q.
Proof. unfold pair_leb. destruct (Z.ltb_spec (fst p) (fst q)), (Z.ltb_spec (fst q) (fst p)); try discriminate; lia. Qed.

Lemma insert_perm x l : Permutation (x :: l) (insert x l).
Proof.
  induction l as [|y l IH]; cbn; [auto|]. destruct (pair_leb x y); [auto|].
  rewrite perm_swap. now constructor.
Qed.
Lemma sort_perm l : Permutation l (sort_pairs l).
Proof.
  induction l as [|x l IH]; cbn; [auto|]. rewrite <- insert_perm. now constructor.
Qed.
Definition le_pair p q := pair_leb p q = true.
Lemma insert_sorted x l : StronglySorted le_pair l -> StronglySorted le_pair (insert x l).
Proof.
  induction l as [|y l IH]; intros H; cbn; [repeat constructor|].
  inversion H as [|? ? Hs Hf]; subst. destruct (pair_leb x y) eqn:E.
  - constructor; [assumption|]. constructor; [assumption|].
    eapply Forall_impl; [|exact Hf]. intros z Hz. unfold le_pair in *. eapply pair_leb_trans; eassumption.
  - constructor; [auto|]. eapply Permutation_Forall; [apply insert_perm|]. constructor; [|assumption].
    destruct (pair_leb_total x y); [congruence|assumption].
Qed.
Lemma sort_sorted l : StronglySorted le_pair (sort_pairs l).
Proof. induction l; cbn; [constructor|]. now apply insert_sorted. Qed.

Lemma insert_comm x y l : insert x (insert y l) = insert y (insert x l).
Proof.
  induction l as [|z l IH]; cbn.
  - destruct (pair_leb x y) eqn:E1, (pair_leb y x) eqn:E2; try reflexivity.
    + now rewrite (pair_leb_antisym x y E1 E2).
    + destruct (pair_leb_total x y); congruence.
  - destruct (pair_leb y z) eqn:Eyz, (pair_leb x z) eqn:Exz; cbn; rewrite ?Eyz, ?Exz.
    + destruct (pair_leb x y) eqn:E1, (pair_leb y x) eqn:E2; try reflexivity.
      * now rewrite (pair_leb_antisym x y E1 E2).
      * destruct (pair_leb_total x y); congruence.
    + destruct (pair_leb x y) eqn:E1; [|reflexivity].
      rewrite (pair_leb_trans x y z E1 Eyz) in Exz. discriminate.
    + destruct (pair_leb y x) eqn:E1; [|reflexivity].
      rewrite (pair_leb_trans y x z E1 Exz) in Eyz. discriminate.
    + now rewrite IH.
Qed.
Lemma sort_canonical l l' : Permutation l l' -> sort_pairs l = sort_pairs l'.
Proof.
  unfold sort_pairs. induction 1; cbn; try congruence. apply insert_comm.
Qed.

Lemma pair_list_spec type_of parts pl : pair_list type_of parts = Ok pl ->
  map snd pl = parts /\ forall i p, In (i, p) pl -> exists t, type_of p = Some t /\ i = ordering t.
Proof.
  revert pl. induction parts as [|p ps IH]; intros pl; cbn.
  - intros [= <-]. split; [reflexivity|]. intros i p [].
  - destruct (type_of p) as [t|] eqn:E; [|discriminate].
    destruct (pair_list type_of ps) as [rest|] eqn:Er; cbn; [|discriminate]. intros [= <-].
    destruct (IH rest eq_refl) as [H1 H2]. split; [cbn; congruence|].
    intros i q [[= <- <-]|Hin]; eauto.
Qed.
Lemma pair_list_perm type_of a b pa pb : Permutation a b -> pair_list type_of a = Ok pa -> pair_list type_of b = Ok pb ->
  Permutation pa pb.
Proof.
  intros H. revert pa pb. induction H; intros pa pb; cbn.
  - intros [= <-] [= <-]. auto.
  - destruct (type_of x); [|discriminate].
    destruct (pair_list type_of l) eqn:E1; cbn; [|discriminate]. destruct (pair_list type_of l') eqn:E2; cbn; [|discriminate].
    intros [= <-] [= <-]. constructor. auto.
  - destruct (type_of x), (type_of y); try discriminate.
    destruct (pair_list type_of l) eqn:E1; cbn; [|discriminate]. intros [= <-] [= <-]. apply perm_swap.
  - intros H1 H2. assert (exists pm, pair_list type_of l' = Ok pm) as [pm Hm].
    { clear -H H1. assert (G : forall l, (forall p, In p l -> type_of p <> None) <-> exists q, pair_list type_of l = Ok q).
      { clear. induction l as [|p l IH]; cbn; [split; eauto; intros _ p []|]. split.
        - intros Hp. destruct (proj1 IH ltac:(auto)) as [q ->]. destruct (type_of p) eqn:E; [cbn; eauto|].
          exfalso. exact (Hp p (or_introl eq_refl) E).
        - intros [q Hq]. destruct (type_of p) eqn:E; [|discriminate].
          destruct (pair_list type_of l) eqn:El; [|discriminate]. intros x [<-|Hx]; [congruence|]. apply IH; eauto. }
      apply G. intros p Hp. apply (proj2 (G l)); [eauto|]. eapply Permutation_in; [symmetry|]; eassumption. }
    exact (perm_trans (IHPermutation1 _ _ H1 Hm) (IHPermutation2 _ _ Hm H2)).
Qed.

Lemma sorted_nth (l : list (Z * str)) : StronglySorted le_pair l -> forall i j d, (i <= j < List.length l)%nat ->
  fst (nth i l d) <= fst (nth j l d).
Proof.
  induction 1 as [|x l Hs IH Hf]; intros i j d Hij; [cbn in Hij; lia|].
  destruct i as [|i], j as [|j]; cbn; try lia.
  - apply pair_leb_fst. rewrite Forall_forall in Hf. apply Hf, nth_In. cbn in Hij. lia.
  - apply IH. cbn in Hij. lia.
Qed.
