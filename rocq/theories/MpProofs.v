(** MpProofs.v: lemmas on batches and gathering. *)
From Verif Require Import Base TextModel StrModel PySort ConsolModel MpModel.
From Coq Require Import Permutation Sorted.

(** * Batches *)
Lemma skipn_skipn_ {A} (l : list A) a b : skipn a (skipn b l) = skipn (b + a) l.
Proof. revert l. induction b as [|b IH]; intros l; [reflexivity|]. destruct l; cbn; [now rewrite skipn_nil|apply IH]. Qed.
Lemma slice_cat {A} (l : list A) a b c : 0 <= a <= b -> b <= c -> slice l a b ++ slice l b c = slice l a c.
Proof.
  intros Hab Hbc. unfold slice.
  replace (skipn (Z.to_nat b) l) with (skipn (Z.to_nat b - Z.to_nat a) (skipn (Z.to_nat a) l)).
  2:{ rewrite skipn_skipn_. f_equal. lia. }
  generalize (skipn (Z.to_nat a) l). intros m.
  replace (Z.to_nat c - Z.to_nat a)%nat with ((Z.to_nat b - Z.to_nat a) + (Z.to_nat c - Z.to_nat b))%nat by lia.
  generalize (Z.to_nat b - Z.to_nat a)%nat, (Z.to_nat c - Z.to_nat b)%nat. intros p q. revert m. clear.
  induction p as [|p IH]; intros m; [reflexivity|]. destruct m; cbn; [now rewrite firstn_nil|]. now rewrite IH.
Qed.
Lemma slice_all {A} (l : list A) : slice l 0 (Z.of_nat (List.length l)) = l.
Proof. unfold slice. cbn [Z.to_nat skipn]. rewrite Nat2Z.id, Nat.sub_0_r. apply firstn_all. Qed.
Lemma slice_nil {A} (l : list A) a : slice l a a = [].
Proof. unfold slice. now rewrite Nat.sub_diag. Qed.
Lemma length_slice {A} (l : list A) a b : 0 <= a <= b -> b <= Z.of_nat (List.length l) ->
  Z.of_nat (List.length (slice l a b)) = b - a.
Proof. intros H H2. unfold slice. rewrite firstn_length, skipn_length. lia. Qed.

Lemma concat_slices {A} (l : list A) (cut : Z -> Z) k : 0 <= k -> cut 0 = 0 -> (forall i, 0 <= i -> cut i <= cut (i + 1)) ->
  List.concat (map (fun i => slice l (cut i) (cut (i + 1))) (zrange k)) = slice l 0 (cut k).
Proof.
  intros Hk H0 Hm. pattern k. apply natlike_ind; [|clear k Hk|exact Hk].
  - cbn [zrange Z.to_nat seq map List.concat]. rewrite H0. now rewrite slice_nil.
  - intros k Hk IH. rewrite <- Z.add_1_r, zrange_S, map_app, concat_app, IH by lia. cbn [map List.concat]. rewrite app_nil_r.
    apply slice_cat; [|auto]. split; [lia|]. clear IH. pattern k. apply natlike_ind; [lia| |exact Hk].
    intros x Hx IH. rewrite <- Z.add_1_r. specialize (Hm x Hx). lia.
Qed.

Lemma cut_step n w i : 0 < w -> 0 <= n -> 0 <= i -> 0 <= i * n / w /\
  n / w <= (i + 1) * n / w - i * n / w <= n / w + (if n mod w =? 0 then 0 else 1).
Proof.
  intros Hw Hn Hi. assert (0 <= i * n) by nia. split; [apply Z.div_pos; lia|].
  replace ((i + 1) * n) with (i * n + n) by ring. generalize (i * n) H. clear i Hi H. intros x Hx.
  pose proof (Z.div_mod x w). pose proof (Z.div_mod n w). pose proof (Z.div_mod (x + n) w).
  pose proof (Z.mod_pos_bound x w). pose proof (Z.mod_pos_bound n w). pose proof (Z.mod_pos_bound (x + n) w).
  destruct (Z.eqb_spec (n mod w) 0); nia.
Qed.

(** * Sorting results *)
Lemma keyed_unique {A} (key : A -> Z) (l l' : list A) :
  StronglySorted (fun a b => key a <= key b) l -> StronglySorted (fun a b => key a <= key b) l' ->
  NoDup (map key l) -> Permutation l l' -> l = l'.
Proof.
  intros Hl. revert l'. induction Hl as [|x l Hs IH Hx]; intros l' Hl' Nd P.
  - now apply Permutation_nil in P.
  - destruct Hl' as [|y l' Hs' Hy]; [apply Permutation_sym, Permutation_nil in P; discriminate|].
    inversion Nd as [|? ? Nx Nl]; subst.
    assert (x = y).
    { assert (Ix : In x (y :: l')) by (eapply Permutation_in; [exact P|now left]).
      assert (Iy : In y (x :: l)) by (eapply Permutation_in; [symmetry; exact P|now left]).
      destruct Ix as [|Ix]; [auto|]. destruct Iy as [|Iy]; [auto|].
      rewrite Forall_forall in Hx, Hy. specialize (Hx y Iy). specialize (Hy x Ix). cbn in *.
      exfalso. apply Nx. rewrite in_map_iff. exists y. split; [lia|assumption]. }
    subst y. f_equal. apply IH; [assumption|assumption|]. now apply Permutation_cons_inv in P.
Qed.
Definition by_index (a b : result) : bool := r_index a <=? r_index b.
Lemma isort_by_index l : StronglySorted (fun a b => r_index a <= r_index b) (isort by_index l).
Proof.
  induction l as [|x l IH]; cbn; [constructor|]. fold (isort by_index l).
  induction IH as [|y r Hs IH Hy]; cbn; [repeat constructor|].
  unfold by_index at 1. destruct (Z.leb_spec (r_index x) (r_index y)).
  - constructor; [constructor; assumption|]. constructor; [assumption|]. eapply Forall_impl; [|exact Hy]. cbn. intros; lia.
  - constructor; [assumption|]. rewrite <- ins_perm. constructor; [lia|assumption].
Qed.
Lemma sort_arrivals arrived wanted : StronglySorted (fun a b => r_index a <= r_index b) wanted ->
  NoDup (map r_index wanted) -> Permutation arrived wanted -> isort by_index arrived = wanted.
Proof.
  intros Hs Nd P. symmetry. apply (keyed_unique r_index); [assumption|apply isort_by_index|assumption|].
  rewrite <- P. apply isort_perm.
Qed.

Section Numbered.
  Context {KW : Type}.
  Lemma fst_combine {A B} (a : list A) (b : list B) : List.length a = List.length b -> map fst (combine a b) = a.
  Proof. revert b. induction a as [|x a IH]; intros [|y b]; cbn; try discriminate; auto. intros [= H]. now rewrite IH. Qed.
  Lemma snd_combine {A B} (a : list A) (b : list B) : List.length a = List.length b -> map snd (combine a b) = b.
  Proof. revert b. induction a as [|x a IH]; intros [|y b]; cbn; try discriminate; auto. intros [= H]. now rewrite IH. Qed.
  Lemma numbered_fst (kws : list KW) : map fst (numbered kws) = zrange (Z.of_nat (List.length kws)).
  Proof. unfold numbered. apply fst_combine. rewrite length_zrange. lia. Qed.
  Lemma numbered_snd (kws : list KW) : map snd (numbered kws) = kws.
  Proof. unfold numbered. apply snd_combine. rewrite length_zrange. lia. Qed.

  Definition HonestIndex (f : Z * KW -> result) : Prop := forall i kw, r_index (f (i, kw)) = i.

  Lemma serial_index (f : Z * KW -> result) kws : HonestIndex f ->
    map r_index (serial_results f kws) = zrange (Z.of_nat (List.length kws)).
  Proof.
    intros H. unfold serial_results. rewrite map_map, <- numbered_fst. apply map_ext. intros [i kw]. apply H.
  Qed.
  Lemma zrange_sorted n : StronglySorted Z.le (zrange n).
  Proof.
    unfold zrange. generalize 0%nat. induction (Z.to_nat n) as [|m IH]; intros s; cbn; constructor; [apply IH|].
    rewrite Forall_map, Forall_forall. intros x Hx. apply in_seq in Hx. lia.
  Qed.
  Lemma serial_sorted (f : Z * KW -> result) kws : HonestIndex f ->
    StronglySorted (fun a b => r_index a <= r_index b) (serial_results f kws).
  Proof.
    intros H. pose proof (zrange_sorted (Z.of_nat (List.length kws))) as S. rewrite <- (serial_index f kws H) in S.
    revert S. generalize (serial_results f kws). intros l. induction l as [|x l IH]; cbn; intros S; [constructor|].
    inversion S as [|? ? S' F]; subst. constructor; [auto|]. now rewrite Forall_map in F.
  Qed.
  Lemma serial_nodup (f : Z * KW -> result) kws : HonestIndex f -> NoDup (map r_index (serial_results f kws)).
  Proof. intros H. rewrite serial_index by assumption. apply NoDup_zrange. Qed.
  Lemma sort_of_arrivals (f : Z * KW -> result) kws arrived : HonestIndex f ->
    Permutation arrived (serial_results f kws) -> isort by_index arrived = serial_results f kws.
  Proof. intros H P. apply sort_arrivals; [now apply serial_sorted|now apply serial_nodup|assumption]. Qed.
  Lemma length_serial (f : Z * KW -> result) kws : List.length (serial_results f kws) = List.length kws.
  Proof. unfold serial_results, numbered. rewrite map_length, combine_length, length_zrange. lia. Qed.
  Lemma nth_serial (f : Z * KW -> result) kws i d kd : (i < List.length kws)%nat ->
    nth i (serial_results f kws) d = f (Z.of_nat i, nth i kws kd).
  Proof.
    intros H. unfold serial_results. rewrite (nth_indep _ d (f (0, kd))) by (unfold numbered; rewrite map_length, combine_length, length_zrange; lia).
    rewrite map_nth. f_equal. unfold numbered.
    rewrite combine_nth by (rewrite length_zrange; lia). f_equal.
    pose proof (nth_map_zrange (fun x => x) (Z.of_nat (List.length kws)) (Z.of_nat i) 0) as E.
    rewrite map_id, Nat2Z.id in E. apply E. lia.
  Qed.
End Numbered.

(** * Sorting uuids *)
Lemma upair_order : Order upair_leb.
Proof.
  constructor; unfold upair_leb.
  - intros [a i] [b j]; cbn. destruct (Z.ltb_spec a b), (Z.ltb_spec b a); auto; lia.
  - intros [a i] [b j] [c k]; cbn. destruct (Z.ltb_spec a b), (Z.ltb_spec b a), (Z.ltb_spec b c), (Z.ltb_spec c b), (Z.ltb_spec a c), (Z.ltb_spec c a); auto; try lia; discriminate.
  - intros [a i] [b j]; cbn. destruct (Z.ltb_spec a b), (Z.ltb_spec b a); try discriminate; try lia. intros. f_equal; lia.
Qed.
Lemma upairs_spec type_of l p : upairs type_of l = Ok p -> map snd p = l /\
  Forall (fun q => exists t, type_of (snd q) = Some t /\ fst q = ordering t) p.
Proof.
  revert p. induction l as [|u l IH]; intros p; cbn [upairs]; [intros [= <-]; split; [reflexivity|constructor]|].
  destruct (type_of u) as [t|] eqn:Et; [|discriminate]. destruct (upairs type_of l) as [q|]; cbn [bind]; [|discriminate].
  intros [= <-]. destruct (IH q eq_refl) as [E F]. cbn [map snd]. rewrite E. split; [reflexivity|]. constructor; [exists t; auto|assumption].
Qed.
Lemma upairs_ok type_of l : (forall u, In u l -> type_of u <> None) -> exists p, upairs type_of l = Ok p.
Proof.
  induction l as [|u l IH]; intros H; [exists []; reflexivity|]. cbn [upairs].
  destruct (type_of u) as [t|] eqn:Et; [|exfalso; apply (H u); [now left|assumption]].
  destruct IH as [p ->]; [intros v Hv; apply H; now right|]. eexists; reflexivity.
Qed.
Lemma sort_uuids_perm type_of l out : sort_uuids_list type_of l = Ok out -> Permutation l out.
Proof.
  unfold sort_uuids_list. destruct (upairs type_of l) as [p|] eqn:E; cbn [bind]; [|discriminate]. intros [= <-].
  destruct (upairs_spec _ _ _ E) as [<- _]. apply Permutation_map, isort_perm.
Qed.

(** * Waiting *)
Lemma wait_exists_ok p a f : (S f + a >= 301)%nat -> (exists d, (a <= d <= 300)%nat /\ p d = true) -> wait_exists p a f = Ok tt.
Proof.
  revert a. induction f as [|f IH]; intros a Hf (d & Hd & Hp); cbn [wait_exists]; destruct (p a) eqn:Ea; try reflexivity.
  - destruct (Nat.ltb_spec 300 (S a)); [|lia]. assert (d = a) by lia. congruence.
  - assert (d <> a) by congruence. destruct (Nat.ltb_spec 300 (S a)); [lia|]. apply IH; [lia|]. exists d. split; [lia|assumption].
Qed.
Lemma wait_exists_late p a f : (S f + a >= 301)%nat -> (a <= 300)%nat -> (forall d, (a <= d <= 300)%nat -> p d = false) ->
  wait_exists p a f = Err FileNotFoundError.
Proof.
  revert a. induction f as [|f IH]; intros a Hf Ha Hp; cbn [wait_exists]; rewrite (Hp a) by lia.
  - destruct (Nat.ltb_spec 300 (S a)); [reflexivity|lia].
  - destruct (Nat.ltb_spec 300 (S a)); [reflexivity|]. apply IH; [lia|lia|]. intros d Hd. apply Hp. lia.
Qed.
Lemma try_open_ok p a f : (S f + a >= 10)%nat -> (exists d, (a <= d < 10)%nat /\ p d = true) -> try_open p a f = Ok tt.
Proof.
  revert a. induction f as [|f IH]; intros a Hf (d & Hd & Hp); cbn [try_open]; destruct (p a) eqn:Ea; try reflexivity.
  - destruct (Nat.leb_spec 10 (S a)); [|lia]. assert (d = a) by lia. congruence.
  - assert (d <> a) by congruence. destruct (Nat.leb_spec 10 (S a)); [lia|]. apply IH; [lia|]. exists d. split; [lia|assumption].
Qed.
Lemma try_copy_ok p a f : (S f + a >= 5)%nat -> (exists d, (a <= d < 5)%nat /\ p d = true) -> try_copy p a f = Ok tt.
Proof.
  revert a. induction f as [|f IH]; intros a Hf (d & Hd & Hp); cbn [try_copy]; destruct (p a) eqn:Ea; try reflexivity.
  - destruct (Nat.leb_spec 5 (S a)); [|lia]. assert (d = a) by lia. congruence.
  - assert (d <> a) by congruence. destruct (Nat.leb_spec 5 (S a)); [lia|]. apply IH; [lia|]. exists d. split; [lia|assumption].
Qed.

(** The file system is ready in time: each epc is seen by one of the first 301 looks,
    opens at one of ten tries, and each copy is possible at one of five tries. *)
Definition InTime (fs : fsys) (rs : list result) : Prop :=
  forall r epc, In r rs -> r_epc r = Some epc ->
    (exists d, (d <= 300)%nat /\ present fs epc d = true) /\ (exists d, (d < 10)%nat /\ opens fs epc d = true) /\
    forall u, In u (r_uuids r) -> exists d, (d < 5)%nat /\ free fs epc u d = true.
(** Every uuid a worker reports is that of a part in its dataset. *)
Definition Known (type_in : Z -> Z -> option str) (rs : list result) : Prop :=
  forall r epc, In r rs -> r_epc r = Some epc -> forall u, In u (r_uuids r) -> type_in epc u <> None.

  Lemma filter_length_le {A} (g : A -> bool) l : (List.length (filter g l) <= List.length l)%nat.
  Proof. induction l as [|a l IH]; cbn; [lia|]. destruct (g a); cbn; lia. Qed.
  Lemma count_true l : List.length (filter (fun b : bool => b) l) = List.length l <-> Forall (fun b => b = true) l.
  Proof.
    split.
    - induction l as [|b l IH]; intros H; [constructor|].
      pose proof (filter_length_le (fun b : bool => b) l) as Hl. destruct b; cbn in H; [|lia].
      constructor; [reflexivity|]. apply IH. lia.
    - induction 1 as [|b l -> H IH]; cbn; lia.
  Qed.
  Lemma count_le l : (List.length (filter (fun b : bool => b) l) <= List.length l)%nat.
  Proof. apply filter_length_le. Qed.
Section Gather.
  Context {KW M : Type}.
  Variable (empty_model : M) (copy : M -> Z -> Z -> M) (type_in : Z -> Z -> option str).

  (** The parts to merge, in order: (epc, uuid). *)
  Definition PlanOf (rs : list result) (plan : list (Z * Z)) : Prop :=
    exists parts, plan = List.concat parts /\
      Forall2 (fun r p => match r_epc r with
                          | None => p = []
                          | Some epc => exists us, sort_uuids_list (type_in epc) (r_uuids r) = Ok us /\ p = map (pair epc) us
                          end) rs parts.
  Lemma copy_all_ok fs epc us m : (forall u, In u us -> exists d, (d < 5)%nat /\ free fs epc u d = true) ->
    copy_all copy fs m epc us = Ok (fold_left (fun m eu => copy m (fst eu) (snd eu)) (map (pair epc) us) m).
  Proof.
    revert m. induction us as [|u us IH]; intros m H; [reflexivity|]. cbn [copy_all map fold_left fst snd].
    destruct (H u (or_introl eq_refl)) as (d & Hd & Hf). rewrite (try_copy_ok _ 0 5) by (first [lia | exists d; split; [lia|assumption]]).
    cbn [bind]. apply IH. intros v Hv. apply H. now right.
  Qed.
  Lemma recombine_ok fs rs m : InTime fs rs -> Known type_in rs -> exists plan, PlanOf rs plan /\
    recombine copy type_in fs m rs = Ok (fold_left (fun m eu => copy m (fst eu) (snd eu)) plan m).
  Proof.
    revert m. induction rs as [|r rs IH]; intros m Ht Hk.
    { exists []. split; [exists []; split; [reflexivity|constructor]|reflexivity]. }
    assert (Ht' : InTime fs rs) by (intros r' epc Hr; apply Ht; now right).
    assert (Hk' : Known type_in rs) by (intros r' epc Hr; apply Hk; now right).
    cbn [recombine]. destruct (r_epc r) as [epc|] eqn:Ee.
    - destruct (Ht r epc (or_introl eq_refl) Ee) as (Hp & Ho & Hc).
      destruct Hp as (d1 & Hd1 & Hp). destruct Ho as (d2 & Hd2 & Ho).
      rewrite (wait_exists_ok _ 0 301) by (first [lia | exists d1; split; [lia|assumption]]). cbn [bind].
      rewrite (try_open_ok _ 0 10) by (first [lia | exists d2; split; [lia|assumption]]). cbn [bind].
      assert (Hs : exists us, sort_uuids_list (type_in epc) (r_uuids r) = Ok us).
      { unfold sort_uuids_list. destruct (upairs_ok (type_in epc) (r_uuids r)) as [p ->]; [|eexists; reflexivity].
        intros u Hu. now apply (Hk r epc (or_introl eq_refl)). }
      destruct Hs as [us Hs]. rewrite Hs. cbn [bind].
      rewrite copy_all_ok. 2:{ intros u Hu. apply Hc. eapply Permutation_in; [symmetry; eapply sort_uuids_perm; eassumption|assumption]. }
      cbn [bind]. destruct (IH (fold_left (fun m eu => copy m (fst eu) (snd eu)) (map (pair epc) us) m) Ht' Hk') as (plan & (parts & -> & F) & E).
      exists (map (pair epc) us ++ List.concat parts). split.
      + exists (map (pair epc) us :: parts). split; [reflexivity|]. constructor; [|assumption]. rewrite Ee. exists us. auto.
      + rewrite E, fold_left_app. reflexivity.
    - destruct (IH m Ht' Hk') as (plan & (parts & -> & F) & E).
      exists (List.concat parts). split; [|assumption]. exists ([] :: parts). split; [reflexivity|]. constructor; [now rewrite Ee|assumption].
  Qed.
  Lemma plan_unique rs p q : PlanOf rs p -> PlanOf rs q -> p = q.
  Proof.
    intros (a & -> & Fa) (b & -> & Fb). f_equal. revert b Fb. induction Fa as [|r x rs a Hx Fa IH]; intros b Fb; inversion Fb; subst; [reflexivity|].
    f_equal; [|auto]. destruct (r_epc r).
    - destruct Hx as (us & E & ->), H1 as (vs & E' & ->). congruence.
    - congruence.
  Qed.
  Lemma gather_ok fs rq cu rs arrived w plan : isort by_index arrived = rs -> InTime fs rs -> Known type_in rs -> PlanOf rs plan ->
    (rq = true -> Forall (fun r => r_success r = true) rs) ->
    gather empty_model copy type_in fs rq cu arrived w =
    (Build_world (Some (fold_left (fun m eu => copy m (fst eu) (snd eu)) plan (match saved w with Some m => m | None => empty_model end))) (negb cu),
     Ok (map r_success rs)).
  Proof.
    intros Es Ht Hk Hp Hr. unfold gather. fold by_index. rewrite Es. cbn [saved].
    destruct (recombine_ok fs rs (match saved w with Some m => m | None => empty_model end) Ht Hk) as (plan' & Hp' & ->).
    rewrite (plan_unique rs plan plan' Hp Hp').
    destruct (rq && Nat.ltb _ _) eqn:Eb.
    - apply andb_true_iff in Eb. destruct Eb as [-> Hlt]. apply Nat.ltb_lt in Hlt.
      assert (List.length (filter (fun b : bool => b) (map r_success rs)) = List.length (map r_success rs)).
      { apply count_true. rewrite Forall_map. auto. } rewrite map_length in H. lia.
    - now destruct cu.
  Qed.
End Gather.

Lemma bw_loop_spec make ts s us : bw_loop make ts s us =
  (s && forallb (fun t => match make t with Some _ => true | None => false end) ts,
   us ++ List.concat (map (fun t => match make t with Some u => [u] | None => [] end) ts)).
Proof.
  revert s us. induction ts as [|t ts IH]; intros s us; cbn [bw_loop forallb map List.concat].
  - now rewrite andb_true_r, app_nil_r.
  - destruct (make t) as [u|]; rewrite IH; cbn [andb].
    + now rewrite <- app_assoc.
    + now rewrite andb_false_r.
Qed.
