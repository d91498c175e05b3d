(** DecoarsenProps.v: values of coarse cells spread over the cells they were made of (C81). *)
From Verif Require Import Base QBase BisectModel BisectProofs BisectProofs2 BisectProofs4 TriModel TriProofs3 StrModel StrProofs BoxModel BoxProofs FineCoarseModel
  FineCoarseProofs PropSelModel PropSelProofs CoarsenModel CoarsenProofs GcsModel GcsProofs DecoarsenModel DecoarsenProofs.
From Coq Require Import Lqa.
Open Scope Z_scope.

(** * Specification *)
(** an imported array of cells with this keyword that can describe the coarsening *)
Definition Describes (kw : string) (m : item) (a : arr value) : Prop :=
  m_keyword m = L kw /\ m_cells m = true /\ m_discrete m = true /\ m_array m = Some a.
(** where the division is taken from: the array given; or the first ICOARS array, with the
    number of the host counted from 1; or the last KID array *)
Inductive Told (n : cell) (blk : cell -> box) : option (arr Z) -> list item -> Prop :=
| told_given h items : (forall c, within n c -> el h c = natural n (lo (blk c))) -> Told n blk (Some h) items
| told_icoars before m after a : (forall m' a', In m' before -> ~ Describes "ICOARS" m' a') -> Describes "ICOARS" m a ->
    (forall c, within n c -> exists q, el a c = Some q /\ (q == inject_Z (natural n (lo (blk c)) + 1))%Q) -> Told n blk None (before ++ m :: after)
| told_kid before m after a : (forall m' a', In m' (before ++ m :: after) -> ~ Describes "ICOARS" m' a') ->
    (forall m' a', In m' after -> ~ Describes "KID" m' a') -> Describes "KID" m a -> shape a = n -> KidOf n blk (el a) -> Separate n blk ->
    Told n blk None (before ++ m :: after).
(** arrays of cells have the shape of the grid, and kinds a rule *)
Definition Fits (n : cell) (m : item) : Prop :=
  forall a, m_array m = Some a -> m_cells m = true -> shape a = n /\
    (~ In (upper (m_keyword m)) (map L ["UID"; "ICOARS"; "KID"; "DAD"]%string) -> exists r, Rule (m_kind m) (m_dir m) r).
(** the flags of inactive cells afterwards *)
Definition Flags (n : cell) (blk : cell -> box) (reactivate : bool) (f f' : option (cell -> bool)) : Prop :=
  if reactivate then
    match f, f' with
    | None, None => True
    | Some f, Some f' => forall c, within n c -> f' c = f (lo (blk c))
    | _, _ => False
    end
  else f' = f.

(** * Totals *)
Lemma total_const b q : NonEmptyBox b -> TotalOver (fun x => InBox x b) (fun _ => q) (q * inject_Z (volume_of_box b)).
Proof.
  intro H. exists (BoxProofs.cells_of b). split; [apply BoxProofs.NoDup_cells_of|]. split; [intro; apply BoxProofs.in_cells_of|].
  rewrite <- length_cells_of by assumption. unfold qsum. generalize (BoxProofs.cells_of b). intro l.
  induction l as [|x l IH]; cbn [map fold_right List.length]; [change (inject_Z (Z.of_nat 0)) with 0%Q; lra|]. rewrite <- IH, Nat2Z.inj_succ. unfold Z.succ. rewrite inject_Z_plus. change (inject_Z 1) with 1%Q. lra.
Qed.
Lemma total_line b c d q : InBox c b -> TotalOver (OnLine b c d) (fun _ => q) (q * inject_Z (get (extent_of_box b) d)).
Proof.
  intro H. set (lb := Box (set c d (get (lo b) d)) (set c d (get (hi b) d))).
  assert (V : volume_of_box lb = get (extent_of_box b) d).
  { rewrite volume_is_extent_product. unfold lb, extent_of_box, zip3. cbn [lo hi]. destruct d, c; cbn; ring. }
  assert (NE : NonEmptyBox lb).
  { intro a. unfold lb. cbn [lo hi]. pose proof (H d). destruct (axis_dec d a) as [<-|Ne]; [rewrite !BisectProofs.get_set_same; lia|].
    rewrite !BisectProofs.get_set_other by assumption. lia. }
  apply (total_ext (fun x => InBox x lb) (OnLine b c d) (fun _ => q) (fun _ => q) (q * inject_Z (volume_of_box lb)) _);
    [|reflexivity|rewrite V; reflexivity|now apply total_const].
  intro x. unfold OnLine. split.
  - intro Hx. unfold lb in Hx. cbn [lo hi] in Hx. assert (O : forall d', d' <> d -> get x d' = get c d').
    { intros a Ha. specialize (Hx a). cbn [lo hi] in Hx. rewrite !BisectProofs.get_set_other in Hx by congruence. lia. }
    split; [|exact O]. intro a. destruct (axis_dec a d) as [->|Ne].
    + specialize (Hx d). cbn [lo hi] in Hx. rewrite !BisectProofs.get_set_same in Hx. lia.
    + rewrite (O a Ne). apply H.
  - intros [Hx O] a. unfold lb. cbn [lo hi]. destruct (axis_dec d a) as [<-|Ne].
    + rewrite !BisectProofs.get_set_same. apply Hx.
    + rewrite !BisectProofs.get_set_other by assumption. rewrite (O a) by congruence. lia.
Qed.

(** * Kinds *)
Lemma one_of_in k l : one_of k l = true <-> In k (map L l).
Proof.
  unfold one_of. rewrite existsb_exists, in_map_iff. split.
  - intros (x & Hx & E). apply str_eqb_ok in E. eauto.
  - intros (x & <- & Hx). exists x. split; [assumption|]. now apply str_eqb_ok.
Qed.
Lemma one_of_no k l : one_of k l = false <-> ~ In k (map L l).
Proof. rewrite <- one_of_in. destruct (one_of k l); split; congruence. Qed.

Section Spread.
  Context (n : cell) (blk : cell -> box) (D : Division n blk) (host : cell -> Z).
  Context (Hh : forall c, within n c -> host c = natural n (lo (blk c))).
  Lemma taken_ok a : shape a = n -> exists t, taken_from n host a = Ok t /\ shape t = n /\ forall c, within n c -> el t c = el a (lo (blk c)).
  Proof.
    intro Ha. unfold taken_from.
    assert (B : forall c, within n c -> 0 <= host c < size n) by (intros c Hc; rewrite Hh by assumption; apply natural_bounds; now apply (div_lo n blk D)).
    destruct (mapM (fun c => if (- size n <=? host c) && (host c <? size n) then Ok tt else Err IndexError) (indices n)) as [l|e] eqn:E; cbn [bind].
    - eexists. split; [reflexivity|]. split; [reflexivity|]. intros c Hc. cbn [el]. rewrite Ha. pose proof (B c Hc).
      rewrite (proj2 (Z.ltb_ge (host c) 0)) by lia. rewrite Hh by assumption. rewrite denatural_natural; [reflexivity|]. now apply (div_lo n blk D).
    - exfalso. assert (G : exists l, mapM (fun c => if (- size n <=? host c) && (host c <? size n) then Ok tt else Err IndexError) (indices n) = Ok l).
      { exists (map (fun _ => tt) (indices n)). apply mapM_ok. intros c Hc. apply in_indices in Hc. specialize (B c Hc).
        rewrite (proj2 (Z.leb_le _ _)), (proj2 (Z.ltb_lt _ _)) by lia. reflexivity. }
      destruct G. congruence.
  Qed.
  Context (share : cell -> trip Z).
  Lemma shared_ok a t (by_ : cell -> Z) r : shape t = n -> (forall c, within n c -> el t c = el a (lo (blk c))) ->
    (forall c, within n c -> exists z, 0 < z /\ (forall c', InBox c' (blk c) -> by_ c' = z) /\
       match r with ByVolume => z = volume_of_box (blk c) | Along d => z = get (extent_of_box (blk c)) d | Copied => False end) ->
    SpreadBy n blk r a (shared t by_).
  Proof.
    intros Ht Et Hb. split; [exact Ht|]. intros c Hc. destruct (Hb c Hc) as (z & Hz & Hz2 & Hr).
    assert (Hv : forall c', InBox c' (blk c) -> el (shared t by_) c' = option_map (fun q => q / inject_Z z)%Q (el a (lo (blk c)))).
    { intros c' Hc'. unfold shared. cbn [el]. rewrite Et by (now apply (div_sub n blk D c)). rewrite (div_same n blk D c c' Hc Hc'), Hz2 by assumption. reflexivity. }
    pose proof (div_in n blk D c Hc) as Hin. split; [|split].
    - intros c' Hc'. now rewrite !Hv.
    - intro E. rewrite Hv by assumption. now rewrite E.
    - intros v Ev. rewrite Hv by assumption. rewrite Ev. cbn [option_map]. split; [eauto|].
      assert (Nz : ~ (inject_Z z == 0)%Q) by (unfold inject_Z, Qeq; cbn; lia).
      destruct r as [|d|]; [| |destruct Hr].
      + apply (total_ext (fun x => InBox x (blk c)) _ (fun _ => (v / inject_Z z)%Q) _ (v / inject_Z z * inject_Z (volume_of_box (blk c)))%Q); [reflexivity| | |].
        * intros x Hx. rewrite Hv, Ev by assumption. reflexivity.
        * rewrite <- Hr. field. assumption.
        * apply total_const, (div_ne n blk D c Hc).
      + apply (total_ext (OnLine (blk c) c d) _ (fun _ => (v / inject_Z z)%Q) _ (v / inject_Z z * inject_Z (get (extent_of_box (blk c)) d))%Q); [reflexivity| | |].
        * intros x [Hx _]. rewrite Hv, Ev by assumption. reflexivity.
        * rewrite <- Hr. field. assumption.
        * now apply total_line.
  Qed.
  Lemma spread_len (Hs : forall c, within n c -> share c = extent_of_box (blk c)) a d : shape a = n ->
    exists t, taken_from n host a = Ok t /\ SpreadBy n blk (Along d) a (shared t (fun c => get (share c) d)).
  Proof.
    intro Ha. destruct (taken_ok a Ha) as (t & Et & St & Vt). exists t. split; [assumption|]. apply shared_ok; [assumption|assumption|].
    intros c Hc. exists (get (extent_of_box (blk c)) d). split; [now apply (extent_pos n blk D)|]. split; [|reflexivity].
    intros c' Hc'. rewrite Hs by (now apply (div_sub n blk D c)). now rewrite (div_same n blk D c c' Hc Hc').
  Qed.
  Lemma spread_vol (Hs : forall c, within n c -> share c = extent_of_box (blk c)) a : shape a = n ->
    exists t, taken_from n host a = Ok t /\ SpreadBy n blk ByVolume a (shared t (fun c => tk (share c) * tj (share c) * ti (share c))).
  Proof.
    intro Ha. destruct (taken_ok a Ha) as (t & Et & St & Vt). exists t. split; [assumption|]. apply shared_ok; [assumption|assumption|].
    intros c Hc. exists (volume_of_box (blk c)). rewrite volume_is_extent_product.
    pose proof (extent_pos n blk D c K Hc). pose proof (extent_pos n blk D c J Hc). pose proof (extent_pos n blk D c I Hc). cbn [get] in *.
    split; [nia|]. split; [|reflexivity]. intros c' Hc'. rewrite Hs by (now apply (div_sub n blk D c)). now rewrite (div_same n blk D c c' Hc Hc').
  Qed.
  Lemma spread_copy a : shape a = n -> exists t, taken_from n host a = Ok t /\ SpreadBy n blk Copied a t.
  Proof.
    intro Ha. destruct (taken_ok a Ha) as (t & Et & St & Vt). exists t. split; [assumption|]. split; [assumption|]. intros c Hc.
    split; [|split].
    - intros c' Hc'. rewrite !Vt; [|assumption|now apply (div_sub n blk D c)]. now rewrite (div_same n blk D c c' Hc Hc').
    - intro E. now rewrite Vt.
    - intros v Ev. rewrite Vt by assumption. eauto.
  Qed.
  Lemma redistribute_ok last m : Fits n m -> (forall r, Rule (m_kind m) (m_dir m) r -> r <> Copied -> forall c, within n c -> share c = extent_of_box (blk c)) ->
    exists last' m', redistribute n host share last m = Ok (last', m') /\ Spread n blk m m'.
  Proof.
    intros F Hs. unfold redistribute, Spread. destruct (m_array m) as [a|] eqn:Ea; [|eauto 10].
    destruct (m_cells m) eqn:Ec; cbn [negb orb]; [|exists last, m; rewrite Ea; auto 10]. destruct (F a Ea Ec) as [Sh Hr].
    rewrite Sh, Z.eqb_refl. cbn [assert_ bind].
    change (existsb (fun x => str_eqb (upper (m_keyword m)) (L x)) ["UID"%string; "ICOARS"%string; "KID"%string; "DAD"%string]) with (one_of (upper (m_keyword m)) skipped_keywords).
    destruct (one_of (upper (m_keyword m)) skipped_keywords) eqn:Es; [exists last, m; rewrite Ea; auto 10|].
    apply one_of_no in Es. destruct (Hr Es) as (r & R). specialize (Hs r R).
    assert (G : exists a', SpreadBy n blk r a a' /\
      redistributed n host share last m a = Ok (Some a')).
    { unfold redistributed. inversion R as [k d Hin E1 E2 E3|k d Hin E1 E2 E3|k d s Hin Hd E1 E2 E3|k d Hin E1 E2 E3].
      - rewrite <- E3 in *. destruct (spread_vol (Hs ltac:(discriminate)) a Sh) as (t & -> & St). rewrite (proj2 (one_of_in _ volume_kinds) Hin). eauto.
      - rewrite <- E3 in *. destruct (spread_len (Hs ltac:(discriminate)) a K Sh) as (t & -> & St). rewrite (proj2 (one_of_in _ ["thickness"; "permeability thickness"]%string) Hin). cbn [orb bind get] in *.
        destruct Hin as [Hin|[Hin|[]]]; rewrite <- Hin; cbn [one_of existsb volume_kinds area_kinds length_kinds]; eauto.
      - rewrite <- E3 in *.
        assert (V : one_of (m_kind m) volume_kinds = false /\ one_of (m_kind m) area_kinds = false /\ one_of (m_kind m) length_kinds = true /\
                    one_of (m_kind m) ["thickness"; "permeability thickness"]%string = false).
        { destruct Hin as [Hin|[Hin|[Hin|[]]]]; rewrite <- Hin; repeat split. }
        destruct V as (-> & -> & -> & ->). cbv zeta.
        destruct (spread_len (Hs ltac:(discriminate)) a d Sh) as (t & -> & St).
        destruct Hd as [[= <- <-]|[[= <- <-]|[[= <- <-]|[]]]]; cbn [orb bind get] in *; eauto.
      - rewrite <- E3 in *. destruct (spread_copy a Sh) as (t & -> & St).
        assert (V : one_of (m_kind m) volume_kinds = false /\ one_of (m_kind m) area_kinds = false /\ one_of (m_kind m) length_kinds = false).
        { repeat split; apply one_of_no; intro Q; apply Hin; cbn [map In volume_kinds area_kinds length_kinds] in Q |- *; tauto. }
        destruct V as (-> & -> & ->). cbn [bind]. eauto. }
    destruct G as (a' & Sa & G). rewrite G. cbn [bind]. exists (Some a'), (with_array m a'). split; [reflexivity|].
    unfold with_array. cbn. rewrite Ec. repeat split. exists r, a'. auto.
  Qed.
  Lemma redistribute_all_ok items : forall last, (forall m, In m items -> Fits n m) ->
    (forall m r, In m items -> Rule (m_kind m) (m_dir m) r -> r <> Copied -> forall c, within n c -> share c = extent_of_box (blk c)) ->
    exists items', redistribute_all n host share last items = Ok items' /\ Forall2 (Spread n blk) items items'.
  Proof.
    induction items as [|m l IH]; intros last F Hs; cbn [redistribute_all]; [eauto|].
    destruct (redistribute_ok last m (F m (or_introl eq_refl)) (fun r => Hs m r (or_introl eq_refl))) as (last' & m' & -> & Sp). cbn [bind].
    destruct (IH last') as (l' & -> & Sl); [intros x Hx; apply F; now right|intros x r Hx; apply (Hs x r); now right|]. cbn [bind]. eauto.
  Qed.
End Spread.

(** * The mapping *)
Lemma find_mapping_icoars before m after a : forall kid, (forall m' a', In m' before -> ~ Describes "ICOARS" m' a') -> Describes "ICOARS" m a ->
  exists kid', find_mapping (before ++ m :: after) kid = (Some (fun c => match el a c with Some q => Qfloor q - 1 | None => -1 end), kid').
Proof.
  induction before as [|x before IH]; intros kid Hb (Hk & Hc & Hd & Ha); cbn [app find_mapping].
  - rewrite Ha, Hc, Hd. cbn [andb]. rewrite (proj2 (str_eqb_ok _ _) Hk). eauto.
  - assert (Hb' : forall m' a', In m' before -> ~ Describes "ICOARS" m' a') by (intros m' a' H; apply Hb; now right).
    assert (Hx : forall a', ~ Describes "ICOARS" x a') by (intro a'; apply Hb; now left).
    assert (Dm : Describes "ICOARS" m a) by (repeat split; assumption).
    destruct (m_array x) as [ax|] eqn:Ex; [|now apply IH]. destruct (m_cells x && m_discrete x) eqn:E; [|now apply IH].
    destruct (str_eqb (m_keyword x) (L "ICOARS")) eqn:Ek; [|now apply IH]. exfalso. apply (Hx ax). apply andb_true_iff in E. apply str_eqb_ok in Ek. repeat split; tauto.
Qed.
Lemma find_mapping_none l : forall kid, (forall m' a', In m' l -> ~ Describes "ICOARS" m' a') -> (forall m' a', In m' l -> ~ Describes "KID" m' a') ->
  find_mapping l kid = (None, kid).
Proof.
  induction l as [|x l IH]; intros kid Hb Hk; cbn [find_mapping]; [reflexivity|].
  assert (IH' : find_mapping l kid = (None, kid)) by (apply IH; intros m' a' H; [apply Hb|apply Hk]; now right).
  destruct (m_array x) as [ax|] eqn:Ex; [|assumption]. destruct (m_cells x && m_discrete x) eqn:E; [|assumption]. apply andb_true_iff in E.
  destruct (str_eqb (m_keyword x) (L "ICOARS")) eqn:Ek.
  - exfalso. apply str_eqb_ok in Ek. apply (Hb x ax (or_introl eq_refl)). repeat split; tauto.
  - destruct (str_eqb (m_keyword x) (L "KID")) eqn:Ek'; [|assumption]. exfalso. apply str_eqb_ok in Ek'. apply (Hk x ax (or_introl eq_refl)). repeat split; tauto.
Qed.
Lemma find_mapping_kid before m after a : forall kid, (forall m' a', In m' (before ++ m :: after) -> ~ Describes "ICOARS" m' a') ->
  (forall m' a', In m' after -> ~ Describes "KID" m' a') -> Describes "KID" m a -> find_mapping (before ++ m :: after) kid = (None, Some a).
Proof.
  induction before as [|x before IH]; intros kid Hb Hk (Hm & Hc & Hd & Ha); cbn [app find_mapping].
  - rewrite Ha, Hc, Hd. cbn [andb]. rewrite Hm. cbn [str_eqb L]. change (str_eqb (L "KID") (L "ICOARS")) with false. change (str_eqb (L "KID") (L "KID")) with true. cbn match.
    apply find_mapping_none; [|assumption]. intros m' a' H. apply Hb. cbn. now right.
  - assert (G : forall kid, find_mapping (before ++ m :: after) kid = (None, Some a)).
    { intro k. apply IH; [|assumption|repeat split; assumption]. intros m' a' H. apply Hb. cbn. now right. }
    destruct (m_array x) as [ax|] eqn:Ex; [|apply G]. destruct (m_cells x && m_discrete x) eqn:E; [|apply G]. apply andb_true_iff in E.
    destruct (str_eqb (m_keyword x) (L "ICOARS")) eqn:Ek; [|apply G].
    exfalso. apply str_eqb_ok in Ek. apply (Hb x ax); [now left|]. repeat split; tauto.
Qed.

(** * The whole *)
Section Whole.
  Context (n : cell) (blk : cell -> box) (D : Division n blk) (host : cell -> Z).
  Context (Hh : forall c, within n c -> host c = natural n (lo (blk c))).
  Lemma with_ok (share : option (cell -> trip Z)) reactivate items inactive : match share with Some s => forall c, within n c -> s c = extent_of_box (blk c) | None => True end ->
    (exists c, within n c /\ lo (blk c) <> c) -> (forall m, In m items -> Fits n m) ->
    exists h items' flags, decoarsen_with n host share reactivate items inactive = Ok (Some h, items', flags) /\
      shape h = n /\ (forall c, within n c -> el h c = natural n (lo (blk c))) /\ Forall2 (Spread n blk) items items' /\ Flags n blk reactivate inactive flags.
  Proof.
    intros Hs (c0 & Hc0 & Ne) Hf. unfold decoarsen_with.
    destruct (forallb (fun c => host c =? natural n c) (indices n)) eqn:Ef.
    { exfalso. rewrite forallb_forall in Ef. specialize (Ef c0 (proj2 (in_indices n c0) Hc0)). apply Z.eqb_eq in Ef. rewrite Hh in Ef by assumption.
      apply Ne. apply (natural_inj n); [now apply (div_lo n blk D)|assumption|assumption]. }
    cbv zeta. set (needed := existsb (fun m => one_of (m_kind m) volume_kinds || one_of (m_kind m) area_kinds || one_of (m_kind m) length_kinds) items).
    set (sh := match share with Some s => Some s | None => if needed then Some (shares_of n host) else None end).
    assert (Hsh : match sh with Some s => forall c, within n c -> s c = extent_of_box (blk c) | None => needed = false end).
    { unfold sh. destruct share as [s|]; [exact Hs|]. destruct needed eqn:En; [|reflexivity]. intros c Hc. now apply (shares_of_ok n blk D). }
    clearbody sh. 
    match goal with |- context [bind (match sh with Some s => @?f s | None => Ok tt end) _] => assert (A : match sh with Some s => f s | None => Ok tt end = Ok tt) end.
    { destruct sh as [s|]; [|reflexivity]. replace (forallb _ _) with true; [reflexivity|]. symmetry. apply forallb_forall. intros c Hc. apply in_indices in Hc.
      rewrite Hsh by assumption. pose proof (extent_pos n blk D c K Hc) as E1. pose proof (extent_pos n blk D c J Hc) as E2. pose proof (extent_pos n blk D c I Hc) as E3.
      cbn [get] in *. rewrite !(proj2 (Z.ltb_lt _ _)) by assumption. reflexivity. }
    rewrite A. cbn [bind].
    destruct (redistribute_all_ok n blk D host Hh (match sh with Some s => s | None => fun _ => T 1 1 1 end) items None Hf) as (items' & -> & F2).
    { intros m r Hm R Nr c Hc. destruct sh as [s|]; [now apply Hsh|]. exfalso.
      assert (Q : one_of (m_kind m) volume_kinds || one_of (m_kind m) area_kinds || one_of (m_kind m) length_kinds = true).
      { inversion R as [k d Hin E1 E2 E3|k d Hin E1 E2 E3|k d s Hin Hd E1 E2 E3|k d Hin E1 E2 E3]; [| | |congruence].
        - rewrite (proj2 (one_of_in _ volume_kinds) Hin). reflexivity.
        - rewrite (proj2 (one_of_in (m_kind m) length_kinds)); [now rewrite !orb_true_r|]. cbn [map In length_kinds] in Hin |- *. tauto.
        - rewrite (proj2 (one_of_in (m_kind m) length_kinds)); [now rewrite !orb_true_r|]. cbn [map In length_kinds] in Hin |- *. tauto. }
      assert (needed = true) by (unfold needed; apply existsb_exists; eauto). congruence. }
    cbn [bind]. unfold Flags. destruct inactive as [f|]; [destruct reactivate|].
    - destruct (taken_ok n blk D host Hh (Arr n (fun c => Some (if f c then 1 else 0)%Q)) eq_refl) as (t & -> & St & Vt). cbn [bind].
      do 3 eexists. split; [reflexivity|]. split; [reflexivity|]. split; [exact Hh|]. split; [assumption|].
      intros c Hc. rewrite Vt by assumption. cbn [el]. destruct (f (lo (blk c))); reflexivity.
    - cbn [bind]. do 3 eexists. split; [reflexivity|]. split; [reflexivity|]. split; [exact Hh|]. split; [assumption|reflexivity].
    - cbn [bind]. do 3 eexists. split; [reflexivity|]. split; [reflexivity|]. split; [exact Hh|]. split; [assumption|]. now destruct reactivate.
  Qed.
  Lemma with_identity share reactivate items inactive : (forall c, within n c -> lo (blk c) = c) ->
    decoarsen_with n host share reactivate items inactive = Ok (None, items, inactive).
  Proof.
    intro H. unfold decoarsen_with. replace (forallb _ _) with true; [reflexivity|]. symmetry. apply forallb_forall. intros c Hc. apply in_indices in Hc.
    apply Z.eqb_eq. rewrite Hh, H by assumption. reflexivity.
  Qed.
End Whole.

(** However the division is told, each imported array of cells is spread over the boxes: volumes
    add up to the value of the host, lengths add up along their axis, thicknesses down K, and
    other values are repeated; the array returned gives the host of each cell. *)
Theorem C81_spread n blk given items reactivate inactive :
  Division n blk -> Told n blk given items -> (exists c, within n c /\ lo (blk c) <> c) -> (forall m, In m items -> Fits n m) ->
  exists h items' flags, decoarsen n given reactivate items inactive = Ok (Some h, items', flags) /\
    shape h = n /\ (forall c, within n c -> el h c = natural n (lo (blk c))) /\ Forall2 (Spread n blk) items items' /\ Flags n blk reactivate inactive flags.
Proof.
  intros D Td Hc Hf. unfold decoarsen. destruct Td as [h items Hh|before m after a Hb Hm Hv|before m after a Hb Hk Hm Hsh Hkid Hsep].
  - now apply with_ok.
  - destruct (find_mapping_icoars before m after a None Hb Hm) as (kid' & ->). apply with_ok; [assumption| |exact Logic.I|assumption|assumption].
    intros c Hc'. destruct (Hv c Hc') as (q & -> & Eq). rewrite Eq, Qfloor_Z. lia.
  - rewrite (find_mapping_kid before m after a None Hb Hk Hm). rewrite (proj2 (same_shape_spec (shape a) n) Hsh). cbn [assert_ bind].
    destruct Hc as (c0 & Hc0 & Ne).
    assert (Ex : existsb (kid_is (el a) (-3)%Q) (indices n) = true).
    { apply existsb_exists. exists c0. split; [now apply in_indices|]. destruct (Hkid c0 Hc0) as [K1 _]. destruct K1 as (q & Eq & E3); [congruence|].
      unfold kid_is. rewrite Eq. now apply Qeq_bool_iff. }
    rewrite Ex. pose proof (from_kid_ok n blk D (el a) Hkid Hsep) as G. destruct (from_kid n (el a)) as [h s]. cbn [fst snd] in G.
    replace (forallb (fun c => 0 <=? h c) (indices n)) with true.
    2: { symmetry. apply forallb_forall. intros c Hc. apply in_indices in Hc. apply Z.leb_le. rewrite (proj1 (G c Hc)).
         pose proof (natural_bounds n _ (div_lo n blk D c Hc)). lia. }
    cbn [assert_ bind]. apply with_ok; [assumption|intros c Hc; apply G, Hc|intros c Hc; apply G, Hc|eauto|assumption].
Qed.
Print Assumptions C81_spread.

(** When every cell is its own host nothing is changed, and None is returned. *)
Theorem C81_nothing_coarsened n blk given items reactivate inactive :
  Division n blk -> Told n blk given items -> (forall c, within n c -> lo (blk c) = c) ->
  decoarsen n given reactivate items inactive = Ok (None, items, inactive).
Proof.
  intros D Td Hc. unfold decoarsen. destruct Td as [h items Hh|before m after a Hb Hm Hv|before m after a Hb Hk Hm Hsh Hkid Hsep].
  - now apply (with_identity n blk (el h) Hh).
  - destruct (find_mapping_icoars before m after a None Hb Hm) as (kid' & ->). apply (with_identity n blk); [|assumption].
    intros c Hc'. destruct (Hv c Hc') as (q & -> & Eq). rewrite Eq, Qfloor_Z. lia.
  - rewrite (find_mapping_kid before m after a None Hb Hk Hm). rewrite (proj2 (same_shape_spec (shape a) n) Hsh). cbn [assert_ bind].
    replace (existsb (kid_is (el a) (-3)%Q) (indices n)) with false; [reflexivity|].
    destruct (existsb (kid_is (el a) (-3)%Q) (indices n)) eqn:E; [|reflexivity]. exfalso. apply existsb_exists in E. destruct E as (c & Hin & E).
    apply in_indices in Hin. destruct (Hkid c Hin) as [_ K2]. unfold kid_is in E. destruct (K2 (eq_sym (Hc c Hin))) as [(q & Eq & Q0)|[_ N]].
    + rewrite Eq in E. apply Qeq_bool_iff in E. rewrite Q0 in E. discriminate.
    + destruct (el a c) as [q|]; [|discriminate]. apply Qeq_bool_iff in E. now apply (N q).
Qed.
Print Assumptions C81_nothing_coarsened.

(** When the boxes are cut by planes through the whole grid, KID describes them. *)
Theorem C81_regular_coarsening n blk : Division n blk -> Regular n blk -> Separate n blk.
Proof. apply regular_separate. Qed.
Print Assumptions C81_regular_coarsening.

(** * Examples and findings *)
Definition arr_of (n : cell) (f : Z -> Z -> Z -> Q) : arr value := Arr n (fun c => Some (f (tk c) (tj c) (ti c))).
Definition kid_item (a : arr value) := Item (L "KID") true (L "discrete") None true (Some a).
Definition pv_item (a : arr value) := Item (L "PV") false (L "pore volume") None true (Some a).
Definition listing (n : cell) (l : list item) : list (list (option Q)) :=
  map (fun m => match m_array m with Some a => map (fun c => option_map Qred (el a c)) (indices n) | None => [] end) l.

(** two layers, two rows and three columns: the first two columns are one coarse cell, the third
    another *)
Definition ex_n : cell := T 2 2 3.
Definition ex_blk (c : cell) : box := if ti c <? 2 then Box (T 0 0 0) (T 1 1 1) else Box (T 0 0 2) (T 1 1 2).
Definition ex_kid : arr value := arr_of ex_n (fun k j i => if (k =? 0) && (j =? 0) && ((i =? 0) || (i =? 2)) then (0)%Q else (-3)%Q).
Definition ex_pv : arr value := arr_of ex_n (fun k j i => if (k =? 0) && (j =? 0) && (i =? 0) then (16)%Q else if (k =? 0) && (j =? 0) && (i =? 2) then (4)%Q else (0)%Q).
Definition ex_por : item := Item (L "POR") false (L "porosity") None true (Some (arr_of ex_n (fun k j i => if i =? 2 then (1 # 4)%Q else (1 # 2)%Q))).
Definition ex_dz : item := Item (L "DZ") false (L "cell length") (Some (L "J")) true (Some ex_pv).
Definition ex_items := [pv_item ex_pv; kid_item ex_kid; ex_por; ex_dz].
Example ex_division : Division ex_n ex_blk.
Proof.
  intros c Hc. pose proof (Hc K) as H1. pose proof (Hc J) as H2. pose proof (Hc I) as H3. cbn in H1, H2, H3. unfold ex_blk. destruct (Z.ltb_spec (ti c) 2) as [H|H].
  - split; [|split; [|split]]; [intros []; cbn; lia|intros []; cbn; lia|intros []; cbn; lia|].
    intros c' Hc'. specialize (Hc' I). cbn in Hc'. rewrite (proj2 (Z.ltb_lt _ 2)) by lia. reflexivity.
  - split; [|split; [|split]]; [intros []; cbn; lia|intros []; cbn; lia|intros []; cbn; lia|].
    intros c' Hc'. specialize (Hc' I). cbn in Hc'. rewrite (proj2 (Z.ltb_ge _ 2)) by lia. reflexivity.
Qed.
Example ex_regular : Regular ex_n ex_blk.
Proof. intros c c' [] _ _ E; unfold ex_blk; cbn [get] in E; [destruct (ti c <? 2), (ti c' <? 2); reflexivity|destruct (ti c <? 2), (ti c' <? 2); reflexivity|rewrite E; reflexivity]. Qed.
Example ex_kid_of : KidOf ex_n ex_blk (el ex_kid).
Proof.
  intros [k j i] Hc. pose proof (Hc K) as H1. pose proof (Hc J) as H2. pose proof (Hc I) as H3. cbn in H1, H2, H3.
  assert (E1 : k = 0 \/ k = 1) by lia. assert (E2 : j = 0 \/ j = 1) by lia. assert (E3 : i = 0 \/ i = 1 \/ i = 2) by lia.
  destruct E1 as [->| ->], E2 as [->| ->], E3 as [->|[->| ->]]; (split; [intro N; try (exfalso; apply N; reflexivity); eexists; split; reflexivity|
    intro E; try discriminate E; left; eexists; split; reflexivity]).
Qed.
Example ex_told : Told ex_n ex_blk None ex_items.
Proof.
  apply (told_kid ex_n ex_blk [pv_item ex_pv] (kid_item ex_kid) [ex_por; ex_dz] ex_kid).
  - intros m' a' [<-|[<-|[<-|[<-|[]]]]] (E & _); discriminate E.
  - intros m' a' [<-|[<-|[]]] (E & _); discriminate E.
  - repeat split.
  - reflexivity.
  - exact ex_kid_of.
  - apply C81_regular_coarsening; [exact ex_division|exact ex_regular].
Qed.
Example ex_fits : forall m, In m ex_items -> Fits ex_n m.
Proof.
  intros m [<-|[<-|[<-|[<-|[]]]]] a [= <-] _; (split; [reflexivity|]); intros N.
  - exists ByVolume. apply rule_volume. cbn. tauto.
  - exfalso. apply N. cbn. tauto.
  - exists Copied. apply rule_copied. cbn. intuition discriminate.
  - exists (Along J). apply rule_length; [cbn; tauto|]. cbn. tauto.
Qed.
Example ex_spread : exists h items', decoarsen ex_n None false ex_items None = Ok (Some h, items', None) /\
  map (el h) (indices ex_n) = [0; 0; 2; 0; 0; 2; 0; 0; 2; 0; 0; 2] /\
  listing ex_n items' = [map Some [2; 2; 1; 2; 2; 1; 2; 2; 1; 2; 2; 1]%Q; map Some [0; -3; 0; -3; -3; -3; -3; -3; -3; -3; -3; -3]%Q;
    map Some [1 # 2; 1 # 2; 1 # 4; 1 # 2; 1 # 2; 1 # 4; 1 # 2; 1 # 2; 1 # 4; 1 # 2; 1 # 2; 1 # 4]%Q; map Some [8; 8; 2; 8; 8; 2; 8; 8; 2; 8; 8; 2]%Q].
Proof. eexists _, _. split; [reflexivity|]. split; vm_compute; reflexivity. Qed.

(** KID of a division where one column of cells is coarsened down K and its neighbour is not: a
    cell of the coarse one is taken for part of the neighbouring ordinary cell, and volume is lost. *)
Definition bad_n : cell := T 2 2 1.
Definition bad_blk (c : cell) : box := if tj c =? 1 then Box (T 0 1 0) (T 1 1 0) else Box c c.
Definition bad_kid : arr value := arr_of bad_n (fun k j i => if (k =? 1) && (j =? 1) then (-3)%Q else (0)%Q).
Definition bad_pv : arr value := arr_of bad_n (fun k j i => if (k =? 1) && (j =? 1) then (0)%Q else (10)%Q).
Theorem C81_kid_conflict_refuted : exists n blk kid pv h items' c,
  Division n blk /\ KidOf n blk (el kid) /\ shape kid = n /\
  decoarsen n None false [kid_item kid; pv_item pv] None = Ok (Some h, items', None) /\
  within n c /\ el h c <> natural n (lo (blk c)) /\
  listing n [pv_item pv] = [map Some [10; 10; 10; 0]%Q] /\ listing n (tl items') = [map Some [10; 5; 5; 5]%Q].
Proof.
  exists bad_n, bad_blk, bad_kid, bad_pv. eexists _, _, (T 1 1 0). split; [|split; [|split; [|split; [reflexivity|]]]].
  - intros c Hc. pose proof (Hc K) as H1. pose proof (Hc J) as H2. pose proof (Hc I) as H3. cbn in H1, H2, H3. unfold bad_blk. destruct (Z.eqb_spec (tj c) 1) as [H|H].
    + split; [|split; [|split]]; [intros []; cbn; lia|intros []; cbn; lia|intros []; cbn; lia|].
      intros c' Hc'. specialize (Hc' J). cbn in Hc'. rewrite (proj2 (Z.eqb_eq _ 1)) by lia. reflexivity.
    + split; [|split; [|split]]; [intros d; cbn; lia|exact Hc|exact Hc|].
      intros c' Hc'. assert (c' = c) as -> by (apply get_ext; intro d; specialize (Hc' d); cbn in Hc'; lia).
      rewrite (proj2 (Z.eqb_neq _ 1)) by lia. reflexivity.
  - intros [k j i] Hc. pose proof (Hc K) as H1. pose proof (Hc J) as H2. pose proof (Hc I) as H3. cbn in H1, H2, H3.
    assert (E1 : k = 0 \/ k = 1) by lia. assert (E2 : j = 0 \/ j = 1) by lia. assert (E3 : i = 0) by lia.
    destruct E1 as [->| ->], E2 as [->| ->]; rewrite E3; (split; [intro N; try (exfalso; apply N; reflexivity); eexists; split; reflexivity|
      intro E; try discriminate E; left; eexists; split; reflexivity]).
  - reflexivity.
  - split; [intros []; cbn; lia|]. split; [vm_compute; discriminate|]. split; vm_compute; reflexivity.
Qed.
Print Assumptions C81_kid_conflict_refuted.

(** Transmissibilities are to be left alone, but the array of the property before replaces them;
    with none before it the call fails.  So for a length with no direction. *)
Definition tx_item (a : arr value) := Item (L "TX") false (L "transmissibility") None true (Some a).
Definition host_arr : arr Z := Arr (T 1 1 2) (fun _ => 0).
Theorem C81_transmissibility_refuted : exists n h pv tx h' items',
  decoarsen n (Some h) false [pv_item pv; tx_item tx] None = Ok (Some h', items', None) /\
  listing n [tx_item tx] = [map Some [7; 0]%Q] /\ listing n items' = [map Some [4; 4]%Q; map Some [4; 4]%Q] /\
  decoarsen n (Some h) false [tx_item tx; pv_item pv] None = Err NameError.
Proof.
  exists (T 1 1 2), host_arr, (arr_of (T 1 1 2) (fun _ _ i => if i =? 0 then (8)%Q else (0)%Q)), (arr_of (T 1 1 2) (fun _ _ i => if i =? 0 then (7)%Q else (0)%Q)).
  eexists _, _. split; [reflexivity|]. split; [|split]; vm_compute; reflexivity.
Qed.
Print Assumptions C81_transmissibility_refuted.
