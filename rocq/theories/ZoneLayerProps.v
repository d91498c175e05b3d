(** ZoneLayerProps.v: the zone of each layer. *)
From Verif Require Import Base QBase PySort IntersectModel PillarModel PillarProofs PointsModel PointsProofs ExtractModel ZoneModel ZoneProps ZoneLayerModel.
Open Scope Z_scope.

(** * Specification: the entry for layer k of a vector *)
Definition At (v : list Z) (k z : Z) : Prop := 0 <= k /\ nth_error v (Z.to_nat k) = Some z.

(** * Lemmas *)
Lemma put_spec nk : forall rs f g, put_ranges nk rs f = Ok g -> forall k,
  (forall a b z, In (a, b, z) rs -> ~ a <= k <= b) /\ g k = f k \/ exists a b z, In (a, b, z) rs /\ a <= k <= b /\ g k = z.
Proof.
  induction rs as [|[[a b] z] rs IH]; cbn [put_ranges]; intros f g E k.
  - injection E as <-. left. split; [intros a b z []|reflexivity].
  - destruct (_ && _ && _); [|discriminate]. cbn [assert_ bind] in E. destruct (IH _ _ E k) as [[N G]|(a' & b' & z' & I & R & G)].
    + destruct ((a <=? k) && (k <? b + 1)) eqn:T.
      * right. exists a, b, z. split; [left; reflexivity|]. split; [lia|exact G].
      * left. split; [|exact G]. intros a' b' z' [X|X]; [injection X as -> -> ->; lia|apply (N a' b' z' X)].
    + right. exists a', b', z'. split; [right; exact I|]. auto.
Qed.
Lemma put_ok nk : forall rs f, (forall a b z, In (a, b, z) rs -> 0 <= a <= b /\ b < nk) -> exists g, put_ranges nk rs f = Ok g.
Proof.
  induction rs as [|[[a b] z] rs IH]; cbn [put_ranges]; intros f H; [eauto|].
  destruct (H a b z (or_introl eq_refl)) as [H1 H2]. replace ((0 <=? a) && (a <=? b) && (b <? nk)) with true by lia.
  cbn [assert_ bind]. apply IH. intros a' b' z' I. apply (H a' b' z'). right. exact I.
Qed.
Lemma at_map f nk k : 0 <= k < nk -> At (map f (zrange nk)) k (f k).
Proof. intros H. split; [lia|]. rewrite nth_error_map, (nth_error_nth' _ 0) by (rewrite length_zrange; lia). rewrite zrange_nth by lia. cbn. f_equal. f_equal. lia. Qed.

Lemma by_cell za nk null rs za' g : zone_layer_ranges za nk 0 None false = Ok (rs, za') -> put_ranges nk rs (fun _ => null) = Ok g ->
  forall k, 0 <= k < nk -> Zoned za k (g k) \/ Idle za k /\ g k = null.
Proof.
  intros E P k Hk. destruct (C87_ranges za nk 0 None rs za' ltac:(lia) ltac:(cbn; lia) E) as [_ [_ Rz _ Ra _]]. cbn [last_layer] in *.
  destruct (put_spec nk rs _ g P k) as [[N G]|(a & b & z & I & R & G)].
  - right. split; [|exact G]. destruct (Ra k ltac:(lia)) as [Id|(a & b & z & I & R)]; [exact Id|destruct (N a b z I R)].
  - left. rewrite G. apply (Rz a b z I); exact R.
Qed.

(** * Theorems *)
(** The vector has an entry for each layer: that given; or the zone of the layer's active cells, the null value
    if there are none; or the commonest zone in the layer, the lowest such, when that is asked for. *)
Theorem C87_by_layer : forall src nk null dom v, 0 <= nk -> zone_by_layer src nk null dom = Ok v ->
  Z.of_nat (List.length v) = nk /\
  match src with
  | ByVector w => v = w
  | ByCell za => forall k, 0 <= k < nk ->
      if dom then (forall c, In c (za k) -> c <> None) -> za k <> [] -> exists d, Dominant (za k) d /\ At v k d
      else exists z, At v k z /\ (Zoned za k z \/ Idle za k /\ z = null)
  end.
Proof.
  intros src nk null dom v N E. destruct src as [w|za]; cbn [zone_by_layer] in E.
  - destruct (Z.eqb_spec (Z.of_nat (List.length w)) nk); [|discriminate]. injection E as <-. auto.
  - destruct (zone_layer_ranges za nk 0 None dom) as [[rs za']|] eqn:Er; [|discriminate]. cbn [bind fst] in E.
    destruct (match rs with [] => false | _ => true end); [|discriminate]. cbn [assert_ bind] in E.
    destruct (put_ranges nk rs _) as [g|] eqn:Ep; [|discriminate]. injection E as <-.
    split; [rewrite map_length, length_zrange; lia|]. intros k Hk. pose proof (at_map g nk k Hk) as A. destruct dom.
    + intros Nn Ne. destruct (C87_dominant _ _ _ _ _ _ Er) as [Er' D]. destruct (D k Nn Ne) as (d & Dd & Dk). exists d. split; [exact Dd|].
      assert (I : In (Some d) (za' k)) by (rewrite Dk; destruct (za k) as [|c l]; [congruence|left; reflexivity]).
      destruct (by_cell _ _ _ _ _ _ Er' Ep k Hk) as [[Z1 Z2]|[Id _]]; [|destruct (Id d I)]. rewrite (Z2 d I). exact A.
    + exists (g k). split; [exact A|]. exact (by_cell _ _ _ _ _ _ Er Ep k Hk).
Qed.
Print Assumptions C87_by_layer.

(** The vector is made, if the layers of each zone are together and any layers with no active cells are
    above or below all the others. *)
Theorem C87_by_layer_found : forall za nk null k1 k2 zone, 0 <= k1 <= k2 -> k2 < nk ->
  (forall k, k1 <= k <= k2 -> Zoned za k (zone k)) ->
  (forall k, 0 <= k < k1 \/ k2 < k < nk -> Idle za k) ->
  (forall k m l, k1 <= k <= m -> m <= l <= k2 -> zone k = zone l -> zone m = zone k) ->
  exists v, zone_by_layer (ByCell za) nk null false = Ok v /\
    forall k, 0 <= k < nk -> At v k (if (k1 <=? k) && (k <=? k2) then zone k else null).
Proof.
  intros za nk null k1 k2 zone H1 H2 Hz Hi Hc.
  destruct (C87_found za nk 0 None k1 k2 zone ltac:(lia) ltac:(cbn; lia) H1 ltac:(cbn; lia) Hz ltac:(intros k Hk; cbn in Hk; apply Hi; lia) Hc) as [rs E].
  destruct (C87_ranges za nk 0 None rs za ltac:(lia) ltac:(cbn; lia) E) as [_ [Rs Rz _ _ _]]. cbn [last_layer] in *.
  destruct (put_ok nk rs (fun _ => null)) as [g P]. { intros a b z I. destruct (Rz a b z I) as (A & B & _). lia. }
  exists (map g (zrange nk)). split.
  - cbn [zone_by_layer]. rewrite E. cbn [bind fst]. destruct rs; [congruence|]. cbn [assert_ bind]. rewrite P. reflexivity.
  - intros k Hk. pose proof (at_map g nk k Hk) as A. destruct (by_cell _ _ _ _ _ _ E P k Hk) as [[Z1 Z2]|[Id G]].
    + destruct ((k1 <=? k) && (k <=? k2)) eqn:T.
      * destruct (Hz k ltac:(lia)) as [I _]. rewrite (Z2 _ I). exact A.
      * destruct (Hi k ltac:(lia) _ Z1).
    + destruct ((k1 <=? k) && (k <=? k2)) eqn:T.
      * destruct (Hz k ltac:(lia)) as [I _]. destruct (Id _ I).
      * rewrite <- G. exact A.
Qed.
Print Assumptions C87_by_layer_found.

(** A vector of any other length is refused. *)
Theorem C87_by_layer_length : forall w nk null dom, Z.of_nat (List.length w) <> nk ->
  zone_by_layer (ByVector w) nk null dom = Err AssertionError.
Proof. intros w nk null dom H. cbn [zone_by_layer]. destruct (Z.eqb_spec (Z.of_nat (List.length w)) nk); [contradiction|reflexivity]. Qed.
Print Assumptions C87_by_layer_length.

Example four_layers : zone_by_layer (ByCell (za3 [[None; None]; [Some 7; Some 7]; [None; Some 7]; [Some 3; Some 3]])) 4 (-1) false = Ok [-1; 7; 7; 3].
Proof. reflexivity. Qed.
Example commonest : zone_by_layer (ByCell (za3 [[Some 7; Some 7; Some 3]; [Some 4; Some 3; Some 5]])) 2 (-1) true = Ok [7; 3].
Proof. reflexivity. Qed.
Example given : zone_by_layer (ByVector [1; 1; 2]) 3 (-1) false = Ok [1; 1; 2].
Proof. reflexivity. Qed.
