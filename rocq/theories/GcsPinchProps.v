(** GcsPinchProps.v: connections across pinchouts and k gaps (C72). *)
From Coq Require Import Permutation Sorted.
From Verif Require Import QBase StrModel BisectModel BisectProofs BisectProofs4 GcsModel GcsProofs GcsProofs2 GcsProofs3.
Open Scope Z_scope.

(** ** Specification *)
(** in a column, layers a and b are the ends of a run of pinched out layers *)
Definition spans (nk : Z) (po : Z -> bool) (a b : Z) : Prop :=
  0 <= a /\ a + 1 < b /\ b < nk /\ po a = false /\ po b = false /\ forall k, a < k < b -> po k = true.
Definition live (dead : Z -> bool) (skip_inactive : bool) (k : Z) : Prop := skip_inactive = true -> dead k = false.
(** a connection is called for: both ends active (where asked) and no k gap below the upper one *)
Definition called_for (nk : Z) (po dead gap : Z -> bool) (skip : bool) (a b : Z) : Prop :=
  spans nk po a b /\ live dead skip a /\ live dead skip b /\ gap a = false.
Definition column_of {A} (f : cell -> A) (j i : Z) : Z -> A := fun k => f (T k j i).

(** ** Proofs *)
Lemma advance_spec p : forall fuel k, let r := advance fuel p k in
  k <= r /\ (forall j, k <= j < r -> p j = true) /\ ((forall j, p j = true -> j < k + Z.of_nat fuel) -> p r = false).
Proof.
  induction fuel as [|fuel IH]; intros k; cbn [advance]; cbv zeta.
  - split; [lia|]. split; [intros; lia|]. intros H. destruct (p k) eqn:E; [|reflexivity]. specialize (H k E). lia.
  - destruct (p k) eqn:E; [|split; [lia|split; [intros; lia|auto]]].
    destruct (IH (k + 1)) as (A & B & C). split; [lia|]. split.
    + intros j Hj. destruct (Z.eq_dec j k) as [->|]; [assumption|]. apply B. lia.
    + intros H. apply C. intros j Hj. specialize (H j Hj). lia.
Qed.
Lemma pinch_spec nk po dead gap skip : forall fuel k, 0 <= k -> Z.max 0 (nk - k) < Z.of_nat fuel ->
  exists r, pinch_column fuel nk po dead gap skip k = Ok r /\
    (forall a b, In (a, b) r -> k <= a /\ called_for nk po dead gap skip a b) /\
    StronglySorted (fun x y => snd x < fst y) r /\
    (forall a b, k <= a -> called_for nk po dead gap skip a b ->
       (forall a', spans nk po a' a -> ~ (live dead skip a' /\ gap a' = false)) -> In (a, b) r).
Proof.
  induction fuel as [|fuel IH]; intros k Hk Hf; [|cbn [pinch_column]].
  { exfalso. lia. }
  destruct (advance_spec (fun k => (k <? nk - 1) && po k) (Z.to_nat nk) k) as (A1 & A2 & A3).
  set (k1 := advance (Z.to_nat nk) (fun k => (k <? nk - 1) && po k) k) in *. specialize (A3 ltac:(intros; lia)). cbv beta in A2, A3.
  destruct (advance_spec (fun k => (k <? nk - 1) && negb (po (k + 1))) (Z.to_nat nk) k1) as (B1 & B2 & B3).
  set (ka := advance (Z.to_nat nk) (fun k => (k <? nk - 1) && negb (po (k + 1))) k1) in *. specialize (B3 ltac:(intros; lia)). cbv beta in B2, B3.
  assert (NS : forall a b, k <= a < ka -> ~ spans nk po a b).
  { intros a b Ha (S1 & S2 & S3 & S4 & S5 & S6). destruct (Z_lt_dec a k1) as [L|L].
    - specialize (A2 a ltac:(lia)). rewrite S4 in A2. lia.
    - specialize (B2 a ltac:(lia)). rewrite S6 in B2 by lia. cbn in B2. lia. }
  destruct (nk - 1 <=? ka) eqn:E1.
  { exists []. split; [reflexivity|]. split; [intros ? ? []|]. split; [constructor|]. intros a b Ha ((S1 & S2 & S3 & S4) & _) _.
    exfalso. apply (NS a b ltac:(lia)). unfold spans. tauto. }
  assert (P1 : po (ka + 1) = true) by (destruct (po (ka + 1)) eqn:E; [reflexivity|cbn in B3; lia]).
  assert (P0 : po ka = false).
  { destruct (Z.eq_dec ka k1) as [E|N]; [rewrite E; destruct (po k1) eqn:Ep; [rewrite E in E1; cbn in A3; lia|reflexivity]|].
    specialize (B2 (ka - 1) ltac:(lia)). replace (ka - 1 + 1) with ka in B2 by lia. destruct (po ka); [cbn in B2; lia|reflexivity]. }
  destruct ((skip && dead ka) || gap ka) eqn:E2.
  { destruct (IH (ka + 1) ltac:(lia) ltac:(lia)) as (r & Er & R1 & R2 & R3). exists r. split; [assumption|]. split; [|split; [assumption|]].
    - intros a b H. destruct (R1 a b H). split; [lia|assumption].
    - intros a b Ha C N. destruct (Z.eq_dec a ka) as [->|Na].
      + destruct C as (_ & La & _ & Ga). exfalso. rewrite Ga, orb_false_r in E2. apply andb_true_iff in E2. destruct E2 as [-> E2]. rewrite (La eq_refl) in E2. discriminate.
      + apply R3; auto. destruct (Z_lt_dec a ka); [exfalso; apply (NS a b ltac:(lia)); apply C|lia]. }
  apply orb_false_iff in E2. destruct E2 as [D1 G1].
  assert (La : live dead skip ka) by (intros ->; exact D1).
  destruct (advance_spec (fun k => (k <? nk) && po k) (Z.to_nat nk) (ka + 1)) as (C1 & C2 & C3).
  set (kb := advance (Z.to_nat nk) (fun k => (k <? nk) && po k) (ka + 1)) in *. specialize (C3 ltac:(intros; lia)). cbv beta in C2, C3.
  assert (U : forall a b, ka <= a < kb -> spans nk po a b -> a = ka /\ b = kb /\ kb < nk).
  { intros a b Ha (S1 & S2 & S3 & S4 & S5 & S6). assert (a = ka) as ->.
    { destruct (Z.eq_dec a ka); [assumption|]. specialize (C2 a ltac:(lia)). rewrite S4 in C2. lia. }
    assert (Hb : ~ b < kb) by (intros L; specialize (C2 b ltac:(lia)); rewrite S5 in C2; lia).
    assert (Hb' : ~ kb < b). { intros L. rewrite (S6 kb) in C3 by lia. lia. } lia. }
  destruct (nk <=? kb) eqn:E3.
  { exists []. split; [reflexivity|]. split; [intros ? ? []|]. split; [constructor|]. intros a b Ha C _. exfalso.
    destruct (Z_lt_dec a ka); [apply (NS a b ltac:(lia)), C|]. destruct C as [S _]. destruct (U a b); [|exact S|lia]. destruct S as (? & ? & ? & _). lia. }
  assert (Pb : po kb = false) by (destruct (po kb); [lia|reflexivity]).
  assert (Kb : ka + 1 < kb). { destruct (Z.eq_dec kb (ka + 1)) as [E|]; [|lia]. rewrite E in Pb. congruence. }
  assert (Sp : spans nk po ka kb).
  { split; [lia|]. split; [lia|]. split; [lia|]. split; [assumption|]. split; [assumption|]. intros j Hj. specialize (C2 j ltac:(lia)). lia. }
  assert (Rest : forall a b, k <= a -> spans nk po a b -> a = ka /\ b = kb \/ a = kb \/ kb + 1 <= a).
  { intros a b Ha S. destruct (Z_lt_dec a ka); [exfalso; apply (NS a b ltac:(lia)), S|]. destruct (Z_lt_dec a kb); [|lia].
    destruct (U a b ltac:(lia) S) as (? & ? & ?). auto. }
  destruct (IH (kb + 1) ltac:(lia) ltac:(lia)) as (r & Er & R1 & R2 & R3).
  destruct (skip && dead kb) eqn:E4.
  - exists r. split; [assumption|]. split; [|split; [assumption|]].
    + intros a b H. destruct (R1 a b H). split; [lia|assumption].
    + intros a b Ha C N. destruct (Rest a b Ha (proj1 C)) as [[-> ->]|[->|H]].
      * destruct C as (_ & _ & Lb & _). apply andb_true_iff in E4. destruct E4 as [-> E4]. rewrite (Lb eq_refl) in E4. discriminate.
      * exfalso. apply (N ka Sp). auto.
      * apply R3; auto.
  - rewrite Er. cbn [bind]. exists ((ka, kb) :: r). split; [reflexivity|]. split; [|split].
    + intros a b [[= <- <-]|H]; [split; [lia|]; split; [exact Sp|]; split; [exact La|]; split; [intros ->; exact E4|exact G1]|].
      destruct (R1 a b H). split; [lia|assumption].
    + constructor; [assumption|]. rewrite Forall_forall. intros [a b] H. destruct (R1 a b H). cbn. lia.
    + intros a b Ha C N. destruct (Rest a b Ha (proj1 C)) as [[-> ->]|[->|H]].
      * now left.
      * exfalso. apply (N ka Sp). auto.
      * right. apply R3; auto.
Qed.
Lemma in_columns n j i : In (j, i) (columns n) <-> 0 <= j < tj n /\ 0 <= i < ti n.
Proof.
  unfold columns. rewrite in_flat_map. split.
  - intros (j' & H1 & H2). apply in_map_iff in H2. destruct H2 as (i' & [= -> ->] & H2). apply in_zrange in H1, H2. auto.
  - intros [H1 H2]. exists j. split; [now apply in_zrange|]. apply in_map. now apply in_zrange.
Qed.
Lemma links_make_k cip fs : match make_k_gcs cip fs with None => [] | Some g => links g end = map (fun '(a, b) => Lk a b 1 0) cip.
Proof. destruct cip; reflexivity. Qed.
Definition connections (g : option gcs) : list link := match g with None => [] | Some g => links g end.
(** the connection of layers a and b of a column: lower side of the upper cell, upper side of the lower one *)
Definition k_pair (a b j i : Z) : GcsModel.side * GcsModel.side := ((T a j i, (K, true)), (T b j i, (K, false))).

Lemma pinchout_columns n po dead gap skip fs : exists g, pinchout_connection_set n po dead gap skip fs = Ok g /\
  forall l, In l (connections g) <-> exists j i a b r, 0 <= j < tj n /\ 0 <= i < ti n /\
    pinch_column (S (Z.to_nat (tk n))) (tk n) (column_of po j i) (column_of dead j i) gap skip 0 = Ok r /\ In (a, b) r /\
    l = Lk (natural n (T a j i)) (natural n (T b j i)) 1 0.
Proof.
  unfold pinchout_connection_set.
  set (f := fun '(j, i) => _ : res (list (Z * Z))).
  assert (E : forall cs, exists cip, map_res f cs = Ok cip /\
    forall A B, In (A, B) (List.concat cip) <-> exists j i a b r, In (j, i) cs /\
      pinch_column (S (Z.to_nat (tk n))) (tk n) (column_of po j i) (column_of dead j i) gap skip 0 = Ok r /\ In (a, b) r /\
      A = natural n (T a j i) /\ B = natural n (T b j i)).
  { induction cs as [|[j i] cs (cip & IH1 & IH2)].
    - exists []. split; [reflexivity|]. intros A B. split; [intros []|intros (? & ? & ? & ? & ? & [] & _)].
    - cbn [map_res]. unfold f at 1.
      destruct (pinch_spec (tk n) (column_of po j i) (column_of dead j i) gap skip (S (Z.to_nat (tk n))) 0 ltac:(lia) ltac:(lia)) as (r & Er & _).
      change (fun k => po (T k j i)) with (column_of po j i). change (fun k => dead (T k j i)) with (column_of dead j i).
      rewrite Er. cbn [bind]. rewrite IH1. cbn [bind]. eexists. split; [reflexivity|]. intros A B. cbn [List.concat]. rewrite in_app_iff, IH2. split.
      + intros [H|(j' & i' & a & b & r' & H1 & H2)].
        * apply in_map_iff in H. destruct H as ([a b] & [= <- <-] & H). exists j, i, a, b, r. split; [now left|auto].
        * exists j', i', a, b, r'. split; [now right|auto].
      + intros (j' & i' & a & b & r' & [[= <- <-]|H1] & H2 & H3 & H4 & H5).
        * left. rewrite Er in H2. injection H2 as <-. apply in_map_iff. exists (a, b). subst. auto.
        * right. exists j', i', a, b, r'. auto. }
  destruct (E (columns n)) as (cip & E1 & E2). rewrite E1. cbn [bind]. eexists. split; [reflexivity|]. intros l.
  unfold connections. rewrite links_make_k, in_map_iff. split.
  - intros ([A B] & <- & H). apply E2 in H. destruct H as (j & i & a & b & r & H1 & H2 & H3 & -> & ->). apply in_columns in H1. exists j, i, a, b, r. intuition auto.
  - intros (j & i & a & b & r & Hj & Hi & H2 & H3 & ->). exists (natural n (T a j i), natural n (T b j i)). split; [reflexivity|]. apply E2.
    exists j, i, a, b, r. split; [now apply in_columns|auto].
Qed.
Lemma decode_k n a b j i : 0 <= a < tk n -> 0 <= b < tk n -> 0 <= j < tj n -> 0 <= i < ti n ->
  decode_link n (Lk (natural n (T a j i)) (natural n (T b j i)) 1 0) = Ok (k_pair a b j i).
Proof.
  intros Ha Hb Hj Hi. unfold decode_link. cbn [ca cb fa fb face_index_inverse_map bind]. change (face_index_inverse_map 1) with (Ok (K, true)). change (face_index_inverse_map 0) with (Ok (K, false)). cbn [bind]. rewrite !denatural_natural by (intros []; cbn; lia). reflexivity.
Qed.

(** C72: each connection across a pinchout joins the bottom of a cell and the top of a deeper cell of
    the same column, all cells in between being pinched out and neither of the two; both are active
    where inactive cells are to be skipped, and there is no k gap directly below the upper one. *)
Theorem C72_pinchout_connections_are_right : forall n po dead gap skip fs, exists g, pinchout_connection_set n po dead gap skip fs = Ok g /\
  forall l, In l (connections g) -> exists a b j i, decode_link n l = Ok (k_pair a b j i) /\
    0 <= j < tj n /\ 0 <= i < ti n /\ called_for (tk n) (column_of po j i) (column_of dead j i) gap skip a b.
Proof.
  intros n po dead gap skip fs. destruct (pinchout_columns n po dead gap skip fs) as (g & E & H). exists g. split; [assumption|].
  intros l Hl. apply H in Hl. destruct Hl as (j & i & a & b & r & Hj & Hi & Er & Hr & ->). exists a, b, j, i.
  destruct (pinch_spec (tk n) (column_of po j i) (column_of dead j i) gap skip (S (Z.to_nat (tk n))) 0 ltac:(lia) ltac:(lia)) as (r' & Er' & R1 & _).
  rewrite Er in Er'. injection Er' as <-. destruct (R1 a b Hr) as [_ C]. split; [|auto].
  destruct C as ((? & ? & ? & _) & _). apply decode_k; lia.
Qed.
Print Assumptions C72_pinchout_connections_are_right.
(** C72: such a connection is there provided the upper cell is not itself below another pinchout with a
    usable cell above it.  (Missing: that case, see the next theorem.) *)
Theorem C72_pinchouts_are_found_partial : forall n po dead gap skip fs g a b j i, pinchout_connection_set n po dead gap skip fs = Ok g ->
  0 <= j < tj n -> 0 <= i < ti n -> called_for (tk n) (column_of po j i) (column_of dead j i) gap skip a b ->
  (forall a', spans (tk n) (column_of po j i) a' a -> ~ (live (column_of dead j i) skip a' /\ gap a' = false)) ->
  exists l, In l (connections g) /\ decode_link n l = Ok (k_pair a b j i).
Proof.
  intros n po dead gap skip fs g a b j i E Hj Hi C N. destruct (pinchout_columns n po dead gap skip fs) as (g' & E' & H). rewrite E in E'. injection E' as <-.
  destruct (pinch_spec (tk n) (column_of po j i) (column_of dead j i) gap skip (S (Z.to_nat (tk n))) 0 ltac:(lia) ltac:(lia)) as (r & Er & _ & _ & R3).
  pose proof C as ((A0 & A1 & A2 & _) & _).
  exists (Lk (natural n (T a j i)) (natural n (T b j i)) 1 0). split; [|apply decode_k; lia]. apply H.
  exists j, i, a, b, r. split; [assumption|]. split; [assumption|]. split; [assumption|]. split; [apply R3; auto; lia|reflexivity].
Qed.
Print Assumptions C72_pinchouts_are_found_partial.
Example pinchout_example : pinchout_connection_set (T 4 1 2) (fun c => (ti c =? 1) && ((tk c =? 1) || (tk c =? 2))) (fun _ => false) (fun _ => false) true [] =
  Ok (Some (Gcs [Lk 1 7 1 0] (Some [0]) (Some []))).
Proof. reflexivity. Qed.
(** C72: of two pinchouts in succession separated by a single cell, the second is missed. *)
Theorem C72_successive_pinchouts_refuted : exists n po g a b, pinchout_connection_set n po (fun _ => false) (fun _ => false) true [] = Ok g /\
  called_for (tk n) (column_of po 0 0) (fun _ => false) (fun _ => false) true a b /\
  ~ exists l, In l (connections g) /\ decode_link n l = Ok (k_pair a b 0 0).
Proof.
  exists (T 5 1 1), (fun c => (tk c =? 1) || (tk c =? 3)). eexists. exists 2, 4. split; [reflexivity|]. split.
  - split; [|split; [intros _; reflexivity|split; [intros _; reflexivity|reflexivity]]].
    split; [lia|]. split; [lia|]. split; [cbn; lia|]. split; [reflexivity|]. split; [reflexivity|]. intros k Hk. replace k with 3 by lia. reflexivity.
  - intros (l & [<-|[]] & D). discriminate.
Qed.
Print Assumptions C72_successive_pinchouts_refuted.
(** C72: a k gap other than the one directly below the upper cell is bridged. *)
Theorem C72_gap_within_pinchout_refuted : exists n po gap g a b k l, pinchout_connection_set n po (fun _ => false) gap true [] = Ok g /\
  In l (connections g) /\ decode_link n l = Ok (k_pair a b 0 0) /\ a <= k < b /\ gap k = true.
Proof.
  exists (T 4 1 1), (fun c => (tk c =? 1) || (tk c =? 2)), (fun k => k =? 1). eexists. exists 0, 3, 1. eexists. split; [reflexivity|]. split; [left; reflexivity|].
  split; [reflexivity|]. split; [lia|reflexivity].
Qed.
Print Assumptions C72_gap_within_pinchout_refuted.

(** C72: the k gap connections are exactly those of vertical neighbours with a gap thinner than the
    tolerance between them, both active where inactive cells are to be skipped. *)
Theorem C72_k_gap_connections : forall n gap thickness dead skip tolerance fs l,
  In l (connections (k_gap_connection_set n gap thickness dead skip tolerance fs)) <->
  exists k j i t, l = Lk (natural n (T k j i)) (natural n (T (k + 1) j i)) 1 0 /\ decode_link n l = Ok (k_pair k (k + 1) j i) /\
    0 <= k < tk n - 1 /\ 0 <= j < tj n /\ 0 <= i < ti n /\ gap k = true /\
    thickness (T k j i) = Some t /\ (t < tolerance)%Q /\
    (skip = true -> dead (T k j i) = false /\ dead (T (k + 1) j i) = false).
Proof.
  intros n gap th dead skip tol fs l. unfold k_gap_connection_set, connections. rewrite links_make_k, map_map, in_map_iff. split.
  - intros ([k j i] & <- & H). unfold where_true in H. apply filter_In in H. destruct H as [H W]. apply in_indices in H.
    pose proof (H K) as Hk. pose proof (H J) as Hj. pose proof (H I) as Hi. cbn in Hk, Hj, Hi. cbn [tk tj ti] in *.
    apply andb_true_iff in W. destruct W as [W1 W3]. apply andb_true_iff in W1. destruct W1 as [W1 W2].
    destruct (th (T k j i)) as [t|] eqn:Et; [|discriminate]. exists k, j, i, t. split; [reflexivity|]. split; [apply decode_k; lia|].
    split; [lia|]. split; [lia|]. split; [lia|]. split; [assumption|]. split; [exact Et|]. split; [now apply Qltb_iff|].
    intros ->. cbn in W3. apply negb_true_iff, orb_false_iff in W3. exact W3.
  - intros (k & j & i & t & -> & _ & Hk & Hj & Hi & G & Et & Ht & S). exists (T k j i). cbn [tk tj ti]. split; [reflexivity|]. unfold where_true. apply filter_In. split.
    + apply in_indices. intros []; cbn; lia.
    + cbn [tk tj ti]. rewrite G, Et. cbn. apply andb_true_iff. split; [now apply Qltb_iff|]. destruct skip; [|reflexivity]. destruct (S eq_refl) as [-> ->]. reflexivity.
Qed.
Print Assumptions C72_k_gap_connections.
Example k_gap_example : k_gap_connection_set (T 3 1 1) (fun k => k =? 1) (fun _ => Some (1 # 10000)%Q) (fun _ => false) true (1 # 1000) [] =
  Some (Gcs [Lk 1 2 1 0] (Some [0]) (Some [])).
Proof. reflexivity. Qed.

(** ** cached sets *)
Section Cached.
  Context {G X : Type}.
  Variables (build : bool -> X -> option G) (trans : G -> list Q).
  Definition fresh : cache G := Cache None None.
  Definition uses (x0 : X) (l : list (bool * X * bool)) : Prop := forall skip x c, In (skip, x, c) l -> x = x0.
  Definition sound_cache (x0 : X) (s : cache G) : Prop := forall g skip, c_set s = Some (g, skip) -> g = build skip x0.
  Lemma cached_sound x0 s skip c : sound_cache x0 s ->
    sound_cache x0 (fst (cached_set build trans s skip x0 c)) /\ fst (snd (cached_set build trans s skip x0 c)) = build skip x0.
  Proof.
    intros H. unfold cached_set.
    assert (E : (match c_set s with Some (g, sk) => if Bool.eqb sk skip then g else build skip x0 | None => build skip x0 end) = build skip x0).
    { destruct (c_set s) as [[g sk]|] eqn:E; [|reflexivity]. destruct (Bool.eqb sk skip) eqn:Q; [|reflexivity]. apply eqb_prop in Q. subst. now apply H. }
    rewrite E. destruct (build skip x0) as [g|] eqn:B; cbn; (split; [|reflexivity]); intros g' sk' [= <- <-]; auto.
  Qed.
  Lemma calls_sound x0 l s : uses x0 l -> sound_cache x0 s -> sound_cache x0 (calls build trans s l).
  Proof.
    revert s. induction l as [|[[sk x] c] l IH]; intros s U H; [exact H|]. cbn [calls]. assert (x = x0) as -> by (eapply U; now left).
    apply IH; [intros ? ? ? Hin; eapply U; right; exact Hin|]. now apply cached_sound.
  Qed.
  (** C72: after any calls with the same further arguments (tolerance), the set returned is the one
      which would be made afresh. *)
  Theorem C72_cached_set : forall x0 l skip c, uses x0 l ->
    fst (snd (cached_set build trans (calls build trans fresh l) skip x0 c)) = build skip x0.
  Proof. intros x0 l skip c U. apply cached_sound, calls_sound; [assumption|]. intros ? ? [=]. Qed.
  (** C72: after calls all with the same value of skip_inactive, the transmissibilities returned, if
      any, are those of the set returned, and there are some where asked for.  (Missing: other calls,
      see the next theorem.) *)
  Theorem C72_cached_transmissibilities_partial : forall x0 l skip c g, uses x0 l -> (forall sk x c', In (sk, x, c') l -> sk = skip) ->
    build skip x0 = Some g ->
    let t := snd (snd (cached_set build trans (calls build trans fresh l) skip x0 c)) in
    (t = None \/ t = Some (trans g)) /\ (c = true -> t = Some (trans g)).
  Proof.
    intros x0 l skip c g U A B.
    assert (P : forall l s, uses x0 l -> (forall sk x c', In (sk, x, c') l -> sk = skip) -> sound_cache x0 s -> (c_trans s = None \/ c_trans s = Some (trans g)) ->
      c_trans (calls build trans s l) = None \/ c_trans (calls build trans s l) = Some (trans g)).
    { clear l U A. induction l as [|[[sk x] c'] l IH]; intros s U A S T; [exact T|]. cbn [calls].
      assert (x = x0) as -> by (eapply U; now left). assert (sk = skip) as -> by (eapply A; now left).
      destruct (cached_sound x0 s skip c' S) as [S1 S2].
      apply IH; [intros ? ? ? Hin; eapply U; right; exact Hin|intros ? ? ? Hin; eapply A; right; exact Hin|exact S1|].
      revert S2. unfold cached_set. set (st := match c_set s with Some (g0, sk0) => _ | None => _ end). destruct st as [g'|]; cbn; rewrite B; [intros [= ->]|discriminate].
      destruct T as [->| ->]; [destruct c'; auto|auto]. }
    specialize (P l fresh U A ltac:(intros ? ? [=]) (or_introl eq_refl)).
    pose proof (calls_sound x0 l fresh U ltac:(intros ? ? [=])) as S. destruct (cached_sound x0 _ skip c S) as [_ S2]. cbv zeta.
    revert S2. unfold cached_set. set (st := match c_set _ with Some (g0, sk0) => _ | None => _ end). destruct st as [g'|]; cbn; rewrite B; [intros [= ->]|discriminate].
    intros. destruct P as [-> | ->]; [|auto]. destruct c; [auto|]. split; [auto|discriminate].
  Qed.
End Cached.
Print Assumptions C72_cached_set.
Print Assumptions C72_cached_transmissibilities_partial.
(** C72: transmissibilities computed for a set which includes inactive cells are returned together
    with the set which does not, although they do not belong to it. *)
Theorem C72_cached_transmissibilities_refuted : exists (build : bool -> unit -> option (list Z)) (trans : list Z -> list Q) (s : cache (list Z)) (g : list Z) (t : list Q),
  s = calls build trans fresh [(false, tt, true)] /\
  snd (cached_set build trans s true tt true) = (Some g, Some t) /\ t <> trans g /\ List.length (trans g) = List.length g /\ List.length t <> List.length g.
Proof.
  exists (fun (skip : bool) (_ : unit) => Some (if skip then [5] else [5; 6])), (map inject_Z). eexists. exists [5], [inject_Z 5; inject_Z 6].
  split; [reflexivity|]. split; [reflexivity|]. split; [discriminate|]. split; [reflexivity|discriminate].
Qed.
Print Assumptions C72_cached_transmissibilities_refuted.
