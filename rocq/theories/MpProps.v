(** MpProps.v: parallel batches and gathering of results (C41, C42). *)
From Verif Require Import Base TextModel StrModel PySort ConsolModel MpModel MpProofs.
From Coq Require Import Permutation Sorted.

(** * C41: batches *)
(** Whatever the length of the list and the (positive) number of workers, the batches
    put end to end are the list, there is one batch for each worker, and every batch
    has the floor or the ceiling of the average size. *)
Theorem C41_batches_partition_the_list : forall {A} (l : list A) (n_workers : Z), 0 < n_workers ->
  List.concat (batches l n_workers) = l /\ Z.of_nat (List.length (batches l n_workers)) = n_workers.
Proof.
  intros A l w Hw. unfold batches. split.
  - set (n := Z.of_nat (List.length l)).
    assert (Hn : 0 <= n) by (subst n; lia).
    rewrite (concat_slices l (fun i => i * n / w) w).
    + rewrite Z.mul_comm, Z.div_mul by lia. apply slice_all.
    + lia.
    + reflexivity.
    + intros i Hi. destruct (cut_step n w i Hw Hn Hi) as [_ H]. pose proof (Z.div_pos n w Hn Hw). lia.
  - rewrite map_length, length_zrange. lia.
Qed.
Print Assumptions C41_batches_partition_the_list.

Theorem C41_batches_are_balanced : forall {A} (l : list A) (n_workers : Z) b, 0 < n_workers ->
  In b (batches l n_workers) ->
  let n := Z.of_nat (List.length l) in
  n / n_workers <= Z.of_nat (List.length b) /\
  (Z.of_nat (List.length b) - 1) * n_workers < n /\ (n mod n_workers = 0 -> Z.of_nat (List.length b) = n / n_workers).
Proof.
  intros A l w b Hw Hb n. unfold batches in Hb. fold n in Hb. apply in_map_iff in Hb. destruct Hb as (i & <- & Hi).
  apply in_zrange in Hi. assert (Hn : 0 <= n) by (subst n; lia).
  destruct (cut_step n w i Hw Hn (proj1 Hi)) as [H0 H1]. pose proof (Z.div_pos n w Hn Hw) as Hq.
  assert (Hle : (i + 1) * n / w <= n).
  { apply Z.div_le_upper_bound; [lia|]. nia. }
  rewrite length_slice; [|lia|subst n; lia].
  pose proof (Z.div_mod n w ltac:(lia)). pose proof (Z.mod_pos_bound n w Hw).
  destruct (Z.eqb_spec (n mod w) 0) as [E|E]; repeat split; intros; nia.
Qed.
Print Assumptions C41_batches_are_balanced.

(** Every two batches differ in size by at most one. *)
Theorem C41_sizes_differ_by_at_most_one : forall {A} (l : list A) (n_workers : Z) b c, 0 < n_workers ->
  In b (batches l n_workers) -> In c (batches l n_workers) ->
  Z.of_nat (List.length b) <= Z.of_nat (List.length c) + 1.
Proof.
  intros A l w b c Hw Hb Hc. destruct (C41_batches_are_balanced l w b Hw Hb) as (_ & B & _).
  destruct (C41_batches_are_balanced l w c Hw Hc) as (C & _ & _). cbn zeta in *.
  assert (Z.of_nat (List.length b) - 1 <= Z.of_nat (List.length l) / w); [|lia].
  apply Z.div_le_lower_bound; lia.
Qed.
Print Assumptions C41_sizes_differ_by_at_most_one.

(** Each item is given to exactly one worker at one place: the counts of every item are
    the same in the list and in the batches. *)
Theorem C41_each_item_once : forall (l : list Z) (n_workers : Z) x, 0 < n_workers ->
  count_occ Z.eq_dec (List.concat (batches l n_workers)) x = count_occ Z.eq_dec l x.
Proof. intros l w x Hw. now rewrite (proj1 (C41_batches_partition_the_list l w Hw)). Qed.
Print Assumptions C41_each_item_once.

(** Finding: with no workers (n_workers of 0 or less) nothing is processed and nothing is
    raised: the whole list is lost without notice. *)
Theorem C41_no_workers_loses_the_work_refuted : exists (l : list Z) w, l <> [] /\ batches l w = [].
Proof. exists [1; 2], 0. split; [discriminate|reflexivity]. Qed.
Print Assumptions C41_no_workers_loses_the_work_refuted.

Example C41_example : batches [10; 11; 12; 13; 14; 15; 16] 3 = [[10; 11]; [12; 13]; [14; 15; 16]] /\
  batches [10; 11] 4 = [[]; [10]; []; [11]].
Proof. split; vm_compute; reflexivity. Qed.

(** The blocked wells reported by the workers, taken together, are those of a single
    worker given all the trajectories, in the same order, and every trajectory's failure
    is reported by its batch. *)
Definition all_batches (make : Z -> option Z) (epc_of : Z -> Z) (ts : list Z) (w : Z) : list result :=
  serial_results (fun ik => blocked_well_wrapper make (epc_of (fst ik)) (fst ik) (snd ik)) (batches ts w).
Theorem C41_same_wells_for_any_number_of_workers : forall make epc_of ts w, 0 < w ->
  List.concat (map r_uuids (all_batches make epc_of ts w)) = r_uuids (blocked_well_wrapper make (epc_of 0) 0 ts) /\
  (Forall (fun r => r_success r = true) (all_batches make epc_of ts w) <-> forall t, In t ts -> make t <> None).
Proof.
  intros make epc_of ts w Hw. unfold all_batches.
  set (g := fun t => match make t with Some u => [u] | None => [] end).
  set (h := fun t => match make t with Some _ => true | None => false end).
  assert (Er : forall i b, blocked_well_wrapper make (epc_of i) i b =
    {| r_index := i; r_success := forallb h b; r_epc := Some (epc_of i); r_uuids := List.concat (map g b) |}).
  { intros i b. unfold blocked_well_wrapper. rewrite bw_loop_spec. reflexivity. }
  destruct (C41_batches_partition_the_list ts w Hw) as [Ec _]. split.
  - rewrite Er. cbn [r_uuids]. unfold serial_results. rewrite map_map. cbn [fst snd].
    rewrite (map_ext (fun ik => r_uuids (blocked_well_wrapper make (epc_of (fst ik)) (fst ik) (snd ik)))
                     (fun ik : Z * list Z => List.concat (map g (snd ik)))) by (intros [i b]; now rewrite Er).
    rewrite <- (map_map snd (fun b => List.concat (map g b))), numbered_snd. rewrite <- Ec at 2.
    generalize (batches ts w). induction l as [|b l IH]; [reflexivity|]. cbn [map List.concat]. now rewrite IH, map_app, concat_app.
  - unfold serial_results. rewrite Forall_map.
    transitivity (Forall (fun b => forallb h b = true) (batches ts w)).
    + rewrite <- (numbered_snd (batches ts w)) at 2. rewrite Forall_map. split; apply Forall_impl; intros [i b]; cbn [fst snd];
        rewrite Er; cbn [r_success]; auto.
    + rewrite Forall_forall. split.
      * intros H t Ht. rewrite <- Ec in Ht. apply in_concat in Ht. destruct Ht as (b & Hb & Ht). specialize (H b Hb).
        rewrite forallb_forall in H. specialize (H t Ht). unfold h in H. destruct (make t); congruence.
      * intros H b Hb. apply forallb_forall. intros t Ht. unfold h. specialize (H t).
        destruct (make t); [reflexivity|]. exfalso. apply H; [rewrite <- Ec; apply in_concat; exists b; auto|reflexivity].
Qed.
Print Assumptions C41_same_wells_for_any_number_of_workers.

(** The same for meshes, where each batch also reports the crs, if there is one. *)
Theorem C41_same_meshes_for_any_number_of_workers : forall crs make epc_of ps w, 0 < w ->
  let rs := serial_results (fun ik => mesh_wrapper crs make (epc_of (fst ik)) (fst ik) (snd ik)) (batches ps w) in
  exists made, Forall2 (fun r m => r_uuids r = match crs with Some c => c :: m | None => m end) rs made /\
    List.concat made = List.concat (map (fun p => match make p with Some u => [u] | None => [] end) ps) /\
    (Forall (fun r => r_success r = true) rs <-> forall p, In p ps -> make p <> None).
Proof.
  intros crs make epc_of ps w Hw rs.
  set (g := fun t => match make t with Some u => [u] | None => [] end).
  set (h := fun t => match make t with Some _ => true | None => false end).
  set (c0 := match crs with Some c => [c] | None => [] end).
  assert (Er : forall i b, mesh_wrapper crs make (epc_of i) i b =
    {| r_index := i; r_success := forallb h b; r_epc := Some (epc_of i); r_uuids := c0 ++ List.concat (map g b) |}).
  { intros i b. unfold mesh_wrapper. rewrite bw_loop_spec. reflexivity. }
  destruct (C41_batches_partition_the_list ps w Hw) as [Ec _].
  exists (map (fun b => List.concat (map g b)) (batches ps w)). repeat split.
  - unfold rs, serial_results. rewrite <- (numbered_snd (batches ps w)) at 2. rewrite map_map.
    generalize (numbered (batches ps w)). induction l as [|[i b] l IH]; cbn [map]; constructor; [|exact IH].
    cbn [fst snd]. rewrite Er. cbn [r_uuids]. unfold c0. now destruct crs.
  - rewrite <- Ec at 2. generalize (batches ps w). induction l as [|b l IH]; [reflexivity|]. cbn [map List.concat].
    now rewrite IH, map_app, concat_app.
  - intros H p Hp. unfold rs, serial_results in H. rewrite Forall_map in H.
    rewrite <- Ec in Hp. apply in_concat in Hp. destruct Hp as (b & Hb & Hp).
    rewrite <- (numbered_snd (batches ps w)) in Hb. apply in_map_iff in Hb. destruct Hb as ([i b'] & E & Hb). cbn in E. subst b'.
    rewrite Forall_forall in H. specialize (H _ Hb). cbn [fst snd] in H. rewrite Er in H. cbn [r_success] in H.
    rewrite forallb_forall in H. specialize (H p Hp). unfold h in H. destruct (make p); congruence.
  - intros H. unfold rs, serial_results. rewrite Forall_map, Forall_forall. intros [i b] Hb. cbn [fst snd]. rewrite Er. cbn [r_success].
    apply forallb_forall. intros p Hp. unfold h. specialize (H p). destruct (make p); [reflexivity|]. exfalso. apply H; [|reflexivity].
    rewrite <- Ec. apply in_concat. exists b. split; [|assumption]. rewrite <- (numbered_snd (batches ps w)).
    apply in_map_iff. exists (i, b). auto.
Qed.
Print Assumptions C41_same_meshes_for_any_number_of_workers.

(** * C42: results do not depend on the schedule *)
(** A worker function reports the index it was given. *)
Theorem C42_order_of_arrival_is_immaterial : forall {KW M} (empty_model : M) copy type_in (f : Z * KW -> result) kws arrived fs rq cu w,
  HonestIndex f -> Permutation arrived (serial_results f kws) ->
  gather empty_model copy type_in fs rq cu arrived w = function_serial empty_model copy type_in f kws fs rq cu w.
Proof.
  intros KW M em copy ty f kws arrived fs rq cu w Hf P. unfold function_serial, gather. fold by_index.
  now rewrite (sort_of_arrivals f kws arrived Hf P), (sort_of_arrivals f kws (serial_results f kws) Hf (Permutation_refl _)).
Qed.
Print Assumptions C42_order_of_arrival_is_immaterial.

(** When the call succeeds, the value returned for each entry is the success of the
    call made with that entry. *)
Theorem C42_success_list_is_in_call_order : forall {KW M} (empty_model : M) copy type_in (f : Z * KW -> result) kws arrived fs rq cu w w' l,
  HonestIndex f -> Permutation arrived (serial_results f kws) ->
  gather empty_model copy type_in fs rq cu arrived w = (w', Ok l) ->
  List.length l = List.length kws /\
  forall i kd, (i < List.length kws)%nat -> nth i l false = r_success (f (Z.of_nat i, nth i kws kd)).
Proof.
  intros KW M em copy ty f kws arrived fs rq cu w w' l Hf P. unfold gather. fold by_index. rewrite (sort_of_arrivals f kws arrived Hf P).
  destruct (rq && _); [discriminate|]. destruct (recombine _ _ _ _ _); [|discriminate]. intros [= <- <-]. split.
  - rewrite map_length. apply length_serial.
  - intros i kd Hi. set (d := {| r_index := 0; r_success := false; r_epc := None; r_uuids := [] |}).
    rewrite (nth_indep _ false (r_success d)) by (rewrite map_length, length_serial; assumption).
    rewrite map_nth. f_equal. now apply nth_serial.
Qed.
Print Assumptions C42_success_list_is_in_call_order.

(** What is merged: for the entries in order, each worker's reported uuids, sorted into
    the consolidation order, copied one by one from that worker's dataset into the
    recombined dataset, which is then stored; for every order of arrival and every
    sequence of delays of the file system that stays within the limits. *)
Theorem C42_merge_is_serial_and_complete : forall {KW M} (empty_model : M) copy type_in (f : Z * KW -> result) kws arrived fs rq cu w,
  HonestIndex f -> Permutation arrived (serial_results f kws) ->
  InTime fs (serial_results f kws) -> Known type_in (serial_results f kws) ->
  (rq = true -> Forall (fun r => r_success r = true) (serial_results f kws)) ->
  exists plan, PlanOf type_in (serial_results f kws) plan /\
  gather empty_model copy type_in fs rq cu arrived w =
    (Build_world (Some (fold_left (fun m eu => copy m (fst eu) (snd eu)) plan
                          (match saved w with Some m => m | None => empty_model end))) (negb cu),
     Ok (map r_success (serial_results f kws))).
Proof.
  intros KW M em copy ty f kws arrived fs rq cu w Hf P Ht Hk Hr.
  destruct (recombine_ok copy ty fs _ em Ht Hk) as (plan & Hp & _). exists plan. split; [assumption|].
  eapply gather_ok; eauto. now apply sort_of_arrivals.
Qed.
Print Assumptions C42_merge_is_serial_and_complete.

(** The plan holds every uuid of every worker that has an epc file, as often as the
    worker reported it, and no other. *)
Theorem C42_plan_is_complete : forall type_in rs plan, PlanOf type_in rs plan ->
  Permutation plan (List.concat (map (fun r => match r_epc r with Some e => map (pair e) (r_uuids r) | None => [] end) rs)).
Proof.
  intros ty rs plan (parts & -> & F). induction F as [|r p rs parts Hr F IH]; [constructor|]. cbn [map List.concat].
  apply Permutation_app; [|exact IH]. destruct (r_epc r) as [e|].
  - destruct Hr as (us & E & ->). apply Permutation_map. symmetry. now apply sort_uuids_perm in E.
  - now subst.
Qed.
Print Assumptions C42_plan_is_complete.

(** The delays themselves make no difference, only whether they stay within limits. *)
Theorem C42_delays_are_immaterial : forall {KW M} (empty_model : M) copy type_in (f : Z * KW -> result) kws fs fs' rq cu w,
  HonestIndex f -> InTime fs (serial_results f kws) -> InTime fs' (serial_results f kws) -> Known type_in (serial_results f kws) ->
  function_serial empty_model copy type_in f kws fs rq cu w = function_serial empty_model copy type_in f kws fs' rq cu w.
Proof.
  intros KW M em copy ty f kws fs fs' rq cu w Hf Ht Ht' Hk. unfold function_serial, gather. fold by_index.
  rewrite (sort_of_arrivals f kws _ Hf (Permutation_refl _)). destruct (rq && _); [reflexivity|].
  destruct (recombine_ok copy ty fs _ (match saved {| saved := saved w; tmp_dir := true |} with Some m => m | None => em end) Ht Hk) as (p & Hp & ->).
  destruct (recombine_ok copy ty fs' _ (match saved {| saved := saved w; tmp_dir := true |} with Some m => m | None => em end) Ht' Hk) as (q & Hq & ->).
  now rewrite (plan_unique _ _ _ _ Hp Hq).
Qed.
Print Assumptions C42_delays_are_immaterial.

(** With require_success, one failure among the workers raises and stores nothing; without
    it, failures never raise by themselves. *)
Theorem C42_require_success : forall {KW M} (empty_model : M) copy type_in (f : Z * KW -> result) kws arrived fs cu w,
  HonestIndex f -> Permutation arrived (serial_results f kws) ->
  Exists (fun r => r_success r = false) (serial_results f kws) ->
  gather empty_model copy type_in fs true cu arrived w = (Build_world (saved w) true, Err RuntimeError).
Proof.
  intros KW M em copy ty f kws arrived fs cu w Hf P He. unfold gather. fold by_index. rewrite (sort_of_arrivals f kws arrived Hf P).
  destruct (Nat.ltb_spec (List.length (filter (fun b : bool => b) (map r_success (serial_results f kws)))) (List.length (serial_results f kws)));
    [reflexivity|]. exfalso.
  pose proof (MpProofs.filter_length_le (fun b : bool => b) (map r_success (serial_results f kws))) as Hc. rewrite (map_length r_success) in Hc.
  assert (E : List.length (filter (fun b : bool => b) (map r_success (serial_results f kws))) = List.length (map r_success (serial_results f kws)))
    by (rewrite map_length; lia).
  apply (proj1 (count_true _)) in E. rewrite Forall_map, Forall_forall in E. rewrite Exists_exists in He.
  destruct He as (r & Hr & Hs). specialize (E r Hr). congruence.
Qed.
Print Assumptions C42_require_success.

(** An epc file that does not appear within 301 looks makes the call fail, and any
    failure leaves the stored recombined dataset as it was. *)
Theorem C42_failure_stores_nothing : forall {M} (empty_model : M) copy type_in fs rq cu arrived (w w' : world M) e,
  gather (M := M) empty_model copy type_in fs rq cu arrived w = (w', Err e) -> saved w' = saved w.
Proof.
  intros M em copy ty fs rq cu arrived w w' e. unfold gather. destruct (rq && _); [now intros [= <- _]|].
  destruct (recombine _ _ _ _ _); [discriminate|now intros [= <- _]].
Qed.
Print Assumptions C42_failure_stores_nothing.
Theorem C42_missing_epc_is_noticed : forall {M} (empty_model : M) copy type_in fs cu r epc w,
  r_epc r = Some epc -> (forall d, (d <= 300)%nat -> present fs epc d = false) ->
  gather empty_model copy type_in fs false cu [r] w = (Build_world (saved w) true, Err FileNotFoundError).
Proof.
  intros M em copy ty fs cu r epc w Hr Hp. unfold gather. cbn [andb isort fold_right ins recombine]. rewrite Hr.
  rewrite (wait_exists_late _ 0 301) by (try lia; intros d Hd; apply Hp; lia). reflexivity.
Qed.
Print Assumptions C42_missing_epc_is_noticed.

(** Finding: clean_up = True does not remove the temporary directory when the call fails. *)
Theorem C42_clean_up_on_failure_refuted : exists (arrived : list result) (w w' : world unit) e,
  tmp_dir w = false /\
  gather tt (fun m _ _ => m) (fun _ _ => None) {| present := fun _ _ => true; opens := fun _ _ => true; free := fun _ _ _ => true |}
    true true arrived w = (w', Err e) /\ tmp_dir w' = true.
Proof.
  exists [{| r_index := 0; r_success := false; r_epc := None; r_uuids := [] |}], (Build_world None false). do 2 eexists.
  split; [reflexivity|]. split; reflexivity.
Qed.
Print Assumptions C42_clean_up_on_failure_refuted.

Example C42_example :
  let f := fun ik : Z * Z => {| r_index := fst ik; r_success := negb (snd ik =? 7); r_epc := (if snd ik =? 7 then None else Some (100 + fst ik));
                               r_uuids := [snd ik; snd ik - 1] |} in
  let fs := {| present := fun _ d => Nat.leb 2 d; opens := fun _ d => Nat.leb 1 d; free := fun _ _ d => Nat.leb 4 d |} in
  let ty := fun _ u => Some (L "IjkGridRepresentation") in
  gather [] (fun m e u => m ++ [(e, u)]) ty fs false true [f (2, 20); f (0, 30); f (1, 7)] (Build_world None false) =
    (Build_world (Some [(100, 29); (100, 30); (102, 19); (102, 20)]) false, Ok [true; false; true]) /\
  HonestIndex f /\ Permutation [f (2, 20); f (0, 30); f (1, 7)] (serial_results f [30; 7; 20]) /\
  InTime fs (serial_results f [30; 7; 20]) /\ Known ty (serial_results f [30; 7; 20]).
Proof.
  cbn zeta. split; [vm_compute; reflexivity|]. split; [intros i kw; reflexivity|]. split; [|split].
  - unfold serial_results, numbered. cbn [combine zrange map List.length Z.of_nat Pos.of_succ_nat Pos.succ Z.to_nat Pos.to_nat Pos.iter_op Nat.add seq].
    eapply Permutation_trans; [apply perm_swap|]. constructor. apply perm_swap.
  - intros r epc Hr E. cbn [present opens free]. repeat split.
    + exists 2%nat. split; [lia|reflexivity].
    + exists 1%nat. split; [lia|reflexivity].
    + intros u Hu. exists 4%nat. split; [lia|reflexivity].
  - intros r epc Hr E u Hu. discriminate.
Qed.
