(** UuidProps.v: property theorems about uuids and part names (C14, C15).

    [IsUuid n]: 0 <= n < 2^128.  [Denotes a n]: the argument a (object, string or
    int) stands for the 128-bit value n. *)
From Verif Require Import Base TextModel StrModel StrProofs UuidModel UuidProofs.
From Coq Require FinFun.

(** C14 *)
Theorem C14_string_round_trip : forall n tail, IsUuid n ->
  uuid_from_string (UStr (uuid_str n ++ tail)) = Ok (Some n) /\
  uuid_from_string (UStr ("_"%char :: uuid_str n ++ tail)) = Ok (Some n).
Proof. intros n tail H. cbn [uuid_from_string]. now rewrite from_str_plain, from_str_underscore. Qed.
Print Assumptions C14_string_round_trip.

Theorem C14_string_shape : forall n, List.length (uuid_str n) = 36%nat.
Proof. exact uuid_str_length. Qed.
Print Assumptions C14_string_shape.

Theorem C14_int_round_trip : forall n, IsUuid n ->
  uuid_from_int n = Ok n /\ uuid_as_int (UObj n) = Ok (Some n) /\ uuid_as_int (UStr (uuid_str n)) = Ok (Some n).
Proof.
  intros n H. split; [|split; [reflexivity|]].
  - unfold uuid_from_int, UUID_of_int. unfold IsUuid in H. now destruct (_ && _) eqn:E; [|lia].
  - cbn [uuid_as_int]. rewrite <- (app_nil_r (uuid_str n)), from_str_plain by assumption. reflexivity.
Qed.
Print Assumptions C14_int_round_trip.

Theorem C14_out_of_range_int_rejected : forall n, ~ IsUuid n -> uuid_from_int n = Err ValueError.
Proof. intros n H. unfold uuid_from_int, UUID_of_int. unfold IsUuid in H. destruct (_ && _) eqn:E; [lia|reflexivity]. Qed.
Print Assumptions C14_out_of_range_int_rejected.

(** uuid_as_bytes is the 16 byte big-endian representation. *)
Theorem C14_bytes_round_trip : forall n, IsUuid n -> exists bs, uuid_as_bytes (UObj n) = Ok (Some bs) /\
  List.length bs = 16%nat /\ (forall b, In b bs -> 0 <= b < 256) /\
  fold_left (fun a b => 256 * a + b) bs 0 = n.
Proof.
  intros n H. unfold IsUuid in H. destruct (bytes_value 16 n ltac:(lia)) as (V & Len & R).
  exists (bytes_fixed 16 n). split; [reflexivity|]. split; [exact Len|]. split; [exact R|].
  rewrite V. apply Z.mod_small. change (256 ^ Z.of_nat 16) with uuid_bound. assumption.
Qed.
Print Assumptions C14_bytes_round_trip.

Theorem C14_short_strings_give_none : forall s, (List.length s < 36)%nat -> uuid_from_string (UStr s) = Ok None.
Proof. intros s H. cbn [uuid_from_string]. now rewrite from_str_short. Qed.
Print Assumptions C14_short_strings_give_none.

Theorem C14_part_name_round_trip : forall ty u pre sub p, IsUuid u -> part_name_for_object ty u pre sub = Ok p ->
  uuid_in_part_name p = Ok (Some u).
Proof. intros ty u pre sub p Hu H. apply part_name_shape in H. destruct H as [x ->]. now apply uuid_in_name. Qed.
Print Assumptions C14_part_name_round_trip.

Theorem C14_rels_part_name_round_trip : forall ty u pre sub p, IsUuid u -> part_name_for_object ty u pre sub = Ok p ->
  exists q, rels_part_name_for_part p = Some q /\ uuid_in_part_name q = Ok (Some u).
Proof. intros ty u pre sub p Hu H. apply part_name_shape in H. destruct H as [x ->]. now apply rels_name. Qed.
Print Assumptions C14_rels_part_name_round_trip.

(** Two objects never share a part name. *)
Theorem C14_part_names_distinct : forall ty u pre sub ty' u' pre' sub' p, IsUuid u -> IsUuid u' ->
  part_name_for_object ty u pre sub = Ok p -> part_name_for_object ty' u' pre' sub' = Ok p -> u = u'.
Proof.
  intros ty u pre sub ty' u' pre' sub' p Hu Hu' H H'.
  apply C14_part_name_round_trip in H; [|assumption]. apply C14_part_name_round_trip in H'; [|assumption]. congruence.
Qed.
Print Assumptions C14_part_names_distinct.

(** In test mode successive uuids are consecutive integers, hence distinct. *)
Fixpoint take_uuids (k : nat) (latest : Z) : list (res Z) :=
  match k with
  | O => []
  | S k' => match new_uuid_test latest with
            | Ok (u, latest') => Ok u :: take_uuids k' latest'
            | Err e => [Err e]
            end
  end.
Theorem C14_test_mode_uuids_distinct : forall k seed, 0 <= seed -> seed + Z.of_nat k < uuid_bound ->
  take_uuids k seed = map (fun i => Ok (seed + i)) (zrange2 1 (Z.of_nat k + 1)) /\ NoDup (take_uuids k seed).
Proof.
  assert (G : forall k seed, 0 <= seed -> seed + Z.of_nat k < uuid_bound ->
    take_uuids k seed = map (fun i => Ok (seed + i)) (zrange2 1 (Z.of_nat k + 1))).
  { induction k as [|k IH]; intros seed H0 Hk; [reflexivity|]. cbn [take_uuids]. unfold new_uuid_test.
    assert ((0 <=? seed + 1) && (seed + 1 <? uuid_bound) = true) as -> by lia.
    rewrite IH by lia. unfold zrange2. rewrite !map_map.
    replace (Z.to_nat (Z.of_nat (S k) + 1 - 1)) with (S k) by lia.
    replace (Z.to_nat (Z.of_nat k + 1 - 1)) with k by lia.
    cbn [seq map]. f_equal. rewrite <- seq_shift, map_map. apply map_ext. intros a. f_equal. lia. }
  intros k seed H0 Hk. rewrite (G k seed H0 Hk). split; [reflexivity|].
  apply FinFun.Injective_map_NoDup; [|apply NoDup_zrange2]. intros x y E. injection E. lia.
Qed.
Print Assumptions C14_test_mode_uuids_distinct.

Definition ex_uuid : Z := 0x6d0b4bf05cf911e8a1d9f8b156c8a64e.
Example C14_example : IsUuid ex_uuid /\
  uuid_str ex_uuid = L "6d0b4bf0-5cf9-11e8-a1d9-f8b156c8a64e" /\
  part_name_for_object (L "IjkGridRepresentation") ex_uuid true None =
    Ok (L "/obj_IjkGridRepresentation_6d0b4bf0-5cf9-11e8-a1d9-f8b156c8a64e.xml") /\
  rels_part_name_for_part (L "/obj_IjkGridRepresentation_6d0b4bf0-5cf9-11e8-a1d9-f8b156c8a64e.xml") =
    Some (L "_rels/obj_IjkGridRepresentation_6d0b4bf0-5cf9-11e8-a1d9-f8b156c8a64e.xml.rels").
Proof. split; [unfold IsUuid; vm_compute; split; congruence|]. repeat split; vm_compute; reflexivity. Qed.

(** Finding: is_uuid looks at the length of a string only. *)
Theorem C14_is_uuid_means_parsable_refuted : exists s, is_uuid (UStr s) = true /\ uuid_from_string (UStr s) = Ok None.
Proof. exists (L "this is thirty six characters long.."). split; vm_compute; reflexivity. Qed.
Print Assumptions C14_is_uuid_means_parsable_refuted.

(** C15 *)
Theorem C15_matching_iff_same_value : forall a b, matching_uuids a b = true <-> exists n, Denotes a n /\ Denotes b n.
Proof. exact matching_iff. Qed.
Print Assumptions C15_matching_iff_same_value.

Theorem C15_representations_denote : forall n tail, IsUuid n ->
  Denotes (UObj n) n /\ Denotes (UInt n) n /\ Denotes (UStr (uuid_str n ++ tail)) n /\ Denotes (UStr ("_"%char :: uuid_str n ++ tail)) n.
Proof. intros n tail H. cbn [Denotes]. rewrite from_str_plain, from_str_underscore by assumption. auto. Qed.
Print Assumptions C15_representations_denote.

Theorem C15_matching_symmetric : forall a b, matching_uuids a b = matching_uuids b a.
Proof.
  intros a b. apply eq_iff_eq_true. rewrite !matching_iff. split; intros (n & H1 & H2); eauto.
Qed.
Print Assumptions C15_matching_symmetric.

Theorem C15_matching_transitive : forall a b c, matching_uuids a b = true -> matching_uuids b c = true -> matching_uuids a c = true.
Proof.
  intros a b c. rewrite !matching_iff. intros (m & H1 & H2) (n & H3 & H4).
  rewrite (denotes_unique b m n H2 H3) in H1. eauto.
Qed.
Print Assumptions C15_matching_transitive.

Theorem C15_none_never_matches : forall a, matching_uuids UNone a = false /\ matching_uuids a UNone = false.
Proof.
  intros a. rewrite <- !not_true_iff_false, !matching_iff. split; intros (n & H1 & H2); assumption.
Qed.
Print Assumptions C15_none_never_matches.

Theorem C15_in_list_iff : forall u l, uuid_in_list u l = true <-> exists x, In x l /\ matching_uuids u x = true.
Proof.
  intros u l. induction l as [|y l IH]; cbn; [split; [discriminate|intros (x & [] & _)]|].
  destruct (matching_uuids u y) eqn:E.
  - split; eauto.
  - rewrite IH. split; [intros (x & H1 & H2); eauto|]. intros (x & [->|H1] & H2); [congruence|eauto].
Qed.
Print Assumptions C15_in_list_iff.

Example C15_example : matching_uuids (UStr (L "6D0B4BF0-5CF9-11E8-A1D9-F8B156C8A64E")) (UInt ex_uuid) = true /\
  matching_uuids (UStr (L "_6d0b4bf0-5cf9-11e8-a1d9-f8b156c8a64e.xml")) (UObj ex_uuid) = true /\
  matching_uuids (UStr (L "not a uuid")) (UStr (L "not a uuid")) = false.
Proof. repeat split; vm_compute; reflexivity. Qed.
