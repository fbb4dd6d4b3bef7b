(** C116 for the user: rows asked for with [constrain_indices] are not checked. *)
From Coq Require Import List ZArith Lia Sorted.
From Verif Require Import Base BaseLemmas SortModel RangesModel RangesSpec RangesProofs SortProofs MaskModel MaskSpec MaskProofs MaskTheorems ReaderModel
  OutsideSpec OutsideTheorems OutsideChunkTheorems.
Import ListNotations.
Open Scope Z_scope.

(** Whatever the rows: the mask is made without an error, and reads exactly the ranges of the rows. *)
Theorem C116_mask : forall (mm : mask_meta) (indices : list Z),
  mm_homogeneous mm = true -> mm_keys mm <> [] ->
  exists st, constrain_indices mm indices (new_mask mm) = (st, None)
    /\ forall (V : Type) argsort (f : field V),
       read_field argsort (group_mask (Some st) 0) None f
       = read_ranges argsort (fd_layout f) (fun row => row) (fd_rows f) (ranges_from_array (np_sort indices)) (zlen indices).
Proof.
  intros mm indices H K. unfold constrain_indices, constrain_indices_body. cbn [new_mask ms_constrained ms_masks].
  rewrite H. cbn [negb with_label]. eexists. split; [reflexivity|]. intros V argsort f.
  cbn [group_mask ms_masks convert_masks_to_ranges]. rewrite sorted_indices_np_sort.
  unfold full_cell_mask. destruct (mm_keys mm) as [|k ks]; [congruence|]. reflexivity.
Qed.

(** So every contiguous field of every catalogue has a mask that reads its last row twice and says nothing. *)
Theorem C116_mask_refuted : forall (V : Type) argsort (mm : mask_meta) (f : field V),
  mm_homogeneous mm = true -> mm_keys mm <> [] -> fd_layout f = Contiguous -> fd_rows f <> [] ->
  exists st row, constrain_indices mm [zlen (fd_rows f); zlen (fd_rows f) - 1] (new_mask mm) = (st, None)
    /\ nth_error (fd_rows f) (length (fd_rows f) - 1) = Some row
    /\ read_field argsort (group_mask (Some st) 0) None f = Ok [Some row; Some row].
Proof.
  intros V argsort mm f H K L N. set (n := zlen (fd_rows f)).
  assert (P : 0 < n) by (unfold n, zlen; destruct (fd_rows f); [congruence|cbn [length]; lia]).
  destruct (C116_mask mm [n; n - 1] H K) as (st & E & R). specialize (R V argsort f).
  assert (S : np_sort [n; n - 1] = [n - 1; n]).
  { apply sorted_perm_eq; [apply np_sort_sorted| |].
    - repeat constructor; lia.
    - etransitivity; [apply np_sort_perm|]. apply Permutation.perm_swap. }
  rewrite S, L in R. cbn [read_ranges] in R. change (zlen [n; n - 1]) with (zlen [n - 1; n]) in R.
  destruct (C116_rows_behind _ _ (fun row => row) (fd_rows f) [n - 1; n] n) as (B & _); fold n.
  { repeat constructor; lia. } { repeat constructor; lia. } { cbn; tauto. } { lia. }
  destruct (B [] (n + 1)) as (out & O & A); fold n.
  { cbn [app]. unfold zrange. replace (n + 1 - (n - 1)) with 2 by lia. change (seq 0 (Z.to_nat 2)) with [0%nat; 1%nat]. cbn [map]. f_equal; [|f_equal]; lia. }
  { lia. } { cbn; tauto. }
  fold n in A. replace (n + 1 - n + 1) with 2 in A by lia. cbn [Z.to_nat Pos.to_nat Pos.iter_op repeat app Nat.add] in A.
  inversion A as [|? o1 ? ? (_ & row & G & ->) A1]; subst. inversion A1 as [|? o2 ? ? (_ & row' & G' & ->) A2]; subst. inversion A2; subst.
  rewrite G in G'. injection G' as <-. exists st, row. split; [exact E|]. split.
  - rewrite <- G. f_equal. unfold n, zlen. lia.
  - rewrite R. exact O.
Qed.

Example C116_mask_example :
  let f := mk_field Contiguous false 1 [[10]; [11]; [12]; [13]; [14]] in
  let st := fst (constrain_indices ex_soap [5; 4] (new_mask ex_soap)) in
  mm_homogeneous ex_soap = true /\ mm_keys ex_soap <> [] /\ fd_layout f = Contiguous /\ fd_rows f <> []
  /\ read_field stable_argsort (group_mask (Some st) 0) None f = Ok [Some [14]; Some [14]].
Proof. repeat split; discriminate || reflexivity. Qed.

Print Assumptions C116_mask.
Print Assumptions C116_mask_refuted.
