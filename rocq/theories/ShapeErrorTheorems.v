(** C117: which errors reads and subsets of datasets with any number of axes give before anything is read. *)
From Coq Require Import List ZArith Lia Bool.
From Verif Require Import Base BaseLemmas RangesModel ShapeModel ShapeSpec.
Import ListNotations.
Open Scope Z_scope.

Lemma missing_column tail column : ~ column_in tail column -> no_column tail column = true.
Proof.
  destruct column as [j|], tail as [|d tail]; cbn [column_in no_column]; intros H; try (now destruct H). apply Z.leb_le. lia.
Qed.

(** Datasets without rows and datasets without a mask cannot be subset. *)
Theorem C117_subset_errors : forall (V : Type) (set : ndset V),
  (nd_rows set = [] -> forall mask, subset_nd mask set = Err IndexError) /\
  (nd_rows set <> [] -> subset_nd None set = Err RuntimeError).
Proof.
  intros V set. unfold subset_nd. split.
  - intros -> mask. reflexivity.
  - intros H. destruct (nd_rows set); [congruence|reflexivity].
Qed.

(** A column the dataset does not have: an error, unless the mask has no rows. *)
Theorem C117_missing_column : forall (V : Type) (set : ndset V) (column : option nat),
  ~ column_in (nd_tail set) column ->
  read_nd None column set = Err IndexError /\
  (nd_chunk set = None -> forall ranges size, 0 <= size ->
     ((exists r, In r ranges /\ fst r <> snd r) -> read_nd (Some (ranges, size)) column set = Err IndexError) /\
     ((forall r, In r ranges -> fst r = snd r) -> exists out, read_nd (Some (ranges, size)) column set = Ok out /\ zlen out = size)).
Proof.
  intros V set column H. apply missing_column in H. unfold read_nd. rewrite H. split; [reflexivity|].
  intros Hc ranges size Hs. unfold read_ranges_nd. rewrite Hc.
  set (dst := match nd_tail set with [] => [] | d :: _ => match column with Some _ => [] | None => [d] end end).
  assert (E : @np_empty_nd V size dst = Ok (repeat (repeat None (Z.to_nat (prodZ dst))) (Z.to_nat size))).
  { unfold np_empty_nd. destruct (Z.ltb_spec size 0); [lia|reflexivity]. }
  rewrite E. cbn [bind]. split.
  - intros (r & Hr & Hne). generalize (repeat (repeat (@None V) (Z.to_nat (prodZ dst))) (Z.to_nat size)) as out. generalize 0 as at_.
    induction ranges as [|[s e] ranges IH]; intros at_ out; [destruct Hr|]. cbn [read_loop_nd].
    destruct (Z.eqb_spec e s) as [->|Hes].
    + apply IH. destruct Hr as [<-|Hr]; [cbn in Hne; congruence|exact Hr].
    + unfold read_direct_nd. rewrite H. reflexivity.
  - intros Hr. exists (repeat (repeat None (Z.to_nat (prodZ dst))) (Z.to_nat size)). split.
    + generalize (repeat (repeat (@None V) (Z.to_nat (prodZ dst))) (Z.to_nat size)) as out. generalize 0 as at_.
      induction ranges as [|[s e] ranges IH]; intros at_ out; [reflexivity|]. cbn [read_loop_nd].
      assert (s = e) as -> by (apply (Hr (s, e)); now left). rewrite Z.eqb_refl. apply IH. intros r Hin. apply Hr. now right.
    + unfold zlen. rewrite repeat_length. lia.
Qed.

Example C117_missing_column_example :
  let set := mk_ndset [2] None [[0; 1]; [10; 11]] in
  ~ column_in (nd_tail set) (Some 2%nat) /\ column_in (nd_tail set) (Some 1%nat)
  /\ read_nd (Some ([(0, 1)], 1)) (Some 2%nat) set = Err IndexError
  /\ read_nd (Some ([(1, 1)], 0)) (Some 2%nat) set = Ok []
  /\ read_nd (Some ([(0, 1)], 1)) (Some 1%nat) set = Ok [[Some 1]]
  /\ subset_nd (Some ([(0, 1)], 1)) (mk_ndset [2] None ([] : list (list Z))) = Err IndexError.
Proof. cbn [column_in nd_tail]. split; [lia|]. split; [lia|]. repeat split. Qed.

Print Assumptions C117_subset_errors.
Print Assumptions C117_missing_column.
