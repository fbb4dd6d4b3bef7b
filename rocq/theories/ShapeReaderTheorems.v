(** C117: datasets of one and two axes are those of ReaderModel.v; examples. *)
From Coq Require Import List ZArith Lia Bool Sorted.
From Verif Require Import Base BaseLemmas SortModel RangesModel RangesSpec RangesProofs ReaderModel ShapeModel ShapeSpec ShapeProofs ShapeTheorems.
Import ListNotations.
Open Scope Z_scope.

Lemma read_direct_ext {A B} (f g : A -> B) data r out r' : (forall x, f x = g x) -> read_direct f data r out r' = read_direct g data r out r'.
Proof.
  intros H. unfold read_direct. destruct (py_slice (zlen data) r) as [s n]. destruct (py_slice (zlen out) r') as [d m].
  rewrite (map_ext (fun x => Some (f x)) (fun x => Some (g x))) by (intros x; now rewrite H). reflexivity.
Qed.

Lemma read_loop_ext {A B} (f g : A -> B) data rs : (forall x, f x = g x) -> forall i out, read_loop f data rs i out = read_loop g data rs i out.
Proof.
  intros H. induction rs as [|[s e] rs IH]; intros i out; [reflexivity|]. cbn [read_loop]. destruct (e =? s); [apply IH|].
  rewrite (read_direct_ext f g) by exact H. destruct (read_direct g data (s, e) out (i, e - s + i)); [apply IH|reflexivity].
Qed.

(** The same dataset for ReaderModel.v. *)
Definition as_field {V} (set : ndset V) : field V :=
  mk_field (match nd_chunk set with Some c => Chunked c | None => Contiguous end)
           (match nd_tail set with [] => false | _ => true end) (nth 0 (nd_tail set) 1) (nd_rows set).

(** Every read of such a dataset, whatever the ranges and the size of the buffer; elements that are not initialised
    are those of rows that are not initialised. *)
Theorem C117_two_axes : forall (V : Type) argsort (set : ndset V) (column : option nat) mask,
  wf_ndset set -> (length (nd_tail set) <= 1)%nat -> column_in (nd_tail set) column ->
  let row_size := match column with Some _ => 1 | None => nth 0 (nd_tail set) 1 end in
  read_nd mask column set
  = match read_field argsort mask column (as_field set) with
    | Ok out => Ok (map (fun o => match o with Some row => map Some row | None => repeat None (Z.to_nat row_size) end) out)
    | Err e => Err e
    end.
Proof.
  intros V argsort set column mask W T C. cbv zeta. assert (W' := W). destruct W' as (W1 & W2 & W3).
  assert (C' := column_in_false _ _ C).
  assert (Bad : match column with Some j => fd_2d (as_field set) && (fd_width (as_field set) <=? Z.of_nat j) | None => false end = false).
  { unfold as_field. cbn [fd_2d fd_width]. destruct column as [j|]; [|reflexivity]. destruct (nd_tail set); [reflexivity|]. exact C'. }
  assert (X : forall row, slab (nd_tail set) column row = select_column (as_field set) column row).
  { intros row. unfold select_column, as_field. cbn [fd_2d]. destruct column as [j|], (nd_tail set) as [|d [|d' l]]; try reflexivity.
    - cbn [slab prodZ fold_right]. change (Z.to_nat 1) with 1%nat. now rewrite Nat.mul_1_r.
    - cbn in T. lia. }
  unfold read_field. rewrite Bad. unfold read_nd. destruct mask as [[rs size]|].
  2:{ rewrite C'. f_equal. rewrite map_map. apply map_ext. intros row. now rewrite X. }
  set (dst := match nd_tail set with | [] => [] | d :: _ => match column with Some _ => [] | None => [d] end end).
  set (ps := match column with Some _ => 1 | None => nth 0 (nd_tail set) 1 end).
  assert (E : slab_axes (nd_tail set) column = dst) by (unfold dst; destruct (nd_tail set) as [|d [|d' l]], column; try reflexivity; cbn in T; lia).
  assert (P : prodZ dst = ps).
  { unfold dst, ps. destruct (nd_tail set) as [|d l], column; try reflexivity. cbn. lia. }
  assert (Ld : (length dst <= 1)%nat) by (unfold dst; destruct (nd_tail set), column; cbn; lia).
  assert (Fd : Forall (fun d => 1 <= d) dst) by (rewrite <- E; now apply slab_axes_positive).
  change (map (fun o => match o with Some row => map Some row | None => repeat None (Z.to_nat ps) end)) with (map (@conv V ps)).
  rewrite <- P.
  assert (Lp : forall l n, (do output <- np_empty_nd n dst; read_loop_nd (nd_tail set) column (nd_rows set) l dst 0 output)
                = mapres (map (conv (prodZ dst))) (do output <- np_empty n; read_loop (select_column (as_field set) column) (nd_rows set) l 0 output)).
  { intros l n. rewrite (empty_nd dst). destruct (np_empty n) as [buf|]; [|reflexivity]. cbn [mapres bind].
    rewrite (loop_same (nd_tail set) column (nd_rows set) dst W1 C' W2 Ld Fd l E). f_equal. now apply read_loop_ext. }
  unfold read_ranges_nd, read_ranges. cbn [as_field fd_layout fd_rows].
  assert (M : forall r : res (list (option (list V))), match r with Ok out => Ok (map (conv (prodZ dst)) out) | Err e => Err e end = mapres (map (conv (prodZ dst))) r) by reflexivity.
  rewrite M. clear M. destruct (nd_chunk set) as [c|].
  - destruct (_ && _); [|unfold read_ranges_unchunked; apply Lp]. unfold read_ranges_chunked.
    set (cr := get_chunk_ranges rs c (zlen (nd_rows set))). specialize (Lp cr (sumZ (map (fun b => snd b - fst b) cr))).
    rewrite (empty_nd dst) in *. destruct (np_empty (sumZ (map (fun b => snd b - fst b) cr))) as [b2|]; cbn [bind mapres] in *; [|reflexivity].
    rewrite Lp. destruct (read_loop _ _ cr 0 b2) as [o|]; cbn [bind mapres]; [apply extract_map|reflexivity].
  - unfold read_ranges_unchunked. apply Lp.
Qed.

(** * Cases *)

Definition cube (chunk : option Z) : ndset Z := mk_ndset [2; 2] chunk [[0; 1; 2; 3]; [10; 11; 12; 13]; [20; 21; 22; 23]].
Definition column_set (chunk : option Z) : ndset Z := mk_ndset [1] chunk [[0]; [10]; [20]].
Definition thin (chunk : option Z) : ndset Z := mk_ndset [1; 1] chunk [[0]; [10]; [20]].

Lemma cube_wf : wf_ndset (cube None).
Proof. split; [repeat constructor; lia|]. split; [repeat constructor|discriminate]. Qed.

Example C117_cube :
  wf_ndset (cube None) /\ Forall (in_bounds 3) [(0, 1); (2, 3)] /\ ordered_ranges [(0, 1); (2, 3)] /\ asks (cube None) [(0, 1); (2, 3)]
  /\ one_by_one (cube None) [(0, 1); (2, 3)]
  /\ read_nd None None (cube None) = Ok [[Some 0; Some 1; Some 2; Some 3]; [Some 10; Some 11; Some 12; Some 13]; [Some 20; Some 21; Some 22; Some 23]]
  /\ read_nd None (Some 1%nat) (cube None) = Ok [[Some 2; Some 3]; [Some 12; Some 13]; [Some 22; Some 23]]
  /\ read_nd (Some ([(0, 1); (2, 3)], 2)) None (cube None) = Err TypeError
  /\ read_nd (Some ([(0, 3)], 3)) (Some 1%nat) (cube (Some 2)) = Err TypeError
  /\ subset_nd (Some ([(0, 3)], 3)) (cube None) = Err TypeError.
Proof.
  split; [exact cube_wf|]. split; [repeat constructor; cbn; lia|]. split; [repeat constructor; cbn; lia|]. split; [split; [exists (0, 1); cbn; split; [tauto|lia]|now left]|].
  split; [split; [repeat constructor; cbn; lia|discriminate]|]. repeat split.
Qed.

(** Axes that do not matter, read row by row and in one go; and the same with chunks. *)
Example C117_thin :
  ones (nd_tail (thin None)) /\ one_by_one (thin None) [(0, 1); (2, 3)] /\ ~ one_by_one (thin None) [(0, 2)]
  /\ one_by_one (thin (Some 1)) [(0, 1); (2, 3)] /\ ~ one_by_one (thin (Some 2)) [(0, 1)] /\ one_by_one (thin (Some 2)) [(2, 3)]
  /\ read_nd (Some ([(0, 1); (2, 3)], 2)) None (thin None) = Ok [[Some 0]; [Some 20]]
  /\ read_nd (Some ([(0, 2)], 2)) None (thin None) = Err TypeError
  /\ read_nd (Some ([(0, 1); (2, 3)], 2)) None (thin (Some 1)) = Ok [[Some 0]; [Some 20]]
  /\ read_nd (Some ([(0, 1)], 1)) None (thin (Some 2)) = Err TypeError
  /\ read_nd (Some ([(2, 3)], 1)) None (thin (Some 2)) = Ok [[Some 20]]
  /\ subset_nd (Some ([(0, 1); (2, 3)], 2)) (thin None) = Ok [[Some 0]; [Some 20]].
Proof.
  split; [repeat constructor|]. split; [split; [repeat constructor; cbn; lia|discriminate]|].
  split; [intros (S & _); inversion S; subst; cbn in *; lia|].
  split.
  { split; [repeat constructor; cbn; lia|]. intros c i E I. injection E as <-. cbn [indices_of flat_map fst snd] in *. cbn in I.
    split; [destruct I as [ <- | [ <- | [] ] ]; cbn; let H := fresh in intros H; repeat (destruct H as [H|H]; [discriminate H|]); exact H|]. intros k _. rewrite !Z.div_1_r. auto. }
  split.
  { intros (_ & S). destruct (S 2 0 eq_refl ltac:(left; reflexivity)) as (_ & S'). specialize (S' 1 ltac:(cbn; lia) eq_refl). lia. }
  split.
  { split; [repeat constructor; cbn; lia|]. intros c i E I. injection E as <-. cbn in I. destruct I as [<-|[]]. split; [cbn; let H := fresh in intros H; repeat (destruct H as [H|H]; [discriminate H|]); exact H|].
    intros k K D. cbn in K. assert (k = 0 \/ k = 1 \/ k = 2) as [ -> | [ -> | -> ] ] by lia; [discriminate D|discriminate D|reflexivity]. }
  repeat split.
Qed.

Example C117_column_set :
  wf_ndset (column_set None) /\ nd_tail (column_set None) = [1] /\ asks (column_set None) [(0, 2)]
  /\ subset_nd (Some ([(0, 2)], 2)) (column_set None) = Err TypeError
  /\ subset_nd (Some ([(0, 1); (2, 3)], 2)) (column_set None) = Ok [[Some 0]; [Some 20]]
  /\ subset_nd (Some ([(0, 1); (2, 3)], 2)) (column_set (Some 4)) = Err TypeError
  /\ read_nd (Some ([(0, 2)], 2)) None (column_set None) = Ok [[Some 0]; [Some 10]].
Proof.
  split; [split; [repeat constructor; lia|]; split; [repeat constructor|discriminate]|]. split; [reflexivity|].
  split; [split; [exists (0, 2); cbn; split; [tauto|lia]|now left]|]. repeat split.
Qed.

(** What the second axis of a subset is made of. *)
Example C117_subset_row :
  subset_nd (Some ([(0, 1); (2, 3)], 2)) (mk_ndset [1; 2] None [[0; 1]; [10; 11]; [20; 21]]) = Ok [[Some 0; Some 1]; [Some 20; Some 21]].
Proof. reflexivity. Qed.

Example C117_two_axes_example :
  let set := mk_ndset [3] (Some 2) [[0; 1; 2]; [10; 11; 12]; [20; 21; 22]] in
  read_nd (Some ([(1, 3)], 2)) (Some 2%nat) set = Ok [[Some 12]; [Some 22]]
  /\ read_field stable_argsort (Some ([(1, 3)], 2)) (Some 2%nat) (as_field set) = Ok [Some [12]; Some [22]].
Proof. split; reflexivity. Qed.

Print Assumptions C117_unmasked.
Print Assumptions C117_masked.
Print Assumptions C117_masked_refuted.
Print Assumptions C117_subset.
Print Assumptions C117_subset_refuted.
Print Assumptions C117_two_axes.
