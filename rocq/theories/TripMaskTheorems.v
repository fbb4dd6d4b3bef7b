(** C107: files of the writer cannot be masked. *)
From Coq Require Import String List ZArith QArith Bool Reals.
From Verif Require Import Base NamesModel SubsetModel MetaModel MetaSpec CtorModel WriterModel WriterSpec WriterTheorems InfoModel
  TripModel TripSpec TripTheorems TripMaskModel.
Import ListNotations.

(** A mask can be started exactly for snapshots in one file and SOAP files, with a group Cells. *)
Theorem C107_mask_starts : forall k log f g, cells_of k log f = Ok g <->
  dict_get (mf_groups f) (txt "Cells") = Some g
  /\ (k = KSOAP \/ k = KSnapshot /\ (partial_snapshot log = Ok [] \/ partial_snapshot log = Ok [false])).
Proof.
  intros k log f g. unfold cells_of. split.
  - destruct k; cbn [MaskNamesModel.masking_valid incomplete]; try discriminate.
    + destruct (partial_snapshot log) as [l|] eqn:P; cbn [bind]; [|discriminate]. destruct l as [|b [|]]; cbn [true_array bind]; try discriminate.
      * destruct (dict_get _ _) as [x|]; [|discriminate]. intro H. injection H as <-. split; [reflexivity|]. right. auto.
      * destruct b; [discriminate|]. destruct (dict_get _ _) as [x|]; [|discriminate]. intro H. injection H as <-. split; [reflexivity|]. right. auto.
    + cbn [bind]. destruct (dict_get _ _) as [x|]; [|discriminate]. intro H. injection H as <-. auto.
  - intros (E & [-> |( -> & [P|P])]); cbn [MaskNamesModel.masking_valid incomplete bind]; rewrite ?P; cbn [bind true_array]; rewrite E; reflexivity.
Qed.

(** The writer makes no such group: its files can be opened (C107_opens) but not masked. *)
Theorem C107_no_mask_refuted : forall text_error is_date cosmology_ok fz num extra l w f k m,
  written_by fz l w f -> leaves_alone extra -> can_be_read extra ->
  open_metadata text_error is_date cosmology_ok (hdf num extra f) = Ok (k, m) ->
  cells_of k m (hdf num extra f) = Err KeyError.
Proof.
  intros te d c fz num extra l w f k m B A C O. pose proof (by_fine _ _ _ _ B) as ok.
  destruct (C107_opens te d c fz num extra l w f B A C) as (m' & O' & _ & _ & _ & _ & N & _). rewrite O in O'. injection O' as -> ->.
  unfold cells_of. cbn [MaskNamesModel.masking_valid incomplete]. unfold partial_snapshot. unfold shows in N. rewrite N. cbn [bind].
  assert (E : dict_get (mf_groups (hdf num extra f)) (txt "Cells") = None).
  { destruct (dict_get (mf_groups (hdf num extra f)) (txt "Cells")) as [gi|] eqn:E; [|reflexivity]. exfalso. apply (group_found num extra f ok) in E.
    destruct E as [(E & _)|[(E & _)|(t & fs & _ & E)]]; discriminate. }
  rewrite E. reflexivity.
Qed.

(** Snapshots in several files, lines of sight and FOF files. *)
Example C107_mask_cases : let f := mk_mfile [(txt "Cells", mk_ginfo [] [])] [] None None None None in
  cells_of KSnapshot [(txt "num_files_per_snapshot", VHeader (HNum 1))] f = Ok (mk_ginfo [] [])
  /\ cells_of KSnapshot [(txt "num_files_per_snapshot", VHeader (HNum 2))] f = Err InvalidSnapshot
  /\ cells_of KSnapshot [(txt "num_files_per_snapshot", VHeader (HArr [2%Q]))] f = Err InvalidSnapshot
  /\ cells_of KSnapshot [(txt "num_files_per_snapshot", VHeader (HArr [1%Q; 1%Q]))] f = Err ValueError
  /\ cells_of KSnapshot [] f = Err AttributeError /\ cells_of KSOAP [] f = Ok (mk_ginfo [] [])
  /\ cells_of KLineOfSight [] f = Err NotImplementedErr /\ cells_of KFOF [] f = Err NotImplementedErr
  /\ cells_of KSOAP [] (mk_mfile [] [] None None None None) = Err KeyError.
Proof. repeat split. Qed.

Print Assumptions C107_mask_starts.
Print Assumptions C107_no_mask_refuted.
