(** Specification vocabulary for the snapshot writer. *)
From Coq Require Import String List ZArith Bool Reals QArith Qreals.
From Verif Require Import Base CosmoModel CosmoSpec WriterModel.
Import ListNotations.
Open Scope R_scope.

(** What an array with units stands for: physical values in cgs units. *)
Definition cgs (x : warr) : list R := map (fun v => v * wunit x) (phys (wdata x)).

(** The exponent of its scale-factor label. *)
Definition exponent (x : warr) : option R :=
  match acf (wdata x) with Some c => cexpr c | None => None end.

(** Dimensions agree. *)
Definition dims_eq (x y : dims) : Prop :=
  (dM x == dM y)%Q /\ (dL x == dL y)%Q /\ (dt x == dt y)%Q /\ (dT x == dT y)%Q
  /\ (dI x == dI y)%Q /\ (dX x == dX y)%Q.

(** Arrays hold as many numbers as their shape says. *)
Definition shaped (x : warr) : Prop :=
  Forall (fun n => (0 <= n)%Z) (wshape x)
  /\ zlen (avals (wdata x)) = fold_right Z.mul 1%Z (wshape x).

Definition op_shaped (o : op) : Prop :=
  match o with
  | ONew x | OMutate _ x => shaped x
  | OAssign _ _ _ (GPlain shape v) => Forall (fun n => (0 <= n)%Z) shape
                                      /\ zlen v = fold_right Z.mul 1%Z shape
  | _ => True
  end.

(** No array is changed in place by the user. *)
Definition no_mutation (o : op) : Prop :=
  match o with OMutate _ _ => False | _ => True end.

(** All writers use the unit system [s]. *)
Definition one_system (s : usys) (o : op) : Prop :=
  match o with OWriter s' _ _ _ => s' = s | _ => True end.

(** A type of particle has been given something. *)
Definition populated (w : writer) (t : nat) : Prop :=
  exists name d, In (name, d) (required t) /\ w_fields w t name <> None.

(** Some populated type has no IDs. *)
Definition ids_missing (w : writer) : Prop :=
  exists t, In t ptypes /\ populated w t /\ w_fields w t "particle_ids" = None.

(** The IDs of a written file, in file order. *)
Definition file_ids (f : file) : list R :=
  concat (map (fun g => concat (map (fun nd => if String.eqb (fst nd) "particle_ids"
                                               then ds_vals (snd nd) else []) (snd g)))
              (f_groups f)).

(** The IDs given by the user, type by type. *)
Definition given_ids (st : state) (w : writer) : list R :=
  concat (map (fun t => match w_fields w t "particle_ids" with
                        | Some l => match nth_error (mem st) l with
                                    | Some x => avals (wdata x) | None => [] end
                        | None => [] end) ptypes).

(** The reader takes the units of the writer's files for what they are. *)
Definition exact_units (ru : usys -> usys) (s : usys) : Prop :=
  let u := mkusys (uM s) (uL s) (ut s) (uT s) 1 1 in ru u = u.

(** What a group of particles of type [t] holds: positions, IDs, velocities and masses,
    for gas and stars also smoothing lengths, for gas also internal energies. *)
Definition must_have (t : nat) (name : string) : Prop :=
  In name ["coordinates"; "particle_ids"; "velocities"; "masses"]%string
  \/ (name = "smoothing_lengths"%string /\ (t = 0%nat \/ t = 4%nat))
  \/ (name = "internal_energy"%string /\ t = 0%nat).
