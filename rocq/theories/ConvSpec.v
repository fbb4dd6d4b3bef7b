(** Vocabulary for the statements about cosmologies. *)
From Coq Require Import String Ascii List Arith ZArith QArith Reals Qreals Bool.
From Verif Require Import Base NamesModel MetaModel MetaSpec.
Import ListNotations.

(** The first item of a field is a number. *)
Definition gives (d : dict) (key : string) (x : Q) : Prop :=
  exists v, has d key v /\ item_of v 0 (VNum x).

(** A field is missing or cannot be indexed. *)
Definition nothing_at (d : dict) (key : string) : Prop :=
  missing d key \/ exists v, has d key v /\ forall w, ~ item_of v 0 w.

(** The numbers of a field; one default number when it is missing. *)
Inductive numbers_of (d : dict) (key : string) (default : Q) : list Q -> Prop :=
| numbers_missing : missing d key -> numbers_of d key default [default]
| numbers_array : forall l, has d key (HArr l) -> numbers_of d key default l
| numbers_one : forall x, has d key (HNum x) -> numbers_of d key default [x].

(** [z] is [x] without its fraction. *)
Definition cut (x : Q) (z : Z) : Prop :=
  (0 <= x -> inject_Z z <= x < inject_Z (z + 1))%Q /\ (x <= 0 -> inject_Z (z - 1) < x <= inject_Z z)%Q.

Definition integral (x : Q) (z : Z) : Prop := (x == inject_Z z)%Q.

Definition sum_of (l : list Z) : Z := fold_right Z.add 0%Z l.

(** Each mass as many times as its degeneracy says. *)
Inductive replicated : list Q -> list Z -> list Q -> Prop :=
| replicated_nil_l : forall ds, replicated [] ds []
| replicated_nil_r : forall ms, replicated ms [] []
| replicated_cons : forall m ms d ds r, replicated ms ds r ->
    replicated (m :: ms) (d :: ds) (repeat m (Z.to_nat d) ++ r).

(** The photon density that astropy computes from a temperature. *)
Definition photon_density (newton stefan light hubble temperature : R) : R :=
  (4 * stefan / light ^ 3 * temperature ^ 4 / (3 / (8 * PI * newton) * hubble ^ 2))%R.
