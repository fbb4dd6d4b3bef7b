(** Vocabulary for the units of a file. *)
From Coq Require Import String List ZArith QArith Qreals Reals Bool.
From Verif Require Import Base NamesModel MetaModel WriterModel UnitsModel.
Import ListNotations.
Open Scope R_scope.

(** [v] is [u] rounded to five figures in one of the nearest base units. *)
Definition read_as (base : R -> Prop) (u v : R) : Prop :=
  exists c, base c
    /\ (forall b, base b -> Rabs (ln (c / u)) <= Rabs (ln (b / u)))
    /\ exists m k, (10000 <= m <= 100000)%Z /\ v = IZR m * powerRZ 10 k * c
       /\ Rabs (v - u) <= powerRZ 10 k * c / 2
       /\ powerRZ 10 (k + 4) * c <= u < powerRZ 10 (k + 5) * c.

(** The base units. *)
Inductive unit_of_mass (c : consts) : R -> Prop :=
| gram : unit_of_mass c 1
| kilogram : unit_of_mass c 1000
| earth : unit_of_mass c (k_mearth c)
| sun : unit_of_mass c (k_msun c).
Inductive unit_of_length (c : consts) : R -> Prop :=
| centimetre : unit_of_length c 1
| metre : unit_of_length c 100
| kilometre : unit_of_length c 100000
| earth_radius : unit_of_length c (k_rearth c)
| parsec : unit_of_length c (k_pc c)
| kiloparsec : unit_of_length c (1000 * k_pc c)
| megaparsec : unit_of_length c (1000000 * k_pc c)
| gigaparsec : unit_of_length c (1000000000 * k_pc c).
Inductive unit_of_time (c : consts) : R -> Prop :=
| second : unit_of_time c 1
| year : unit_of_time c (k_year c)
| megayear : unit_of_time c (1000000 * k_year c)
| gigayear : unit_of_time c (1000000000 * k_year c).
Definition cgs_only (b : R) : Prop := b = 1.

(** Sizes that make sense. *)
Definition proper_consts (c : consts) : Prop :=
  0 < k_mearth c /\ 0 < k_msun c /\ 0 < k_rearth c /\ 0 < k_pc c /\ 0 < k_year c.

(** The number at the start of an attribute. *)
Inductive starts_with : hval -> R -> Prop :=
| starts : forall q r, starts_with (HArr (q :: r)) (Q2R q).

(** The five names, and nothing else. *)
Definition of_units (key : string) : Prop :=
  In key ["Unit mass in cgs (U_M)"; "Unit length in cgs (U_L)"; "Unit time in cgs (U_t)";
          "Unit current in cgs (U_I)"; "Unit temperature in cgs (U_T)"]%string.

(** Attributes that can be taken for units. *)
Definition unit_like (kv : name * hval) : Prop :=
  exists key r, fst kv = txt key /\ of_units key /\ starts_with (snd kv) r.

(** An attribute [key] of the size [r]. *)
Definition gives (d : dict) (key : string) (r : R) : Prop :=
  exists v, In (txt key, v) d /\ starts_with v r.

(** A unit that five figures are enough for. *)
Definition five_figures (base : R -> Prop) (u : R) : Prop :=
  exists m k, (10000 <= m < 100000)%Z
    /\ forall c, base c -> (forall b, base b -> Rabs (ln (c / u)) <= Rabs (ln (b / u))) ->
       u = IZR m * powerRZ 10 k * c.

(** The numbers in the file are the units. *)
Definition exact_numbers (num : R -> Q) (s : usys) : Prop :=
  Q2R (num (uM s)) = uM s /\ Q2R (num (uL s)) = uL s /\ Q2R (num (ut s)) = ut s /\ Q2R (num (uT s)) = uT s.

(** The sizes of the astronomical units, as far as they matter: a megaparsec divided by a kilometre is about
    977.792 milliard years. *)
Definition usual_consts (c : consts) : Prop :=
  1000 < k_mearth c /\ k_mearth c < k_msun c /\ 0 < k_rearth c /\ 1 < k_year c
  /\ 977792100000 * k_year c < 10 * k_pc c < 977792300000 * k_year c.
