(** Vocabulary for constraints given as cosmo arrays: what arrays say about the numbers of MaskModel.v. *)
From Coq Require Import List ZArith QArith Bool Reals Qreals.
From Verif Require Import Base MaskModel CosmoModel CosmoSpec CosmoExprProofs CtorSpec RegionModel.
Import ListNotations.
Open Scope R_scope.

(** [worth s k c x q]: the array [x], in whichever frame it is stored, is a convertible array at scale factor
    [s] with exponent [k], and stands for the numbers [q] in the measure [c].  With [c = 1] the numbers [q] are
    the physical values, with [c = s ** k] the comoving ones. *)
Definition worth (s k c : R) (x : carr) (q : list Q) : Prop :=
  good s k x /\ phys x = map (fun v => c * Q2R v) q.

(** A row of the region says the same as a row of numbers. *)
Inductive says (s c : R) : row -> option (list Q) -> Prop :=
| says_nothing : says s c RowNone None
| says_array : forall x q, worth s 1 c x q -> says s c (RowArray x) (Some q)
| says_list : forall l q, Forall2 (fun x v => worth s 1 c x [v]) l q -> says s c (RowList l) (Some q).

(** The arrays of one key hold the corners of its cells. *)
Definition corners (s c : R) (l : lkey) (k : mask_key) : Prop :=
  forall a, worth s 1 c (lk_min l a) (map (fun x => cell_min x a) (key_cells k))
            /\ worth s 1 c (lk_max l a) (map (fun x => cell_max x a) (key_cells k)).

(** Box and cells as arrays and as numbers. *)
Definition portrays (s c : R) (lm : lmeta) (mm : mask_meta) : Prop :=
  (forall a, worth s 1 c (lm_box lm a) [mm_box mm a])
  /\ Forall2 (corners s c) (lm_keys lm) (mm_keys mm).

(** Labels told apart whichever comes first. *)
Definition unlike (s j t k : R) : Prop :=
  s <> t \/ (~ close_factors s j k /\ ~ close_factors s k j).

(** A row that is there and belongs to another scale factor or scales otherwise. *)
Inductive stranger (t j : R) : row -> Prop :=
| stranger_array : forall x, good t j x -> length (avals x) = 2%nat -> stranger t j (RowArray x)
| stranger_list : forall l, all_good t j l -> length l = 2%nat -> (forall x, In x l -> length (avals x) = 1%nat) ->
    stranger t j (RowList l).
