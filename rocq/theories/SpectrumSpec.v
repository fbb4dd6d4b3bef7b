(** Specification vocabulary for power spectra. *)
From Coq Require Import List ZArith Reals Bool.
From Verif Require Import Base VisModel VisSpec SpectrumModel.
Import ListNotations.
Open Scope R_scope.

(** The frequency that index [i] of a transform of [n] values stands for. *)
Definition is_frequency (n i m : Z) : Prop :=
  (exists q, m = i + q * n)%Z /\ (- n <= 2 * m < n)%Z.

(** The wavenumber of a mode, with [unit] the wavenumber of frequency 1. *)
Definition is_wavenumber (n : Z) (unit : R) (c : cell) (k : R) : Prop :=
  exists i j l a b d, c = [i; j; l] /\ is_frequency n i a /\ is_frequency n j b /\ is_frequency n l d
    /\ k = unit * sqrt (IZR (a * a + b * b + d * d)).

(** Relative deviation from the mean. *)
Definition deviation (n : Z) (f : image) (c : cell) : R := f c / (total3 n f / IZR n ^ 3) - 1.

(** Scalar product. *)
Definition inner (k x : cell) : Z := sumZ (map (fun p => (fst p * snd p)%Z) (combine k x)).

(** Power of mode [k] per volume: the Fourier transform of the correlation of two fields. *)
Definition mode_power (n : Z) (f g : image) (k : cell) : R :=
  total3 n (fun x => total3 n (fun y =>
    deviation n f x * deviation n g y * cos (2 * PI * IZR (inner k x - inner k y) / IZR n)))
  / IZR n ^ 6.

(** The field moved along the periodic grid. *)
Definition moved_grid (n : Z) (s : cell) (f : image) : image :=
  fun c => f (map (fun p => ((fst p + snd p) mod n)%Z) (combine c s)).

(** The field with the first two, or the last two, axes exchanged. *)
Definition swap12 (f : image) : image :=
  fun c => match c with [i; j; k] => f [j; i; k] | _ => f c end.
Definition swap23 (f : image) : image :=
  fun c => match c with [i; j; k] => f [i; k; j] | _ => f c end.

Definition cube_of (n : Z) (f : image) : depo := mkdepo [n; n; n] f.

(** The Fourier transform of point masses at the cells [cell_of], divided by the total mass:
    real part and (minus) imaginary part. *)
Definition wave_cos (n : Z) (cell_of : part -> cell) (ps : list part) (k : cell) : R :=
  sumR (map (fun p => p_m p * cos (2 * PI * IZR (inner k (cell_of p)) / IZR n)) ps) / sumR (map p_m ps).
Definition wave_sin (n : Z) (cell_of : part -> cell) (ps : list part) (k : cell) : R :=
  sumR (map (fun p => p_m p * sin (2 * PI * IZR (inner k (cell_of p)) / IZR n)) ps) / sumR (map p_m ps).

(** * Combining foldings *)

(** Bin value [v], one of the values [vals] found for folding [f] on a grid of [n] cells, may be
    used: enough modes, and, except in the last folding, a wavenumber below the limit. *)
Definition enough (minimal : option R) (first f : Z) (v : binval) : Prop :=
  (f = first /\ 0 < bv_count v) \/ (f <> first /\ exists m, minimal = Some m /\ m < bv_count v).

Definition usable (minimal fraction : option R) (first final f n : Z) (box : R * R * R)
    (vals : list binval) (v : binval) : Prop :=
  let '(bx, by_, bz) := box in
  let limit := powerRZ 2 f * IZR n / Rmin bx (Rmin by_ bz) in
  enough minimal first f v /\
  (f <> final ->
   match fraction with
   | None => bv_k v < limit
   | Some q => bv_k v < q * limit
               /\ exists w, In w vals /\ enough minimal first f w /\ bv_k v < q * bv_k w
                            /\ (forall u, In u vals -> enough minimal first f u -> bv_k u <= bv_k w)
   end).

(** The value of a folding becomes a bin of the result. *)
Definition from_folding (f : Z) (v : binval) : outbin :=
  mkoutbin (bv_power v) (bv_k v) (powerRZ 2 f) (bv_count v).
