(** Specification vocabulary for the wrapped numpy functions. *)
From Coq Require Import List ZArith Bool Reals.
From Verif Require Import Base CosmoModel CosmoSpec FuncModel.
Import ListNotations.
Open Scope R_scope.

(** An argument and how it scales: an array with exponent [k], or plain numbers,
    which do not scale. *)
Inductive sized (s : R) : operand -> R -> Prop :=
| sz_arr : forall x k, good s k x -> sized s (OArr x) k
| sz_num : forall v, sized s (OPlain v) 0.

(** The physical numbers of an argument. *)
Definition op_phys (o : operand) : list R :=
  match o with OArr x => phys x | OPlain v => v end.

Definition scale (c : R) (v : list R) : list R := map (fun u => c * u) v.
(** Every argument multiplied by its own power of [t]. *)
Fixpoint wscale (t : R) (ks : list R) (vs : list (list R)) : list (list R) :=
  match ks, vs with
  | k :: ks', v :: vs' => scale (Rpower t k) v :: wscale t ks' vs'
  | _, _ => []
  end.
Definition rscale (c : R) (r : res (list R)) : res (list R) :=
  match r with Ok v => Ok (scale c v) | Err e => Err e end.

(** A function of arrays scales with exponent [e] if its arguments scale with the
    given exponents; errors do not depend on the scale. *)
Definition homogeneous (f : vfun) (aks kks : list R) (e : R) : Prop :=
  forall t avs kvs, 0 < t -> length avs = length aks -> length kvs = length kks ->
  f (wscale t aks avs) (wscale t kks kvs) = rscale (Rpower t e) (f avs kvs).

(** A computed array stands for the values [v] and scales with exponent [e]. *)
Definition stands (s e : R) (r : res carr) (v : res (list R)) : Prop :=
  match r, v with
  | Ok x, Ok w => good s e x /\ phys x = w
  | Err a, Err b => a = b
  | _, _ => False
  end.

(** * How numpy's functions scale, mathematically *)
Inductive kind :=
| KLinear | KInverse | KQuadratic      (* of the first argument *)
| KBilinear                            (* product of two arguments *)
| KSame                                (* two arguments that must scale alike *)
| KInsert                              (* array, indices, values *)
| KRatio                               (* solution of a x = b *)
| KSecondSquared                       (* residuals of b *)
| KInterp                              (* abscissae scale alike; the ordinates decide *)
| KIntegral                            (* argument times keyword *)
| KWhere                               (* condition, two values *)
| KBounds                              (* an array and two keywords scaling alike *)
| KMulti                               (* product of all arguments *)
| KNone.                               (* no scaling law: rounding, powers *)

Definition kind_of (n : npfun) : kind :=
  match n with
  | Ninv | Ntensorinv | Npinv => KInverse
  | Nvar => KQuadratic
  | Naround | Nlogspace => KNone
  | Ndot | Nvdot | Ninner | Nouter | Nkron | Ncross | Nconvolve | Ncorrelate
  | Ntensordot | Nlinalg_outer => KBilinear
  | Nintersect1d | Nunion1d | Ngeomspace | Nsetdiff1d | Nlinspace => KSame
  | Ninsert => KInsert
  | Nsolve | Ntensorsolve | Nlstsq_solution => KRatio
  | Nlstsq_residuals => KSecondSquared
  | Ninterp => KInterp
  | Ntrapezoid_x | Ntrapezoid_dx => KIntegral
  | Nwhere => KWhere
  | Nclip | Nunwrap => KBounds
  | Neinsum => KMulti
  | _ => KLinear
  end.

Definition sum_of (l : list R) : R := fold_right Rplus 0 l.

(** [pattern kd aks kks e]: arguments with exponents [aks], keywords with exponents
    [kks], are admissible and the result has exponent [e].  Further arguments are
    plain. *)
Definition pattern (kd : kind) (aks kks : list R) (e : R) : Prop :=
  match kd with
  | KLinear => exists k m n, aks = k :: repeat 0 m /\ kks = repeat 0 n /\ e = k
  | KInverse => exists k m n, aks = k :: repeat 0 m /\ kks = repeat 0 n /\ e = - k
  | KQuadratic => exists k m n, aks = k :: repeat 0 m /\ kks = repeat 0 n /\ e = 2 * k
  | KBilinear => exists j k m n, aks = j :: k :: repeat 0 m /\ kks = repeat 0 n /\ e = j + k
  | KSame => exists k m n, aks = k :: k :: repeat 0 m /\ kks = repeat 0 n /\ e = k
  | KInsert => exists k m n, aks = k :: 0 :: k :: repeat 0 m /\ kks = repeat 0 n /\ e = k
  | KRatio => exists j k m n, aks = j :: k :: repeat 0 m /\ kks = repeat 0 n /\ e = k - j
  | KSecondSquared => exists j k m n, aks = j :: k :: repeat 0 m /\ kks = repeat 0 n /\ e = 2 * k
  | KInterp => exists j k m n, aks = j :: j :: k :: repeat 0 m /\ kks = repeat 0 n /\ e = k
  | KIntegral => exists j k m n, aks = j :: repeat 0 m /\ kks = k :: repeat 0 n /\ e = j + k
  | KWhere => exists k, aks = [0; k; k] /\ kks = [] /\ e = k
  | KBounds => exists k m n, aks = k :: repeat 0 m /\ kks = k :: k :: repeat 0 n /\ e = k
  | KMulti => aks <> [] /\ kks = [] /\ e = sum_of aks
  | KNone => False
  end.

(** The functions whose label rule is wrong (C65). *)
Definition exceptional (n : npfun) : bool :=
  match n with
  | Nvar | Neinsum
  | Nfft | Nfft2 | Nfftn | Nhfft | Nrfft | Nrfft2 | Nrfftn
  | Nifft | Nifft2 | Nifftn | Nihfft | Nirfft | Nirfft2 | Nirfftn => true
  | _ => false
  end.

(** * Some of numpy's functions, on flat arrays of numbers *)
Definition v_dot (vs _ : list (list R)) : res (list R) :=
  match vs with
  | [u; v] => if Nat.eqb (length u) (length v) then Ok [sum_of (map2 Rmult u v)] else Err ValueError
  | _ => Err TypeError
  end.
Definition v_outer (vs _ : list (list R)) : res (list R) :=
  match vs with
  | [u; v] => Ok (flat_map (fun a => map (fun b => a * b) v) u)
  | _ => Err TypeError
  end.
Definition v_cross (vs _ : list (list R)) : res (list R) :=
  match vs with
  | [[a; b; c]; [d; e; f]] => Ok [b * f - c * e; c * d - a * f; a * e - b * d]
  | [_; _] => Err ValueError
  | _ => Err TypeError
  end.
(** Coefficient [n] of the convolution. *)
Definition v_convolve (vs _ : list (list R)) : res (list R) :=
  match vs with
  | [u; v] =>
      Ok (map (fun n => sum_of (map (fun i => nth i u 0 * nth (n - i) v 0) (seq 0 (S n))))
              (seq 0 (length u + length v - 1)))
  | _ => Err TypeError
  end.
Definition v_norm (vs _ : list (list R)) : res (list R) :=
  match vs with [v] => Ok [sqrt (sum_of (map (fun u => u * u) v))] | _ => Err TypeError end.
Fixpoint diffs (v : list R) : list R :=
  match v with a :: (b :: _) as t => (b - a) :: diffs t | _ => [] end.
Definition v_diff (vs _ : list (list R)) : res (list R) :=
  match vs with [v] => Ok (diffs v) | _ => Err TypeError end.
Definition mean (v : list R) : R := sum_of v / INR (length v).
Definition v_mean (v : list R) : res (list R) := Ok [mean v].
Definition v_var (vs _ : list (list R)) : res (list R) :=
  match vs with
  | [v] => Ok [sum_of (map (fun u => (u - mean v) * (u - mean v)) v) / INR (length v)]
  | _ => Err TypeError
  end.
(** The discrete Fourier transform: real parts, then imaginary parts. *)
Definition v_fft (vs _ : list (list R)) : res (list R) :=
  match vs with
  | [v] =>
      let n := length v in
      let ang j k := 2 * PI * INR j * INR k / INR n in
      Ok (map (fun k => sum_of (map (fun j => nth j v 0 * cos (ang j k)) (seq 0 n))) (seq 0 n)
          ++ map (fun k => sum_of (map (fun j => nth j v 0 * - sin (ang j k)) (seq 0 n))) (seq 0 n))
  | _ => Err TypeError
  end.
(** Matrices of two rows. *)
Definition v_inv2 (vs _ : list (list R)) : res (list R) :=
  match vs with
  | [[a; b; c; d]] =>
      let D := a * d - b * c in
      if Req_EM_T D 0 then Err ValueError else Ok [d / D; - b / D; - c / D; a / D]
  | _ => Err TypeError
  end.
Definition v_solve2 (vs _ : list (list R)) : res (list R) :=
  match vs with
  | [[a; b; c; d]; [u; v]] =>
      let D := a * d - b * c in
      if Req_EM_T D 0 then Err ValueError else Ok [(d * u - b * v) / D; (a * v - c * u) / D]
  | _ => Err TypeError
  end.
(** Determinants of a stack of such matrices. *)
Fixpoint dets (v : list R) : list R :=
  match v with a :: b :: c :: d :: t => (a * d - b * c) :: dets t | _ => [] end.
Definition v_det2 (vs _ : list (list R)) : res (list R) :=
  match vs with [v] => Ok (dets v) | _ => Err TypeError end.
Definition v_linspace (n : nat) (vs _ : list (list R)) : res (list R) :=
  match vs with
  | [[a]; [b]] => Ok (map (fun i => a + (b - a) * INR i / INR (n - 1)) (seq 0 n))
  | _ => Err TypeError
  end.
Fixpoint trapz (x y : list R) : R :=
  match x, y with
  | a :: (b :: _) as x', u :: (v :: _) as y' => (b - a) * ((u + v) / 2) + trapz x' y'
  | _, _ => 0
  end.
Definition v_trapezoid (vs kvs : list (list R)) : res (list R) :=
  match vs, kvs with
  | [y], [x] => Ok [trapz x y]
  | _, _ => Err TypeError
  end.
(** Linear interpolation in increasing abscissae. *)
Fixpoint interp1 (x : R) (xp fp : list R) : R :=
  match xp, fp with
  | a :: (b :: _) as xp', u :: (v :: _) as fp' =>
      if Rle_dec x b then (if Rle_dec x a then u else u + (v - u) * (x - a) / (b - a))
      else interp1 x xp' fp'
  | _, u :: _ => u
  | _, _ => 0
  end.
Definition v_interp (vs _ : list (list R)) : res (list R) :=
  match vs with
  | [x; xp; fp] => Ok (map (fun u => interp1 u xp fp) x)
  | _ => Err TypeError
  end.
Definition v_where (cond : list bool) (vs _ : list (list R)) : res (list R) :=
  match vs with
  | [_; x; y] => Ok (map (fun i => if nth i cond false then nth i x 0 else nth i y 0)
                         (seq 0 (length cond)))
  | _ => Err TypeError
  end.
Definition v_clip (vs kvs : list (list R)) : res (list R) :=
  match vs, kvs with
  | [a], [[lo]; [hi]] => Ok (map (fun u => Rmin (Rmax u lo) hi) a)
  | _, _ => Err TypeError
  end.
Definition v_insert (i : nat) (vs _ : list (list R)) : res (list R) :=
  match vs with
  | [a; _; w] => Ok (firstn i a ++ w ++ skipn i a)
  | _ => Err TypeError
  end.
(** Rounding to the nearest integer (halves upwards; numpy takes the even one). *)
Definition v_around (vs _ : list (list R)) : res (list R) :=
  match vs with [v] => Ok (map (fun u => IZR (up (u - / 2))) v) | _ => Err TypeError end.
Definition v_concat (vs _ : list (list R)) : res (list R) := Ok (concat vs).

(** * Writing into arrays, averages, histograms *)

(** A way of writing numbers into an array that does not look at their size. *)
Definition scaling_write (write : list R -> list R -> list R) : Prop :=
  forall c a b, 0 < c -> write (scale c a) (scale c b) = scale c (write a b).
(** A reduction or rearrangement that scales with its argument. *)
Definition linear (f : list R -> res (list R)) : Prop :=
  forall c v, 0 < c -> f (scale c v) = rscale c (f v).

(** Two different values occur. *)
Definition spread (v : list R) : Prop := exists a b, In a v /\ In b v /\ a <> b.

(** Bins in physical coordinates. *)
Definition phys_bins (b : bins) : nbins :=
  match b with BNum n => NNum n | BEdges o => NEdges (op_phys o) end.
Definition phys_edges (x : carr) (b : bins) : list R := edges (phys x) (phys_bins b).
Definition phys_weights (x : carr) (w : option operand) : list R :=
  match w with None => repeat 1 (length (phys x)) | Some o => op_phys o end.
(** Bins fit for data scaling with exponent [k]. *)
Inductive good_bins (s k : R) (x : carr) : bins -> Prop :=
| gb_num : forall n, spread (phys x) -> good_bins s k x (BNum n)
| gb_edges : forall y, good s k y -> good_bins s k x (BEdges (OArr y)).
Inductive good_weights (s : R) : option operand -> R -> Prop :=
| gw_none : good_weights s None 0
| gw_some : forall o k, sized s o k -> good_weights s (Some o) k.

(** A computed operand stands for [v]. *)
Definition op_stands (s e : R) (o : operand) (v : list R) : Prop :=
  match o with OArr x => good s e x /\ phys x = v | OPlain w => w = v end.

(** Value [x] belongs to bin [j]: half open, the last one closed. *)
Definition in_bin (e : list R) (j : nat) (x : R) : Prop :=
  nth j e 0 <= x /\ (x < nth (S j) e 0 \/ (S (S j) = length e /\ x = nth (S j) e 0)).

(** Several axes. *)
Definition good_axis (s : R) (sb : carr * bins) (k : R) : Prop :=
  good s k (fst sb) /\ good_bins s k (fst sb) (snd sb).
Definition all_weights (axes : list (carr * bins)) (w : option operand) : list R :=
  match w with None => repeat 1 (count_points axes) | Some o => op_phys o end.
(** The number of arrays given in comoving coordinates is not zero. *)
Definition some_comoving (ops : list operand) : bool :=
  existsb (fun o => match o with OArr x => is_true (acm x) | OPlain _ => false end) ops.

(** Total weight of the values belonging to bin [j]. *)
Inductive bin_total (e : list R) (j : nat) : list R -> list R -> R -> Prop :=
| bt_nil : bin_total e j [] [] 0
| bt_in : forall x v w ws t, in_bin e j x -> bin_total e j v ws t ->
    bin_total e j (x :: v) (w :: ws) (w + t)
| bt_out : forall x v w ws t, ~ in_bin e j x -> bin_total e j v ws t ->
    bin_total e j (x :: v) (w :: ws) t.

(** Bins given as a number, or as edges in the stated coordinates. *)
Inductive bins_in (comoving : bool) : bins -> Prop :=
| bi_num : forall n, bins_in comoving (BNum n)
| bi_edges : forall y, acm y = Some comoving -> bins_in comoving (BEdges (OArr y)).

(** Point [i] of the data [vs] lies in the cell with bin numbers [js]. *)
Inductive in_bins : list (list R) -> list nat -> list (list R) -> nat -> Prop :=
| ib_nil : forall i, in_bins [] [] [] i
| ib_cons : forall e j v es js vs i, in_bin e j (nth i v 0) -> in_bins es js vs i ->
    in_bins (e :: es) (j :: js) (v :: vs) i.
(** The weights, numbered from [n], of the points satisfying [P]. *)
Inductive weight_of (P : nat -> Prop) : nat -> list R -> R -> Prop :=
| wo_nil : forall n, weight_of P n [] 0
| wo_in : forall n w ws t, P n -> weight_of P (S n) ws t -> weight_of P n (w :: ws) (w + t)
| wo_out : forall n w ws t, ~ P n -> weight_of P (S n) ws t -> weight_of P n (w :: ws) t.
(** Row-major position of a cell. *)
Fixpoint cells_in (es : list (list R)) : nat :=
  match es with [] => 1%nat | e :: t => ((length e - 1) * cells_in t)%nat end.
Fixpoint cell_index (es : list (list R)) (js : list nat) : nat :=
  match es, js with e :: es', j :: js' => (j * cells_in es' + cell_index es' js')%nat | _, _ => O end.
