(** Model of visualisation/power_spectrum.py, lines 278-643: from depositions to power spectra.

    Numbers are real numbers, complex numbers pairs of them; [fftn] is the discrete Fourier
    transform it computes.  Division by zero gives some number here and a NaN in numpy (only a
    deposition of mean zero, an empty grid or a box of length zero lead to it).  All arrays are
    taken to be in the coordinates and units of the box: the wrapped numpy functions convert
    them (area Func).  Names of arrays, progress bars and the number of threads are left out. *)
From Coq Require Import List ZArith Reals Bool.
From Verif Require Import Base SortModel VisModel.
From Verif Require CosmoModel FuncModel.
Import ListNotations.
Open Scope R_scope.

(** An array with three axes, or another number of them (then the values are not used). *)
Record depo := mkdepo { d_shape : list Z; d_vals : image }.

(** The indices of an [n] by [n] by [n] array in the order of [flatten]. *)
Definition cells (n : Z) : list cell :=
  flat_map (fun i => flat_map (fun j => map (fun k => [i; j; k]) (zrange 0 n)) (zrange 0 n))
           (zrange 0 n).

Definition np_mean (n : Z) (f : image) : R := sumR (map f (cells n)) / (IZR n * IZR n * IZR n).

(** Lines 574-575 and 580-583. *)
Definition overdensity (n : Z) (f : image) : image :=
  let mean := np_mean n f in fun c => (f c - mean) / mean.

(** * Complex numbers *)

Definition complex := (R * R)%type.
Definition cmul (x y : complex) : complex :=
  (fst x * fst y - snd x * snd y, fst x * snd y + snd x * fst y).
Definition conj (x : complex) : complex := (fst x, - snd x).

(** [scipy.fft.fftn] of a real array. *)
Fixpoint dot (k x : cell) : Z :=
  match k, x with a :: k', b :: x' => (a * b + dot k' x')%Z | _, _ => 0%Z end.
Definition phase (n : Z) (k x : cell) : R := 2 * PI * IZR (dot k x) / IZR n.
Definition fftn (n : Z) (f : image) (k : cell) : complex :=
  (sumR (map (fun x => f x * cos (phase n k x)) (cells n)),
   - sumR (map (fun x => f x * sin (phase n k x)) (cells n))).

(** Lines 577-592. *)
Definition contrast (n : Z) (f : image) (k : cell) : complex :=
  fftn n (fun c => overdensity n f c / (IZR n * IZR n * IZR n)) k.
Definition amplitude (n : Z) (f g : image) (boxsize_folded : R) (k : cell) : R :=
  fst (cmul (contrast n f k) (conj (contrast n g k)))
  * (boxsize_folded * boxsize_folded * boxsize_folded).

(** [np.fft.fftfreq(npix, d)]: the frequencies 0 .. (n-1)//2, -(n//2) .. -1 over [n * d]. *)
Definition fftfreq (n : Z) (d : R) (i : Z) : R :=
  (if (i <=? (n - 1) / 2)%Z then IZR i else IZR (i - n)) / (IZR n * d).

(** Lines 595-600; [np.meshgrid] exchanges the first two axes. *)
Definition kfreq (n : Z) (dk : R) (i : Z) : R := fftfreq n (1 / dk) i * IZR n.
Definition knrm (n : Z) (dk : R) (c : cell) : R :=
  match c with
  | [i; j; k] => sqrt (kfreq n dk j * kfreq n dk j + kfreq n dk i * kfreq n dk i
                       + kfreq n dk k * kfreq n dk k)
  | _ => 0
  end.

(** Line 606: [np.arange(0.5, npix // 2 + 1, 1.0) * dk]. *)
Definition default_bins (n : Z) (dk : R) : list R :=
  map (fun j => (/ 2 + IZR j) * dk) (zrange 0 (n / 2 + 1)).

(** [np.histogram(values, bins, weights)[0]]. *)
Definition histogram (values edges weights : list R) : list R :=
  FuncModel.histv [values] [edges] weights false.

Definition zero_to_one (x : R) : R := if Req_EM_T x 0 then 1 else x.

(** The numbers for one bin: mean wavenumber, power, number of modes. *)
Record binval := mkbinval { bv_k : R; bv_power : R; bv_count : R }.

(** Lines 565-643. *)
Definition deposition_to_power_spectrum (d : depo) (box : R * R * R) (folding : Z)
  (cross : option depo) (wavenumber_bins : option (list R)) (shot_noise_norm : option R)
  : res (list binval) :=
  match d_shape d with
  | [n0; n1; n2] =>
      if negb ((n0 =? n1) && (n1 =? n2))%Z then Err ValueError
      else if match cross with
              | Some c => if list_eq_dec Z.eq_dec (d_shape d) (d_shape c) then false else true
              | None => false
              end then Err AssertionErr
      else
        let fold := powerRZ 2 folding in
        let '(bx, by_, bz) := box in
        let boxsize_folded := bx / fold in
        let n := n0 in
        let g := match cross with Some c => d_vals c | None => d_vals d end in
        let dk := 2 * PI / boxsize_folded in
        let norms := map (knrm n dk) (cells n) in
        let kbins := match wavenumber_bins with Some b => b | None => default_bins n dk end in
        let amps := histogram norms kbins
                      (map (amplitude n (d_vals d) g boxsize_folded) (cells n)) in
        let counts := histogram norms kbins (map (fun _ => 1) (cells n)) in
        let ks := histogram norms kbins norms in
        let shot := match shot_noise_norm with
                    | Some m => bx * by_ * bz / m
                    | None => bx * by_ * bz * 0
                    end in
        Ok (map (fun t : R * (R * R) =>
                   let '(a, (c, k)) := t in
                   let a := if Req_EM_T c 0 then 0 else a in
                   mkbinval (k / zero_to_one c) (a * (fold * fold * fold) / zero_to_one c - shot) c)
                (combine amps (combine counts ks)))
  | _ => Err ValueError
  end.

(** * Several foldings, lines 278-498 *)

Inductive scheme := Simple | Average | OtherScheme.

(** [np.geomspace] of positive numbers and [np.linspace]. *)
Definition geomspace (a b : R) (m : Z) : list R :=
  map (fun j => a * Rpower (b / a) (IZR j / IZR m)) (zrange 0 (m + 1)).
Definition linspace (a b : R) (m : Z) : list R :=
  map (fun j => a + IZR j * ((b - a) / IZR m)) (zrange 0 (m + 1)).

(** The bins of the result: power, wavenumber, tracker and the number of modes behind it. *)
Record outbin := mkoutbin { ob_power : R; ob_k : R; ob_tracker : R; ob_count : R }.

Definition Rltb (x y : R) : bool := if Rlt_dec x y then true else false.
Fixpoint rmax (x : R) (l : list R) : R :=
  match l with [] => x | y :: t => Rmax x (rmax y t) end.
Definition np_max (l : list R) : res R :=
  match l with [] => Err ValueError | x :: t => Ok (rmax x t) end.

(** Line 417-441: the bins of one folding that may be used. *)
Definition use_bins (minimal : option R) (fraction : option R) (first final folding : Z)
    (n : Z) (box : R * R * R) (vals : list binval) : res (list bool) :=
  do least <- (if (folding =? first)%Z then Ok 0
               else match minimal with None => Err TypeError | Some m => Ok m end);
  let used := map (fun v => Rltb least (bv_count v)) vals in
  if (folding =? final)%Z then Ok used
  else
    let '(bx, by_, bz) := box in
    let nyquist := powerRZ 2 folding * IZR n / Rmin bx (Rmin by_ bz) in
    do cutoff <- match fraction with
                 | None => Ok nyquist
                 | Some q =>
                     do m <- np_max (map bv_k (map fst (filter snd (combine vals used))));
                     Ok (Rmin (q * m) (q * nyquist))
                 end;
    Ok (map (fun vu : binval * bool => snd vu && Rltb (bv_k (fst vu)) cutoff)
            (combine vals used)).

(** Lines 443-454. *)
Definition prefer (folding : Z) (b : outbin) (v : binval) (use : bool) : outbin :=
  if Rltb (ob_count b) (bv_count v) && use
  then mkoutbin (bv_power v) (bv_k v) (powerRZ 2 folding) (bv_count v)
  else b.

Definition find_depo (l : list (Z * depo)) (f : Z) : res depo :=
  match find (fun p => (fst p =? f)%Z) l with
  | Some p => Ok (snd p)
  | None => Err KeyError
  end.

(** Lines 399-491: the loop over the foldings. *)
Fixpoint fold_loop (deps : list (Z * depo)) (cross : option (list (Z * depo)))
    (box : R * R * R) (bins : list R) (minimal fraction norm : option R) (sch : scheme)
    (first final : Z) (foldings : list Z) (out : list outbin) : res (list outbin) :=
  match foldings with
  | [] => Ok out
  | f :: rest =>
      do d <- find_depo deps f;
      do c <- match cross with
              | None => Ok None
              | Some l => do x <- find_depo l f; Ok (Some x)
              end;
      do vals <- deposition_to_power_spectrum d box f c (Some bins) norm;
      do use <- use_bins minimal fraction first final f (fold_right Z.min (hd 0%Z (d_shape d)) (d_shape d))
                         box vals;
      match sch with
      | Simple =>
          fold_loop deps cross box bins minimal fraction norm sch first final rest
            (map (fun t : outbin * (binval * bool) => prefer f (fst t) (fst (snd t)) (snd (snd t)))
                 (combine out (combine vals use)))
      | _ => Err ValueError
      end
  end.

(** Lines 363-365: equality of the sets of keys. *)
Definition same_keys (a b : list Z) : bool :=
  forallb (fun x => existsb (Z.eqb x) b) a && forallb (fun x => existsb (Z.eqb x) a) b.

Fixpoint zmax (x : Z) (l : list Z) : Z :=
  match l with [] => x | y :: t => Z.max x (zmax y t) end.
Fixpoint zmin (x : Z) (l : list Z) : Z :=
  match l with [] => x | y :: t => Z.min x (zmin y t) end.

Definition centres (bins : list R) : list R :=
  CosmoModel.map2 (fun a b => / 2 * (a + b)) (tl bins) (removelast bins).

(** The whole function, numbers only; [number] is the number of bins.  Returns the edges and
    the bins. *)
Definition folded_spectrum (deps : list (Z * depo)) (box : R * R * R) (number : Z)
    (cross : option (list (Z * depo))) (range : option (R * R)) (logarithmic : bool)
    (minimal fraction norm : option R) (sch : scheme) : res (list R * list outbin) :=
  if match cross with
     | Some l => negb (same_keys (map fst deps) (map fst l))
     | None => false
     end then Err ValueError
  else match range with
  | None => Err NotImplementedErr
  | Some (k1, k2) =>
      let lo := Rmin k1 k2 in
      let hi := Rmax k1 k2 in
      if logarithmic && (match Req_EM_T (lo * hi) 0 with left _ => true | right _ => false end)
      then Err ValueError
      else
        let bins := if logarithmic then geomspace lo hi number else linspace lo hi number in
        let out := map (fun k => mkoutbin 0 k 1 0) (centres bins) in
        match map fst deps with
        | [] => Err ValueError
        | f :: fs =>
            do out' <- fold_loop deps cross box bins minimal fraction norm sch
                                 (zmin f fs) (zmax f fs) (np_sort (map fst deps)) out;
            Ok (bins, out')
        end
  end.

(** * Labels *)

(** Lines 386-393: the array for the result, with the label of the volume of the box to the
    power -1; assignments into it (line 448) change numbers only. *)
Definition folded_label (box : CosmoModel.carr) (numbers : list R) : res CosmoModel.carr :=
  do v <- CosmoModel.prodop (CosmoModel.OArr box);
  do c <- match CosmoModel.acf v with
          | Some c => Ok (CosmoModel.cf_pow c (-1))
          | None => Err TypeError
          end;
  Ok (CosmoModel.mkarr numbers (Some c) (CosmoModel.acm v) true CosmoModel.CNone).

(** Lines 592 and 636: amplitudes are numbers times the cube of the side of the box. *)
Definition single_label (box : CosmoModel.carr) (numbers : list R) : res CosmoModel.carr :=
  do c <- CosmoModel.h_power (CosmoModel.acf box) None 3;
  Ok (CosmoModel.mkarr numbers c (CosmoModel.acm box) (CosmoModel.avt box) CosmoModel.CNone).
