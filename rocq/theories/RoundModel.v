(** Model of the compiled loops of the visualisation backends over any arithmetic: projection_backends (fast,
    histogram, renormalised, reference, subsampled, subsampled_extreme, gpu), slice_backends/sph.py,
    volume_render_backends/scatter.py, the deposition of power_spectrum.py and the lookup of tools/cmaps.py.

    VisModel.v has the same loops on real numbers.  Here nothing is known about the numbers: sums may be rounded,
    overflow or be NaN, comparisons may say anything, and a number that is made an integer may become any
    integer (C leaves that open for NaN and for numbers out of range).  Integers themselves are exact: numba
    widens the sum of two 32-bit integers.

    A backend is the list of its writes in program order.  numba raises ZeroDivisionError when a divisor is
    zero and stops there: what has been written until then is a prefix of the list. *)
From Coq Require Import List ZArith QArith Bool.
From Verif Require Import Base.
Import ListNotations.
Open Scope Z_scope.

(** The operations that the loops use.  [single], [double]: np.float32, np.float64 of a number; [of_int]: of an
    integer; [lit]: a constant of the source; [int32], [int]: conversion to an integer; [modulo]: [%]. *)
Record arith : Type := mk_arith {
  num : Type;
  of_int : Z -> num;
  lit : Q -> num;
  single : num -> num;
  double : num -> num;
  add : num -> num -> num;
  sub : num -> num -> num;
  mul : num -> num -> num;
  div : num -> num -> num;
  modulo : num -> num -> num;
  root : num -> num;
  floor : num -> num;
  ceil : num -> num;
  larger : num -> num -> num;
  smaller : num -> num -> num;
  less : num -> num -> bool;
  less_eq : num -> num -> bool;
  equal : num -> num -> bool;
  int32 : num -> Z;
  int : num -> Z
}.

Section Loops.
Variable A : arith.
Notation F := (num A).
Notation "x + y" := (add A x y) : num_scope.
Notation "x - y" := (sub A x y) : num_scope.
Notation "x * y" := (mul A x y) : num_scope.
Notation "x / y" := (div A x y) : num_scope.
Delimit Scope num_scope with num.
Bind Scope num_scope with num.

Definition rwrite : Type := (list Z * F)%type.
Definition one : F := lit A 1.
Definition half : F := lit A (1#2).
Definition zero : F := lit A 0.

(** kernels.py 41-57 and 80-101, gpu.py 41-58: [narrow] is the precision of the constant. *)
Definition kernel2 (narrow : F -> F) (r H : F) : F :=
  let constant := narrow (lit A (222817109 # 100000000)) in
  let inverse_H := (one / H)%num in
  let ratio := (r * inverse_H)%num in
  if less A ratio one
  then let o := (one - ratio)%num in
       let o2 := (o * o)%num in
       let o4 := (o2 * o2)%num in
       (larger A (o4 * (one + lit A 4 * ratio)) zero * (constant * inverse_H * inverse_H))%num
  else zero.

(** slice_backends/sph.py 8-9, 35-51. *)
Definition kernel3 (r H : F) : F :=
  let constant := (lit A 21 * lit A (31830988618379067154 # 100000000000000000000) / lit A 2)%num in
  let inverse_H := (one / H)%num in
  let ratio := (r * inverse_H)%num in
  if less A ratio one
  then let o := (one - ratio)%num in
       let o2 := (o * o)%num in
       let o4 := (o2 * o2)%num in
       (larger A (o4 * (one + lit A 4 * ratio)) zero * (constant * inverse_H * inverse_H * inverse_H))%num
  else zero.

Definition gamma2 : F := single A (lit A (1897367 # 1000000)).
Definition gamma3 : F := lit A (1936492 # 1000000).

(** fast.py 89-100 and the same lines in the other backends. *)
Definition shifts (box : F) : list Z :=
  if equal A box zero then zrange 0 1 else zrange (-1) (int A (ceil A (one / box) + one)%num).
Definition shifted (x : F) (s : Z) (box : F) : F := (x + of_int A s * box)%num.

(** [np.int32(np.floor(float_res * x_pos))] and [np.int32(1.0 + kernel_width * float_res)]; [res] is the
    resolution in the precision that is used there. *)
Definition cell_of (res x : F) : Z := int32 A (floor A (res * x)%num).
Definition span (res w : F) : Z := int32 A (one + w * res)%num.

(** [particle_cell + cells_spanned < 0 or particle_cell - cells_spanned > maximal_array_index] *)
Definition outside (n c s : Z) : bool := (c + s <? 0) || (n - 1 <? c - s).
(** [particle_cell >= 0 and particle_cell <= maximal_array_index] *)
Definition within (n c : Z) : bool := (0 <=? c) && (c <=? n - 1).
(** [range(max(0, lo), min(hi, maximal_array_index + 1))] *)
Definition span_range (n lo hi : Z) : list Z := zrange (Z.max 0 lo) (Z.min hi (n - 1 + 1)).

Definition over2 (xs ys : list Z) (f : Z -> Z -> F) : list rwrite :=
  flat_map (fun i => map (fun j => ([i; j], f i j)) ys) xs.
Definition over3 (xs ys zs : list Z) (f : Z -> Z -> Z -> F) : list rwrite :=
  flat_map (fun i => flat_map (fun j => map (fun k => ([i; j; k], f i j k)) zs) ys) xs.

(** [(np.float32(cell) + 0.5) * pixel_width - np.float32(pos)] *)
Definition distance (narrow : F -> F) (pixel_width : F) (i : Z) (x : F) : F :=
  ((narrow (of_int A i) + half) * pixel_width - narrow x)%num.
Definition square_of (d : F) : F := (d * d)%num.

(** A particle: positions, weight, smoothing length. *)
Record rpart := mk_rpart { r_x : F; r_y : F; r_z : F; r_m : F; r_h : F }.

(** The loops over the copies of a particle. *)
Definition copies2 (bx by_ : F) (f : F -> F -> list rwrite) (p : rpart) : list rwrite :=
  flat_map (fun sx => flat_map (fun sy => f (shifted (r_x p) sx bx) (shifted (r_y p) sy by_)) (shifts by_)) (shifts bx).
Definition copies3 (sh : F -> list Z) (bx by_ bz : F) (f : F -> F -> F -> list rwrite) (p : rpart) : list rwrite :=
  flat_map (fun sx => flat_map (fun sy => flat_map (fun sz =>
    f (shifted (r_x p) sx bx) (shifted (r_y p) sy by_) (shifted (r_z p) sz bz)) (sh bz)) (sh by_)) (sh bx).

(** * Projections *)

(** fast.py 74-87, 102-177.  [img_at]: also the body of the GPU's threads, gpu.py 112-195. *)
Definition fast_at (n : Z) (m h x y : F) : list rwrite :=
  let float_res := single A (of_int A n) in
  let pixel_width := (one / float_res)%num in
  let float_res_64 := double A (of_int A n) in
  let inverse_cell_area := of_int A (n * n) in
  let cx := cell_of float_res_64 x in
  let cy := cell_of float_res_64 y in
  let w := (gamma2 * h)%num in
  let s := span float_res w in
  if outside n cx s || outside n cy s then []
  else if s <=? 1
       then (if within n cx && within n cy then [([cx; cy], (m * inverse_cell_area)%num)] else [])
       else over2 (span_range n (cx - s) (cx + s + 1)) (span_range n (cy - s) (cy + s + 1))
              (fun i j =>
                 let r := root A (square_of (distance (single A) pixel_width i x)
                                  + square_of (distance (single A) pixel_width j y))%num in
                 (m * kernel2 (single A) r w)%num).
Definition fast_part (n : Z) (bx by_ : F) (p : rpart) : list rwrite := copies2 bx by_ (fast_at n (r_m p) (r_h p)) p.

(** histogram.py 71-115. *)
Definition histogram_at (n : Z) (m x y : F) : list rwrite :=
  let float_res := double A (of_int A n) in
  let inverse_cell_area := (float_res * float_res)%num in
  let cx := cell_of float_res x in
  let cy := cell_of float_res y in
  if negb ((cx <? 0) || (n - 1 <? cx) || (cy <? 0) || (n - 1 <? cy))
  then [([cx; cy], (double A m * inverse_cell_area)%num)] else [].
Definition histogram_part (n : Z) (bx by_ : F) (p : rpart) : list rwrite := copies2 bx by_ (histogram_at n (r_m p)) p.

(** renormalised.py 80-216. *)
Definition renormalised_at (n : Z) (m h x y : F) : list rwrite :=
  let float_res := single A (of_int A n) in
  let pixel_width := (one / float_res)%num in
  let float_res_64 := double A (of_int A n) in
  let inverse_cell_area := (float_res * float_res)%num in
  let cx := cell_of float_res_64 x in
  let cy := cell_of float_res_64 y in
  let w := (gamma2 * h)%num in
  let s := span float_res w in
  let value i j := kernel2 (single A) (root A (square_of (distance (single A) pixel_width i x)
                                               + square_of (distance (single A) pixel_width j y))%num) w in
  if outside n cx s || outside n cy s then []
  else if s <=? 1
       then (if within n cx && within n cy then [([cx; cy], (m * inverse_cell_area)%num)] else [])
       else let total := fold_left (fun t i => fold_left (fun t j => (t + value i j)%num)
                                     (zrange (cy - s + 1) (cy + s)) t) (zrange (cx - s + 1) (cx + s)) (single A zero) in
            let normalisation := (inverse_cell_area / total)%num in
            over2 (span_range n (cx - s) (cx + s + 1)) (span_range n (cy - s) (cy + s + 1))
                  (fun i j => (m * (normalisation * value i j))%num).
Definition renormalised_part (n : Z) (bx by_ : F) (p : rpart) : list rwrite :=
  copies2 bx by_ (renormalised_at n (r_m p) (r_h p)) p.

(** reference.py 86-174: a small kernel leaves the inner loop. *)
Fixpoint reference_loop (n : Z) (m h x y0 by_ : F) (sh : list Z) : list rwrite :=
  match sh with
  | [] => []
  | sy :: rest =>
      let float_res := double A (of_int A n) in
      let pixel_width := (one / float_res)%num in
      let y := shifted y0 sy by_ in
      let cx := cell_of float_res x in
      let cy := cell_of float_res y in
      let w := (gamma2 * h)%num in
      let s := span float_res w in
      if outside n cx s || outside n cy s then reference_loop n m h x y0 by_ rest
      else if s <=? 2 then []
      else over2 (span_range n (cx - s) (cx + s + 1)) (span_range n (cy - s) (cy + s + 1))
             (fun i j =>
                let r := root A (square_of (distance (double A) pixel_width i x)
                                 + square_of (distance (double A) pixel_width j y))%num in
                (m * kernel2 (double A) r w)%num)
           ++ reference_loop n m h x y0 by_ rest
  end.
Definition reference_part (n : Z) (bx by_ : F) (p : rpart) : list rwrite :=
  flat_map (fun sx => reference_loop n (r_m p) (r_h p) (shifted (r_x p) sx bx) (r_y p) by_ (shifts by_)) (shifts bx).

(** subsampled.py 88-321 and subsampled_extreme.py: [evals] is 16 or 32, [dither] 32 or 64.  The table of
    the dithered kernel is read at the indices of its own loops. *)
Definition dither_raw (dither a b : Z) : F :=
  let d := double A (of_int A dither) in
  let da := (double A (of_int A a) + half - d)%num in
  let db := (double A (of_int A b) + half - d)%num in
  kernel2 (double A) (root A (square_of da + square_of db)%num) d.
Definition dither_total (dither : Z) : F :=
  fold_left (fun t a => fold_left (fun t b => (t + dither_raw dither a b)%num) (zrange 0 (2 * dither)) t)
            (zrange 0 (2 * dither)) zero.
Definition dithered (dither : Z) (area : F) (a b : Z) : F :=
  (dither_raw dither a b * (area / dither_total dither))%num.

Definition dither_cell (dither : Z) (float_res w x : F) (a : Z) : Z :=
  let inv := (one / double A (of_int A dither))%num in
  cell_of float_res (x + (double A (of_int A a) * inv - one) * w)%num.

Definition subsample (f : Z) (pixel_width w x y : F) (i j : Z) : F :=
  let inv := (one / double A (of_int A f))%num in
  let at_ c a := ((double A (of_int A c) + (double A (of_int A a) + half) * inv) * pixel_width)%num in
  fold_left (fun t a => fold_left (fun t b =>
      (t + kernel2 (double A) (root A (square_of (at_ i a - x) + square_of (at_ j b - y))%num) w)%num)
      (zrange 0 f) t) (zrange 0 f) (double A zero).

Definition subsampled_at (evals dither n : Z) (m h x y : F) : list rwrite :=
  let float_res := double A (of_int A n) in
  let pixel_width := (one / float_res)%num in
  let area := (float_res * float_res)%num in
  let cx := cell_of float_res x in
  let cy := cell_of float_res y in
  let float_mass := double A m in
  let w := double A (gamma2 * h)%num in
  let fs := (one + w * float_res)%num in
  let s := int32 A fs in
  if outside n cx s || outside n cy s then []
  else if less_eq A w (lit A (1#4) * pixel_width)%num
  then let dx_left := (x - double A (of_int A cx) / float_res)%num in
       let dx_right := (one - dx_left)%num in
       let dy_down := (y - double A (of_int A cy) / float_res)%num in
       let dy_up := (one - dy_down)%num in
       if negb (less A dx_left w || less A dx_right w || less A dy_down w || less A dy_up w)
          && (within n cx && within n cy)
       then [([cx; cy], (m * area)%num)]
       else flat_map (fun a => flat_map (fun b =>
              let i := dither_cell dither float_res w x a in
              let j := dither_cell dither float_res w y b in
              if within n i && within n j then [([i; j], (float_mass * dithered dither area a b)%num)] else [])
              (zrange 0 (2 * dither))) (zrange 0 (2 * dither))
  else let f := Z.max 1 (2 * int32 A (ceil A (double A (of_int A evals) / fs)%num)) in
       let inv := (one / double A (of_int A f))%num in
       over2 (span_range n (cx - s) (cx + s + 1)) (span_range n (cy - s) (cy + s + 1))
             (fun i j => (float_mass * subsample f pixel_width w x y i j * (inv * inv))%num).
Definition subsampled_part (evals dither n : Z) (bx by_ : F) (p : rpart) : list rwrite :=
  copies2 bx by_ (subsampled_at evals dither n (r_m p) (r_h p)) p.

(** gpu.py 113-195: a thread [(i, dx, dy)], of whatever numbers; the arrays have the same length. *)
Definition gpu_thread (n : Z) (bx by_ : F) (ps : list rpart) (t : Z * Z * Z) : list rwrite :=
  let '(i, dx, dy) := t in
  match nth_error ps (Z.to_nat i) with
  | None => []
  | Some p => fast_at n (r_m p) (r_h p) (r_x p + (of_int A dx - one) * bx)%num (r_y p + (of_int A dy - one) * by_)%num
  end.

(** * Slices, slice_backends/sph.py 124-227 *)
Definition slice_at (n : Z) (z_slice m h x y z : F) : list rwrite :=
  let float_res := single A (of_int A n) in
  let pixel_width := (one / float_res)%num in
  let float_res_64 := double A (of_int A n) in
  let cx := cell_of float_res_64 x in
  let cy := cell_of float_res_64 y in
  let dz2 := square_of (z - z_slice)%num in
  let w := (gamma3 * h)%num in
  let s := span float_res w in
  if less A (w * w)%num dz2 || outside n cx s || outside n cy s then []
  else over2 (span_range n (cx - s) (cx + s)) (span_range n (cy - s) (cy + s))
         (fun i j =>
            let r := root A (square_of (distance (single A) pixel_width i x)
                             + square_of (distance (single A) pixel_width j y) + dz2)%num in
            (m * kernel3 r w)%num).
Definition slice_part (n : Z) (z_slice bx by_ bz : F) (p : rpart) : list rwrite :=
  copies3 shifts bx by_ bz (slice_at n z_slice (r_m p) (r_h p)) p.

(** * Volume renderings, volume_render_backends/scatter.py 84-219 and 301-446; [nz] voxels along the last axis.
    For [scatter] the two conditions on the width are one. *)
Definition voxel_at (nz n : Z) (m h x y z : F) : list rwrite :=
  let float_res := single A (of_int A n) in
  let float_res_z := single A (of_int A nz) in
  let pixel_width := (one / float_res)%num in
  let pixel_width_z := (one / float_res_z)%num in
  let float_res_64 := double A (of_int A n) in
  let float_res_z_64 := double A (of_int A nz) in
  let volume := (float_res * float_res * float_res_z)%num in
  let cx := cell_of float_res_64 x in
  let cy := cell_of float_res_64 y in
  let cz := cell_of float_res_z_64 z in
  let w := (gamma3 * h)%num in
  let s := span float_res w in
  let sz := span float_res_z w in
  if outside n cx s || outside n cy s || outside nz cz sz then []
  else if less A w (pixel_width * half)%num || less A w (pixel_width_z * half)%num
       then (if within n cx && within n cy && within nz cz then [([cx; cy; cz], (m * volume)%num)] else [])
       else over3 (span_range n (cx - s) (cx + s)) (span_range n (cy - s) (cy + s)) (span_range nz (cz - sz) (cz + sz))
              (fun i j k =>
                 let r := root A (square_of (distance (single A) pixel_width i x)
                                  + square_of (distance (single A) pixel_width j y)
                                  + square_of (distance (single A) pixel_width_z k z))%num in
                 (m * kernel3 r w)%num).
Definition volume_part (n : Z) (bx by_ bz : F) (p : rpart) : list rwrite :=
  copies3 shifts bx by_ bz (voxel_at n n (r_m p) (r_h p)) p.
Definition shifts_limited (box : F) : list Z := if equal A box zero then zrange 0 1 else zrange (-1) 2.
Definition limited_part (n ratio : Z) (bx by_ bz : F) (p : rpart) : list rwrite :=
  copies3 shifts_limited bx by_ bz (voxel_at (n / ratio) n (r_m p) (r_h p)) p.

(** * The deposition of power_spectrum.py, 68-100: there is no test of the index. *)
Definition deposit_cell (res fold x box : F) : Z :=
  let box_over_fold := (box / fold)%num in
  let inv := (one / box_over_fold)%num in
  int32 A (modulo A x box_over_fold * inv * res)%num.
Definition deposit_part (n : Z) (fold bx by_ bz : F) (p : rpart) : list rwrite :=
  let float_res := single A (of_int A n) in
  let volume := (float_res * float_res * float_res * (fold * fold * fold))%num in
  [([deposit_cell float_res fold (r_x p) bx; deposit_cell float_res fold (r_y p) by_; deposit_cell float_res fold (r_z p) bz],
    (r_m p * volume)%num)].

(** * The lookup of tools/cmaps.py, 74-90: the index that is read; [n] is the length of the grid along the axis. *)
Definition lookup_index (n : Z) (v : F) : Z :=
  int32 A (single A (of_int A (n - 1)) * smaller A (larger A v zero) one)%num.

End Loops.

Arguments mk_rpart {A}.
Arguments r_x {A}.
Arguments r_y {A}.
Arguments r_z {A}.
Arguments r_m {A}.
Arguments r_h {A}.
