(** Model of divisions in the compiled image backends: projection_backends (fast, histogram, renormalised, reference,
    subsampled, subsampled_extreme), slice_backends/sph.py and volume_render_backends/scatter.py.

    VisModel.v has these loops with [a / 0] being some number.  numba compiles a division of numbers with a test
    (its default error model) and raises ZeroDivisionError; here every division of the source is made with [quot].
    [np.zeros] refuses negative lengths.  The rest is as in VisModel.v.  The kernels on a GPU make no such test and
    are left out, as are the threads (an exception inside a parallel loop is not passed on in a defined way) and the
    use without numba. *)
From Coq Require Import List ZArith Reals Bool.
From Verif Require Import Base VisModel.
Import ListNotations.
Open Scope R_scope.

Definition quot (a b : R) : res R := if Req_EM_T b 0 then Err ZeroDivision else Ok (a / b).

(** [np.zeros(shape)]. *)
Definition alloc (s : shape) : res unit := if forallb (fun n => (0 <=? n)%Z) s then Ok tt else Err ValueError.

(** What the turns of a loop write, up to the first exception. *)
Definition cat {A} (l : list (res (list A))) : res (list A) := do x <- all_ok l; Ok (concat x).

(** kernels.py 41-57 and 87-103. *)
Definition kernel2_c (r H : R) : res R :=
  do inverse_H <- quot 1 H;
  let ratio := r * inverse_H in
  Ok (if Rlt_dec ratio 1
      then let o := 1 - ratio in Rmax (o * o * (o * o) * (1 + 4 * ratio)) 0 * (constant2 * inverse_H * inverse_H)
      else 0).

(** slice_backends/sph.py 38-53. *)
Definition kernel3_c (r H : R) : res R :=
  do inverse_H <- quot 1 H;
  let ratio := r * inverse_H in
  Ok (if Rlt_dec ratio 1
      then let o := 1 - ratio in Rmax (o * o * (o * o) * (1 + 4 * ratio)) 0 * (constant3 * inverse_H * inverse_H * inverse_H)
      else 0).

(** fast.py 89-100. *)
Definition shifts_c (box : R) : res (list Z) :=
  if Req_EM_T box 0 then Ok (zrange 0 1) else do q <- quot 1 box; Ok (zrange (-1) (ceil q + 1)).
(** scatter.py 321-338. *)
Definition shifts_limited_c (box : R) : res (list Z) := Ok (shifts_limited box).

Definition copies2_c (sx sy : list Z) (box_x box_y : R) (f : R -> R -> res (list write)) (p : part) : res (list write) :=
  cat (map (fun i => cat (map (fun j => f (p_x p + IZR i * box_x) (p_y p + IZR j * box_y)) sy)) sx).
Definition copies3_c (sx sy sz : list Z) (box_x box_y box_z : R) (f : R -> R -> R -> res (list write)) (p : part) : res (list write) :=
  cat (map (fun i => cat (map (fun j => cat (map (fun k =>
    f (p_x p + IZR i * box_x) (p_y p + IZR j * box_y) (p_z p + IZR k * box_z)) sz)) sy)) sx).

Definition spread2_c (wx wy : list Z) (f : Z -> Z -> res R) : res (list write) :=
  cat (map (fun i => all_ok (map (fun j => do v <- f i j; Ok ([i; j], v)) wy)) wx).
Definition spread3_c (wx wy wz : list Z) (f : Z -> Z -> Z -> res R) : res (list write) :=
  cat (map (fun i => cat (map (fun j => all_ok (map (fun k => do v <- f i j k; Ok ([i; j; k], v)) wz)) wy)) wx).

(** [(cell + 0.5) * pixel_width - pos]. *)
Definition offset_c (pw : R) (i : Z) (x : R) : R := (IZR i + / 2) * pw - x.
Definition kernel_at_c (pw w x y : R) (i j : Z) : res R :=
  let dx := offset_c pw i x in let dy := offset_c pw j y in kernel2_c (sqrt (dx * dx + dy * dy)) w.

(** * Projections *)

(** fast.py 102-177. *)
Definition fast_at_c (n : Z) (pw m h x y : R) : res (list write) :=
  let cx := floor (IZR n * x) in
  let cy := floor (IZR n * y) in
  let w := gamma2 * h in
  let s := trunc (1 + w * IZR n) in
  if misses n cx s || misses n cy s then Ok []
  else if (s <=? 1)%Z
       then Ok (if inside n cx && inside n cy then [([cx; cy], m * (IZR n * IZR n))] else [])
       else spread2_c (window n (cx - s) (cx + s + 1)) (window n (cy - s) (cy + s + 1))
                      (fun i j => do k <- kernel_at_c pw w x y i j; Ok (m * k)).

(** renormalised.py 109-215. *)
Definition renormalised_at_c (n : Z) (pw m h x y : R) : res (list write) :=
  let cx := floor (IZR n * x) in
  let cy := floor (IZR n * y) in
  let w := gamma2 * h in
  let s := trunc (1 + w * IZR n) in
  if misses n cx s || misses n cy s then Ok []
  else if (s <=? 1)%Z
       then Ok (if inside n cx && inside n cy then [([cx; cy], m * (IZR n * IZR n))] else [])
       else
         do ks <- cat (map (fun i => all_ok (map (kernel_at_c pw w x y i) (zrange (cy - s + 1) (cy + s)))) (zrange (cx - s + 1) (cx + s)));
         do norm <- quot (IZR n * IZR n) (sumR ks);
         spread2_c (window n (cx - s) (cx + s + 1)) (window n (cy - s) (cy + s + 1))
                   (fun i j => do k <- kernel_at_c pw w x y i j; Ok (m * (norm * k))).

(** reference.py 109-172. *)
Fixpoint reference_loop_c (n : Z) (pw m h x y0 box_y : R) (sh : list Z) : res (list write) :=
  match sh with
  | [] => Ok []
  | sy :: rest =>
      let y := y0 + IZR sy * box_y in
      let cx := floor (IZR n * x) in
      let cy := floor (IZR n * y) in
      let w := gamma2 * h in
      let s := trunc (1 + w * IZR n) in
      if misses n cx s || misses n cy s then reference_loop_c n pw m h x y0 box_y rest
      else if (s <=? 2)%Z then Ok []
      else
        do a <- spread2_c (window n (cx - s) (cx + s + 1)) (window n (cy - s) (cy + s + 1))
                          (fun i j => do k <- kernel_at_c pw w x y i j; Ok (m * k));
        do b <- reference_loop_c n pw m h x y0 box_y rest;
        Ok (a ++ b)
  end.

(** subsampled.py 108-130, subsampled_extreme.py 109-131: the table as a function. *)
Definition dither_raw_c (dither a b : Z) : res R :=
  let da := IZR a + / 2 - IZR dither in
  let db := IZR b + / 2 - IZR dither in
  kernel2_c (sqrt (da * da + db * db)) (IZR dither).
Definition dither_table (n dither : Z) : res (Z -> Z -> res R) :=
  do ks <- cat (map (fun a => all_ok (map (dither_raw_c dither a) (zrange 0 (2 * dither)))) (zrange 0 (2 * dither)));
  do q <- quot (IZR n * IZR n) (sumR ks);
  Ok (fun a b => do k <- dither_raw_c dither a b; Ok (k * q)).

(** subsampled.py 145-321; [inv_d] is [float_DITHER_EVALUATIONS_inv]. *)
Definition subsampled_at_c (evals dither n : Z) (pw inv_d : R) (table : Z -> Z -> res R) (m h x y : R) : res (list write) :=
  let cx := floor (IZR n * x) in
  let cy := floor (IZR n * y) in
  let w := gamma2 * h in
  let fs := 1 + w * IZR n in
  let s := trunc fs in
  if misses n cx s || misses n cy s then Ok []
  else if Rle_dec w (/ 4 * pw)
  then do qx <- quot (IZR cx) (IZR n);
       do qy <- quot (IZR cy) (IZR n);
       let dx_left := x - qx in
       let dx_right := 1 - dx_left in
       let dy_down := y - qy in
       let dy_up := 1 - dy_down in
       let near d := if Rlt_dec d w then true else false in
       if negb (near dx_left || near dx_right || near dy_down || near dy_up)
          && (inside n cx && inside n cy)
       then Ok [([cx; cy], m * (IZR n * IZR n))]
       else cat (map (fun a => cat (map (fun b =>
              let pixel v c := floor (IZR n * (v + (IZR c * inv_d - 1) * w)) in
              let i := pixel x a in
              let j := pixel y b in
              if inside n i && inside n j then do k <- table a b; Ok [([i; j], m * k)] else Ok [])
              (zrange 0 (2 * dither)))) (zrange 0 (2 * dither)))
  else
    do e <- quot (IZR evals) fs;
    let f := Z.max 1 (2 * ceil e) in
    do inv <- quot 1 (IZR f);
    spread2_c (window n (cx - s) (cx + s + 1)) (window n (cy - s) (cy + s + 1))
      (fun i j =>
         do ks <- cat (map (fun a => all_ok (map (fun b =>
                    let dx := (IZR i + (IZR a + / 2) * inv) * pw - x in
                    let dy := (IZR j + (IZR b + / 2) * inv) * pw - y in
                    kernel2_c (sqrt (dx * dx + dy * dy)) w) (zrange 0 f))) (zrange 0 f));
         Ok (m * sumR ks * (inv * inv))).

(** * Slices and volume renderings *)

(** sph.py 157-227. *)
Definition slice_at_c (n : Z) (pw z_slice m h x y z : R) : res (list write) :=
  let cx := floor (IZR n * x) in
  let cy := floor (IZR n * y) in
  let dz := z - z_slice in
  let w := gamma3 * h in
  let s := trunc (1 + w * IZR n) in
  if (if Rlt_dec (w * w) (dz * dz) then true else false) || misses n cx s || misses n cy s then Ok []
  else spread2_c (window n (cx - s) (cx + s)) (window n (cy - s) (cy + s))
         (fun i j => let dx := offset_c pw i x in let dy := offset_c pw j y in
                     do k <- kernel3_c (sqrt (dx * dx + dy * dy + dz * dz)) w; Ok (m * k)).

(** scatter.py 122-219 and 345-446. *)
Definition voxel_at_c (nz n : Z) (pw pwz m h x y z : R) : res (list write) :=
  let cx := floor (IZR n * x) in
  let cy := floor (IZR n * y) in
  let cz := floor (IZR nz * z) in
  let w := gamma3 * h in
  let s := trunc (1 + w * IZR n) in
  let sz := trunc (1 + w * IZR nz) in
  if misses n cx s || misses n cy s || misses nz cz sz then Ok []
  else if (if Rlt_dec w (pw * / 2) then true else false) || (if Rlt_dec w (pwz * / 2) then true else false)
       then Ok (if inside n cx && inside n cy && inside nz cz then [([cx; cy; cz], m * (IZR n * IZR n * IZR nz))] else [])
       else spread3_c (window n (cx - s) (cx + s)) (window n (cy - s) (cy + s)) (window nz (cz - sz) (cz + sz))
              (fun i j k => let dx := offset_c pw i x in let dy := offset_c pw j y in let dz := offset_c pwz k z in
                            do v <- kernel3_c (sqrt (dx * dx + dy * dy + dz * dz)) w; Ok (m * v)).

(** * The backends *)

Definition fast_c n bx by_ ps : res image :=
  do _ <- alloc (square n); do pw <- quot 1 (IZR n); do sx <- shifts_c bx; do sy <- shifts_c by_;
  do ws <- cat (map (fun p => copies2_c sx sy bx by_ (fast_at_c n pw (p_m p) (p_h p)) p) ps);
  render (square n) ws.
Definition histogram_c n bx by_ ps : res image :=
  do _ <- alloc (square n); do sx <- shifts_c bx; do sy <- shifts_c by_;
  do ws <- cat (map (fun p => copies2_c sx sy bx by_ (fun x y => Ok (histogram_at n (p_m p) x y)) p) ps);
  render (square n) ws.
Definition renormalised_c n bx by_ ps : res image :=
  do _ <- alloc (square n); do pw <- quot 1 (IZR n); do sx <- shifts_c bx; do sy <- shifts_c by_;
  do ws <- cat (map (fun p => copies2_c sx sy bx by_ (renormalised_at_c n pw (p_m p) (p_h p)) p) ps);
  render (square n) ws.
Definition reference_c n bx by_ ps : res image :=
  do _ <- alloc (square n); do pw <- quot 1 (IZR n); do sx <- shifts_c bx; do sy <- shifts_c by_;
  do ws <- cat (map (fun p => cat (map (fun i => reference_loop_c n pw (p_m p) (p_h p) (p_x p + IZR i * bx) (p_y p) by_ sy) sx)) ps);
  render (square n) ws.
Definition subsampled_c evals dither n bx by_ ps : res image :=
  do _ <- alloc (square n); do pw <- quot 1 (IZR n); do inv_d <- quot 1 (IZR dither); do table <- dither_table n dither;
  do sx <- shifts_c bx; do sy <- shifts_c by_;
  do ws <- cat (map (fun p => copies2_c sx sy bx by_ (subsampled_at_c evals dither n pw inv_d table (p_m p) (p_h p)) p) ps);
  render (square n) ws.
Definition slice_scatter_c xres yres zs bx by_ bz ps : res image :=
  let n := Z.max xres yres in
  do _ <- alloc (square n); do pw <- quot 1 (IZR n); do sx <- shifts_c bx; do sy <- shifts_c by_; do sz <- shifts_c bz;
  do ws <- cat (map (fun p => copies3_c sx sy sz bx by_ bz (slice_at_c n pw zs (p_m p) (p_h p)) p) ps);
  render (square n) ws.
Definition volume_c n bx by_ bz ps : res image :=
  do _ <- alloc (cube n); do pw <- quot 1 (IZR n); do sx <- shifts_c bx; do sy <- shifts_c by_; do sz <- shifts_c bz;
  do ws <- cat (map (fun p => copies3_c sx sy sz bx by_ bz (voxel_at_c n n pw pw (p_m p) (p_h p)) p) ps);
  render (cube n) ws.
(** [res_z = res // res_ratio_z]: an integer division with the same test. *)
Definition limited_z_c n ratio bx by_ bz ps : res image :=
  if (ratio =? 0)%Z then Err ZeroDivision
  else
    let nz := (n / ratio)%Z in
    do _ <- alloc [n; n; nz]; do pw <- quot 1 (IZR n); do pwz <- quot 1 (IZR nz);
    do sx <- shifts_limited_c bx; do sy <- shifts_limited_c by_; do sz <- shifts_limited_c bz;
    do ws <- cat (map (fun p => copies3_c sx sy sz bx by_ bz (voxel_at_c nz n pw pwz (p_m p) (p_h p)) p) ps);
    render [n; n; nz] ws.
