(** Model of the image backends: visualisation/projection_backends (kernels, fast,
    histogram, renormalised, reference, subsampled, subsampled_extreme, gpu),
    slice_backends/sph.py and volume_render_backends/scatter.py.

    Numbers are real numbers: rounding, float32/float64 conversions and overflow of
    [np.int32] are not modelled.  The constants are the decimal ones of the source. *)
From Coq Require Import List ZArith Reals Bool Lia.
From Verif Require Import Base.
Import ListNotations.
Open Scope R_scope.

(** * Images *)

(** A cell is a list of indices, an image gives a value to every cell inside its shape.
    [image[c] += v] outside the shape is undefined (numba checks no bounds): an error. *)
Definition cell := list Z.
Definition shape := list Z.
Definition image := cell -> R.
Definition write := (cell * R)%type.

Definition cell_eqb (a b : cell) : bool := if list_eq_dec Z.eq_dec a b then true else false.

Fixpoint in_bounds (s : shape) (c : cell) : bool :=
  match s, c with
  | [], [] => true
  | n :: s', i :: c' => (0 <=? i)%Z && (i <? n)%Z && in_bounds s' c'
  | _, _ => false
  end.

Definition zeros : image := fun _ => 0.
Definition add_at (img : image) (c : cell) (v : R) : image :=
  fun c' => if cell_eqb c c' then img c' + v else img c'.

Fixpoint perform (s : shape) (ws : list write) (img : image) : res image :=
  match ws with
  | [] => Ok img
  | (c, v) :: t => if in_bounds s c then perform s t (add_at img c v) else Err UndefinedRead
  end.

(** A backend makes a list of writes, in program order, on a zero image. *)
Definition render (s : shape) (ws : list write) : res image := perform s ws zeros.

(** * Numbers *)

Definition floor (x : R) : Z := Int_part x.
Definition ceil (x : R) : Z := (- Int_part (- x))%Z.
(** [np.int32(x)] rounds towards zero. *)
Definition trunc (x : R) : Z := if Rle_dec 0 x then floor x else ceil x.
Definition sumR (l : list R) : R := fold_right Rplus 0 l.

(** * Particles and kernels *)

Record part := mkpart { p_x : R; p_y : R; p_z : R; p_m : R; p_h : R }.

(** kernels.py 7-8, 41-57 and 80-101 (equal in exact arithmetic). *)
Definition gamma2 : R := 1897367 / 1000000.
Definition constant2 : R := 222817109 / 100000000.
Definition kernel2 (r H : R) : R :=
  let inverse_H := 1 / H in
  let ratio := r * inverse_H in
  if Rlt_dec ratio 1
  then let o := 1 - ratio in
       Rmax (o * o * (o * o) * (1 + 4 * ratio)) 0 * (constant2 * inverse_H * inverse_H)
  else 0.

(** slice_backends/sph.py 8-9, 35-51. *)
Definition gamma3 : R := 1936492 / 1000000.
Definition constant3 : R := 21 * (31830988618379067154 / 100000000000000000000) / 2.
Definition kernel3 (r H : R) : R :=
  let inverse_H := 1 / H in
  let ratio := r * inverse_H in
  if Rlt_dec ratio 1
  then let o := 1 - ratio in
       Rmax (o * o * (o * o) * (1 + 4 * ratio)) 0 * (constant3 * inverse_H * inverse_H * inverse_H)
  else 0.

(** * Periodic copies *)

(** fast.py 89-100 and the same lines in the other backends: [range(shift_min, shift_max)]. *)
Definition shifts (box : R) : list Z :=
  if Req_EM_T box 0 then zrange 0 1 else zrange (-1) (ceil (1 / box) + 1).

Definition copies2 (box_x box_y : R) (f : R -> R -> list write) (p : part) : list write :=
  flat_map (fun sx => flat_map (fun sy => f (p_x p + IZR sx * box_x) (p_y p + IZR sy * box_y))
                               (shifts box_y)) (shifts box_x).

Definition copies3 (sh : R -> list Z) (box_x box_y box_z : R) (f : R -> R -> R -> list write) (p : part)
  : list write :=
  flat_map (fun sx => flat_map (fun sy => flat_map (fun sz =>
    f (p_x p + IZR sx * box_x) (p_y p + IZR sy * box_y) (p_z p + IZR sz * box_z))
    (sh box_z)) (sh box_y)) (sh box_x).

(** * Windows *)

(** [range(max(0, lo), min(hi, maximal_array_index + 1))] *)
Definition window (n lo hi : Z) : list Z := zrange (Z.max 0 lo) (Z.min hi (n - 1 + 1)).
(** Distance of a pixel centre, [(cell + 0.5) * pixel_width - pos]. *)
Definition offset (n i : Z) (x : R) : R := (IZR i + / 2) * (1 / IZR n) - x.

Definition spread2 (wx wy : list Z) (f : Z -> Z -> R) : list write :=
  flat_map (fun i => map (fun j => ([i; j], f i j)) wy) wx.
Definition spread3 (wx wy wz : list Z) (f : Z -> Z -> Z -> R) : list write :=
  flat_map (fun i => flat_map (fun j => map (fun k => ([i; j; k], f i j k)) wz) wy) wx.

Definition inside (n c : Z) : bool := (0 <=? c)%Z && (c <=? n - 1)%Z.
(** No overlap along one axis: [cell + spanned < 0 or cell - spanned > maximal_index]. *)
Definition misses (n c s : Z) : bool := (c + s <? 0)%Z || (n - 1 <? c - s)%Z.

(** * Projections *)

(** fast.py 102-177, one copy of one particle. *)
Definition fast_at (n : Z) (m h x y : R) : list write :=
  let cx := floor (IZR n * x) in
  let cy := floor (IZR n * y) in
  let w := gamma2 * h in
  let s := trunc (1 + w * IZR n) in
  if misses n cx s || misses n cy s then []
  else if (s <=? 1)%Z
       then (if inside n cx && inside n cy then [([cx; cy], m * (IZR n * IZR n))] else [])
       else spread2 (window n (cx - s) (cx + s + 1)) (window n (cy - s) (cy + s + 1))
                    (fun i j => let dx := offset n i x in let dy := offset n j y in
                                m * kernel2 (sqrt (dx * dx + dy * dy)) w).

Definition fast_part (n : Z) (box_x box_y : R) (p : part) : list write :=
  copies2 box_x box_y (fast_at n (p_m p) (p_h p)) p.

(** histogram.py 93-112. *)
Definition histogram_at (n : Z) (m x y : R) : list write :=
  let cx := floor (IZR n * x) in
  let cy := floor (IZR n * y) in
  if negb ((cx <? 0)%Z || (n - 1 <? cx)%Z || (cy <? 0)%Z || (n - 1 <? cy)%Z)
  then [([cx; cy], m * (IZR n * IZR n))] else [].
Definition histogram_part (n : Z) (box_x box_y : R) (p : part) : list write :=
  copies2 box_x box_y (histogram_at n (p_m p)) p.

(** renormalised.py 106-215. *)
Definition kernel_at (n : Z) (w x y : R) (i j : Z) : R :=
  let dx := offset n i x in let dy := offset n j y in kernel2 (sqrt (dx * dx + dy * dy)) w.
Definition normalisation (n cx cy s : Z) (w x y : R) : R :=
  sumR (flat_map (fun i => map (kernel_at n w x y i) (zrange (cy - s + 1) (cy + s)))
                 (zrange (cx - s + 1) (cx + s))).
Definition renormalised_at (n : Z) (m h x y : R) : list write :=
  let cx := floor (IZR n * x) in
  let cy := floor (IZR n * y) in
  let w := gamma2 * h in
  let s := trunc (1 + w * IZR n) in
  if misses n cx s || misses n cy s then []
  else if (s <=? 1)%Z
       then (if inside n cx && inside n cy then [([cx; cy], m * (IZR n * IZR n))] else [])
       else let norm := IZR n * IZR n / normalisation n cx cy s w x y in
            spread2 (window n (cx - s) (cx + s + 1)) (window n (cy - s) (cy + s + 1))
                    (fun i j => m * (norm * kernel_at n w x y i j)).
Definition renormalised_part (n : Z) (box_x box_y : R) (p : part) : list write :=
  copies2 box_x box_y (renormalised_at n (p_m p) (p_h p)) p.

(** reference.py 103-172: a small kernel prints a message and leaves the inner loop. *)
Fixpoint reference_loop (n : Z) (m h x y0 box_y : R) (sh : list Z) : list write :=
  match sh with
  | [] => []
  | sy :: rest =>
      let y := y0 + IZR sy * box_y in
      let cx := floor (IZR n * x) in
      let cy := floor (IZR n * y) in
      let w := gamma2 * h in
      let s := trunc (1 + w * IZR n) in
      if misses n cx s || misses n cy s then reference_loop n m h x y0 box_y rest
      else if (s <=? 2)%Z then []
      else spread2 (window n (cx - s) (cx + s + 1)) (window n (cy - s) (cy + s + 1))
                   (fun i j => m * kernel_at n w x y i j)
           ++ reference_loop n m h x y0 box_y rest
  end.
Definition reference_part (n : Z) (box_x box_y : R) (p : part) : list write :=
  flat_map (fun sx => reference_loop n (p_m p) (p_h p) (p_x p + IZR sx * box_x) (p_y p) box_y (shifts box_y))
           (shifts box_x).

(** subsampled.py 96-321 and subsampled_extreme.py: [evals] is 16 or 32, [dither] 32 or 64. *)
Definition dither_raw (dither a b : Z) : R :=
  let da := IZR a + / 2 - IZR dither in
  let db := IZR b + / 2 - IZR dither in
  kernel2 (sqrt (da * da + db * db)) (IZR dither).
Definition dither_sum (dither : Z) : R :=
  sumR (flat_map (fun a => map (dither_raw dither a) (zrange 0 (2 * dither))) (zrange 0 (2 * dither))).
Definition dithered (n dither a b : Z) : R :=
  dither_raw dither a b * (IZR n * IZR n / dither_sum dither).

(** The pixel of a dither point. *)
Definition dither_pixel (n dither : Z) (w x : R) (a : Z) : Z :=
  floor (IZR n * (x + (IZR a * (1 / IZR dither) - 1) * w)).

(** The mean of the kernel over the points of a pixel. *)
Definition subsample (n f : Z) (w x y : R) (i j : Z) : R :=
  let inv := 1 / IZR f in
  sumR (flat_map (fun a => map (fun b =>
      let dx := (IZR i + (IZR a + / 2) * inv) * (1 / IZR n) - x in
      let dy := (IZR j + (IZR b + / 2) * inv) * (1 / IZR n) - y in
      kernel2 (sqrt (dx * dx + dy * dy)) w) (zrange 0 f)) (zrange 0 f)).

Definition subsampled_at (evals dither n : Z) (m h x y : R) : list write :=
  let cx := floor (IZR n * x) in
  let cy := floor (IZR n * y) in
  let w := gamma2 * h in
  let fs := 1 + w * IZR n in
  let s := trunc fs in
  if misses n cx s || misses n cy s then []
  else if Rle_dec w (/ 4 * (1 / IZR n))
  then let dx_left := x - IZR cx / IZR n in
       let dx_right := 1 - dx_left in
       let dy_down := y - IZR cy / IZR n in
       let dy_up := 1 - dy_down in
       let near d := if Rlt_dec d w then true else false in
       if negb (near dx_left || near dx_right || near dy_down || near dy_up)
          && (inside n cx && inside n cy)
       then [([cx; cy], m * (IZR n * IZR n))]
       else flat_map (fun a => flat_map (fun b =>
              let i := dither_pixel n dither w x a in
              let j := dither_pixel n dither w y b in
              if inside n i && inside n j then [([i; j], m * dithered n dither a b)] else [])
              (zrange 0 (2 * dither))) (zrange 0 (2 * dither))
  else let f := Z.max 1 (2 * ceil (IZR evals / fs)) in
       let inv := 1 / IZR f in
       spread2 (window n (cx - s) (cx + s + 1)) (window n (cy - s) (cy + s + 1))
               (fun i j => m * subsample n f w x y i j * (inv * inv)).
Definition subsampled_part (evals dither n : Z) (box_x box_y : R) (p : part) : list write :=
  copies2 box_x box_y (subsampled_at evals dither n (p_m p) (p_h p)) p.

(** gpu.py 113-195 and 251-281: one thread for every particle index below a multiple of
    16 and every copy; the threads run in any order. *)
Definition gpu_thread (n : Z) (box_x box_y : R) (ps : list part) (t : Z * Z * Z) : list write :=
  let '(i, dx, dy) := t in
  match nth_error ps (Z.to_nat i) with
  | None => []
  | Some p => fast_at n (p_m p) (p_h p) (p_x p + (IZR dx - 1) * box_x) (p_y p + (IZR dy - 1) * box_y)
  end.
Definition gpu_copies (box : R) : Z := if Req_EM_T box 0 then 1 else (ceil (1 / box) + 2)%Z.
Definition gpu_threads (box_x box_y : R) (ps : list part) : list (Z * Z * Z) :=
  let blocks := ceil (IZR (zlen ps) / 16) in
  flat_map (fun i => flat_map (fun dx => map (fun dy => (i, dx, dy))
      (zrange 0 (gpu_copies box_y))) (zrange 0 (gpu_copies box_x))) (zrange 0 (16 * blocks)).

(** * Slices, slice_backends/sph.py 120-227 *)

Definition slice_at (n : Z) (z_slice m h x y z : R) : list write :=
  let cx := floor (IZR n * x) in
  let cy := floor (IZR n * y) in
  let dz := z - z_slice in
  let w := gamma3 * h in
  let s := trunc (1 + w * IZR n) in
  if (if Rlt_dec (w * w) (dz * dz) then true else false) || misses n cx s || misses n cy s then []
  else spread2 (window n (cx - s) (cx + s)) (window n (cy - s) (cy + s))
               (fun i j => let dx := offset n i x in let dy := offset n j y in
                           m * kernel3 (sqrt (dx * dx + dy * dy + dz * dz)) w).
Definition slice_part (n : Z) (z_slice box_x box_y box_z : R) (p : part) : list write :=
  copies3 shifts box_x box_y box_z (slice_at n z_slice (p_m p) (p_h p)) p.

(** * Volume renderings, volume_render_backends/scatter.py 84-219 and 288-446 *)

Definition voxel_at (nz n : Z) (m h x y z : R) : list write :=
  let cx := floor (IZR n * x) in
  let cy := floor (IZR n * y) in
  let cz := floor (IZR nz * z) in
  let w := gamma3 * h in
  let s := trunc (1 + w * IZR n) in
  let sz := trunc (1 + w * IZR nz) in
  if misses n cx s || misses n cy s || misses nz cz sz then []
  else if (if Rlt_dec w (1 / IZR n * / 2) then true else false)
          || (if Rlt_dec w (1 / IZR nz * / 2) then true else false)
       then (if inside n cx && inside n cy && inside nz cz
             then [([cx; cy; cz], m * (IZR n * IZR n * IZR nz))] else [])
       else spread3 (window n (cx - s) (cx + s)) (window n (cy - s) (cy + s)) (window nz (cz - sz) (cz + sz))
                    (fun i j k => let dx := offset n i x in let dy := offset n j y in
                                  let dz := offset nz k z in
                                  m * kernel3 (sqrt (dx * dx + dy * dy + dz * dz)) w).

(** [scatter]: the same number of voxels on every axis. *)
Definition volume_part (n : Z) (box_x box_y box_z : R) (p : part) : list write :=
  copies3 shifts box_x box_y box_z (voxel_at n n (p_m p) (p_h p)) p.

(** [scatter_limited_z]: fewer voxels along z, and three copies along each axis. *)
Definition shifts_limited (box : R) : list Z :=
  if Req_EM_T box 0 then zrange 0 1 else zrange (-1) 2.
Definition limited_part (n ratio : Z) (box_x box_y box_z : R) (p : part) : list write :=
  copies3 shifts_limited box_x box_y box_z (voxel_at (n / ratio) n (p_m p) (p_h p)) p.

(** * Parallel versions, fast.py 230-267 and the same lines in the other backends *)

(** [left_edge:right_edge] of a thread. *)
Definition thread_range (number threads thread : Z) : Z * Z :=
  let core := (number / threads)%Z in
  ((thread * core)%Z, if (thread + 1 =? threads)%Z then number else ((thread + 1) * core)%Z).

(** [a[lo:hi]] with non-negative [lo], [hi]. *)
Definition slice {A} (l : list A) (r : Z * Z) : list A :=
  firstn (Z.to_nat (snd r - fst r)) (skipn (Z.to_nat (fst r)) l).

(** [output += part]: numpy's broadcasting. *)
Fixpoint broadcasts (to from : shape) : bool :=
  match to, from with
  | [], [] => true
  | a :: t, b :: f => ((a =? b)%Z || (b =? 1)%Z) && broadcasts t f
  | _, _ => false
  end.
Fixpoint clip (from : shape) (c : cell) : cell :=
  match from, c with
  | b :: f, i :: c' => (if (b =? 1)%Z then 0%Z else i) :: clip f c'
  | _, _ => c
  end.
Definition iadd (to from : shape) (out img : image) : res image :=
  if broadcasts to from then Ok (fun c => out c + img (clip from c)) else Err ValueError.

(** The threads, in any order: each renders an image of shape [whole], trims it to
    [from] and adds it to the output of shape [to]. *)
Fixpoint reduce (to from whole : shape) (f : part -> list write) (ps : list part) (threads : Z)
         (order : list Z) (out : image) : res image :=
  match order with
  | [] => Ok out
  | t :: rest =>
      do img <- render whole (flat_map f (slice ps (thread_range (zlen ps) threads t)));
      do out1 <- iadd to from out img;
      reduce to from whole f ps threads rest out1
  end.
Definition parallel (to from whole : shape) (f : part -> list write) (ps : list part) (threads : Z)
           (order : list Z) : res image := reduce to from whole f ps threads order zeros.

(** The backends, serial and parallel. *)
Definition square (n : Z) : shape := [n; n].
Definition cube (n : Z) : shape := [n; n; n].
Definition fast n bx by_ ps := render (square n) (flat_map (fast_part n bx by_) ps).
Definition histogram n bx by_ ps := render (square n) (flat_map (histogram_part n bx by_) ps).
Definition renormalised n bx by_ ps := render (square n) (flat_map (renormalised_part n bx by_) ps).
Definition reference n bx by_ ps := render (square n) (flat_map (reference_part n bx by_) ps).
Definition subsampled e d n bx by_ ps := render (square n) (flat_map (subsampled_part e d n bx by_) ps).
(** The threads of the GPU in the order [ts]. *)
Definition gpu n bx by_ ps ts := render (square n) (flat_map (gpu_thread n bx by_ ps) ts).
(** [slice_scatter] makes a square image and trims it to (xres, yres). *)
Definition slice_scatter xres yres zs bx by_ bz ps :=
  render (square (Z.max xres yres)) (flat_map (slice_part (Z.max xres yres) zs bx by_ bz) ps).
Definition volume n bx by_ bz ps := render (cube n) (flat_map (volume_part n bx by_ bz) ps).
Definition limited_z n ratio bx by_ bz ps :=
  render [n; n; (n / ratio)%Z] (flat_map (limited_part n ratio bx by_ bz) ps).

Definition fast_parallel n bx by_ ps :=
  parallel (square n) (square n) (square n) (fast_part n bx by_) ps.
Definition histogram_parallel n bx by_ ps :=
  parallel (square n) (square n) (square n) (histogram_part n bx by_) ps.
Definition renormalised_parallel n bx by_ ps :=
  parallel (square n) (square n) (square n) (renormalised_part n bx by_) ps.
Definition reference_parallel n bx by_ ps :=
  parallel (square n) (square n) (square n) (reference_part n bx by_) ps.
Definition subsampled_parallel e d n bx by_ ps :=
  parallel (square n) (square n) (square n) (subsampled_part e d n bx by_) ps.
Definition slice_parallel xres yres zs bx by_ bz ps :=
  parallel [xres; yres] [xres; yres] (square (Z.max xres yres))
           (slice_part (Z.max xres yres) zs bx by_ bz) ps.
(** scatter.py 521-573: the output is a cube also if the parts are not. *)
Definition volume_parallel n ratio bx by_ bz ps :=
  if (ratio =? 1)%Z
  then parallel (cube n) (cube n) (cube n) (volume_part n bx by_ bz) ps
  else parallel (cube n) [n; n; (n / ratio)%Z] [n; n; (n / ratio)%Z] (limited_part n ratio bx by_ bz) ps.
