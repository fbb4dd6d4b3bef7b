(** Model of visualisation/smoothing_length/generate.py and of
    visualisation/slice_backends/nearest_neighbours.py.

    Real numbers.  scipy's KDTree is modelled by what it computes: the sorted periodic
    distances to all the points of the tree, padded with infinity. *)
From Coq Require Import List ZArith Reals Bool.
From Verif Require Import Base VisModel RotModel.
Import ListNotations.
Open Scope R_scope.

(** An entry of a float array: not yet written ([np.empty]), infinite, or a number. *)
Inductive value := Unset | Infinite | Number (r : R).

(** * KDTree *)

(** Distance along one axis; a box length of zero means not periodic. *)
Definition axis_distance (box a b : R) : R :=
  let d := Rabs (a - b) in
  if Req_EM_T box 0 then d else Rmin d (box - d).

Definition tree_distance (box a b : vec) : R :=
  let '(lx, ly, lz) := box in let '(a0, a1, a2) := a in let '(b0, b1, b2) := b in
  let dx := axis_distance lx a0 b0 in
  let dy := axis_distance ly a1 b1 in
  let dz := axis_distance lz a2 b2 in
  sqrt (dx * dx + dy * dy + dz * dz).

(** KDTree refuses points outside [0, box). *)
Definition outside_axis (box a : R) : bool :=
  if Req_EM_T box 0 then false
  else if Rlt_dec a 0 then true else if Rle_dec box a then true else false.
Definition outside (box a : vec) : bool :=
  let '(lx, ly, lz) := box in let '(a0, a1, a2) := a in
  outside_axis lx a0 || outside_axis ly a1 || outside_axis lz a2.
Definition build (box : vec) (points : list vec) : res (list vec) :=
  if existsb (outside box) points then Err ValueError else Ok points.

Fixpoint insert (x : R) (l : list R) : list R :=
  match l with
  | [] => [x]
  | y :: t => if Rle_dec x y then x :: l else y :: insert x t
  end.
Fixpoint sort (l : list R) : list R :=
  match l with
  | [] => []
  | x :: t => insert x (sort t)
  end.

(** One row of [d] for [k > 1] neighbours. *)
Definition query_row (box : vec) (points : list vec) (k : Z) (c : vec) : list value :=
  let found := firstn (Z.to_nat k) (map Number (sort (map (tree_distance box c) points))) in
  found ++ repeat Infinite (Z.to_nat k - length found).

(** [d, _ = tree.query(queries, k=k)] followed by [d[:, -1]]: with [k = 1] the result has
    one dimension only. *)
Definition query_last (box : vec) (points : list vec) (k : Z) (queries : list vec)
  : res (list value) :=
  if (k <? 1)%Z then Err ValueError
  else if (k =? 1)%Z then Err IndexError
  else Ok (map (fun c => last (query_row box points k c) Infinite) queries).

(** * generate_smoothing_lengths, lines 15-117 *)

(** [a[start:stop] = v]: a vector of another length broadcasts only if it has one element. *)
Definition assign (start stop : Z) (v : list value) (a : list value) : res (list value) :=
  let n := zlen a in
  let lo := Z.min start n in
  let hi := Z.max lo (Z.min stop n) in
  let v' := if (zlen v =? 1)%Z then repeat (hd Unset v) (Z.to_nat (hi - lo)) else v in
  if (zlen v' =? hi - lo)%Z then Ok (splice (Z.to_nat lo) v' a) else Err ValueError.

(** Lines 84-91: the bounds of a block, [None] for [break]. *)
Definition block_range (block_size number : Z) (block : Z) : option (Z * Z) :=
  let start := (block * block_size)%Z in
  let stop := ((block + 1) * block_size)%Z in
  let stop := if (number <? stop)%Z then (number + 1)%Z else stop in
  if (stop <=? start)%Z then None else Some (start, stop).

(** Lines 83-111. *)
Fixpoint blocks_loop (box : vec) (points : list vec) (k block_size : Z) (blocks : list Z)
         (out : list value) : res (list value) :=
  match blocks with
  | [] => Ok out
  | b :: rest =>
      match block_range block_size (zlen points) b with
      | None => Ok out
      | Some (start, stop) =>
          do d <- query_last box points k (slice points (start, stop));
          do out1 <- assign start stop d out;
          blocks_loop box points k block_size rest out1
      end
  end.

(** Multiplication by a positive number. *)
Definition times (k : R) (v : value) : value :=
  match v with Number r => Number (r * k) | _ => v end.

(** [block_size] is 65536 in the source. *)
Definition generate_smoothing_lengths (block_size : Z) (coordinates : list vec) (boxsize : vec)
           (kernel_gamma : R) (neighbours speedup_fac dimension : Z) : res (list value) :=
  let number := zlen coordinates in
  do points <- build boxsize coordinates;
  if (number =? 0)%Z then Err IndexError
  else
    let out := upd (Z.to_nat (number - 1)) (Number (- (1 / 10)))
                   (repeat Unset (Z.to_nat number)) in
    if (speedup_fac =? 0)%Z then Err ZeroDivision
    else if (dimension =? 0)%Z then Err ZeroDivision
    else
      let k := (neighbours / speedup_fac)%Z in
      let correction := Rpower (IZR speedup_fac) (1 / IZR dimension) in
      do filled <- blocks_loop boxsize points k block_size
                               (zrange 0 (1 + number / block_size)) out;
      Ok (map (times (correction / kernel_gamma)) filled).

(** * Nearest neighbour slices, nearest_neighbours.py lines 8-165 *)

Definition rmod (x l : R) : R := x - l * IZR (floor (x / l)).

(** Lines 55-66. *)
Definition wrap_axis (box x : R) : R := if Req_EM_T box 0 then x else rmod x box.
Definition wrap_point (box p : vec) : vec :=
  let '(lx, ly, lz) := box in let '(x, y, z) := p in
  (wrap_axis lx x, wrap_axis ly y, wrap_axis lz z).

(** [tree.query(c)] with one neighbour: the index of a point at the smallest distance; the
    first one here (scipy does not say which when several are equally close). *)
Fixpoint nearest (box c : vec) (points : list vec) (index best : nat) (least : R) : nat :=
  match points with
  | [] => best
  | p :: rest =>
      let d := tree_distance box c p in
      if Rlt_dec d least then nearest box c rest (S index) index d
      else nearest box c rest (S index) best least
  end.

(** Lines 147-159: the centre of pixel (i, j).  The tree wraps the points it is asked
    about. *)
Definition pixel_point (xres yres : Z) (z_slice : R) (i j : Z) : vec :=
  let n := IZR (Z.max xres yres) in
  ((IZR i + 1 / 2) / n, (IZR j + 1 / 2) / n, z_slice).

Definition nearest_slice (xres yres : Z) (z_slice : R) (box : vec) (ps : list part)
  : res image :=
  do points <- build box (map (fun p => wrap_point box (p_x p, p_y p, p_z p)) ps);
  match points with
  | [] => Err IndexError
  | first :: rest =>
      Ok (fun c => match c with
                   | [i; j] =>
                       let q := wrap_point box (pixel_point xres yres z_slice i j) in
                       let index := nearest box q rest 1 0 (tree_distance box q first) in
                       match nth_error ps index with
                       | Some p => p_m p / (p_h p * p_h p * p_h p)
                       | None => 0
                       end
                   | _ => 0
                   end)
  end.
