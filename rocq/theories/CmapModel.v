(** Model of visualisation/tools/cmaps.py.

    Real numbers; plotting is not modelled.  Grids have entries of four components. *)
From Coq Require Import List ZArith Reals Bool.
From Verif Require Import Base VisModel.
Import ListNotations.
Open Scope R_scope.

(** A colour is the list of its four RGBA components. *)
Definition colour := list R.

(** A grid of colours: [rows x columns] entries. *)
Record grid := mkgrid { rows : Z; columns : Z; entry : Z -> Z -> colour }.

(** [map_grid[i, j]] in numba code: no bounds check; negative indices, which wrap round in
    numba, are not reached. *)
Definition read (g : grid) (i j : Z) : res colour :=
  if ((0 <=? i) && (i <? rows g) && (0 <=? j) && (j <? columns g))%Z
  then Ok (entry g i j) else Err UndefinedRead.

(** Lines 14-37. *)
Definition ensure_rgba (input : list R) : res colour :=
  if (4 <? zlen input)%Z then Err IndexError
  else Ok (input ++ skipn (length input) [0; 0; 0; 1]).

(** [min(max(v, 0.0), 1.0)] *)
Definition clamp (v : R) : R := Rmin (Rmax v 0) 1.

(** Lines 82-86. *)
Definition position_of (length : Z) (v : R) : Z := trunc (IZR (length - 1) * clamp v).

(** Lines 41-91. *)
Definition apply_color_map (first second : list R) (g : grid) : res (list colour) :=
  if (rows g <? 1)%Z then Err UndefinedRead
  else
    all_ok (map (fun index =>
                   match nth_error first index, nth_error second index with
                   | Some u, Some v => read g (position_of (rows g) u) (position_of (columns g) v)
                   | _, _ => Err UndefinedRead
                   end)
                (seq 0 (length first))).

(** Lines 173-208: the arguments of a call are arrays (a shape and the values in order) or
    Python lists of floats; [np.ndarray(l)] takes [l] for a shape. *)
Inductive argument :=
| Array (shape : list Z) (values : list R)
| Floats (values : list R).

Definition call (g : grid) (horizontal vertical : argument) : res (list Z * list colour) :=
  let '(hs, hv) := match horizontal with Array s v => (s, v) | Floats v => ([zlen v], v) end in
  do vv <- match vertical with
           | Array _ v => Ok v
           | Floats [] => Ok [0]   (* a zero-dimensional array, not initialised *)
           | Floats _ => Err TypeError
           end;
  do values <- apply_color_map hv vv g;
  Ok (hs ++ [4%Z], values).

(** * LinearSegmentedCmap2D, lines 250-286 *)

(** [np.linspace(0, 1, size)[k]] *)
Definition tick (size k : Z) : R := IZR k / IZR (size - 1).

(** Lines 272-277. *)
Definition weight (size x_ind y_ind : Z) (coordinate : R * R) : R :=
  let dx := tick size y_ind - fst coordinate in
  let dy := tick size x_ind - snd coordinate in
  Rmax (1 - sqrt (dx * dx + dy * dy)) 0.

Definition scale_colour (k : R) (c : colour) : colour := map (Rmult k) c.
Fixpoint add_colour (a b : colour) : colour :=
  match a, b with
  | x :: s, y :: t => (x + y) :: add_colour s t
  | _, _ => []
  end.

(** Lines 269-282: one entry of the grid. *)
Definition segmented_entry (size : Z) (points : list (colour * (R * R))) (x_ind y_ind : Z) : colour :=
  let step := fun acc point =>
    let w := weight size x_ind y_ind (snd point) in
    (add_colour (fst acc) (scale_colour w (fst point)), snd acc + w) in
  let '(total, weights) := fold_left step points ([0; 0; 0; 0], 0) in
  scale_colour (/ (weights * (10001 / 10000))) total.

(** [size] is 256 in the source. *)
Definition segmented_grid (size : Z) (colors : list (list R)) (coordinates : list (R * R))
  : res grid :=
  do rgba <- all_ok (map ensure_rgba colors);
  Ok (mkgrid size size (segmented_entry size (combine rgba coordinates))).

(** * LinearSegmentedCmap2DHSV, lines 289-381 *)

Section HSV.
(** matplotlib's [rgb_to_hsv] and [hsv_to_rgb] for one colour. *)
Variables to_hsv to_rgb : list R -> list R.

(** Lines 347-372: one entry of the grid; a point has its hue, saturation and value, its alpha and its
    place. *)
Definition hsv_entry (size : Z) (points : list (list R * R * (R * R))) (x_ind y_ind : Z) : colour :=
  let step := fun acc point =>
    let w := weight size x_ind y_ind (snd point) in
    (add_colour (fst (fst acc)) (scale_colour w (fst (fst point))),
     snd (fst acc) + w * snd (fst point), snd acc + w) in
  let '(total, alpha, weights) := fold_left step points ([0; 0; 0], 0, 0) in
  let k := / (weights * (10001 / 10000)) in
  to_rgb (scale_colour k total) ++ [k * alpha].

Definition hsv_grid (size : Z) (colors : list (list R)) (coordinates : list (R * R)) : res grid :=
  do rgba <- all_ok (map ensure_rgba colors);
  Ok (mkgrid size size (hsv_entry size
        (combine (map (fun c => (to_hsv (firstn 3 c), nth 3 c 0)) rgba) coordinates))).
End HSV.

(** * ImageCmap2D, lines 413-427: the pixels of an RGBA image, in rows from the top *)

Definition image_grid (height width : Z) (pixels : Z -> Z -> list R) : grid :=
  mkgrid height width (fun i j => map (fun v => v / 255) (pixels i j)).

(** * The object: lines 113-148 *)

(** [make] is the map's [generate_color_map_grid]; colours and coordinates are attributes that the user
    may change. *)
Record cmap_state := mkcmap {
  cm_colors : list (list R);
  cm_coordinates : list (R * R);
  cm_cached : option grid
}.

Inductive cmap_op :=
| SetColors (c : list (list R))
| SetCoordinates (c : list (R * R))
| Apply (horizontal vertical : argument).

Definition cmap_step (make : list (list R) -> list (R * R) -> res grid) (st : cmap_state) (o : cmap_op)
  : cmap_state * option (res (list Z * list colour)) :=
  match o with
  | SetColors c => (mkcmap c (cm_coordinates st) (cm_cached st), None)
  | SetCoordinates c => (mkcmap (cm_colors st) c (cm_cached st), None)
  | Apply h v =>
      match v with
      | Floats (_ :: _) => (st, Some (Err TypeError))   (* before the grid is made *)
      | _ =>
        match (match cm_cached st with Some g => Ok g | None => make (cm_colors st) (cm_coordinates st) end) with
        | Err e => (st, Some (Err e))
        | Ok g => (mkcmap (cm_colors st) (cm_coordinates st) (Some g), Some (call g h v))
        end
      end
  end.

Fixpoint cmap_run (make : list (list R) -> list (R * R) -> res grid) (st : cmap_state) (l : list cmap_op)
  : cmap_state * list (res (list Z * list colour)) :=
  match l with
  | [] => (st, [])
  | o :: t => let '(st', r) := cmap_step make st o in
              let '(st'', rs) := cmap_run make st' t in
              (st'', match r with Some x => x :: rs | None => rs end)
  end.
