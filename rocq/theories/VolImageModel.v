(** Model of visualisation/volume_render.py lines 228-390: images of voxel grids. *)
From Coq Require Import String List Arith Reals Bool.
From Verif Require Import Base.
Import ListNotations.
Open Scope R_scope.

(** Arrays of numbers: their shape and their entries.  Entries outside of the shape mean nothing. *)
Record voxels := mkvox { vx : nat; vy : nat; vz : nat; vat : nat -> nat -> nat -> R }.
Record grid := mkgrid { rows : nat; cols : nat; at2 : nat -> nat -> R }.
(** An image has three channels for every pixel. *)
Record image := mkim { irows : nat; icols : nat; iat : nat -> nat -> nat -> R }.

Definition zeros (a b : nat) : grid := mkgrid a b (fun _ _ => 0).
(** [output[a, b] = v].  Compiled code does not check bounds: a write outside of the array has no
    defined meaning and is an error here. *)
Definition write (g : grid) (a b : nat) (v : R) : res grid :=
  if ((a <? rows g) && (b <? cols g))%nat
  then Ok (mkgrid (rows g) (cols g) (fun p q => if ((p =? a) && (q =? b))%nat then v else at2 g p q))
  else Err UndefinedRead.

(** Lines 254-258: the term of one voxel.  Compiled division by zero raises. *)
Definition voxel_term (center width v : R) : res R :=
  if Req_EM_T width 0 then Err ZeroDivision
  else let inner := (center - v) / width in
       let const := 1 / (width * sqrt (2 * PI)) in
       let fac := exp (- (1 / 2) * inner * inner) in
       Ok (fac * const).

(** Lines 252-258: [out += fac * const] for all k. *)
Fixpoint column_loop (d : voxels) (center width : R) (i j : nat) (ks : list nat) (out : R) : res R :=
  match ks with
  | [] => Ok out
  | k :: ks => do t <- voxel_term center width (vat d i j k); column_loop d center width i j ks (out + t)
  end.

(** Lines 251-259: for all j, [output[j, i] = out]. *)
Fixpoint row_loop (d : voxels) (center width : R) (i : nat) (js : list nat) (g : grid) : res grid :=
  match js with
  | [] => Ok g
  | j :: js => do out <- column_loop d center width i j (seq 0 (vz d)) 0;
               do g <- write g j i out;
               row_loop d center width i js g
  end.

Fixpoint image_loop (d : voxels) (center width : R) (is : list nat) (g : grid) : res grid :=
  match is with
  | [] => Ok g
  | i :: is => do g <- row_loop d center width i (seq 0 (vy d)) g; image_loop d center width is g
  end.

(** Lines 227-261. *)
Definition render_voxels_to_array (d : voxels) (center width : R) : res grid :=
  image_loop d center width (seq 0 (vx d)) (zeros (vx d) (vy d)).

(** matplotlib's [Normalize], as far as it is used here: unset limits are set by the first array it is
    called on, then values are optionally clipped and scaled.  An array without entries leaves them unset. *)
Record normalize := mknorm { nmin : option R; nmax : option R; nclip : bool }.

Definition values (g : grid) : list R :=
  flat_map (fun p => map (at2 g p) (seq 0 (cols g))) (seq 0 (rows g)).
Definition least_of (l : list R) : option R :=
  match l with [] => None | x :: l => Some (fold_left Rmin l x) end.
Definition greatest_of (l : list R) : option R :=
  match l with [] => None | x :: l => Some (fold_left Rmax l x) end.

Definition norm_call (n : normalize) (g : grid) : res (normalize * grid) :=
  let lo := match nmin n with Some v => Some v | None => least_of (values g) end in
  let hi := match nmax n with Some v => Some v | None => greatest_of (values g) end in
  let n' := mknorm lo hi (nclip n) in
  match lo, hi with
  | None, None => Ok (n', g)
  | Some lo, Some hi =>
      if Req_EM_T lo hi then Ok (n', zeros (rows g) (cols g))
      else if Rlt_dec hi lo then Err ValueError
      else Ok (n', mkgrid (rows g) (cols g) (fun p q =>
             let v := at2 g p q in
             let v := if nclip n then Rmin (Rmax v lo) hi else v in
             (v - lo) / (hi - lo)))
  | _, _ => Err TypeError
  end.

(** The argument [widths] (line 309): a float is repeated, a list is kept, anything else is not
    iterable (an int, say). *)
Inductive widths_arg := WFloat (w : R) | WList (l : list R) | WOther.
Definition widths_list (w : widths_arg) (n : nat) : option (list R) :=
  match w with WFloat w => Some (repeat w n) | WList l => Some l | WOther => None end.

(** The argument [norm] (lines 312-315).  Objects live in a heap; a list of objects is a list of
    positions in it, so that one object may be in the list several times.  Positions outside of the
    heap are things that can not be called. *)
Inductive norm_arg := NNone | NOne (n : normalize) | NList (heap : list normalize) (refs : list nat).
Definition norm_list (a : norm_arg) (n : nat) : list normalize * list nat :=
  match a with
  | NNone => (repeat (mknorm None None false) n, seq 0 n)
  | NOne x => ([x], repeat O n)
  | NList h r => (h, r)
  end.

(** [np.linspace(0, 1, n)]. *)
Definition linspace (a b : R) (n : nat) : list R :=
  map (fun k => a + INR k * ((b - a) / INR (n - 1))) (seq 0 n).
(** A colour has three channels here; the fourth one, alpha, is cut off. *)
Definition colour := nat -> R.

(** Lines 319-322, [n(render_voxels_to_array(render, center, width))] for the zipped lists. *)
Fixpoint render_all (d : voxels) (heap : list normalize) (refs : list nat) (centers widths : list R)
  : res (list normalize * list grid) :=
  match refs, centers, widths with
  | r :: refs, c :: centers, w :: widths =>
      do g <- render_voxels_to_array d c w;
      match nth_error heap r with
      | None => Err TypeError
      | Some n =>
          do ng <- norm_call n g;
          do rest <- render_all d (upd r (fst ng) heap) refs centers widths;
          Ok (fst rest, snd ng :: snd rest)
      end
  | _, _, _ => Ok (heap, [])
  end.

(** Lines 324-327, [np.array([color[0] * x, color[1] * x, color[2] * x]).T]. *)
Definition coloured (color : colour) (x : grid) : image :=
  mkim (cols x) (rows x) (fun p q ch => color ch * at2 x q p).

Definition im_op (f : R -> R -> R) (a b : image) : image :=
  mkim (irows a) (icols a) (fun p q ch => f (iat a p q ch) (iat b p q ch)).

(** What is returned: images, one image, the integer 0 of an empty sum; [None] without the norms. *)
Inductive shown := Images (l : list image) | OneImage (i : image) | IntZero.

Definition combined (return_type : string) (images : list image) : res (option shown) :=
  if String.eqb return_type "all" then Ok (Some (Images images))
  else if String.eqb return_type "lighten" then
    match images with [] => Err ValueError | a :: l => Ok (Some (OneImage (fold_left (im_op Rmax) l a))) end
  else if String.eqb return_type "add" then
    match images with [] => Ok (Some IntZero) | a :: l => Ok (Some (OneImage (fold_left (im_op Rplus) l a))) end
  else Ok None.

(** Lines 264-338.  [cmaps] gives the colour maps of matplotlib by name.  The heap after the call and the
    list of norms are returned too. *)
Definition visualise_render (cmaps : string -> option (R -> colour)) (d : voxels) (centers : list R)
    (widths : widths_arg) (cmap return_type : string) (norm : norm_arg)
  : res (option shown * list normalize * list nat) :=
  let n := length centers in
  let (heap, refs) := norm_list norm n in
  match cmaps cmap with
  | None => Err ValueError
  | Some m =>
      let colors := map m (linspace 0 1 n) in
      match widths_list widths n with
      | None => Err TypeError
      | Some ws =>
          do hg <- render_all d heap refs centers ws;
          let images := map (fun p => coloured (fst p) (snd p)) (combine colors (snd hg)) in
          do out <- combined return_type images;
          Ok (out, fst hg, refs)
      end
  end.

(** Lines 342-390: a vertical line and a curve for every centre; the y of a point of a function without
    width is not a number. *)
Record curve := mkcurve { line_at : R; points : list (R * option R); line_colour : colour }.
Definition visualise_render_options (cmaps : string -> option (R -> colour)) (centers : list R)
    (widths : widths_arg) (cmap : string) : res (list curve) :=
  let n := length centers in
  match cmaps cmap with
  | None => Err ValueError
  | Some m =>
      let colors := map m (linspace 0 1 n) in
      match widths_list widths n with
      | None => Err TypeError
      | Some ws =>
          Ok (map (fun p =>
                let center := fst (fst p) in let width := snd (fst p) in
                let xs := linspace (center - 5 * width) (center + 5 * width) 100 in
                let ys := map (fun x => if Req_EM_T width 0 then None
                                        else Some (exp (- (1 / 2) * ((center - x) / width) ^ 2)
                                                   / (width * sqrt (2 * PI)))) xs in
                mkcurve center (combine xs ys) (snd p))
              (combine (combine centers ws) colors))
      end
  end.
