(** Vocabulary for pictures of cosmo arrays: the numbers of arrays in a frame and the numbers of a dataset. *)
From Coq Require Import List ZArith Reals Bool.
From Verif Require Import Base VisModel RotModel CosmoModel CosmoSpec FrontModel FrameModel.
Import ListNotations.
Open Scope R_scope.

(** The comoving or physical numbers of an array. *)
Definition numbers (b : bool) (x : carr) : list R := if b then comov x else phys x.

(** A convertible array at scale factor [s] with exponent [k] that is stored in the frame [b]. *)
Definition stored_in (s : R) (b : bool) (k : R) (x : carr) : Prop := good s k x /\ acm x = Some b.

(** Three numbers. *)
Definition triple (v : list R) : vec := match v with [x; y; z] => (x, y, z) | _ => (0, 0, 0) end.

(** A region of four or six numbers. *)
Definition region_of (v : list R) : option region :=
  match v with
  | [x0; x1; y0; y1] => Some (mkregion x0 x1 y0 y1 None)
  | [x0; x1; y0; y1; z0; z1] => Some (mkregion x0 x1 y0 y1 (Some (z0, z1)))
  | _ => None
  end.
Definition good_region (s : R) (region : option carr) : Prop :=
  match region with
  | None => True
  | Some r => good s 1 r /\ (length (avals r) = 4%nat \/ length (avals r) = 6%nat)
  end.
Definition region_numbers (b : bool) (r : option carr) : option region :=
  match r with None => None | Some r => region_of (numbers b r) end.

Definition good_rotation (s : R) (rotation : option (mat * carr)) : Prop :=
  match rotation with None => True | Some (_, c) => good s 1 c /\ length (avals c) = 3%nat end.
Definition rotation_numbers (b : bool) (rotation : option (mat * carr)) : option (mat * vec) :=
  match rotation with None => None | Some (m, c) => Some (m, triple (numbers b c)) end.

(** The height of a slice: one length. *)
Definition good_height (s : R) (z : option carr) : Prop := match z with None => True | Some z => good s 1 z /\ length (avals z) = 1%nat end.
Definition height_number (b : bool) (z : option carr) : option R := match z with None => None | Some z => Some (hd 0 (numbers b z)) end.

(** The field: bare numbers, or an array of exponent [j], convertible or not. *)
Definition good_field (s j : R) (m : operand) : Prop :=
  match m with OPlain _ => True | OArr x => acf x = Some (mkcf (Some j) (Some s)) end.

(** A dataset of [n] particles whose coordinates are stored in the frame [b]. *)
Record good_data (s : R) (b : bool) (j : R) (n : nat) (d : fdata) : Prop := mkgd {
  gd_x : stored_in s b 1 (col0 (d_coords d)); gd_y : stored_in s b 1 (col1 (d_coords d)); gd_z : stored_in s b 1 (col2 (d_coords d));
  gd_nx : length (avals (col0 (d_coords d))) = n; gd_ny : length (avals (col1 (d_coords d))) = n;
  gd_nz : length (avals (col2 (d_coords d))) = n;
  gd_box : good s 1 (d_box d); gd_nbox : length (avals (d_box d)) = 3%nat;
  gd_h : good s 1 (d_h d); gd_nh : length (avals (d_h d)) = n;
  gd_m : good_field s j (d_m d); gd_nm : length (op_vals (d_m d)) = n
}.

(** Its particles, as numbers in the frame [b]. *)
Definition particles (b : bool) (d : fdata) : list part :=
  parts_of (avals (col0 (d_coords d))) (avals (col1 (d_coords d))) (avals (col2 (d_coords d))) (op_vals (d_m d)) (numbers b (d_h d)).

(** The field's frame and the label of a picture that divides by a [dim]-dimensional volume. *)
Definition field_frame (m : operand) : option bool := match m with OArr x => acm x | OPlain _ => None end.
Definition picture_label (s j dim : R) (m : operand) : option cf :=
  match m with
  | OPlain _ => None
  | OArr x => match acm x with Some _ => Some (mkcf (Some (j - dim)) (Some s)) | None => Some (mkcf (Some j) (Some s)) end
  end.

(** What is expected of the outcome of a picture function, from the outcome on numbers. *)
Definition matches (s : R) (b : bool) (j dim : R) (m : operand) (expected : res (picture * list part)) (got : res (fpicture * cols)) : Prop :=
  match expected with
  | Err e => got = Err e
  | Ok (pic, ps) =>
      exists fp c, got = Ok (fp, c)
        /\ fp_shape fp = pic_shape pic /\ (forall p, fp_image fp p = pic_image pic p)
        /\ fp_cf fp = picture_label s j dim m /\ fp_cm fp = field_frame m
        /\ stored_in s b 1 (col0 c) /\ stored_in s b 1 (col1 c) /\ stored_in s b 1 (col2 c)
        /\ avals (col0 c) = map p_x ps /\ avals (col1 c) = map p_y ps /\ avals (col2 c) = map p_z ps
  end.

(** The same lengths, in any frames. *)
Definition same_lengths (d1 d2 : fdata) : Prop :=
  phys (col0 (d_coords d1)) = phys (col0 (d_coords d2)) /\ phys (col1 (d_coords d1)) = phys (col1 (d_coords d2))
  /\ phys (col2 (d_coords d1)) = phys (col2 (d_coords d2)) /\ phys (d_box d1) = phys (d_box d2) /\ phys (d_h d1) = phys (d_h d2).
Definition same_array (x y : option carr) : Prop :=
  match x, y with Some x, Some y => phys x = phys y | None, None => True | _, _ => False end.
Definition same_rotation (r1 r2 : option (mat * carr)) : Prop :=
  match r1, r2 with Some (m1, c1), Some (m2, c2) => m1 = m2 /\ phys c1 = phys c2 | None, None => True | _, _ => False end.

(** The same outcome: the same error, or the same picture with the same labels, and coordinates of the same lengths
    left in the dataset. *)
Definition same_outcome (o1 o2 : res (fpicture * cols)) : Prop :=
  match o1, o2 with
  | Ok (p1, c1), Ok (p2, c2) =>
      fp_shape p1 = fp_shape p2 /\ (forall q, fp_image p1 q = fp_image p2 q) /\ fp_cf p1 = fp_cf p2 /\ fp_cm p1 = fp_cm p2
      /\ phys (col0 c1) = phys (col0 c2) /\ phys (col1 c1) = phys (col1 c2) /\ phys (col2 c1) = phys (col2 c2)
  | Err e1, Err e2 => e1 = e2
  | _, _ => False
  end.

(** A backend of projections that does not look at heights. *)
Definition blind (backend : Z -> R -> R -> list part -> res image) : Prop :=
  forall n bx by_ ps (zs : part -> R),
    backend n bx by_ (map (fun p => mkpart (p_x p) (p_y p) (zs p) (p_m p) (p_h p)) ps) = backend n bx by_ ps.

(** A cube, in physical lengths. *)
Definition cubic (box : carr) (region : option carr) : Prop :=
  match region with
  | None => exists l, phys box = [l; l; l]
  | Some r =>
      (exists x0 y0 z0 l, phys r = [x0; x0 + l; y0; y0 + l; z0; z0 + l])
      \/ (exists x0 y0 l lx ly, phys r = [x0; x0 + l; y0; y0 + l] /\ phys box = [lx; ly; l])
  end.
