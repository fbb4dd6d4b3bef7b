(** Specification vocabulary for masks: which rows a mask selects, how cells describe the
    file, when a point is in a periodic region.  Independent of how masks are computed. *)
From Coq Require Import List ZArith QArith Qabs Qminmax Bool Sorted.
From Verif Require Import Base RangesSpec MaskModel.
Import ListNotations.
Open Scope Z_scope.

(** * Which rows are selected *)

(** Rows marked by a boolean mask, in increasing order. *)
Definition rows_true (m : list bool) : list Z :=
  filter (fun i => nth (Z.to_nat i) m false) (zrange 0 (zlen m)).

(** The rows of key [k] that reading with the mask returns, in order. *)
Definition masked_rows (m : masks) (k : nat) : list Z :=
  match m with
  | InRanges l => match nth_error l k with Some rs => indices_of (fst rs) | None => [] end
  | InBools l => match nth_error l k with Some bs => rows_true (fst bs) | None => [] end
  end.

(** The size reported for key [k]. *)
Definition masked_size (m : masks) (k : nat) : Z :=
  match m with
  | InRanges l => match nth_error l k with Some rs => snd rs | None => 0 end
  | InBools l => match nth_error l k with Some bs => snd bs | None => 0 end
  end.

Definition in_range_form (m : masks) : Prop :=
  match m with InRanges _ => True | InBools _ => False end.

Definition selected (st : mask_state) (k : nat) (i : Z) : Prop :=
  In i (masked_rows (ms_masks st) k).

(** Two states select the same rows of every key. *)
Definition same_selection (st st' : mask_state) : Prop :=
  forall k i, selected st k i <-> selected st' k i.

(** * Cells and the file *)

Definition stored_in (c : cell) (i : Z) : Prop :=
  cell_offset c <= i < cell_offset c + cell_count c.

(** Every cell describes a (possibly empty) block of rows of the file. *)
Definition cells_in_file (mk : mask_key) : Prop :=
  0 <= key_total mk /\
  Forall (fun c => 0 <= cell_offset c /\ 0 <= cell_count c /\
                   cell_offset c + cell_count c <= key_total mk) (key_cells mk).

(** No row belongs to two cells. *)
Definition cells_disjoint (mk : mask_key) : Prop :=
  ForallOrdPairs (fun c d => forall i, ~ (stored_in c i /\ stored_in d i)) (key_cells mk).

(** Every row of the file belongs to a cell. *)
Definition cells_cover (mk : mask_key) : Prop :=
  forall i, 0 <= i < key_total mk -> exists c, In c (key_cells mk) /\ stored_in c i.

Definition cells_partition (mk : mask_key) : Prop :=
  cells_in_file mk /\ cells_disjoint mk /\ cells_cover mk.

(** The cells follow one another in the file from [start] to [stop] without gaps. *)
Fixpoint cells_tile (start : Z) (cells : list cell) (stop : Z) : Prop :=
  match cells with
  | [] => start = stop
  | c :: rest => cell_offset c = start /\ 0 <= cell_count c
                 /\ cells_tile (start + cell_count c) rest stop
  end.

(** A snapshot the mask can be built for: boxes are not empty, cells are inside the file,
    and files with homogeneous arrays have a single (shared) key. *)
Definition wf_meta (mm : mask_meta) : Prop :=
  (forall a, (0 < mm_box mm a)%Q) /\
  Forall cells_in_file (mm_keys mm) /\
  (mm_homogeneous mm = true -> length (mm_keys mm) = 1%nat).

(** Cell bounding boxes: not degenerate and within half a box of the box. *)
Definition extent_ok (box : vec) (c : cell) : Prop :=
  forall a, (- box a / 2 <= cell_min c a /\ cell_min c a < cell_max c a
             /\ cell_max c a <= 3 * box a / 2)%Q.

(** * Periodic regions *)

(** Upper end of the interval from [lo] to [up]; when [up < lo] it wraps through the edge
    of the box. *)
Definition wrap_upper (box lo up : Q) : Q := if Qlt_le_dec up lo then up + box else up.

(** A point is strictly inside the periodic interval from [lo] to [up]. *)
Definition inside_interval (box lo up x : Q) : Prop :=
  (exists j : Z, lo < x + inject_Z j * box /\ x + inject_Z j * box < wrap_upper box lo up)%Q.

(** A point is strictly inside the region along one axis; [None] is no restriction. *)
Definition inside_axis (box : Q) (r : option (list Q)) (x : Q) : Prop :=
  match r with
  | None => True
  | Some [lo; up] => inside_interval box lo up x
  | Some _ => False
  end.

Definition inside_region (box : vec) (region : list (option (list Q))) (p : vec) : Prop :=
  match region with
  | [rx; ry; rz] => inside_axis (box AX) rx (p AX) /\ inside_axis (box AY) ry (p AY)
                    /\ inside_axis (box AZ) rz (p AZ)
  | _ => False
  end.

(** A point lies in the bounding box of a cell, up to periodic images. *)
Definition in_cell_extent (box : vec) (c : cell) (p : vec) : Prop :=
  forall a, exists j : Z, (cell_min c a <= p a + inject_Z j * box a <= cell_max c a)%Q.

(** A region as documented: three rows, each [None] or two bounds, ... *)
Definition well_formed_region (region : list (option (list Q))) : Prop :=
  length region = 3%nat /\
  forall r, In r region -> match r with None => True | Some l => length l = 2%nat end.

(** ... with every bound inside [-L/2, 3L/2]. *)
Definition axis_in_window (box : Q) (r : option (list Q)) : Prop :=
  match r with
  | None => True
  | Some l => Forall (fun b => - box / 2 <= b /\ b <= 3 * box / 2)%Q l
  end.

Definition region_in_window (box : vec) (region : list (option (list Q))) : Prop :=
  match region with
  | [rx; ry; rz] => axis_in_window (box AX) rx /\ axis_in_window (box AY) ry
                    /\ axis_in_window (box AZ) rz
  | _ => False
  end.

(** A periodic image of the interval (cmin, cmax) reaches below the upper end and above
    the lower end of the interval from [lo] to [up]. *)
Definition interval_touches (box lo up cmin cmax : Q) : Prop :=
  (exists j : Z, lo < cmax + inject_Z j * box /\ cmin + inject_Z j * box < wrap_upper box lo up)%Q.

(** A region touches a cell along one axis: the requested interval is longer than the box,
    or it overlaps a periodic image of the cell. *)
Definition axis_touches (box : Q) (r : option (list Q)) (cmin cmax : Q) : Prop :=
  match r with
  | None => True
  | Some [lo; up] => (box < Qabs (up - lo))%Q \/ interval_touches box lo up cmin cmax
  | Some _ => False
  end.

Definition region_touches (box : vec) (region : list (option (list Q))) (c : cell) : Prop :=
  match region with
  | [rx; ry; rz] => axis_touches (box AX) rx (cell_min c AX) (cell_max c AX)
                    /\ axis_touches (box AY) ry (cell_min c AY) (cell_max c AY)
                    /\ axis_touches (box AZ) rz (cell_min c AZ) (cell_max c AZ)
  | _ => False
  end.

(** * Histories *)

(** The arguments of a call make sense for the file: indices are rows of the file and the
    values of a property are one per row. *)
Definition ok_op (mm : mask_meta) (op : mask_op) : Prop :=
  match op with
  | OpIndex i => Forall (fun mk => 0 <= i < key_total mk) (mm_keys mm)
  | OpIndices l => Forall (fun mk => Forall (fun i => 0 <= i < key_total mk) l) (mm_keys mm)
  | OpProperty key (Some vals) _ _ =>
      forall mk, nth_error (mm_keys mm) key = Some mk -> zlen vals = key_total mk
  | _ => True
  end.

(** States a user can bring a mask into. *)
Definition reachable (mm : mask_meta) (st : mask_state) : Prop :=
  exists ops, Forall (ok_op mm) ops /\ fst (mask_run mm ops (new_mask mm)) = st.

(** When a spatial constraint is allowed. *)
Definition spatial_allowed (st : mask_state) (union : bool) : Prop :=
  ms_constrained st = None \/ (ms_constrained st = Some CSpatial /\ union = true).

Definition ok_region (mm : mask_meta) (region : list (option (list Q))) : Prop :=
  well_formed_region region /\ region_in_window (mm_box mm) region.

(** Index lists without repetitions. *)
Definition nodup_op (op : mask_op) : Prop :=
  match op with OpIndices l => NoDup l | _ => True end.

Definition all_are (c : constraint) (l : list constraint) : Prop := Forall (eq c) l.

(** The names of the constraints that succeeded in a history, in order. *)
Definition constraint_of (op : mask_op) : option constraint :=
  match op with
  | OpSpatial _ _ => Some CSpatial
  | OpProperty _ _ _ _ => Some CProperty
  | OpIndex _ => Some CIndex
  | OpIndices _ => Some CIndices
  | OpToRanges | OpToBool => None
  end.

Fixpoint successes (ops : list mask_op) (es : list (option pyerr)) : list constraint :=
  match ops, es with
  | op :: ops', e :: es' =>
      match e, constraint_of op with
      | None, Some c => c :: successes ops' es'
      | _, _ => successes ops' es'
      end
  | _, _ => []
  end.

(** * Cell tables of masked files *)

(** How many of the given rows are stored in a cell. *)
Definition count_in (c : cell) (rows : list Z) : Z :=
  zlen (filter (fun i => (cell_offset c <=? i) && (i <? cell_offset c + cell_count c)) rows).

(** The rows a particle mask selects. *)
Definition rows_of (m : list (Z * Z) + list bool) : list Z :=
  match m with inl rs => indices_of rs | inr bs => rows_true bs end.

(** The particle mask belongs to a file with [n] rows. *)
Definition mask_for (n : Z) (m : list (Z * Z) + list bool) : Prop :=
  match m with inl rs => Forall (in_bounds n) rs | inr bs => zlen bs = n end.

(** * The Cells group of the file *)

(** All tables have one row per cell. *)
Definition wf_raw (rc : raw_cells) : Prop :=
  (forall a, (0 < rc_box rc a)%Q) /\ (forall a, (0 < rc_size rc a)%Q) /\ (0 <= rc_pad rc)%Q /\
  (rc_homogeneous rc = true -> length (rc_keys rc) = 1%nat) /\
  Forall (fun rk =>
    length (rk_offsets rk) = length (rc_centres rc) /\
    length (rk_counts rk) = length (rc_centres rc) /\
    match rk_extent rk with
    | Some (mn, mx) => length mn = length (rc_centres rc) /\ length mx = length (rc_centres rc)
    | None => True
    end /\
    0 <= rk_total rk /\
    Forall (fun oc => 0 <= fst oc /\ 0 <= snd oc /\ fst oc + snd oc <= rk_total rk)
           (combine (rk_offsets rk) (rk_counts rk))) (rc_keys rc).

(** The file says about cell [j]: it extends from [lo] to [hi] (the geometric cell,
    enlarged to MinPositions/MaxPositions, or by the padding). *)
Definition file_extent (rc : raw_cells) (rk : raw_key) (j : nat) (a : axis) (lo hi : Q) : Prop :=
  exists c, nth_error (rc_centres rc) j = Some c /\
  match rk_extent rk with
  | Some (mn, mx) => exists n x, nth_error mn j = Some n /\ nth_error mx j = Some x /\
      (lo == Qmin (c a - rc_size rc a / 2) (n a))%Q /\ (hi == Qmax (c a + rc_size rc a / 2) (x a))%Q
  | None => (lo == c a - rc_size rc a / 2 - rc_pad rc * rc_size rc a)%Q /\
            (hi == c a + rc_size rc a / 2 + rc_pad rc * rc_size rc a)%Q
  end.
