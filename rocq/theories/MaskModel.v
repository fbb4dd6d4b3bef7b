(** Model of swiftsimio/masks.py (class SWIFTMask).  Definitions only.

    Simplifications common to the file: positions and regions are exact rationals in one
    unit system (the conversion of the region to the snapshot's units by cosmo_array is not
    modelled); a "key" is one entry of the dictionaries [offsets]/[counts]/[cell_mask]: one
    per particle type for snapshots, the single "shared" one for SOAP catalogues. *)
From Coq Require Import List ZArith QArith Qabs Bool.
From Verif Require Import Base RangesModel SortModel.
Import ListNotations.
Open Scope Z_scope.

(** * Geometry *)

Inductive axis : Set := AX | AY | AZ.
Definition axes : list axis := [AX; AY; AZ].

(** A 3-vector of numbers (a row of Centres, MinPositions, the box size, ...). *)
Definition vec := axis -> Q.

(** Python's [x < y] on numbers. *)
Definition qltb (x y : Q) : bool := negb (Qle_bool y x).

(** One top-level cell for one key, after [_unpack_cell_metadata]. *)
Record cell := mk_cell {
  cell_offset : Z;
  cell_count : Z;
  cell_min : vec;   (* minpositions *)
  cell_max : vec    (* maxpositions *)
}.

(** All cells of one key and [metadata.n_<group>] (masks.py:281-291). *)
Record mask_key := mk_mask_key {
  key_cells : list cell;
  key_total : Z
}.

(** What a mask needs of the snapshot: [metadata.homogeneous_arrays], [metadata.boxsize]
    and the cells of every key. *)
Record mask_meta := mk_mask_meta {
  mm_homogeneous : bool;
  mm_box : vec;
  mm_keys : list mask_key
}.

(** * Unpacking the cell metadata *)

(** The Cells group of the file for one key (offsets, counts, MinPositions, MaxPositions
    where present) in file order. *)
Record raw_key := mk_raw_key {
  rk_offsets : list Z;
  rk_counts : list Z;
  rk_extent : option (list vec * list vec);
  rk_total : Z
}.

Record raw_cells := mk_raw_cells {
  rc_centres : list vec;
  rc_size : vec;
  rc_pad : Q;              (* self.safe_padding, 0 for group catalogues (360-364) *)
  rc_box : vec;
  rc_homogeneous : bool;
  rc_keys : list raw_key
}.

(** [np.where(a < b, a, b)] and [np.where(a > b, a, b)] (masks.py:345-356). *)
Definition where_lt (a b : Q) : Q := if qltb a b then a else b.
Definition where_gt (a b : Q) : Q := if qltb b a then a else b.

Definition zip3 {A B C D} (f : A -> B -> C -> D) (l : list A) (m : list B) (n : list C)
  : list D := map (fun t => f (fst t) (fst (snd t)) (snd (snd t))) (combine l (combine m n)).

(** masks.py:339-381: the bounding boxes of the cells of one key, in file order. *)
Definition cell_extents (rc : raw_cells) (rk : raw_key) : list (vec * vec) :=
  match rk_extent rk with
  | Some (minpos, maxpos) =>
      zip3 (fun c mn mx =>
              ((fun a => where_lt (c a - (1 # 2) * rc_size rc a) (mn a))%Q,
               (fun a => where_gt (c a + (1 # 2) * rc_size rc a) (mx a))%Q))
           (rc_centres rc) minpos maxpos
  | None =>
      map (fun c => ((fun a => c a - (rc_pad rc + (1 # 2)) * rc_size rc a)%Q,
                     (fun a => c a + (rc_pad rc + (1 # 2)) * rc_size rc a)%Q))
          (rc_centres rc)
  end.

Definition raw_cells_of_key (rc : raw_cells) (rk : raw_key) : list cell :=
  zip3 (fun o c e => mk_cell o c (fst e) (snd e))
       (rk_offsets rk) (rk_counts rk) (cell_extents rc rk).

(** masks.py:294-440 [_unpack_cell_metadata].  [cell_sort] is the stable argsort of the
    offsets of the first key only and is applied to every key (385-399). *)
Definition unpack_cell_metadata (rc : raw_cells) : mask_meta :=
  let cell_sort := match rc_keys rc with
                   | [] => []
                   | rk :: _ => stable_argsort (rk_offsets rk)
                   end in
  mk_mask_meta (rc_homogeneous rc) (rc_box rc)
    (map (fun rk => mk_mask_key (take_order (raw_cells_of_key rc rk) cell_sort) (rk_total rk))
         (rc_keys rc)).

(** * Cell masks *)

(** masks.py:699-739 [_sanitize_region]. *)
Definition sanitize_axis (box : Q) (ax_region : option (list Q)) : option (Q * Q) :=
  match ax_region with
  | None => Some (0%Q, box)
  | Some [lo; up] => Some (lo, up)
  | Some _ => None
  end.

Definition sanitize_region (box : vec) (region : list (option (list Q)))
  : res (axis -> Q * Q) :=
  match region with
  | [rx; ry; rz] =>
      match sanitize_axis (box AX) rx, sanitize_axis (box AY) ry, sanitize_axis (box AZ) rz with
      | Some x, Some y, Some z => Ok (fun a => match a with AX => x | AY => y | AZ => z end)
      | _, _, _ => Err ValueError
      end
  | _ => Err ValueError
  end.

(** masks.py:612-625: a bound outside [-box/2, 3*box/2]. *)
Definition out_of_window (box lower upper : Q) : bool :=
  (qltb lower (- box / 2) || qltb upper (- box / 2)
   || qltb (3 * box / 2) lower || qltb (3 * box / 2) upper)%Q.

(** masks.py:626-634: [None] for "keep everything along this axis", otherwise the interval
    after handling the inverted case. *)
Definition axis_interval (box lower upper : Q) : option (Q * Q) :=
  if qltb box (Qabs (upper - lower)) then None
  else if qltb upper lower then
    if qltb (box / 2) lower then Some (lower - box, upper)%Q
    else if qltb upper (box / 2) then Some (lower, upper + box)%Q
    else Some (lower, upper)
  else Some (lower, upper).

(** masks.py:642-658: the selection intersects one of the 3 periodic copies of a cell. *)
Definition axis_selects (box lower upper cmin cmax : Q) : bool :=
  existsb (fun shift => qltb lower (cmax + inject_Z shift * box)%Q
                        && qltb (cmin + inject_Z shift * box)%Q upper)
          [-1; 0; 1].

(** [l[mask]] and [l[mask] = new] for boolean masks. *)
Fixpoint compress {A} (mask : list bool) (l : list A) : list A :=
  match mask, l with
  | b :: mask', x :: l' => if b then x :: compress mask' l' else compress mask' l'
  | _, _ => []
  end.

Fixpoint masked_assign {A} (mask : list bool) (l new : list A) : list A :=
  match mask, l with
  | b :: mask', x :: l' =>
      if b then match new with
                | n :: new' => n :: masked_assign mask' l' new'
                | [] => x :: masked_assign mask' l' []
                end
      else x :: masked_assign mask' l' new
  | _, _ => l
  end.

(** masks.py:608-659, one key, one axis (the window check has been done). *)
Definition cell_mask_axis (box : vec) (restrict : axis -> Q * Q) (cells : list cell)
           (cell_mask : list bool) (a : axis) : list bool :=
  match axis_interval (box a) (fst (restrict a)) (snd (restrict a)) with
  | None => cell_mask
  | Some (lower, upper) =>
      let this_mask := map (fun c => axis_selects (box a) lower upper (cell_min c a) (cell_max c a))
                           (compress cell_mask cells) in
      masked_assign cell_mask cell_mask this_mask
  end.

(** masks.py:558-661 [_generate_cell_mask] with a region: one boolean list per key. *)
Definition generate_cell_mask (mm : mask_meta) (restrict : axis -> Q * Q)
  : res (list (list bool)) :=
  if existsb (fun a => out_of_window (mm_box mm a) (fst (restrict a)) (snd (restrict a))) axes
  then Err ValueError
  else Ok (map (fun k => fold_left (cell_mask_axis (mm_box mm) restrict (key_cells k)) axes
                                   (map (fun _ => true) (key_cells k)))
               (mm_keys mm)).

(** masks.py:598-607: [_generate_cell_mask(restrict=None)]. *)
Definition full_cell_mask (mm : mask_meta) : list (list bool) :=
  map (fun k => map (fun _ => true) (key_cells k)) (mm_keys mm).

(** * The mask object *)

(** The particle masks: [range_mask] True (a list of ranges and the size attribute per key)
    or False (a boolean array and the size attribute per key). *)
Inductive masks : Type :=
| InRanges (l : list (list range * Z))
| InBools (l : list (list bool * Z)).

Inductive constraint := CSpatial | CProperty | CIndex | CIndices.

Record mask_state := mk_mask_state {
  ms_constrained : option constraint;
  ms_cell_mask : list (list bool);
  ms_masks : masks
}.

(** [l[lo:hi] = v] (Python clips the slice; offsets are non-negative). *)
Definition set_slice {A} (lo hi : Z) (v : A) (l : list A) : list A :=
  map (fun ix => if (lo <=? fst ix) && (fst ix <? hi) then v else snd ix)
      (combine (zrange 0 (zlen l)) l).

(** masks.py:674-681. *)
Definition range_mask_of_cells (cells : list cell) (cmask : list bool) : list range * Z :=
  let sel := compress cmask cells in
  (map (fun c => (cell_offset c, cell_count c + cell_offset c)) sel,
   sumZ (map cell_count sel)).

(** masks.py:683-695: cells that are not selected are set to False. *)
Definition bool_mask_of_cells (cells : list cell) (cmask : list bool) (m : list bool)
  : list bool :=
  fold_left (fun m c => set_slice (cell_offset c) (cell_count c + cell_offset c) false m)
            (compress (map negb cmask) cells) m.

(** masks.py:663-697 [_update_range_masks]. *)
Definition update_range_masks (mm : mask_meta) (cell_mask : list (list bool)) (m : masks)
  : masks :=
  match m with
  | InRanges _ =>
      InRanges (map (fun kc => range_mask_of_cells (key_cells (fst kc)) (snd kc))
                    (combine (mm_keys mm) cell_mask))
  | InBools l =>
      InBools (map (fun kcb => (bool_mask_of_cells (key_cells (fst (fst kcb))) (snd (fst kcb))
                                                   (fst (snd kcb)), snd (snd kcb)))
                   (combine (combine (mm_keys mm) cell_mask) l))
  end.

(** masks.py:95-141 [__init__] (after the checks of 125-134). *)
Definition new_mask (mm : mask_meta) : mask_state :=
  let cm := full_cell_mask mm in
  mk_mask_state None cm (update_range_masks mm cm (InRanges [])).

(** masks.py:849-871 [convert_masks_to_ranges]. *)
Definition where_true (m : list bool) : list Z :=
  map fst (filter (fun ib => snd ib) (combine (zrange 0 (zlen m)) m)).

Definition convert_masks_to_ranges (m : masks) : masks :=
  match m with
  | InRanges l => InRanges l
  | InBools l =>
      InRanges (map (fun bs => let w := where_true (fst bs) in
                               (ranges_from_array w, zlen w)) l)
  end.

(** masks.py:873-894 [convert_masks_to_bool]. *)
Definition bools_of_ranges (total : Z) (rs : list range) : list bool :=
  fold_left (fun m r => set_slice (fst r) (snd r) true m) rs (repeat false (Z.to_nat total)).

Definition convert_masks_to_bool (mm : mask_meta) (m : masks) : masks :=
  match m with
  | InBools l => InBools l
  | InRanges l =>
      InBools (map (fun kr => (bools_of_ranges (key_total (fst kr)) (fst (snd kr)),
                               key_total (fst kr)))
                   (combine (mm_keys mm) l))
  end.

(** Every public call returns the new state, also when it raises (the state of the object
    after the exception). *)
Definition outcome := (mask_state * option pyerr)%type.

(** masks.py:741-847 [constrain_spatial] with the decorator (24-50). *)
Definition constrain_spatial (mm : mask_meta) (region : list (option (list Q))) (union : bool)
           (st : mask_state) : outcome :=
  match sanitize_region (mm_box mm) region with
  | Err e => (st, Some e)
  | Ok restrict =>
      let finish cell_mask :=
        (mk_mask_state (Some CSpatial) cell_mask
                       (update_range_masks mm cell_mask (ms_masks st)), None) in
      match ms_constrained st, union with
      | Some CSpatial, true =>
          match generate_cell_mask mm restrict with
          | Err e => (st, Some e)
          | Ok new_mask =>
              finish (map (fun ab => map (fun xy => orb (fst xy) (snd xy))
                                         (combine (fst ab) (snd ab)))
                          (combine (ms_cell_mask st) new_mask))
          end
      | None, _ =>
          match generate_cell_mask mm restrict with
          | Err e => (st, Some e)
          | Ok new_mask => finish new_mask
          end
      | _, _ => (st, Some RuntimeError)
      end
  end.

(** masks.py:475-556 [constrain_property].  [key] is the key the group's mask is stored
    under and [values] the data of the quantity for all particles of the group ([None] when
    the group or the quantity does not exist: the KeyError comes after the conversion to
    boolean form). *)
Definition constrain_property (mm : mask_meta) (key : nat) (values : option (list Q))
           (lower upper : Q) (st : mask_state) : outcome :=
  let m := convert_masks_to_bool mm (ms_masks st) in
  let st' := mk_mask_state (ms_constrained st) (ms_cell_mask st) m in
  match m, values with
  | InBools l, Some vals =>
      match nth_error l key with
      | None => (st', Some KeyError)
      | Some (current, size) =>
          let data := compress current vals in
          let new := map (fun v => qltb lower v && Qle_bool v upper) data in
          (mk_mask_state (Some CProperty) (ms_cell_mask st)
                         (InBools (upd key (masked_assign current current new, size) l)), None)
      end
  | _, _ => (st', Some KeyError)
  end.

(** masks.py:935: [np.all(indices[:-1] <= indices[1:])]. *)
Fixpoint is_sorted (l : list Z) : bool :=
  match l with
  | a :: ((b :: _) as t) => (a <=? b) && is_sorted t
  | _ => true
  end.

(** [array[indices] = True] with numpy's index rules. *)
Definition set_indices (n : Z) (indices : list Z) : res (list bool) :=
  if forallb (fun i => (- n <=? i) && (i <? n)) indices
  then Ok (map (fun j => existsb (fun i => (i =? j) || (i + n =? j)) indices) (zrange 0 n))
  else Err IndexError.

(** masks.py:916-955 [constrain_indices], without the decorator.  In boolean form the keys
    are updated one after the other; an IndexError leaves the remaining keys alone. *)
Fixpoint indices_bool_loop (indices : list Z) (l : list (list bool * Z))
  : list (list bool * Z) * option pyerr :=
  match l with
  | [] => ([], None)
  | (m, size) :: rest =>
      match set_indices (zlen m) indices with
      | Err e => ((m, size) :: rest, Some e)
      | Ok comparison =>
          let '(rest', e) := indices_bool_loop indices rest in
          ((map (fun xy => andb (fst xy) (snd xy)) (combine m comparison), size) :: rest', e)
      end
  end.

Definition constrain_indices_body (mm : mask_meta) (indices : list Z) (st : mask_state)
  : outcome :=
  match ms_constrained st with
  | Some _ => (st, Some RuntimeError)
  | None =>
      if negb (mm_homogeneous mm) then (st, Some RuntimeError)
      else
        let sorted_indices := if is_sorted indices then indices else np_sort indices in
        match ms_masks st with
        | InRanges l =>
            (mk_mask_state (ms_constrained st) (ms_cell_mask st)
               (InRanges (map (fun _ => (ranges_from_array sorted_indices, zlen indices)) l)),
             None)
        | InBools l =>
            let '(l', e) := indices_bool_loop indices l in
            (mk_mask_state (ms_constrained st) (ms_cell_mask st) (InBools l'), e)
        end
  end.

(** The decorator [_constraint] (masks.py:24-50): the label is set after success. *)
Definition with_label (c : constraint) (o : outcome) : outcome :=
  match o with
  | (st, None) => (mk_mask_state (Some c) (ms_cell_mask st) (ms_masks st), None)
  | (st, Some e) => (st, Some e)
  end.

Definition constrain_indices (mm : mask_meta) (indices : list Z) (st : mask_state) : outcome :=
  with_label CIndices (constrain_indices_body mm indices st).

(** masks.py:896-914 [constrain_index]. *)
Definition constrain_index (mm : mask_meta) (index : Z) (st : mask_state) : outcome :=
  match ms_constrained st with
  | Some _ => (st, Some RuntimeError)
  | None => with_label CIndex (constrain_indices mm [index] st)
  end.

(** * Call histories *)

Inductive mask_op :=
| OpSpatial (region : list (option (list Q))) (union : bool)
| OpProperty (key : nat) (values : option (list Q)) (lower upper : Q)
| OpIndex (index : Z)
| OpIndices (indices : list Z)
| OpToRanges
| OpToBool.

Definition mask_step (mm : mask_meta) (op : mask_op) (st : mask_state) : outcome :=
  match op with
  | OpSpatial region union => constrain_spatial mm region union st
  | OpProperty key values lower upper => constrain_property mm key values lower upper st
  | OpIndex i => constrain_index mm i st
  | OpIndices l => constrain_indices mm l st
  | OpToRanges => (mk_mask_state (ms_constrained st) (ms_cell_mask st)
                                 (convert_masks_to_ranges (ms_masks st)), None)
  | OpToBool => (mk_mask_state (ms_constrained st) (ms_cell_mask st)
                               (convert_masks_to_bool mm (ms_masks st)), None)
  end.

(** Run a history; calls that raise are caught by the user.  Returns the final state and,
    for every call, the exception or [None]. *)
Fixpoint mask_run (mm : mask_meta) (ops : list mask_op) (st : mask_state)
  : mask_state * list (option pyerr) :=
  match ops with
  | [] => (st, [])
  | op :: rest =>
      let '(st', e) := mask_step mm op st in
      let '(st'', es) := mask_run mm rest st' in
      (st'', e :: es)
  end.

(** * Cell counts of a masked file *)

(** [np.searchsorted(a, v, side="right")]. *)
Definition searchsorted_right (a : list Z) (v : Z) : nat :=
  length (filter (fun x => x <=? v) a).

(** [np.cumsum(l)[:-1]] with a leading 0 (masks.py:1009-1011). *)
Fixpoint running_offsets (acc : Z) (l : list Z) : list Z :=
  match l with
  | [] => []
  | x :: rest => acc :: running_offsets (acc + x) rest
  end.

Definition offsets_from_counts (counts : list Z) : list Z :=
  match counts with
  | [] => [0]                       (* np.r_[0, []] *)
  | _ => running_offsets 0 counts
  end.

(** masks.py:985-1001, one range: add the overlap with every cell from [start_cell] to
    [end_cell]. *)
Definition add_range_counts (offsets counts : list Z) (acc : list Z) (r : range) : res (list Z) :=
  let start_cell := searchsorted_right (tl offsets) (fst r) in
  let end_cell := searchsorted_right (tl offsets) (snd r) in
  fold_left
    (fun acc cell =>
       bind acc (fun acc =>
       match nth_error acc cell, nth_error offsets cell, nth_error counts cell with
       | Some x, Some o, Some c =>
           Ok (upd cell (x + (Z.min (snd r) (o + c) - Z.max (fst r) o)) acc)
       | _, _, _ => Err IndexError
       end))
    (seq start_cell (S end_cell - start_cell)) (Ok acc).

Definition masked_counts_ranges (offsets counts : list Z) (rs : list range) : res (list Z) :=
  fold_left (fun acc r => bind acc (fun acc => add_range_counts offsets counts acc r))
            rs (Ok (repeat 0 (length counts))).

(** masks.py:1002-1008. *)
Definition masked_counts_bools (offsets counts : list Z) (m : list bool) : list Z :=
  map (fun oc => zlen (filter (fun ib => (fst oc <=? fst ib) && (fst ib <? fst oc + snd oc)
                                         && snd ib)
                              (combine (zrange 0 (zlen m)) m)))
      (combine offsets counts).

(** masks.py:957-1013 [_get_masked_counts_offsets] for one key. *)
Definition masked_counts_offsets (cells : list cell) (m : list range + list bool)
  : res (list Z * list Z) :=
  let offsets := map cell_offset cells in
  let counts := map cell_count cells in
  bind (match m with
        | inl rs => masked_counts_ranges offsets counts rs
        | inr bs => Ok (masked_counts_bools offsets counts bs)
        end)
       (fun mc => Ok (mc, offsets_from_counts mc)).
