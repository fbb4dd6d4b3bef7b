(** Model of swiftsimio/masks.py and reader.py: which mask arrays are shared between a [SWIFTMask], the
    datasets loaded with it and the user.

    MaskModel.v has the state of a mask as a value.  Here the arrays live in memory: an attribute of the mask
    holds the address of an array, and code that assigns to elements ([m[...] = ...]) changes the array at its
    address while [setattr] puts another address into the attribute.  A dataset holds the addresses that the
    attributes had when it was made (reader.py:592-593, the arrays are captured by the getters).

    Names of attributes are positions (MaskNamesModel.v has the names). *)
From Coq Require Import List ZArith QArith Bool.
From Verif Require Import Base RangesModel SortModel MaskModel.
Import ListNotations.
Open Scope Z_scope.

(** An array of ranges (shape (n, 2)) or of booleans. *)
Inductive marr := ARanges (l : list range) | ABools (l : list bool).
Definition memory := list marr.

(** The mask object: [constrained], [cell_mask], [range_mask], and for every key the address of its array and
    its size attribute. *)
Record hmask := mkhmask {
  hm_constrained : option constraint;
  hm_cells : list (list bool);
  hm_range : bool;
  hm_slots : list (nat * Z)
}.

(** The content of an array; an array of the other kind has none (attributes always hold arrays of the kind
    that [range_mask] says, see [sound] in MaskHeapSpec.v). *)
Definition ranges_at (h : memory) (r : nat) : list range :=
  match nth_error h r with Some (ARanges l) => l | _ => [] end.
Definition bools_at (h : memory) (r : nat) : list bool :=
  match nth_error h r with Some (ABools l) => l | _ => [] end.

(** New arrays for all keys. *)
Fixpoint allocate (h : memory) (l : list (marr * Z)) : memory * list (nat * Z) :=
  match l with
  | [] => (h, [])
  | (a, size) :: rest =>
      let '(h', slots) := allocate (h ++ [a]) rest in (h', (length h, size) :: slots)
  end.

(** masks.py:663-697 [_update_range_masks]: new arrays in range form; in boolean form assignments to slices of
    the arrays that are there. *)
Definition h_update (mm : mask_meta) (h : memory) (m : hmask) (cm : list (list bool)) : memory * hmask :=
  if hm_range m then
    let '(h', slots) := allocate h (map (fun kc => let rz := range_mask_of_cells (key_cells (fst kc)) (snd kc)
                                                   in (ARanges (fst rz), snd rz))
                                        (combine (mm_keys mm) cm)) in
    (h', mkhmask (hm_constrained m) cm true slots)
  else
    (fold_left (fun h kcs =>
                  let r := fst (snd kcs) in
                  upd r (ABools (bool_mask_of_cells (key_cells (fst (fst kcs))) (snd (fst kcs)) (bools_at h r))) h)
               (combine (combine (mm_keys mm) cm) (hm_slots m)) h,
     mkhmask (hm_constrained m) cm false (hm_slots m)).

(** masks.py:849-871: [setattr] of new arrays. *)
Definition h_to_ranges (h : memory) (m : hmask) : memory * hmask :=
  if hm_range m then (h, m)
  else
    let '(h', slots) := allocate h (map (fun rz => let w := where_true (bools_at h (fst rz))
                                                   in (ARanges (ranges_from_array w), zlen w)) (hm_slots m)) in
    (h', mkhmask (hm_constrained m) (hm_cells m) true slots).

(** masks.py:873-894. *)
Definition h_to_bool (mm : mask_meta) (h : memory) (m : hmask) : memory * hmask :=
  if hm_range m then
    let '(h', slots) := allocate h (map (fun kr => (ABools (bools_of_ranges (key_total (fst kr)) (ranges_at h (fst (snd kr)))),
                                                    key_total (fst kr)))
                                        (combine (mm_keys mm) (hm_slots m))) in
    (h', mkhmask (hm_constrained m) (hm_cells m) false slots)
  else (h, m).

Definition set_label (c : constraint) (m : hmask) : hmask :=
  mkhmask (Some c) (hm_cells m) (hm_range m) (hm_slots m).

(** masks.py:741-847. *)
Definition h_spatial (mm : mask_meta) (region : list (option (list Q))) (union : bool) (h : memory) (m : hmask)
  : memory * hmask * option pyerr :=
  match sanitize_region (mm_box mm) region with
  | Err e => (h, m, Some e)
  | Ok restrict =>
      match hm_constrained m, union with
      | Some CSpatial, true =>
          match generate_cell_mask mm restrict with
          | Err e => (h, m, Some e)
          | Ok new_mask =>
              let '(h', m') := h_update mm h m (map (fun ab => map (fun xy => orb (fst xy) (snd xy))
                                                                   (combine (fst ab) (snd ab)))
                                                    (combine (hm_cells m) new_mask)) in
              (h', set_label CSpatial m', None)
          end
      | None, _ =>
          match generate_cell_mask mm restrict with
          | Err e => (h, m, Some e)
          | Ok new_mask =>
              let '(h', m') := h_update mm h m new_mask in (h', set_label CSpatial m', None)
          end
      | _, _ => (h, m, Some RuntimeError)
      end
  end.

(** masks.py:475-556: [current_mask[current_mask] = new_mask] changes the array of the attribute. *)
Definition h_property (mm : mask_meta) (key : nat) (values : option (list Q)) (lower upper : Q) (h : memory) (m : hmask)
  : memory * hmask * option pyerr :=
  let '(h, m) := h_to_bool mm h m in
  match values, nth_error (hm_slots m) key with
  | Some vals, Some (r, _) =>
      let current := bools_at h r in
      let new := map (fun v => qltb lower v && Qle_bool v upper) (compress current vals) in
      (upd r (ABools (masked_assign current current new)) h, set_label CProperty m, None)
  | _, _ => (h, m, Some KeyError)
  end.

(** masks.py:945-953: new arrays, one key after the other. *)
Fixpoint h_indices_loop (indices : list Z) (h : memory) (slots : list (nat * Z))
  : memory * list (nat * Z) * option pyerr :=
  match slots with
  | [] => (h, [], None)
  | (r, size) :: rest =>
      match set_indices (zlen (bools_at h r)) indices with
      | Err e => (h, (r, size) :: rest, Some e)
      | Ok comparison =>
          let a := ABools (map (fun xy => andb (fst xy) (snd xy)) (combine (bools_at h r) comparison)) in
          let '(h', rest', e) := h_indices_loop indices (h ++ [a]) rest in
          (h', (length h, size) :: rest', e)
      end
  end.

Definition h_indices (mm : mask_meta) (indices : list Z) (h : memory) (m : hmask) : memory * hmask * option pyerr :=
  match hm_constrained m with
  | Some _ => (h, m, Some RuntimeError)
  | None =>
      if negb (mm_homogeneous mm) then (h, m, Some RuntimeError)
      else
        let sorted_indices := if is_sorted indices then indices else np_sort indices in
        if hm_range m then
          let '(h', slots) := allocate h (map (fun _ => (ARanges (ranges_from_array sorted_indices), zlen indices))
                                              (hm_slots m)) in
          (h', mkhmask (Some CIndices) (hm_cells m) true slots, None)
        else
          let '(h', slots, e) := h_indices_loop indices h (hm_slots m) in
          (h', mkhmask (match e with None => Some CIndices | Some _ => None end) (hm_cells m) false slots, e)
  end.

Definition h_index (mm : mask_meta) (index : Z) (h : memory) (m : hmask) : memory * hmask * option pyerr :=
  match hm_constrained m with
  | Some _ => (h, m, Some RuntimeError)
  | None =>
      match h_indices mm [index] h m with
      | (h', m', None) => (h', set_label CIndex m', None)
      | (h', m', Some e) => (h', m', Some e)
      end
  end.

Definition h_step (mm : mask_meta) (op : mask_op) (h : memory) (m : hmask) : memory * hmask * option pyerr :=
  match op with
  | OpSpatial region union => h_spatial mm region union h m
  | OpProperty key values lower upper => h_property mm key values lower upper h m
  | OpIndex i => h_index mm i h m
  | OpIndices l => h_indices mm l h m
  | OpToRanges => let '(h', m') := h_to_ranges h m in (h', m', None)
  | OpToBool => let '(h', m') := h_to_bool mm h m in (h', m', None)
  end.

(** masks.py:95-141: a new mask. *)
Definition h_new (mm : mask_meta) (h : memory) : memory * hmask :=
  h_update mm h (mkhmask None [] true []) (full_cell_mask mm).

(** * Programs that use a mask *)

(** The memory, the mask, the addresses and sizes each dataset has captured, the addresses the user has got
    from the mask's attributes. *)
Record world := mkworld {
  w_mem : memory;
  w_mask : hmask;
  w_datasets : list (list (nat * Z));
  w_taken : list nat
}.

Inductive use :=
| UMask (op : mask_op)          (* a call of a method of the mask *)
| ULoad (matches : bool)        (* load a dataset with the mask, from the file of the mask or another one *)
| UTake (key : nat).            (* mask.gas *)

(** reader.py:719-736, 747-777 (the check of the file comes after the conversion of the mask), 592-593. *)
Definition use_step (mm : mask_meta) (u : use) (w : world) : world * option pyerr :=
  match u with
  | UMask op =>
      let '(h, m, e) := h_step mm op (w_mem w) (w_mask w) in (mkworld h m (w_datasets w) (w_taken w), e)
  | ULoad matches =>
      let '(h, m) := h_to_ranges (w_mem w) (w_mask w) in
      if matches then (mkworld h m (w_datasets w ++ [hm_slots m]) (w_taken w), None)
      else (mkworld h m (w_datasets w) (w_taken w), Some AssertionErr)
  | UTake key =>
      match nth_error (hm_slots (w_mask w)) key with
      | Some (r, _) => (mkworld (w_mem w) (w_mask w) (w_datasets w) (w_taken w ++ [r]), None)
      | None => (w, Some AttributeError)
      end
  end.

Fixpoint use_run (mm : mask_meta) (us : list use) (w : world) : world :=
  match us with
  | [] => w
  | u :: rest => use_run mm rest (fst (use_step mm u w))
  end.

(** What a dataset reads for the group of a key: the ranges and the size. *)
Definition dataset_mask (h : memory) (d : list (nat * Z)) (key : nat) : option (list range * Z) :=
  match nth_error d key with
  | Some (r, size) => Some (ranges_at h r, size)
  | None => None
  end.
