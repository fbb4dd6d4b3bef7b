(** Model of the mask object of swiftsimio/masks.py as Python sees it: dictionaries and
    attributes found by name.  [MaskModel] numbers the masks instead; here the names the code
    builds ("_gas", "_gas_size", "_shared", ...), the dictionaries it looks them up in and the
    errors of a missing entry are modelled.  Definitions only.

    Simplifications: as in [MaskModel]; all tables of a file have one row per cell; a name the
    user asks for is not one of the object's own attributes ([counts], [metadata], ...). *)
From Coq Require Import String Ascii List ZArith QArith Bool.
From Verif Require Import Base RangesModel SortModel MaskModel NamesModel SubsetModel.
Import ListNotations.
Open Scope Z_scope.

(** * Dictionaries *)

Definition dict (A : Type) := list (string * A).

Fixpoint dget {A} (k : string) (d : dict A) : option A :=
  match d with
  | [] => None
  | (k', v) :: t => if (k =? k')%string then Some v else dget k t
  end.

(** [d[k] = v]: a new key goes to the end. *)
Fixpoint dset {A} (k : string) (v : A) (d : dict A) : dict A :=
  match d with
  | [] => [(k, v)]
  | (k', v') :: t => if (k =? k')%string then (k', v) :: t else (k', v') :: dset k v t
  end.

(** [{**d, **e}]; a dictionary comprehension is [{**{}, **pairs}]. *)
Definition dmerge {A} (d e : dict A) : dict A :=
  fold_left (fun d kv => dset (fst kv) (snd kv) d) e d.

(** [d[k]]. *)
Definition entry {A} (k : string) (d : dict A) : res A :=
  match dget k d with Some v => Ok v | None => Err KeyError end.

(** [getattr(obj, k)]. *)
Definition attribute {A} (k : string) (d : dict A) : res A :=
  match dget k d with Some v => Ok v | None => Err AttributeError end.

Definition under (k : string) : string := ("_" ++ k)%string.
Definition size_of (k : string) : string := (k ++ "_size")%string.

(** [name[1:]]. *)
Definition drop_first (s : string) : string :=
  match s with EmptyString => EmptyString | String _ t => t end.

(** [str.lower]. *)
Definition lower_string (s : string) : string :=
  string_of_list_ascii (lower (list_ascii_of_string s)).

(** * Metadata *)

(** masks.py:21 [_GROUPCAT_OUTPUT_TYPES]. *)
Definition groupcat (output_type : string) : bool :=
  existsb (String.eqb output_type) ["FOF"; "SOAP"; "FOFSubset"; "SOAPSubset"]%string.

(** metadata/objects.py:74-83, 889, 1372, 1502, 1581-1583: the class attributes. *)
Definition masking_valid (k : file_kind) : bool :=
  match k with KSnapshot => true | KSOAP => true | KLineOfSight => false | KFOF => false end.
Definition shared_cell_counts (k : file_kind) : option string :=
  match k with KSOAP => Some "Subhalos"%string | _ => None end.
Definition homogeneous_arrays (k : file_kind) : bool :=
  match k with KSOAP => true | KFOF => true | _ => false end.

(** What a mask takes from the metadata. *)
Record meta := mk_meta {
  md_kind : file_kind;
  md_output_type : string;                 (* "" when the header has none, objects.py:313 *)
  md_partial : bool;                       (* partial_snapshot *)
  md_groups : list (string * string);      (* zip(present_groups, present_group_names) *)
  md_n : dict Z;                           (* the attributes n_<key> *)
  md_fields : string -> string -> option (list Q);  (* data of a quantity of a group *)
  md_box : vec
}.

Definition present_names (md : meta) : list string := map snd (md_groups md).

(** The group Cells of the file. *)
Record cells_group := mk_cells_group {
  cg_centres : list vec;
  cg_size : vec;
  cg_counts : dict (list Z);
  cg_offsets_in_file : option (dict (list Z));
  cg_offsets : option (dict (list Z));
  cg_min : option (dict (list vec));
  cg_max : option (dict (list vec))
}.

(** The argument [safe_padding] (masks.py:118-123); [_DEFAULT_SAFE_PADDING] is 0.1. *)
Inductive padding := PadTrue | PadFalse | PadBy (x : Q).
Definition safe_padding (p : padding) : Q :=
  match p with PadTrue => 1 # 10 | PadFalse => 0 | PadBy x => x end.

(** * The object *)

Inductive mvalue := VRanges (l : list range) | VBools (l : list bool) | VSize (n : Z).

Record mobj := mk_mobj {
  mo_counts : dict (list Z);
  mo_offsets : dict (list Z);
  mo_min : dict (list vec);
  mo_max : dict (list vec);
  mo_cell_mask : dict (list bool);
  mo_attrs : dict mvalue;         (* the attributes set with setattr *)
  mo_range_mask : bool;
  mo_constrained : option constraint;
  mo_centres : list vec           (* centers *)
}.

Definition set_attrs (a : dict mvalue) (o : mobj) : mobj :=
  mk_mobj (mo_counts o) (mo_offsets o) (mo_min o) (mo_max o) (mo_cell_mask o) a
          (mo_range_mask o) (mo_constrained o) (mo_centres o).
Definition setattr (k : string) (v : mvalue) (o : mobj) : mobj :=
  set_attrs (dset k v (mo_attrs o)) o.
Definition set_cell_mask (cm : dict (list bool)) (o : mobj) : mobj :=
  mk_mobj (mo_counts o) (mo_offsets o) (mo_min o) (mo_max o) cm (mo_attrs o)
          (mo_range_mask o) (mo_constrained o) (mo_centres o).
Definition set_range_mask (b : bool) (o : mobj) : mobj :=
  mk_mobj (mo_counts o) (mo_offsets o) (mo_min o) (mo_max o) (mo_cell_mask o) (mo_attrs o)
          b (mo_constrained o) (mo_centres o).
Definition set_constrained (c : constraint) (o : mobj) : mobj :=
  mk_mobj (mo_counts o) (mo_offsets o) (mo_min o) (mo_max o) (mo_cell_mask o) (mo_attrs o)
          (mo_range_mask o) (Some c) (mo_centres o).

(** A statement: the new object, and the exception if it raises. *)
Definition step := (mobj * option pyerr)%type.
Definition raises (e : pyerr) (o : mobj) : step := (o, Some e).
Definition fine (o : mobj) : step := (o, None).
Definition get {A} (x : res A) (o : mobj) (f : A -> step) : step :=
  match x with Ok a => f a | Err e => raises e o end.
Definition next (s : step) (f : mobj -> step) : step :=
  match s with (o, None) => f o | (o, Some e) => (o, Some e) end.

Fixpoint for_each {A} (l : list A) (body : A -> mobj -> step) (o : mobj) : step :=
  match l with
  | [] => fine o
  | x :: t => next (body x o) (for_each t body)
  end.

(** masks.py:143-171 [group_mapping]. *)
Definition group_mapping (md : meta) : dict string :=
  match shared_cell_counts (md_kind md) with
  | None => dmerge [] (map (fun g => (g, under g)) (present_names md))
  | Some _ => dmerge [] (map (fun g => (g, "_shared"%string)) (present_names md))
  end.

(** masks.py:172-201 [group_size_mapping]. *)
Definition group_size_mapping (md : meta) : dict string :=
  match shared_cell_counts (md_kind md) with
  | None => dmerge [] (map (fun g => (size_of g, size_of (under g))) (present_names md))
  | Some _ => dmerge [] (map (fun g => (size_of g, "_shared_size"%string)) (present_names md))
  end.

(** masks.py:203-224 [update_list]. *)
Definition update_list (md : meta) : list string :=
  match shared_cell_counts (md_kind md) with
  | None => map under (present_names md)
  | Some _ => ["_shared"%string]
  end.

(** masks.py:226-255 [__getattr__], for a name that is not an attribute of the object. *)
Definition mask_getattr (md : meta) (o : mobj) (name : string) : res mvalue :=
  match dget name (dmerge (group_mapping md) (group_size_mapping md)) with
  | None => Err AttributeError
  | Some underlying => attribute underlying (mo_attrs o)
  end.

(** masks.py:257-292 [_generate_empty_masks], sizes only: the masks are arrays of that length.
    Pairs of the mask's name and the size. *)
Definition empty_sizes (md : meta) : res (dict Z) :=
  match shared_cell_counts (md_kind md) with
  | Some s => do n <- attribute (lower_string s) (md_n md); Ok [("_shared"%string, n)]
  | None =>
      fold_left (fun acc gd => do d <- acc; do n <- attribute (fst gd) (md_n md);
                               Ok (dset (snd gd) n d))
                (group_mapping md) (Ok [])
  end.

(** ** Reading the cells, masks.py:294-440 *)

Definition read_tables (md : meta) (table : dict (list Z)) : res (dict (list Z)) :=
  match shared_cell_counts (md_kind md) with
  | Some s => do v <- entry s table; Ok [("shared"%string, v)]
  | None =>
      fold_left (fun acc g => do d <- acc; do v <- entry (fst g) table; Ok (dset (snd g) v d))
                (md_groups md) (Ok [])
  end.

(** 339-356. *)
Definition read_extent (md : meta) (table : dict (list vec))
           (f : vec -> vec -> vec) (centres : list vec) : res (dict (list vec)) :=
  fold_left (fun acc g => do d <- acc; do v <- entry (fst g) table;
                          Ok (dset (snd g) (map (fun cv => f (fst cv) (snd cv)) (combine centres v)) d))
            (md_groups md) (Ok []).

Definition min_of (size : vec) (c mn : vec) : vec :=
  fun a => where_lt (c a - (1 # 2) * size a)%Q (mn a).
Definition max_of (size : vec) (c mx : vec) : vec :=
  fun a => where_gt (c a + (1 # 2) * size a)%Q (mx a).

Definition sort_table {A} (order : list nat) (d : dict (list A)) : dict (list A) :=
  map (fun kv => (fst kv, take_order (snd kv) order)) d.

Definition read_extents (md : meta) (pad : padding) (cg : cells_group)
  : res (dict (list vec) * dict (list vec)) :=
  match cg_min cg, cg_max cg with
  | Some mn, Some mx =>
      do mins <- read_extent md mn (min_of (cg_size cg)) (cg_centres cg);
      do maxs <- read_extent md mx (max_of (cg_size cg)) (cg_centres cg);
      Ok (mins, maxs)
  | _, _ =>
      let pad_cells := if groupcat (md_output_type md) then 0%Q else safe_padding pad in
      Ok ([("shared"%string,
            map (fun c => (fun a => c a - (pad_cells + (1 # 2)) * cg_size cg a)%Q) (cg_centres cg))],
          [("shared"%string,
            map (fun c => (fun a => c a + (pad_cells + (1 # 2)) * cg_size cg a)%Q) (cg_centres cg))])
  end.

(** 426-429: without bounding boxes in the file every group uses the shared entry. *)
Definition alias_shared (md : meta) (d : dict (list vec)) : res (dict (list vec)) :=
  fold_left (fun acc g => do d <- acc; do v <- entry "shared"%string d; Ok (dset g v d))
            (present_names md) (Ok d).

Definition has_extents (cg : cells_group) : bool :=
  match cg_min cg, cg_max cg with Some _, Some _ => true | _, _ => false end.

(** 303-440, the object before any mask is made.  Where the code raises for a missing table
    the order of the reads (offsets and counts of one group after the other) does not matter:
    every error is a KeyError. *)
Definition unpack (md : meta) (pad : padding) (cg : cells_group) : res mobj :=
  do table <- match cg_offsets_in_file cg with
              | Some d => Ok d
              | None => match cg_offsets cg with Some d => Ok d | None => Err KeyError end
              end;
  do offsets <- read_tables md table;
  do counts <- read_tables md (cg_counts cg);
  do extents <- read_extents md pad cg;
  let cell_sort := match offsets with [] => [] | (_, first) :: _ => stable_argsort first end in
  let mins := sort_table cell_sort (fst extents) in
  let maxs := sort_table cell_sort (snd extents) in
  do mins <- (if has_extents cg then Ok mins else alias_shared md mins);
  do maxs <- (if has_extents cg then Ok maxs else alias_shared md maxs);
  Ok (mk_mobj (sort_table cell_sort counts) (sort_table cell_sort offsets) mins maxs [] []
              true None (take_order (cg_centres cg) cell_sort)).

(** ** Cell masks *)

(** 635-640. *)
Definition mask_names (md : meta) : list string :=
  if groupcat (md_output_type md) then ["shared"%string] else present_names md.

(** 598-607. *)
Definition full_mask (md : meta) (o : mobj) : dict (list bool) :=
  dmerge [] (map (fun g => (g, map (fun _ => true) (mo_centres o))) (mask_names md)).

(** 641-659, one axis, one group. *)
Definition restrict_group (o : mobj) (box lower upper : Q) (a : axis) (cm : dict (list bool))
           (g : string) : res (dict (list bool)) :=
  do mx <- entry g (mo_max o);
  do m <- entry g cm;
  do mn <- entry g (mo_min o);
  let this_mask := map (fun mm => axis_selects box lower upper (fst mm a) (snd mm a))
                       (compress m (combine mn mx)) in
  Ok (dset g (masked_assign m m this_mask) cm).

(** 608-661, one axis. *)
Definition restrict_axis (md : meta) (o : mobj) (restrict : axis -> Q * Q)
           (cm : dict (list bool)) (a : axis) : res (dict (list bool)) :=
  let '(lower, upper) := restrict a in
  if out_of_window (md_box md a) lower upper then Err ValueError
  else match axis_interval (md_box md a) lower upper with
       | None => Ok cm
       | Some (lower, upper) =>
           fold_left (fun acc g => do cm <- acc; restrict_group o (md_box md a) lower upper a cm g)
                     (mask_names md) (Ok cm)
       end.

(** 558-661 [_generate_cell_mask] with a region. *)
Definition cell_mask_for (md : meta) (o : mobj) (restrict : axis -> Q * Q)
  : res (dict (list bool)) :=
  fold_left (fun acc a => do cm <- acc; restrict_axis md o restrict cm a) axes
            (Ok (full_mask md o)).

(** ** Particle masks *)

(** 663-697 [_update_range_masks], one name. *)
Definition update_mask (data_name : string) (o : mobj) : step :=
  let count_name := drop_first data_name in
  get (entry count_name (mo_counts o)) o (fun counts =>
  get (entry count_name (mo_cell_mask o)) o (fun cm =>
  get (entry count_name (mo_offsets o)) o (fun offsets =>
  if mo_range_mask o then
    let counts := compress cm counts in
    let offsets := compress cm offsets in
    let this_mask := map (fun co => (snd co, fst co + snd co)) (combine counts offsets) in
    fine (setattr (size_of data_name) (VSize (sumZ counts))
                  (setattr data_name (VRanges this_mask) o))
  else
    let counts := compress (map negb cm) counts in
    let offsets := compress (map negb cm) offsets in
    get (attribute data_name (mo_attrs o)) o (fun v =>
    match v with
    | VBools m =>
        fine (setattr data_name
                (VBools (fold_left (fun m co => set_slice (snd co) (fst co + snd co) false m)
                                   (combine counts offsets) m)) o)
    | _ => raises TypeError o
    end)))).

Definition update_masks (md : meta) (o : mobj) : step :=
  for_each (update_list md) update_mask o.

(** 95-141 [__init__]; the warnings and the closing of the file are left out. *)
Definition new_object (md : meta) (pad : padding) (cg : cells_group) : res mobj :=
  if negb (masking_valid (md_kind md)) then Err NotImplementedErr
  else if md_partial md then Err InvalidSnapshot
  else
    do o <- unpack md pad cg;
    match update_masks md (set_cell_mask (full_mask md o) o) with
    | (o, None) => Ok o
    | (_, Some e) => Err e
    end.

(** 849-871 [convert_masks_to_ranges]. *)
Definition to_ranges (md : meta) (o : mobj) : step :=
  if mo_range_mask o then fine o
  else
    next (for_each (update_list md) (fun mask o =>
            get (attribute mask (mo_attrs o)) o (fun v =>
            match v with
            | VBools m =>
                let w := where_true m in
                fine (setattr mask (VRanges (ranges_from_array w))
                              (setattr (size_of mask) (VSize (zlen w)) o))
            | _ => raises TypeError o
            end)) o)
         (fun o => fine (set_range_mask true o)).

(** 873-894 [convert_masks_to_bool]. *)
Definition to_bool (md : meta) (o : mobj) : step :=
  if mo_range_mask o then
    get (empty_sizes md) o (fun sizes =>
    next (for_each sizes (fun kn o =>
            get (attribute (fst kn) (mo_attrs o)) o (fun v =>
            match v with
            | VRanges rs => fine (setattr (fst kn) (VBools (bools_of_ranges (snd kn) rs)) o)
            | _ => raises TypeError o
            end)) o)
         (fun o =>
    next (for_each sizes (fun kn o => fine (setattr (size_of (fst kn)) (VSize (snd kn)) o)) o)
         (fun o => fine (set_range_mask false o))))
  else fine o.

(** 741-847 [constrain_spatial] with the decorator (24-50). *)
Definition spatial (md : meta) (region : list (option (list Q))) (union : bool) (o : mobj)
  : step :=
  get (sanitize_region (md_box md) region) o (fun restrict =>
  next (match mo_constrained o, union with
        | Some CSpatial, true =>
            get (cell_mask_for md o restrict) o (fun new_mask =>
            for_each (update_list md) (fun name o =>
              let g := drop_first name in
              get (entry g (mo_cell_mask o)) o (fun old =>
              get (entry g new_mask) o (fun new =>
              fine (set_cell_mask (dset g (map (fun xy => orb (fst xy) (snd xy)) (combine old new))
                                        (mo_cell_mask o)) o)))) o)
        | None, _ =>
            get (cell_mask_for md o restrict) o (fun new_mask => fine (set_cell_mask new_mask o))
        | _, _ => raises RuntimeError o
        end) (fun o =>
  next (update_masks md o) (fun o => fine (set_constrained CSpatial o)))).

(** 475-556 [constrain_property] with the decorator. *)
Definition property (md : meta) (group_name quantity : string) (lower upper : Q) (o : mobj)
  : step :=
  next (to_bool md o) (fun o =>
  get (entry group_name (group_mapping md)) o (fun data_name =>
  get (attribute data_name (mo_attrs o)) o (fun v =>
  match v with
  | VBools current =>
      match md_fields md group_name quantity with
      | None => raises KeyError o
      | Some vals =>
          let data := compress current vals in
          let new := map (fun v => qltb lower v && Qle_bool v upper) data in
          fine (set_constrained CProperty
                  (setattr data_name (VBools (masked_assign current current new)) o))
      end
  | _ => raises TypeError o
  end))).

(** 916-955 [constrain_indices], without the decorator. *)
Definition indices_body (md : meta) (indices : list Z) (o : mobj) : step :=
  match mo_constrained o with
  | Some _ => raises RuntimeError o
  | None =>
      if negb (homogeneous_arrays (md_kind md)) then raises RuntimeError o
      else
        let sorted_indices := if is_sorted indices then indices else np_sort indices in
        for_each (update_list md) (fun mask o =>
          if mo_range_mask o then
            fine (setattr (size_of mask) (VSize (zlen indices))
                          (setattr mask (VRanges (ranges_from_array sorted_indices)) o))
          else
            get (attribute mask (mo_attrs o)) o (fun v =>
            match v with
            | VBools m =>
                get (set_indices (zlen m) indices) o (fun comparison =>
                fine (setattr mask (VBools (map (fun xy => andb (fst xy) (snd xy))
                                                (combine m comparison))) o))
            | _ => raises TypeError o
            end)) o
  end.

Definition indices (md : meta) (l : list Z) (o : mobj) : step :=
  next (indices_body md l o) (fun o => fine (set_constrained CIndices o)).

(** 896-914 [constrain_index]. *)
Definition index (md : meta) (i : Z) (o : mobj) : step :=
  match mo_constrained o with
  | Some _ => raises RuntimeError o
  | None => next (indices md [i] o) (fun o => fine (set_constrained CIndex o))
  end.

(** ** Call histories *)

Inductive call :=
| CallSpatial (region : list (option (list Q))) (union : bool)
| CallProperty (group quantity : string) (lower upper : Q)
| CallIndex (i : Z)
| CallIndices (l : list Z)
| CallToRanges
| CallToBool.

Definition call_step (md : meta) (c : call) (o : mobj) : step :=
  match c with
  | CallSpatial region union => spatial md region union o
  | CallProperty g q lower upper => property md g q lower upper o
  | CallIndex i => index md i o
  | CallIndices l => indices md l o
  | CallToRanges => to_ranges md o
  | CallToBool => to_bool md o
  end.

(** Calls that raise are caught by the user. *)
Fixpoint call_run (md : meta) (cs : list call) (o : mobj) : mobj * list (option pyerr) :=
  match cs with
  | [] => (o, [])
  | c :: rest =>
      let '(o', e) := call_step md c o in
      let '(o'', es) := call_run md rest o' in
      (o'', e :: es)
  end.

(** ** Cell counts of a masked file, 957-1013 [_get_masked_counts_offsets] *)

Definition masked_tables (o : mobj) : res (dict (list Z * list Z)) :=
  fold_left (fun acc kc =>
    do d <- acc;
    do offsets <- entry (fst kc) (mo_offsets o);
    do v <- attribute (under (fst kc)) (mo_attrs o);
    do mc <- (if mo_range_mask o
              then match v with
                   | VRanges rs => masked_counts_ranges offsets (snd kc) rs
                   | _ => Err TypeError
                   end
              else match v with
                   | VBools bs => Ok (masked_counts_bools offsets (snd kc) bs)
                   | _ => Err TypeError
                   end);
    Ok (dset (fst kc) (mc, offsets_from_counts mc) d))
  (mo_counts o) (Ok []).
