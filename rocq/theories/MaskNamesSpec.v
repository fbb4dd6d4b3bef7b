(** Specification vocabulary for the names of the mask object: which mask belongs to which
    group, what a file must contain, when a call by name is a call by number. *)
From Coq Require Import String List ZArith QArith Bool.
From Verif Require Import Base RangesModel RangesSpec MaskModel MaskSpec SubsetModel MaskNamesModel.
Import ListNotations.
Open Scope Z_scope.

(** The entry of a dictionary: the first (and only) pair with the key. *)
Definition finds {A} (k : string) (d : list (string * A)) (v : A) : Prop :=
  exists before after, d = before ++ (k, v) :: after /\ ~ In k (map fst before).

Definition lacks {A} (k : string) (d : list (string * A)) : Prop := ~ In k (map fst d).

(** The names the user sees. *)
Definition names (md : meta) : list string := map snd (md_groups md).

(** Mask number [i]: the name of its tables in the file, the name of the mask, and the name
    its number of rows has in the metadata. *)
Definition nth_mask (md : meta) (i : nat) (in_file stored number : string) : Prop :=
  match md_kind md with
  | KSOAP => i = 0%nat /\ in_file = "Subhalos"%string /\ stored = "shared"%string
             /\ number = "subhalos"%string
  | _ => nth_error (md_groups md) i = Some (in_file, stored) /\ number = stored
  end.

(** The group [name] uses mask number [i]. *)
Definition uses_mask (md : meta) (name : string) (i : nat) : Prop :=
  match md_kind md with
  | KSOAP => In name (names md) /\ i = 0%nat
  | _ => nth_error (names md) i = Some name
  end.

(** The names can be told apart. *)
Definition names_ok (md : meta) : Prop :=
  (md_kind md = KSOAP \/ NoDup (names md)) /\
  forall a b, In a (names md) -> In b (names md) -> a <> (b ++ "_size")%string.

(** A snapshot or a SOAP catalogue, as the type in the header says. *)
Definition kind_ok (md : meta) : Prop :=
  (md_kind md = KSnapshot /\
   ~ In (md_output_type md) ["FOF"; "SOAP"; "FOFSubset"; "SOAPSubset"]%string) \/
  (md_kind md = KSOAP /\ In (md_output_type md) ["SOAP"; "SOAPSubset"]%string).

(** The padding a mask uses. *)
Definition pad_used (md : meta) (pad : padding) : Q :=
  match md_kind md, pad with
  | KSOAP, _ => 0
  | _, PadTrue => 1 # 10
  | _, PadFalse => 0
  | _, PadBy x => x
  end.

(** The table of offsets: OffsetsInFile if the file has it, otherwise Offsets. *)
Definition offsets_table (cg : cells_group) (d : list (string * list Z)) : Prop :=
  cg_offsets_in_file cg = Some d \/ (cg_offsets_in_file cg = None /\ cg_offsets cg = Some d).

(** The numbered description [raw] of the cells of a file and the file with its names. *)
Definition describes_key (cg : cells_group) (md : meta) (offsets : list (string * list Z))
           (in_file number : string) (rk : raw_key) : Prop :=
  finds in_file (cg_counts cg) (rk_counts rk) /\
  finds in_file offsets (rk_offsets rk) /\
  finds number (md_n md) (rk_total rk) /\
  length (rk_counts rk) = length (cg_centres cg) /\
  length (rk_offsets rk) = length (cg_centres cg) /\
  match cg_min cg, cg_max cg with
  | Some mn, Some mx =>
      exists a b, rk_extent rk = Some (a, b) /\ finds in_file mn a /\ finds in_file mx b /\
                  length a = length (cg_centres cg) /\ length b = length (cg_centres cg)
  | _, _ => rk_extent rk = None
  end.

Definition describes (md : meta) (pad : padding) (cg : cells_group) (raw : raw_cells) : Prop :=
  rc_centres raw = cg_centres cg /\ rc_size raw = cg_size cg /\ rc_box raw = md_box md /\
  rc_pad raw = pad_used md pad /\
  (rc_homogeneous raw = true <-> md_kind md = KSOAP) /\
  (md_kind md = KSOAP -> cg_min cg = None \/ cg_max cg = None) /\
  (exists offsets, offsets_table cg offsets /\
     forall i in_file stored number, nth_mask md i in_file stored number ->
       exists rk, nth_error (rc_keys raw) i = Some rk /\
                  describes_key cg md offsets in_file number rk) /\
  forall i rk, nth_error (rc_keys raw) i = Some rk ->
    exists in_file stored number, nth_mask md i in_file stored number.

(** A call by name and the same call by number.  A property of an unknown group, or an
    unknown property, is no data. *)
Inductive same_call (md : meta) : call -> mask_op -> Prop :=
| SameSpatial region union : same_call md (CallSpatial region union) (OpSpatial region union)
| SameProperty g q i lower upper :
    uses_mask md g i -> same_call md (CallProperty g q lower upper)
                                  (OpProperty i (md_fields md g q) lower upper)
| SameUnknown g q i lower upper :
    ~ In g (names md) -> same_call md (CallProperty g q lower upper)
                                   (OpProperty i None lower upper)
| SameIndex i : same_call md (CallIndex i) (OpIndex i)
| SameIndices l : same_call md (CallIndices l) (OpIndices l)
| SameToRanges : same_call md CallToRanges OpToRanges
| SameToBool : same_call md CallToBool OpToBool.

(** What [mask.<name>] and [mask.<name>_size] must be. *)
Definition mask_value (m : masks) (i : nat) (v : mvalue) (n : Z) : Prop :=
  match m with
  | InRanges l => exists rs, nth_error l i = Some (rs, n) /\ v = VRanges rs
  | InBools l => exists bs, nth_error l i = Some (bs, n) /\ v = VBools bs
  end.

(** The rows a mask value selects. *)
Definition value_rows (v : mvalue) : list Z :=
  match v with
  | VRanges rs => indices_of rs
  | VBools bs => rows_true bs
  | VSize _ => []
  end.

(** The same value as the argument of the function that counts a mask's rows per cell. *)
Definition value_input (v : mvalue) : option (list range + list bool) :=
  match v with VRanges rs => Some (inl rs) | VBools bs => Some (inr bs) | VSize _ => None end.

(** A region that does not cover the whole of an axis. *)
Definition bounded_axis (box : Q) (r : option (list Q)) : Prop :=
  match r with
  | None => True
  | Some l => exists lo up, l = [lo; up] /\ (up - lo <= box)%Q /\ (lo - up <= box)%Q
  end.

Definition bounded_somewhere (box : vec) (region : list (option (list Q))) : Prop :=
  exists rx ry rz, region = [rx; ry; rz] /\
    (bounded_axis (box AX) rx \/ bounded_axis (box AY) ry \/ bounded_axis (box AZ) rz).

(** A table the mask needs is missing. *)
Definition table_missing (md : meta) (cg : cells_group) : Prop :=
  (cg_offsets_in_file cg = None /\ cg_offsets cg = None) \/
  exists i in_file stored number, nth_mask md i in_file stored number /\
    (lacks in_file (cg_counts cg) \/ (exists offsets, offsets_table cg offsets /\ lacks in_file offsets)).

(** A group has no entry in the bounding boxes of a snapshot. *)
Definition box_missing (md : meta) (cg : cells_group) : Prop :=
  exists mn mx in_file stored, cg_min cg = Some mn /\ cg_max cg = Some mx /\
    In (in_file, stored) (md_groups md) /\ (lacks in_file mn \/ lacks in_file mx).
