(** Vocabulary for the statements about metadata. *)
From Coq Require Import String Ascii List Arith ZArith QArith Bool Sorting.Sorted Sorting.Permutation.
From Verif Require Import Base NamesModel SubsetModel MetaModel.
Import ListNotations.

(** The attributes of the header of a file. *)
Definition header_is (f : mfile) (h : dict) : Prop :=
  exists g, dict_get (mf_groups f) (txt "Header") = Some g /\ gi_attrs g = h.

(** The metadata object [m] has, or does not have, an attribute. *)
Definition shows (m : list (name * mval)) (attr : string) (v : mval) : Prop :=
  dict_get m (txt attr) = Some v.
Definition lacks (m : list (name * mval)) (attr : string) : Prop :=
  dict_get m (txt attr) = None.

(** The header has, or does not have, a field. *)
Definition has (h : dict) (field : string) (v : hval) : Prop := dict_get h (txt field) = Some v.
Definition missing (h : dict) (field : string) : Prop := dict_get h (txt field) = None.

(** Values that can be indexed at 0, and those that give a number there. *)
Definition indexable (v : hval) : Prop :=
  match v with HArr l => l <> [] | HNum _ => False | HStr s | HBytes s => s <> [] | HStrs l => l <> [] end.
Definition numeric0 (v : hval) : Prop :=
  match v with HArr l => l <> [] | HBytes s => s <> [] | _ => False end.
Definition is_numbers (v : hval) : Prop := match v with HArr _ | HNum _ => True | _ => False end.
Definition is_text (v : hval) : Prop := match v with HStr _ | HBytes _ => True | _ => False end.
Definition tabular (v : hval) : Prop :=
  match v with HArr _ | HNum _ | HBytes _ => True | HStr s => s = [] | HStrs l => l = [] end.

Definition if_there (h : dict) (field : string) (P : hval -> Prop) : Prop :=
  forall v, has h field v -> P v.

(** The headers that can be unpacked. *)
Definition header_ok (h : dict) : Prop :=
  if_there h "Time" numeric0
  /\ if_there h "Dimension" indexable /\ if_there h "Redshift" indexable
  /\ if_there h "Scale-factor" indexable
  /\ if_there h "BoxSize" is_numbers
  /\ if_there h "MassTable" tabular /\ if_there h "InitialMassTable" tabular
  /\ if_there h "SnapshotDate" is_text
  /\ (missing h "SnapshotDate" -> if_there h "Snapshot date" is_text)
  /\ ~ missing h "NumPart_ThisFile".

(** The names of the particle types, in order. *)
Definition type_names : list string :=
  ["gas"; "dark_matter"; "boundary"; "sinks"; "stars"; "black_holes"; "neutrinos"; "sidm"]%string.

(** * Mapping tables *)

Definition letter (c : ascii) : Prop :=
  (65 <= nat_of_ascii c <= 90 \/ 97 <= nat_of_ascii c <= 122)%nat.

(** The text of a key is letters [x], To, letters [y], Mapping and anything else. *)
Definition splits (key x y : name) : Prop :=
  Forall letter x /\ Forall letter y
  /\ exists rest, key = (x ++ txt "To" ++ y ++ txt "Mapping" ++ rest)%list.

(** The one with the longest [x], and among these the longest [y]. *)
Definition longest (key x y : name) : Prop :=
  splits key x y
  /\ forall x' y', splits key x' y' ->
       (length x' < length x \/ x' = x /\ length y' <= length y)%nat.

Definition is_prefix (w s : name) : Prop := exists r, s = (w ++ r)%list.
Definition is_suffix (w s : name) : Prop := exists r, s = (r ++ w)%list.

(** The first entry whose name starts with [w]. *)
Definition first_prefixed (w : name) (cols : list (name * list name)) (k : name) (c : list name) : Prop :=
  exists i, nth_error cols i = Some (k, c) /\ is_prefix w k
  /\ forall j k' c', (j < i)%nat -> nth_error cols j = Some (k', c') -> ~ is_prefix w k'.

(** The name that stands for [x] among the columns. *)
Definition renamed (x : name) (x' : name) : Prop :=
  x = txt "Grain" /\ x' = txt "Dust" \/ x <> txt "Grain" /\ x' = x.

Definition cell (data : list (list Q)) (i j : nat) (v : Q) : Prop :=
  exists row, nth_error data i = Some row /\ nth_error row j = Some v.

Definition pair_name (nx ny : name) : name := (lower nx ++ txt "_to_" ++ lower ny)%list.

(** What a mapping needs: columns for both names, and a value for each pair. *)
Definition mapping_fine (cols : list (name * list name)) (key : name) (data : list (list Q)) : Prop :=
  forall x y, longest key x y ->
  exists x' kx cx ky cy,
    renamed x x' /\ first_prefixed x' cols kx cx /\ first_prefixed y cols ky cy
    /\ forall i j, (i < length cx)%nat -> (j < length cy)%nat -> exists v, cell data i j v.

Definition columns_in (f : mfile) : list (name * list name) :=
  match mf_columns f with Some c => c | None => [] end.
Definition subgrid_in (f : mfile) : list (name * list (list Q)) :=
  match mf_subgrid f with Some l => l | None => [] end.

Definition mappings_fine (k : file_kind) (f : mfile) : Prop :=
  match k with
  | KSnapshot | KLineOfSight =>
      forall key data, In (key, data) (subgrid_in f) -> is_suffix (txt "Mapping") key ->
        mapping_fine (columns_in f) key data
  | _ => True
  end.

(** * Groups *)

(** The order of texts. *)
Definition text_le (x y : name) : Prop :=
  is_prefix x y
  \/ exists p a b s t, x = (p ++ a :: s)%list /\ y = (p ++ b :: t)%list /\ (nat_of_ascii a < nat_of_ascii b)%nat.

(** The table that says which types of particles there are. *)
Definition type_table (h : dict) (l : list Q) : Prop :=
  has h "CanHaveTypes" (HArr l) \/ missing h "CanHaveTypes" /\ has h "NumPart_ThisFile" (HArr l).

Definition not_zero_at (l : list Q) (i : nat) : Prop := exists x, nth_error l i = Some x /\ ~ x == 0.

(** A number written with decimal digits. *)
Inductive numeral : nat -> name -> Prop :=
| numeral_digit : forall d, (d < 10)%nat -> numeral d [ascii_of_nat (48 + d)]
| numeral_more : forall q s d, (0 < q)%nat -> (d < 10)%nat -> numeral q s ->
    numeral (10 * q + d) (s ++ [ascii_of_nat (48 + d)])%list.

Definition type_group (i : nat) (g : name) : Prop := exists s, numeral i s /\ g = (txt "PartType" ++ s)%list.

(** The groups of a file, in order. *)
Definition listed (k : file_kind) (f : mfile) (h : dict) (gs : list name) : Prop :=
  match k with
  | KSnapshot =>
      exists l pos, type_table h l
      /\ Sorting.Sorted.StronglySorted lt pos /\ (forall i, In i pos <-> not_zero_at l i)
      /\ Forall2 type_group pos gs
  | KLineOfSight =>
      Sorting.Sorted.StronglySorted text_le gs
      /\ exists others, Permutation.Permutation (mf_keys f) (gs ++ others)%list
         /\ Forall (is_prefix (txt "LOS_")) gs /\ Forall (fun n => ~ is_prefix (txt "LOS_") n) others
  | KFOF => gs = [txt "Groups"]
  | KSOAP => has h "SubhaloTypes" (HStrs gs)
  end.

(** The public name of a group. *)
Definition named (k : file_kind) (g n : name) : Prop :=
  match k with
  | KSnapshot => exists i t, nth_error type_names i = Some t /\ type_group i g /\ n = txt t
  | KLineOfSight => n = lower g
  | KFOF => n = txt "fof_groups"
  | KSOAP => soap_name_underscore g = Ok n
  end.

(** The named columns that are known when groups are loaded. *)
Definition columns_for (k : file_kind) (f : mfile) : list (name * list name) :=
  match k with KSnapshot | KLineOfSight => columns_in f | _ => [] end.

Definition path_of (g item : name) : name := (g ++ slash :: item)%list.

(** The part of a path after the last slash. *)
Definition path_end (s t : name) : Prop := ~ In slash t /\ (s = t \/ exists r, s = (r ++ slash :: t)%list).

(** What a group needs. *)
Definition group_fine (k : file_kind) (f : mfile) (gs : list name) (g : name) : Prop :=
  (exists n, named k g n)
  /\ exists gi, dict_get (mf_groups f) g = Some gi
     /\ forall item t, In item (gi_keys gi) -> ~ In (path_of g item) gs -> path_end (path_of g item) t ->
          dict_get (columns_for k f) t <> Some [].

(** The fields of a group: its members that are no groups of their own. *)
Inductive fields_of (gs : list name) (g : name) : list name -> list name -> Prop :=
| fields_nil : fields_of gs g [] []
| fields_skip : forall item l r, In (path_of g item) gs -> fields_of gs g l r -> fields_of gs g (item :: l) r
| fields_keep : forall item l r, ~ In (path_of g item) gs -> fields_of gs g l r ->
    fields_of gs g (item :: l) (item :: r).

(** The metadata of one group. *)
Definition describes (k : file_kind) (f : mfile) (gs : list name) (g n : name) (m : group_meta) : Prop :=
  gm_group m = g /\ gm_name m = n
  /\ exists gi items, dict_get (mf_groups f) g = Some gi /\ fields_of gs g (gi_keys gi) items
     /\ gm_paths m = map (path_of g) items
     /\ gm_names m = map snake items
     /\ Forall2 (fun item pc =>
          fst pc = path_of g item
          /\ exists t, path_end (path_of g item) t
             /\ match dict_get (columns_for k f) t with
                | Some c => exists c', format_columns c = Ok c' /\ snd pc = Some c'
                | None => snd pc = None
                end) items (gm_columns m)
     /\ gm_attributes m = match k with
                          | KLineOfSight => map (fun kv => (snake (fst kv), fst kv)) (gi_attrs gi)
                          | _ => []
                          end.

(** Whether there is a cosmology to convert. *)
Inductive run_flag : hval -> bool -> Prop :=
| run_num : forall x, ~ x == 0 -> run_flag (HNum x) true
| run_num0 : forall x, x == 0 -> run_flag (HNum x) false
| run_arr : forall x, ~ x == 0 -> run_flag (HArr [x]) true
| run_arr0 : forall x, x == 0 -> run_flag (HArr [x]) false
| run_text : forall v s, In v [HStr s; HBytes s; HStrs [s]] -> s <> [] -> run_flag v true
| run_text0 : forall v, In v [HStr []; HBytes []; HStrs [[]]] -> run_flag v false.

Definition cosmology_in (f : mfile) : dict :=
  match dict_get (mf_groups f) (txt "Cosmology") with Some g => gi_attrs g | None => [] end.

Definition cosmological (f : mfile) (b : bool) : Prop :=
  match dict_get (cosmology_in f) (txt "Cosmological run") with
  | Some v => run_flag v b
  | None => b = false
  end.

Definition subhalos_fine (k : file_kind) (h : dict) : Prop :=
  match k with KSOAP => exists v, has h "NumSubhalos_ThisFile" v /\ numeric0 v | _ => True end.

(** * Values *)

(** The item of a value at a position. *)
Inductive item_of : hval -> nat -> mval -> Prop :=
| item_arr : forall l i x, nth_error l i = Some x -> item_of (HArr l) i (VNum x)
| item_bytes : forall s i c, nth_error s i = Some c -> item_of (HBytes s) i (VNum (inject_Z (Z.of_nat (nat_of_ascii c))))
| item_text : forall s i c, nth_error s i = Some c -> item_of (HStr s) i (VHeader (HStr [c]))
| item_texts : forall l i s, nth_error l i = Some s -> item_of (HStrs l) i (VHeader (HStr s)).

(** The header fields that are handed on as they are. *)
Definition handed_on : list (string * string) :=
  [ ("NumPart_ThisFile", "num_part"); ("NumGroup_ThisFile", "num_group"); ("NumSubhalos_ThisFile", "num_subhalo");
    ("CanHaveTypes", "has_type"); ("NumFilesPerSnapshot", "num_files_per_snapshot");
    ("SubhaloTypes", "subhalo_types") ]%string.

Definition texts : list (string * string) :=
  [ ("RunName", "run_name"); ("SelectOutput", "select_output"); ("OutputType", "output_type");
    ("System", "system_name") ]%string.

Definition dictionaries : list (string * string) :=
  [ ("Code", "code"); ("Cosmology", "cosmology_raw"); ("Header", "header"); ("GravityScheme", "gravity_scheme");
    ("HydroScheme", "hydro_scheme"); ("InternalCodeUnits", "internal_code_units"); ("Parameters", "parameters");
    ("Policy", "policy"); ("RuntimePars", "runtime_pars"); ("SubgridScheme", "subgrid_scheme");
    ("StarsScheme", "stars_scheme"); ("UnusedParameters", "unused_parameters") ]%string.

(** A mass table: one mass for each type, or none beyond the end of the field. *)
Definition masses_of (l : list Q) (t : list (name * option (Q * dimension))) : Prop :=
  length t = 8%nat
  /\ forall i n, nth_error type_names i = Some n ->
       (forall x, nth_error l i = Some x -> nth_error t i = Some (txt n, Some (x, DMass)))
       /\ (nth_error l i = None -> nth_error t i = Some (txt n, None)).

(** The text of a date field. *)
Definition date_text (h : dict) (s : name) : Prop :=
  (exists v, has h "SnapshotDate" v /\ In v [HStr s; HBytes s])
  \/ missing h "SnapshotDate" /\ (exists v, has h "Snapshot date" v /\ In v [HStr s; HBytes s])
  \/ missing h "SnapshotDate" /\ missing h "Snapshot date" /\ s = [].

(** The table of a mapping.  A value is found by the names of its columns, unless a later pair has
    these names, and there are no others. *)
Definition tabulates (cols : list (name * list name)) (data : list (list Q)) (x y : name) (t : mapping_table) : Prop :=
  (exists x', renamed x x' /\ first_prefixed x' cols (mt_x_name t) (mt_x t))
  /\ first_prefixed y cols (mt_y_name t) (mt_y t)
  /\ mt_data t = data
  /\ (forall i j nx ny, nth_error (mt_x t) i = Some nx -> nth_error (mt_y t) j = Some ny ->
        (forall i' j' nx' ny', nth_error (mt_x t) i' = Some nx' -> nth_error (mt_y t) j' = Some ny' ->
           pair_name nx' ny' = pair_name nx ny -> (i' < i \/ i' = i /\ j' <= j)%nat) ->
        exists v, cell data i j v /\ dict_get (mt_values t) (pair_name nx ny) = Some v)
  /\ (forall n v, dict_get (mt_values t) n = Some v ->
        exists i j nx ny, nth_error (mt_x t) i = Some nx /\ nth_error (mt_y t) j = Some ny
          /\ n = pair_name nx ny /\ cell data i j v).

(** * Attributes of lines of sight *)

Definition is_position (n : name) : Prop := In n [txt "xpos"; txt "ypos"; txt "zpos"].

(** The last item whose name is [n]. *)
Definition last_named {A} (f : A -> name) (l : list A) (n : name) (x : A) : Prop :=
  exists l1 l2, l = (l1 ++ x :: l2)%list /\ f x = n /\ Forall (fun y => f y <> n) l2.
