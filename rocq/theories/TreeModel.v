(** Model of the file structure written by swiftsimio/subset_writer.py: groups, datasets, links
    and attributes.  Definitions only.

    A file is a tree of named nodes.  A soft link carries its target path and the node the path
    leads to ([None]: the target does not exist); cyclic links are not represented.  Keys are
    visited in list order.  Names contain no "/".  *)
From Coq Require Import String List ZArith Bool Ascii.
From Verif Require Import Base RangesModel ReaderModel SubsetModel.
Import ListNotations.
Open Scope Z_scope.

(** Attribute values: text, integer arrays, anything else. *)
Inductive aval : Type :=
| AText (t : string)
| AInts (l : list Z)
| ARaw (z : Z).

Definition attrs : Type := list (string * aval).

Inductive node (V : Type) : Type :=
| NData (d : field V) (a : attrs)
| NGroup (a : attrs) (kids : list (string * node V))
| NLink (target : string) (dest : option (node V)).
Arguments NData {V}.
Arguments NGroup {V}.
Arguments NLink {V}.

Definition tree (V : Type) : Type := list (string * node V).
Definition path : Type := list string.

(** * Text *)

(** Python's [sub in s]. *)
Fixpoint contains (sub s : string) : bool :=
  String.prefix sub s ||
  match s with
  | EmptyString => false
  | String _ s' => contains sub s'
  end.

(** The path of an object as the code writes it: ["/PartType0/Coordinates"]. *)
Fixpoint joined (p : path) : string :=
  match p with
  | [] => EmptyString
  | k :: p' => String "/"%char (k ++ joined p')
  end.

(** [any([substr for substr in skip_list if substr in name])]: an empty word is not true. *)
Definition skips (words : list string) (s : string) : bool :=
  existsb (fun w => contains w s && negb (w =? "")%string) words.

Fixpoint assoc {A} (k : string) (l : list (string * A)) : option A :=
  match l with
  | [] => None
  | (k', a) :: l' => if (k =? k')%string then Some a else assoc k l'
  end.

(** * Visiting the input *)

(** subset_writer.py:101-150 [_find_datasets]: [input_file[subpath]] follows links.  The dataset
    found is carried along with its path. *)
Fixpoint find_datasets {V} (p : path) (n : node V) : res (list (path * (field V * attrs))) :=
  match n with
  | NData d a => Ok [(p, (d, a))]
  | NLink _ None => Err KeyError
  | NLink _ (Some m) => find_datasets p m
  | NGroup _ kids =>
      (fix go (ks : list (string * node V)) :=
         match ks with
         | [] => Ok []
         | (k, m) :: ks' =>
             do a <- find_datasets (p ++ [k]) m;
             do b <- go ks';
             Ok (a ++ b)
         end) kids
  end.

(** subset_writer.py:153-197 [_find_links].  The lists are emptied on entry and the result of the
    recursive call is dropped, so that only links of the top level are returned. *)
Definition find_links {V} (t : tree V) : list (string * string) :=
  flat_map (fun kn => match snd kn with
                      | NLink target _ => [(fst kn, target)]
                      | _ => []
                      end) t.

(** * The output *)

Inductive entry (V : Type) : Type :=
| EGroup (a : attrs)
| EData (d : field V) (a : attrs)
| ETable (l : list Z)             (* a cell table *)
| ELink (target : string).
Arguments EGroup {V}.
Arguments EData {V}.
Arguments ETable {V}.
Arguments ELink {V}.

Definition out (V : Type) : Type := list (path * entry V).

Definition path_eq_dec : forall p q : path, {p = q} + {p <> q} := list_eq_dec string_dec.

Fixpoint at_path {V} (o : out V) (p : path) : option (entry V) :=
  match o with
  | [] => None
  | (q, e) :: o' => if path_eq_dec p q then Some e else at_path o' p
  end.

(** The groups above [p]. *)
Definition above (p : path) : list path :=
  map (fun n => firstn n p) (seq 1 (length p - 1)).

(** An object of the output: h5py refuses a name in use and makes the groups above it, without
    attributes.  A path that goes through a dataset fails; one that goes through a link of the
    output is not followed here (error). *)
Definition create {V} (o : out V) (p : path) (e : entry V) : res (out V) :=
  match at_path o p with
  | Some _ => Err ValueError
  | None =>
      if forallb (fun q => match at_path o q with
                           | None | Some (EGroup _) => true
                           | _ => false
                           end) (above p)
      then Ok (o ++ map (fun q => (q, EGroup []))
                        (filter (fun q => match at_path o q with None => true | _ => false end) (above p))
                 ++ [(p, e)])
      else Err OSErr
  end.

Fixpoint create_all {V} (o : out V) (l : list (path * entry V)) : res (out V) :=
  match l with
  | [] => Ok o
  | (p, e) :: l' => do o' <- create o p e; create_all o' l'
  end.

(** [infile.copy(field, outfile)]: everything below is copied, links as links. *)
Fixpoint flatten {V} (p : path) (n : node V) : list (path * entry V) :=
  match n with
  | NData d a => [(p, EData d a)]
  | NLink t _ => [(p, ELink t)]
  | NGroup a kids =>
      (p, EGroup a) ::
      (fix go (ks : list (string * node V)) :=
         match ks with
         | [] => []
         | (k, m) :: ks' => flatten (p ++ [k]) m ++ go ks'
         end) kids
  end.

(** * The mask *)

(** The ranges and sizes of the mask, by type name ("PartType0"), or for all groups when the
    file has shared cell counts; and the cell tables [_get_masked_counts_offsets] returns, with
    the order of the cells. *)
Record tmask : Type := mk_tmask {
  tm_shared : option (list range * Z);
  tm_types : list (string * (list range * Z));
  tm_counts : list (string * list Z);
  tm_offsets : list (string * list Z);
  tm_cell_sort : list nat;
  tm_present : list string       (* metadata.present_groups *)
}.

Definition known_types : list string :=
  ["PartType0"; "PartType1"; "PartType2"; "PartType3";
   "PartType4"; "PartType5"; "PartType6"; "PartType7"]%string.

Definition in_list (s : string) (l : list string) : bool := existsb (fun x => (s =? x)%string) l.

(** subset_writer.py:35-98 [_get_dataset_mask], [_get_dataset_size]: the mask of the shared cell
    counts, the mask of the type the path starts with, or none. *)
Definition dataset_mask (m : tmask) (p : path) : res (option (list range * Z)) :=
  match tm_shared m with
  | Some r => Ok (Some r)
  | None =>
      if contains "PartType" (joined p) then
        match p with
        | k :: _ => if in_list k known_types then Ok (assoc k (tm_types m)) else Err KeyError
        | [] => Err KeyError
        end
      else Ok None
  end.

(** * Cells *)

Definition kids_of {V} (n : option (node V)) : res (tree V) :=
  match n with
  | Some (NGroup _ ks) => Ok ks
  | Some (NLink _ (Some (NGroup _ ks))) => Ok ks
  | Some _ => Err AttributeError
  | None => Err KeyError
  end.

(** subset_writer.py:216-232, one loop: every table of the mask is written to each dataset whose
    path has the type's name in it (to all of them when the counts are shared). *)
Definition table_entries {V} (shared : bool) (tables : list (string * list Z))
           (dsets : list (path * (field V * attrs))) : list (path * entry V) :=
  flat_map (fun kt =>
    flat_map (fun d => if shared || contains (fst kt) (joined (fst d))
                       then [(fst d, ETable (snd kt))] else []) dsets) tables.

(** subset_writer.py:234-246: copies reordered with [cell_sort]. *)
Definition sorted_field {V} (sort : list nat) (d : field V) : field V :=
  mk_field (fd_layout d) (fd_2d d) (fd_width d)
    (flat_map (fun i => match nth_error (fd_rows d) i with Some r => [r] | None => [] end) sort).

Definition sort_entry {V} (sort : list nat) (pe : path * entry V) : path * entry V :=
  match pe with
  | (p, EData d a) => (p, EData (sorted_field sort d) a)
  | _ => pe
  end.

Definition copy_of {V} (cells : tree V) (name : string) : res (list (path * entry V)) :=
  match assoc name cells with
  | Some (NLink _ None) => Err KeyError
  | Some (NLink _ (Some n)) | Some n => Ok (flatten ["Cells"; name]%string n)
  | None => Err KeyError
  end.

(** subset_writer.py:200-247 [_update_metadata_counts]. *)
Definition cells_entries {V} (m : tmask) (t : tree V) : res (list (path * entry V)) :=
  do cells <- kids_of (assoc "Cells"%string t);
  let shared := match tm_shared m with Some _ => true | None => false end in
  let off := (match assoc "OffsetsInFile" cells with
              | Some _ => "OffsetsInFile"
              | None => "Offsets"
              end)%string in
  do counts <- (match assoc "Counts"%string cells with
                | Some n => find_datasets ["Cells"; "Counts"]%string n
                | None => Err KeyError
                end);
  do offsets <- (match assoc off cells with
                 | Some n => find_datasets ["Cells"%string; off] n
                 | None => Err KeyError
                 end);
  do centres <- copy_of cells "Centres"%string;
  do meta <- copy_of cells "Meta-data"%string;
  do extents <- (match assoc "MinPositions"%string cells, assoc "MaxPositions"%string cells with
                 | Some _, Some _ =>
                     do mn <- copy_of cells "MinPositions"%string;
                     do mx <- copy_of cells "MaxPositions"%string;
                     Ok (mn ++ mx)
                 | _, _ => Ok []
                 end);
  Ok ([(["Cells"], EGroup []); (["Cells"; "Counts"], EGroup []); (["Cells"; off], EGroup [])]%string
      ++ table_entries shared (tm_counts m) counts
      ++ table_entries shared (tm_offsets m) offsets
      ++ map (sort_entry (tm_cell_sort m)) centres
      ++ meta
      ++ map (sort_entry (tm_cell_sort m)) extents).

(** * Header and metadata groups *)

Definition node_attrs {V} (n : node V) : attrs :=
  match n with
  | NData _ a | NGroup a _ => a
  | NLink _ (Some (NData _ a)) | NLink _ (Some (NGroup a _)) => a
  | NLink _ _ => []
  end.

(** subset_writer.py:278-280; a value that is not text matches none of the types. *)
Definition output_type_of (a : attrs) : string :=
  match assoc "OutputType"%string a with
  | None => "FullVolume"%string
  | Some (AText t) => t
  | Some _ => EmptyString
  end.

(** subset_writer.py:299-307; a type without a mask gives [None], which cannot be stored. *)
Definition new_count (m : tmask) (i : nat) (old : Z) : res Z :=
  if old =? 0 then Ok 0
  else match nth_error known_types i with
       | None => match tm_shared m with Some r => Ok (snd r) | None => Err KeyError end
       | Some k =>
           do mk <- dataset_mask m [k];
           match mk with Some r => Ok (snd r) | None => Err TypeError end
       end.

Fixpoint new_counts (m : tmask) (i : nat) (l : list Z) : res (list Z) :=
  match l with
  | [] => Ok []
  | c :: l' => do n <- new_count m i c; do ns <- new_counts m (S i) l'; Ok (n :: ns)
  end.

(** subset_writer.py:283-312: one attribute of Header or Parameters. *)
Definition rewrite_attr (m : tmask) (header : option aval) (otype : string) (kv : string * aval)
  : res (string * aval) :=
  let (k, v) := kv in
  if (k =? "OutputType")%string then
    do t <- subset_output_type otype; Ok (k, AText t)
  else if (k =? "NumPart_ThisFile")%string
          && ((otype =? "FullVolume") || (otype =? "VolumeSubset"))%string then
    match header with
    | Some (AInts l) => do l' <- new_counts m 0 l; Ok (k, AInts l')
    | Some _ => Err TypeError
    | None => Err KeyError
    end
  else if (k =? "NumSubhalos_ThisFile")%string
          && ((otype =? "SOAP") || (otype =? "SOAPSubset"))%string then
    match tm_shared m with
    | Some r => Ok (k, AInts [snd r])
    | None => Err TypeError
    end
  else Ok (k, v).

Definition header_count {V} (t : tree V) : option aval :=
  match assoc "Header"%string t with
  | Some n => assoc "NumPart_ThisFile"%string (node_attrs n)
  | None => None
  end.

(** The words of subset_writer.py:273-275: links, "Cells" and the first parts of the group names. *)
Fixpoint first_part (s : string) : string :=
  match s with
  | EmptyString => EmptyString
  | String c s' => if Ascii.eqb c "/"%char then EmptyString else String c (first_part s')
  end.

Definition metadata_words (links : list string) (m : tmask) : list string :=
  links ++ ["Cells"%string] ++ map first_part (tm_present m).

(** subset_writer.py:276-314, one key of the file.  Of Header and Parameters only the attributes
    are written. *)
Definition metadata_entries_of {V} (m : tmask) (t : tree V) (words : list string)
           (kn : string * node V) : res (list (path * entry V)) :=
  let (k, n) := kn in
  if skips words k then Ok []
  else if ((k =? "Header") || (k =? "Parameters"))%string then
    do a <- all_ok (map (rewrite_attr m (header_count t) (output_type_of (node_attrs n))) (node_attrs n));
    Ok [([k], EGroup a)]
  else Ok (flatten [k] n).

Definition metadata_entries {V} (m : tmask) (t : tree V) (links : list string)
  : res (list (path * entry V)) :=
  do l <- all_ok (map (metadata_entries_of m t (metadata_words links m)) t);
  Ok (concat l).

(** * Datasets *)

(** subset_writer.py:343-344. *)
Definition data_words (links : list string) : list string :=
  links ++ ["Cells"; "SubgridScheme"; "PartTypeNames"]%string.

(** subset_writer.py:346-375, one dataset. *)
Definition data_entry {V} (argsort : list Z -> list nat) (m : tmask) (words : list string)
           (pd : path * (field V * attrs)) : res (list (path * entry V)) :=
  let '(p, (d, a)) := pd in
  if skips words (joined p) then Ok []
  else match fd_rows d with
       | [] => Err IndexError
       | _ =>
           do mk <- dataset_mask m p;
           do d' <- write_field argsort mk d;
           Ok [(p, EData d' a)]
       end.

Definition data_entries {V} (argsort : list Z -> list nat) (m : tmask) (links : list string)
           (ds : list (path * (field V * attrs))) : res (list (path * entry V)) :=
  do l <- all_ok (map (data_entry argsort m (data_words links)) ds);
  Ok (concat l).

(** subset_writer.py:379-396 [_connect_links]. *)
Definition link_entries {V} (links : list (string * string)) : list (path * entry V) :=
  map (fun lt => ([fst lt], ELink (snd lt))) links.

(** * The whole file *)

(** subset_writer.py:425-436.  Within one phase the objects are made after all of them have been
    prepared (a simplification in the choice between errors only). *)
Definition write_tree {V} (argsort : list Z -> list nat) (m : tmask) (t : tree V) : res (out V) :=
  let links := find_links t in
  do ce <- cells_entries m t;
  do o1 <- create_all [] ce;
  do me <- metadata_entries m t (map fst links);
  do o2 <- create_all o1 me;
  do ds <- find_datasets [] (NGroup [] t);
  do de <- data_entries argsort m (map fst links) ds;
  do o3 <- create_all o2 de;
  create_all o3 (link_entries links).
