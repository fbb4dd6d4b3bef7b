(** Specification vocabulary for the structure of subset files. *)
From Coq Require Import String List ZArith Bool Ascii.
From Verif Require Import Base RangesModel RangesSpec ReaderModel ReaderSpec SubsetModel SubsetSpec TreeModel.
Import ListNotations.
Open Scope Z_scope.

(** [w] occurs in the text [s]. *)
Definition occurs (w s : string) : Prop := w <> EmptyString /\ exists a b, s = (a ++ w ++ b)%string.

(** What a path leads to, following links. *)
Inductive leads {V} : node V -> path -> node V -> Prop :=
| leads_data d a : leads (NData d a) [] (NData d a)
| leads_group a ks : leads (NGroup a ks) [] (NGroup a ks)
| leads_link t m p n : leads m p n -> leads (NLink t (Some m)) p n
| leads_down a ks k m p n : In (k, m) ks -> leads m p n -> leads (NGroup a ks) (k :: p) n.

(** The dataset [d] with the attributes [a] can be read at [p]. *)
Definition dataset_at {V} (t : tree V) (p : path) (d : field V) (a : attrs) : Prop :=
  leads (NGroup [] t) p (NData d a).

(** What is stored below a node, without following links. *)
Inductive stored {V} : node V -> path -> node V -> Prop :=
| stored_here n : stored n [] n
| stored_down a ks k m p n : In (k, m) ks -> stored m p n -> stored (NGroup a ks) (k :: p) n.

Definition entry_of_node {V} (n : node V) : entry V :=
  match n with
  | NData d a => EData d a
  | NGroup a _ => EGroup a
  | NLink t _ => ELink t
  end.

(** A link of the top level. *)
Definition top_link {V} (t : tree V) (k target : string) : Prop :=
  exists dest, In (k, NLink target dest) t.

(** No word of the writer's lists occurs in the path of a dataset. *)
Definition plain_path {V} (t : tree V) (p : path) : Prop :=
  (forall k target, top_link t k target -> ~ occurs k (joined p)) /\
  ~ occurs "Cells" (joined p) /\ ~ occurs "SubgridScheme" (joined p) /\ ~ occurs "PartTypeNames" (joined p).

(** [w] is the part of [g] before its first slash. *)
Definition first_of (g w : string) : Prop :=
  ~ (exists a b, w = (a ++ "/" ++ b)%string) /\ (g = w \/ exists r, g = (w ++ "/" ++ r)%string).

(** No word of the writer's lists occurs in a name of the top level. *)
Definition plain_name {V} (t : tree V) (m : tmask) (k : string) : Prop :=
  (forall l target, top_link t l target -> ~ occurs l k) /\
  ~ occurs "Cells" k /\ (forall g w, In g (tm_present m) -> first_of g w -> ~ occurs w k).

(** The part of the mask that applies to a path. *)
Definition mask_at (m : tmask) (p : path) (rs : list range) (size : Z) : Prop :=
  tm_shared m = Some (rs, size) \/
  tm_shared m = None /\ exists k q, p = k :: q /\ assoc k (tm_types m) = Some (rs, size) /\
                                    In k known_types /\ occurs "PartType" (joined p).

(** The ranges suit the dataset. *)
Definition mask_fits {V} (rs : list range) (size : Z) (d : field V) : Prop :=
  (exists n, field_of n d /\ Forall (in_bounds n) rs) /\
  ordered_ranges rs /\ size = total_rows rs /\ fd_layout d <> Remote.

(** [p] lies strictly above [q]. *)
Definition is_above (p q : path) : Prop := p <> [] /\ exists r, r <> [] /\ q = p ++ r.

(** Names are used once in every group. *)
Inductive uniquely_named {V} : node V -> Prop :=
| un_data d a : uniquely_named (NData d a)
| un_link t : uniquely_named (NLink t None)
| un_dest t m : uniquely_named m -> uniquely_named (NLink t (Some m))
| un_group a ks : NoDup (map fst ks) -> (forall k m, In (k, m) ks -> uniquely_named m) ->
                  uniquely_named (NGroup a ks).

(** Every link below the node has a target. *)
Inductive resolved {V} : node V -> Prop :=
| rs_data d a : resolved (NData d a)
| rs_link t m : resolved m -> resolved (NLink t (Some m))
| rs_group a ks : (forall k m, In (k, m) ks -> resolved m) -> resolved (NGroup a ks).

(** [w] is part of the text [s]; every text has the empty text in it. *)
Definition within (w s : string) : Prop := exists a b, s = (a ++ w ++ b)%string.

(** No dataset below [n] belongs to two tables. *)
Definition tables_apart {V} (shared : bool) (tables : list (string * list Z)) (base : path) (n : node V) : Prop :=
  (length tables <= 1)%nat \/
  shared = false /\
  ForallOrdPairs (fun s s' => forall q d a, leads n q (NData d a) ->
                    ~ (within (fst s) (joined (base ++ q)) /\ within (fst s') (joined (base ++ q)))) tables.

(** The Cells group as SWIFT writes it. *)
Definition standard_cells {V} (m : tmask) (cells : tree V) : Prop :=
  let shared := match tm_shared m with Some _ => true | None => false end in
  (exists a ks, In ("Counts"%string, NGroup a ks) cells /\
                tables_apart shared (tm_counts m) ["Cells"; "Counts"]%string (NGroup a ks)) /\
  (exists off a ks, In (off, NGroup a ks) cells /\
     (off = "OffsetsInFile"%string \/
      off = "Offsets"%string /\ ~ In "OffsetsInFile"%string (map fst cells)) /\
     tables_apart shared (tm_offsets m) ["Cells"%string; off] (NGroup a ks)) /\
  In "Centres"%string (map fst cells) /\ In "Meta-data"%string (map fst cells).

(** The types of file the writer knows. *)
Definition known_output_type (s : string) : Prop :=
  In s ["FullVolume"; "SOAP"; "FOF"; "VolumeSubset"; "SOAPSubset"; "FOFSubset"]%string.

(** The number of particles of type [i], when the old number was [old]. *)
Definition count_of (m : tmask) (i : nat) (old new : Z) : Prop :=
  (old = 0 /\ new = 0) \/
  (old <> 0 /\ ((exists rs, tm_shared m = Some (rs, new)) \/
                (tm_shared m = None /\ exists k rs, nth_error known_types i = Some k /\
                                                    assoc k (tm_types m) = Some (rs, new)))).

Definition counts_of (m : tmask) (old new : list Z) : Prop :=
  length new = length old /\
  forall i a b, nth_error old i = Some a -> nth_error new i = Some b -> count_of m i a b.

(** The value of an attribute of Header or Parameters in the output. *)
Definition subset_value (m : tmask) (header : option aval) (otype : string) (k : string) (v v' : aval) : Prop :=
  (k = "OutputType"%string /\ exists s, subset_output_type otype = Ok s /\ v' = AText s) \/
  (k = "NumPart_ThisFile"%string /\ (otype = "FullVolume" \/ otype = "VolumeSubset")%string /\
     exists old new, header = Some (AInts old) /\ v' = AInts new /\ counts_of m old new) \/
  (k = "NumSubhalos_ThisFile"%string /\ (otype = "SOAP" \/ otype = "SOAPSubset")%string /\
     exists rs size, tm_shared m = Some (rs, size) /\ v' = AInts [size]) \/
  (k <> "OutputType"%string /\
   (k = "NumPart_ThisFile" -> otype <> "FullVolume" /\ otype <> "VolumeSubset")%string /\
   (k = "NumSubhalos_ThisFile" -> otype <> "SOAP" /\ otype <> "SOAPSubset")%string /\ v' = v).

Definition is_header (k : string) : Prop := k = "Header"%string \/ k = "Parameters"%string.

(** A file the writer can handle: names are used once, links have targets, the cell tables are
    there, the header's values can be rewritten, and every dataset the writer is to copy has a
    mask and lies outside the groups copied whole. *)
Record standard {V} (m : tmask) (t : tree V) : Prop := {
  st_names : uniquely_named (NGroup [] t);
  st_links : resolved (NGroup [] t);
  st_link_names : forall k target, top_link t k target -> k <> EmptyString;
  st_cells : exists a cells, In ("Cells"%string, NGroup a cells) t /\ standard_cells m cells;
  st_header : forall k n key v, In (k, n) t -> is_header k -> In (key, v) (node_attrs n) ->
                exists v', subset_value m (header_count t) (output_type_of (node_attrs n)) key v v';
  st_data : forall p d a, dataset_at t p d a -> plain_path t p ->
              fd_rows d <> [] /\ (exists rs size, mask_at m p rs size /\ mask_fits rs size d) /\
              (forall k q, p = k :: q -> ~ plain_name t m k)
}.
