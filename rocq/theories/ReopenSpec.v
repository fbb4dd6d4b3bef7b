(** Vocabulary for subset files that are opened again. *)
From Coq Require Import String Ascii List Arith ZArith QArith Bool.
From Verif Require Import Base RangesModel ReaderModel SubsetModel NamesModel MetaModel TreeModel TreeSpec ReopenModel.
Import ListNotations.
Open Scope list_scope.

(** Names have no slash in them. *)
Definition slash_free (p : path) : Prop :=
  Forall (fun k => ~ exists a b, k = (a ++ "/" ++ b)%string) p.
Definition proper_names {V} (o : out V) : Prop := forall p e, In (p, e) o -> p <> [] /\ slash_free p.

(** The attributes of a metadata object that a subset changes: the header, the type of file and the numbers
    of particles or subhalos. *)
Definition changing : list string :=
  [ "header"; "output_type"; "num_part"; "num_subhalo"; "n_subhalos"; "n_gas"; "n_dark_matter"; "n_boundary";
    "n_sinks"; "n_stars"; "n_black_holes"; "n_neutrinos"; "n_sidm" ]%string.
Definition changes (n : name) : Prop := In n (map txt changing).

(** The attributes of the header that a subset changes. *)
Definition rewritten : list string := ["OutputType"; "NumPart_ThisFile"; "NumSubhalos_ThisFile"]%string.

(** The groups of which the metadata object keeps the attributes. *)
Definition attribute_groups : list string :=
  [ "Code"; "Cosmology"; "GravityScheme"; "HydroScheme"; "InternalCodeUnits"; "Policy"; "RuntimePars";
    "SubgridScheme"; "StarsScheme"; "UnusedParameters"; "Units" ]%string.

(** Every member of the group at [p] is, or leads to, a dataset that the writer copies. *)
Definition all_copied {V} (t : tree V) (p : path) : Prop :=
  p <> [] /\ exists a ks, stored (NGroup [] t) p (NGroup a ks) /\ ks <> []
  /\ forall k n, In (k, n) ks -> exists q d b, leads n q (NData d b) /\ plain_path t (p ++ k :: q).

(** The file [t] has the header attributes [a], names are used once, none of the words that the writer
    leaves out occurs in the names of the groups that are read, and no type loses all its particles unless
    the header says which types there can be. *)
Record well_formed {V} (m : tmask) (t : tree V) (a : attrs) : Prop := {
  wf_names : uniquely_named (NGroup [] t);
  wf_header : exists ks, In ("Header"%string, NGroup a ks) t;
  wf_keys : NoDup (map fst a);
  wf_parameters : forall n, In ("Parameters"%string, n) t ->
    exists b ks, n = NGroup b ks /\ forall key, In key rewritten -> ~ In key (map fst b);
  wf_plain : forall g, In g ("Header" :: "Parameters" :: attribute_groups)%string -> plain_name t m g;
  wf_types : In "CanHaveTypes"%string (map fst a)
             \/ (forall rs size, tm_shared m = Some (rs, size) -> size <> 0%Z)
                /\ (forall k rs size, assoc k (tm_types m) = Some (rs, size) -> size <> 0%Z)
}.

(** All groups that are described are copied. *)
Definition described_copied {V} (t : tree V) (log : list (name * mval)) : Prop :=
  forall n gm, In (n, VGroup gm) log -> exists p, slash_free p /\ gm_group gm = path_name p /\ all_copied t p.
