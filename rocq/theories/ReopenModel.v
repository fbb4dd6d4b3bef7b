(** Model of an HDF5 file (TreeModel.v) as the metadata objects see it (MetaModel.v): which groups, members,
    attributes and datasets of SubgridScheme metadata/objects.py 141-149, 332-348, 690-759, 911-970 find.
    Used for the input and the output of subset_writer.py.

    Simplifications: names have no slash in them; links are not followed (the groups that are read are not
    links); members of SubgridScheme that are not datasets are no tables. *)
From Coq Require Import String Ascii List Arith ZArith QArith Bool.
From Verif Require Import Base RangesModel ReaderModel SubsetModel NamesModel MetaModel TreeModel.
Import ListNotations.
Open Scope list_scope.

(** What is below a path. *)
Fixpoint rest_of (p q : path) : option path :=
  match p, q with
  | [], _ => Some q
  | a :: p', b :: q' => if string_dec a b then rest_of p' q' else None
  | _ :: _, [] => None
  end.

Definition name_dec : forall a b : name, {a = b} + {a <> b} := list_eq_dec ascii_dec.

(** ["A/B"] *)
Fixpoint path_name (p : path) : name :=
  match p with
  | [] => []
  | [k] => txt k
  | k :: p' => txt k ++ slash :: path_name p'
  end.

Section View.
Context {V : Type}.
(** Attributes that are neither texts nor lists of integers. *)
Variable raw : Z -> hval.
(** The contents of datasets: texts, tables of numbers, numbers, the first number. *)
Variable texts : field V -> list name.
Variable matrix : field V -> list (list Q).
Variable numbers : field V -> list Q.
Variable first_number : field V -> Q.

Definition attribute_value (v : aval) : hval :=
  match v with
  | AText s => HStr (txt s)
  | AInts l => HArr (map inject_Z l)
  | ARaw z => raw z
  end.
Definition dict_of (a : attrs) : dict := map (fun kv => (txt (fst kv), attribute_value (snd kv))) a.

(** [handle[p].keys()]: in the order of the names. *)
Definition below (o : out V) (p : path) : list name :=
  sorted (nodup name_dec (flat_map (fun qe => match rest_of p (fst qe) with Some [k] => [txt k] | _ => [] end) o)).

Definition groups_of (o : out V) : list (name * ginfo) :=
  flat_map (fun qe => match at_path o (fst qe) with
                      | Some (EGroup a) => [(path_name (fst qe), mk_ginfo (dict_of a) (below o (fst qe)))]
                      | _ => []
                      end) o.

Definition data_at (o : out V) (p : path) : option (field V) :=
  match at_path o p with Some (EData d _) => Some d | _ => None end.

(** The datasets of a group, by name; [None]: there is no such group. *)
Definition datasets_of {A} (f : field V -> A) (o : out V) (p : path) : option (list (name * A)) :=
  match at_path o p with
  | Some (EGroup _) =>
      Some (flat_map (fun k => match data_at o (p ++ [string_of_list_ascii k]) with
                               | Some d => [(k, f d)]
                               | None => []
                               end) (below o p))
  | _ => None
  end.

Definition view (o : out V) : mfile :=
  mk_mfile (groups_of o) (below o [])
           (datasets_of texts o ["SubgridScheme"; "NamedColumns"]%string)
           (datasets_of matrix o ["SubgridScheme"%string])
           (option_map numbers (data_at o ["SubgridScheme"; "PhotonGroupEdges"]%string))
           (option_map first_number (data_at o ["SubgridScheme"; "ReducedLightspeed"]%string)).

(** A file given as a tree. *)
Definition objects_of (t : tree V) : out V := flat_map (fun kn => flatten [fst kn] (snd kn)) t.

End View.
