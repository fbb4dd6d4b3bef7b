(** Model of how Python finds an attribute of a mask object (masks.py 112-255), and of how
    the copy and pickle modules rebuild one.

    An object is its dictionary.  [look] is Python's attribute access: the two properties
    come first, then the dictionary, then [__getattr__].  Every access made while another
    one is running takes one step from the recursion limit [n] (the exact number of frames
    an access takes is not modelled, so that theorems are for every limit); at the limit
    there is a RecursionError, which is a RuntimeError.  The methods of the class and the
    attributes every object has are not names looked up here. *)
From Coq Require Import String List Bool Arith.
From Verif Require Import Base MaskNamesModel.
Import ListNotations.
Local Open Scope string_scope.

(** Values: None, a metadata object (is there a shared cell count; the present group
    names), a dictionary of names, anything else. *)
Inductive val :=
| VNone
| VMeta (shared : bool) (groups : list string)
| VNames (d : dict string)
| VOther (k : nat).

Definition object := dict val.
Definition is_none (v : val) : bool := match v with VNone => true | _ => false end.

(** Lines 153-169 and 182-200: what is stored. *)
Definition names_for (sizes : bool) (shared : bool) (groups : list string) : dict string :=
  dmerge [] (map (fun g => (if sizes then size_of g else g,
                            if shared then (if sizes then "_shared_size" else "_shared")
                            else if sizes then size_of (under g) else under g)) groups).

Definition cache_of (sizes : bool) : string := if sizes then "_group_size_mapping" else "_group_mapping".
Definition property_of (sizes : bool) : string := if sizes then "group_size_mapping" else "group_mapping".

Section Access.
  (** Access to an attribute inside another access. *)
  Variable again : string -> object -> object * res val.

  (** The properties [group_mapping] and [group_size_mapping], 143-201. *)
  Definition mapping (sizes : bool) (o : object) : object * res val :=
    match again (cache_of sizes) o with
    | (o, Err e) => (o, Err e)
    | (o, Ok VNone) =>
        match again "metadata" o with
        | (o, Err e) => (o, Err e)
        | (o, Ok (VMeta shared groups)) =>
            again (property_of sizes) (dset (cache_of sizes) (VNames (names_for sizes shared groups)) o)
        | (o, Ok _) => (o, Err AttributeError)
        end
    | (o, Ok v) => (o, Ok v)
    end.

  (** [__getattr__], 245-255. *)
  Definition fallback (name : string) (o : object) : object * res val :=
    match again "group_mapping" o with
    | (o, Err e) => (o, Err e)
    | (o, Ok a) =>
        match again "group_size_mapping" o with
        | (o, Err e) => (o, Err e)
        | (o, Ok b) =>
            match a, b with
            | VNames a, VNames b =>
                match dget name (dmerge a b) with
                | None => (o, Err AttributeError)
                | Some underlying => again underlying o
                end
            | _, _ => (o, Err TypeError)
            end
        end
    end.

  (** An attribute error inside a property leads to [__getattr__] as well. *)
  Definition access (name : string) (o : object) : object * res val :=
    let property := fun sizes => match mapping sizes o with
                                 | (o, Err AttributeError) => fallback name o
                                 | r => r
                                 end in
    if name =? "group_mapping" then property false
    else if name =? "group_size_mapping" then property true
    else match dget name o with
         | Some v => (o, Ok v)
         | None => fallback name o
         end.
End Access.

Fixpoint look (n : nat) (name : string) (o : object) : object * res val :=
  match n with
  | O => (o, Err RuntimeError)
  | S m => access (look m) name o
  end.

(** [hasattr]: only an AttributeError means no. *)
Definition hasattr (n : nat) (name : string) (o : object) : object * res bool :=
  match look n name o with
  | (o, Ok _) => (o, Ok true)
  | (o, Err AttributeError) => (o, Ok false)
  | (o, Err e) => (o, Err e)
  end.

(** [copy._reconstruct] (used by [copy.copy] and, with a copied state, by [copy.deepcopy])
    and [pickle]'s BUILD: a new object without running [__init__], asked for [__setstate__],
    which masks do not have; then its dictionary is filled. *)
Definition rebuild (n : nat) (state : object) : res object :=
  match hasattr n "__setstate__" [] with
  | (o, Ok false) => Ok (dmerge o state)
  | (_, Ok true) => Err TypeError
  | (_, Err e) => Err e
  end.
