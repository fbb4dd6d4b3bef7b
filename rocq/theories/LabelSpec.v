(** What the attributes of a dataset say; independent of how they are read. *)
From Coq Require Import String List ZArith QArith Qreals Reals Bool Ascii.
From Verif Require Import Base NamesModel MetaSpec CosmoModel CtorModel WriterModel LabelModel.
Import ListNotations.
Open Scope list_scope.

(** An attribute has a value, or is not there; each name occurs once. *)
Definition has (at_ : attributes) (k : name) (v : aval) : Prop := In (k, v) at_.
Definition lacks (at_ : attributes) (k : name) : Prop := forall v, ~ In (k, v) at_.
Definition unique (at_ : attributes) : Prop := NoDup (map fst at_).

(** Texts, also when they are stored as bytes. *)
Inductive reads_as : aval -> name -> Prop :=
| reads_text : forall t, reads_as (AText t) t
| reads_bytes : forall t, reads_as (ABytes (Some t)) t.

(** Flags: numbers or arrays of one number. *)
Inductive flag : aval -> Q -> Prop :=
| flag_number : forall x, flag (ANum x) x
| flag_array : forall x, flag (ANums [x]) x.
Definition on (at_ : attributes) (k : name) : Prop := exists v x, has at_ k v /\ flag v x /\ ~ (x == 0)%Q.
Definition off (at_ : attributes) (k : name) : Prop := exists v x, has at_ k v /\ flag v x /\ (x == 0)%Q.

(** Texts with plus signs between them. *)
Inductive plus : list name -> name -> Prop :=
| plus_one : forall t, plus [t] t
| plus_more : forall t l s, plus l s -> plus (t :: l) (t ++ txt " + " ++ s).

Inductive described (at_ : attributes) : name -> Prop :=
| described_by : forall v t, has at_ (txt "Description") v -> reads_as v t -> described at_ t
| described_not : lacks at_ (txt "Description") -> described at_ (txt "No description available.").

(** What is written about the objects for which a field has been computed; [written] is how numbers are
    written. *)
Inductive restricted (written : aval -> name) (at_ : attributes) : name -> Prop :=
| restricted_not : lacks at_ (txt "Masked") \/ off at_ (txt "Masked") -> restricted written at_ (txt "Not masked.")
| restricted_to : forall l s v, on at_ (txt "Masked") ->
    has at_ (txt "Mask Datasets") (ATexts l) -> plus l s -> has at_ (txt "Mask Threshold") v ->
    (forall t, v <> AText t) ->
    restricted written at_ (txt "Only computed for objects where " ++ s ++ txt " >= " ++ written v ++ txt ".").

Inductive compressed (at_ : attributes) : name -> Prop :=
| compressed_not : off at_ (txt "Is Compressed") -> compressed at_ (txt "Not compressed.")
| compressed_by : forall v t, lacks at_ (txt "Is Compressed") \/ on at_ (txt "Is Compressed") ->
    has at_ (txt "Lossy compression filter") v -> reads_as v t -> compressed at_ t
| compressed_unknown : lacks at_ (txt "Is Compressed") \/ on at_ (txt "Is Compressed") ->
    lacks at_ (txt "Lossy compression filter") -> compressed at_ (txt "No compression info available").

(** The first number of an attribute, or a default. *)
Definition first_number (at_ : attributes) (k : name) (x : Q) : Prop := exists l, has at_ k (ANums (x :: l)).
Definition number_or (at_ : attributes) (k : name) (default x : Q) : Prop :=
  first_number at_ k x \/ (lacks at_ k /\ x = default).

(** The exponents of the base units: current, length, mass, temperature, time. *)
Definition unit_keys : list name :=
  [txt "U_I exponent"; txt "U_L exponent"; txt "U_M exponent"; txt "U_T exponent"; txt "U_t exponent"].

Record exponents := mk_exponents { e_I : Q; e_L : Q; e_M : Q; e_T : Q; e_t : Q }.
Definition has_exponents (at_ : attributes) (e : exponents) : Prop :=
  Forall2 (first_number at_) unit_keys [e_I e; e_L e; e_M e; e_T e; e_t e].

(** The size of a unit in the units of the file. *)
Definition size_in (u : usys) (e : exponents) : R :=
  (Rpower (uM u) (Q2R (e_M e)) * Rpower (uL u) (Q2R (e_L e)) * Rpower (ut u) (Q2R (e_t e))
   * Rpower (uT u) (Q2R (e_T e)) * Rpower (uI u) (Q2R (e_I e)))%R.

(** The label of an array. *)
Inductive column_text : option nat -> name -> Prop :=
| column_none : column_text None (txt "None")
| column_number : forall j t, numeral j t -> column_text (Some j) t.
Inductive label (t : name) (public : name) : bool -> option nat -> name -> Prop :=
| label_masked : forall column, label t public true column t
| label_whole : forall column c, column_text column c ->
    label t public false column (t ++ txt " [Column " ++ c ++ txt ", " ++ public ++ txt "]").

(** Values without a first item, and values whose first item is a text. *)
Inductive no_items : aval -> Prop :=
| no_letters : no_items (AText [])
| no_bytes : no_items (ABytes (Some []))
| no_texts : no_items (ATexts [])
| no_byte_strings : no_items (ABytesArray [])
| no_numbers : no_items (ANums [])
| one_number : forall x, no_items (ANum x).
Inductive text_items : aval -> Prop :=
| some_letters : forall c t, text_items (AText (c :: t))
| some_texts : forall t l, text_items (ATexts (t :: l))
| some_byte_strings : forall t l, text_items (ABytesArray (t :: l)).
