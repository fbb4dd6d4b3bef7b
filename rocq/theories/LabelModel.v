(** Model of what the attributes of a dataset make of its array: metadata/field/attr_reader.py and the getter
    of reader.py (97-191) from the attributes on; see ReaderModel.v for rows and columns.

    Texts are lists of ASCII characters.  Numbers of attributes are rational numbers, of arrays real
    numbers. *)
From Coq Require Import String List ZArith QArith Qreals Reals Bool Ascii.
From Verif Require Import Base NamesModel MetaModel CosmoModel CtorModel WriterModel.
Import ListNotations.
Open Scope list_scope.

(** The value of an attribute as h5py returns it: a text, bytes (with the text they decode to, none if they
    are no UTF-8), arrays of texts and of bytes, a number or flag, an array of them. *)
Inductive aval :=
| AText (t : name)
| ABytes (t : option name)
| ATexts (l : list name)
| ABytesArray (l : list name)
| ANum (x : Q)
| ANums (l : list Q).

Definition attributes := list (name * aval).

Fixpoint find_attr (k : name) (at_ : attributes) : option aval :=
  match at_ with
  | [] => None
  | (n, v) :: at_ => if name_eqb n k then Some v else find_attr k at_
  end.

(** [field_attributes[k]]. *)
Definition need (k : name) (at_ : attributes) : res aval :=
  match find_attr k at_ with Some v => Ok v | None => Err KeyError end.

(** [value[0]]: a number, or something else.  Items of bytes are numbers (those of bytes that are no UTF-8
    are left out). *)
Definition item0 (v : aval) : res (option Q) :=
  match v with
  | ANums (x :: _) => Ok (Some x)
  | ABytes (Some (c :: _)) => Ok (Some (inject_Z (Z.of_nat (nat_of_ascii c))))
  | AText (_ :: _) | ABytes None | ATexts (_ :: _) | ABytesArray (_ :: _) => Ok None
  | _ => Err IndexError
  end.

(** [bool(value)]. *)
Definition truthy (v : aval) : res bool :=
  match v with
  | AText t | ABytes (Some t) | ATexts [t] | ABytesArray [t] => Ok (match t with [] => false | _ => true end)
  | ABytes None => Ok true
  | ANum x | ANums [x] => Ok (negb (Qeq_bool x 0))
  | _ => Err ValueError
  end.

(** [value.decode("utf-8")] if there is such a method. *)
Definition decode (v : aval) : res aval :=
  match v with
  | ABytes (Some t) => Ok (AText t)
  | ABytes None => Err ValueError
  | _ => Ok v
  end.

(** [' + '.join(value)]; a text is joined character by character. *)
Fixpoint join (sep : name) (l : list name) : name :=
  match l with
  | [] => []
  | [x] => x
  | x :: l => x ++ sep ++ join sep l
  end.

Definition joined (v : aval) : res name :=
  match v with
  | ATexts l => Ok (join (txt " + ") l)
  | AText t => Ok (join (txt " + ") (map (fun c => [c]) t))
  | ABytes (Some []) | ABytesArray [] | ANums [] => Ok []
  | _ => Err TypeError
  end.

Section Show.
(** How Python writes values that are no texts. *)
Variable show : aval -> name.

Definition format (v : aval) : name := match v with AText t => t | _ => show v end.

(** [load_field_description], attr_reader.py 53-81. *)
Definition load_description (at_ : attributes) : res name :=
  do d <- decode (match find_attr (txt "Description") at_ with
                  | Some v => v | None => AText (txt "No description available.") end);
  do m <- match find_attr (txt "Masked") at_ with Some v => truthy v | None => Ok false end;
  do s <- (if m then
             do l <- need (txt "Mask Datasets") at_; do l <- joined l;
             do t <- need (txt "Mask Threshold") at_;
             Ok (txt "Only computed for objects where " ++ l ++ txt " >= " ++ format t ++ txt ".")
           else Ok (txt "Not masked."));
  Ok (format d ++ txt " " ++ s).

(** [load_field_compression], attr_reader.py 84-105. *)
Definition load_compression (at_ : attributes) : res aval :=
  do c <- match find_attr (txt "Is Compressed") at_ with Some v => truthy v | None => Ok true end;
  if negb c then Ok (AText (txt "Not compressed."))
  else decode (match find_attr (txt "Lossy compression filter") at_ with
               | Some v => v | None => AText (txt "No compression info available") end).

(** [load_field_units], attr_reader.py 13-50: see [load_units] in WriterModel.v.  Powers with something
    that is no number are a type error. *)
Definition exponent_of (k : name) (at_ : attributes) : res Q :=
  do v <- need k at_; do x <- item0 v; match x with Some x => Ok x | None => Err TypeError end.

Definition load_field_units (at_ : attributes) (u : usys) : res (R * dims) :=
  do i <- exponent_of (txt "U_I exponent") at_;
  do l <- exponent_of (txt "U_L exponent") at_;
  do m <- exponent_of (txt "U_M exponent") at_;
  do T <- exponent_of (txt "U_T exponent") at_;
  do t <- exponent_of (txt "U_t exponent") at_;
  Ok (load_units u (mkattrs m l t T i 0%R 0%R 0%R)).

(** [load_field_cosmo_factor], attr_reader.py 108-129. *)
Definition load_cosmo_factor (at_ : attributes) (a : R) : res cf :=
  do x <- item0 (match find_attr (txt "a-scale exponent") at_ with Some v => v | None => ANums [0%Q] end);
  match x with Some x => Ok (cf_create a (Q2R x)) | None => Err TypeError end.

(** [load_field_physical] 132-146 and [load_field_valid_transform] 149-164. *)
Definition is_one (k : name) (default : Q) (at_ : attributes) : res bool :=
  do x <- item0 (match find_attr k at_ with Some v => v | None => ANums [default] end);
  Ok (match x with Some x => Qeq_bool x 1 | None => false end).
Definition load_physical := is_one (txt "Value stored as physical") 0.
Definition load_valid_transform := is_one (txt "Property can be converted to comoving") 1.

(** The array that the getter makes: its numbers with unit and cosmology, its name and its compression. *)
Record made := mk_made { m_array : uarr (R * dims); m_name : name; m_compression : aval }.

Definition comp_of (v : aval) : comp :=
  match v with AText t => CStr (string_of_list_ascii t) | _ => CNone end.

Definition no_unit : R * dims := (1%R, mkdims 0 0 0 0 0 0).

(** reader.py 128-186.  [at_]: none if the dataset is not there.  [numbers]: what reading the rows gives.  A
    KeyError prints a message and [None] is returned. *)
Definition build (u : usys) (a : R) (masked : bool) (column : option nat) (public : name)
           (at_ : option attributes) (numbers : res (list R)) : res made :=
  match at_ with
  | None => Err KeyError
  | Some at_ =>
      do unit <- load_field_units at_ u;
      do c <- load_cosmo_factor at_ a;
      do description <- load_description at_;
      do compression <- load_compression at_;
      do physical <- load_physical at_;
      do vt <- load_valid_transform at_;
      do v <- numbers;
      do x <- new_array no_unit (fun _ _ => no_unit) (InNumbers v)
                (mkkw (Some unit) (Some c) None None (Some (negb physical)) vt (comp_of compression) false);
      Ok (mk_made x
            (if masked then description
             else description ++ txt " [Column "
                  ++ match column with Some j => decimal j | None => txt "None" end
                  ++ txt ", " ++ public ++ txt "]")
            compression)
  end.

Definition getter (u : usys) (a : R) (masked : bool) (column : option nat) (public : name)
           (at_ : option attributes) (numbers : res (list R)) : res (option made) :=
  match build u a masked column public at_ numbers with
  | Ok m => Ok (Some m)
  | Err KeyError => Ok None
  | Err e => Err e
  end.
End Show.
