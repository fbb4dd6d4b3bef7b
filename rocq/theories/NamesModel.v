(** Model of the naming of fields, columns and groups: metadata/objects.py 29-45 and
    676-742, metadata/soap/soap_types.py, metadata/particle/particle_types.py, and the
    dictionaries of reader.py 607-670 and masks.py 519-524.

    Names are lists of ASCII characters (Python's [lower], [isupper] and the character
    classes of the regular expression are those of ASCII). *)
From Coq Require Import String Ascii List Arith ZArith QArith Bool.
From Verif Require Import Base.
Import ListNotations.
Open Scope nat_scope.

Definition name := list ascii.
Definition txt (s : string) : name := list_ascii_of_string s.

Definition between (lo hi : nat) (c : ascii) : bool :=
  (lo <=? nat_of_ascii c) && (nat_of_ascii c <=? hi).
Definition is_upper : ascii -> bool := between 65 90.
Definition is_lower : ascii -> bool := between 97 122.
Definition is_digit : ascii -> bool := between 48 57.

(** [str.lower] and [str.capitalize]. *)
Definition lower_char (c : ascii) : ascii :=
  if is_upper c then ascii_of_nat (nat_of_ascii c + 32) else c.
Definition upper_char (c : ascii) : ascii :=
  if is_lower c then ascii_of_nat (nat_of_ascii c - 32) else c.
Definition lower : name -> name := map lower_char.
Definition capitalize (n : name) : name :=
  match n with [] => [] | c :: t => upper_char c :: lower t end.

Definition underscore : ascii := "_"%char.
Definition slash : ascii := "/"%char.

(** [re.sub("([a-z0-9])([A-Z])", r"\1_\2", name)]: leftmost matches that do not overlap. *)
Fixpoint sub (n : name) : name :=
  match n with
  | [] => []
  | a :: t =>
      match t with
      | b :: r => if (is_lower a || is_digit a) && is_upper b
                  then a :: underscore :: b :: sub r
                  else a :: sub t
      | [] => [a]
      end
  end.

(** [_convert_snake_to_camel], objects.py 29-45. *)
Definition snake (n : name) : name := lower (sub n).

Fixpoint name_eqb (x y : name) : bool :=
  match x, y with
  | [], [] => true
  | a :: s, b :: t => Ascii.eqb a b && name_eqb s t
  | _, _ => false
  end.

(** A Python dictionary built by assignments in order: a later one replaces an earlier
    one with the same key. *)
Fixpoint dict_get {A} (items : list (name * A)) (k : name) : option A :=
  match items with
  | [] => None
  | (k', v) :: rest =>
      match dict_get rest k with
      | Some w => Some w
      | None => if name_eqb k' k then Some v else None
      end
  end.

(** The properties of a group object: attribute name to field (its position), reader.py
    607-667 with field names from objects.py 684-688; masks.py 519-524 builds the same
    dictionary. *)
Definition attributes (fields : list name) : list (name * nat) :=
  combine (map snake fields) (seq 0 (length fields)).

Definition field_of (fields : list name) (attr : name) : option nat :=
  dict_get (attributes fields) attr.

(** [load_named_columns], objects.py 692-742: the column names of one field. *)
Definition num_capitals (n : name) : nat := length (filter is_upper n).
Definition sum_nat : list nat -> nat := fold_right Nat.add 0.
Definition format_columns (columns : list name) : res (list name) :=
  match columns with
  | [] => Err ZeroDivision
  | _ =>
      let mean := (inject_Z (Z.of_nat (sum_nat (map num_capitals columns)))
                   / inject_Z (Z.of_nat (length columns)))%Q in
      if negb (Qle_bool (101 # 100) mean) then Ok (map lower columns) else Ok columns
  end.

(** reader.py 631-644: attribute name to column index. *)
Definition column_of (columns : list name) (attr : name) : res (option nat) :=
  do f <- format_columns columns;
  Ok (dict_get (combine f (seq 0 (length f))) attr).

(** * SOAP groups *)

(** [group.split("/")] *)
Fixpoint split (n : name) : list name :=
  match n with
  | [] => [[]]
  | c :: t => if Ascii.eqb c slash then [] :: split t
              else match split t with
                   | w :: ws => (c :: w) :: ws
                   | [] => [[c]]
                   end
  end.

(** [sep.join(l)] *)
Fixpoint join (sep : name) (l : list name) : name :=
  match l with
  | [] => []
  | w :: ws => match ws with [] => w | _ => w ++ sep ++ join sep ws end
  end.

Definition soap_underscores : list (name * name) :=
  [(txt "BoundSubhalo", txt "bound_subhalo"); (txt "InputHalos", txt "input_halos");
   (txt "InclusiveSphere", txt "inclusive_sphere");
   (txt "ExclusiveSphere", txt "exclusive_sphere"); (txt "SO", txt "spherical_overdensity");
   (txt "SOAP", txt "soap"); (txt "ProjectedAperture", txt "projected_aperture")].
Definition soap_nice : list (name * name) :=
  [(txt "BoundSubhalo", txt "BoundSubhalo"); (txt "InputHalos", txt "InputHalos");
   (txt "InclusiveSphere", txt "InclusiveSphere");
   (txt "ExclusiveSphere", txt "ExclusiveSphere"); (txt "SO", txt "SphericalOverdensity");
   (txt "SOAP", txt "SOAP"); (txt "ProjectedAperture", txt "ProjectedAperture")].

(** [get_soap_name_underscore], soap_types.py 5-30. *)
Definition soap_name_underscore (group : name) : res name :=
  match split group with
  | [] => Err IndexError
  | w :: ws =>
      match dict_get soap_underscores w with
      | None => Err KeyError
      | Some v => Ok (join [underscore] (map lower (v :: ws)))
      end
  end.

(** [get_soap_name_nice], soap_types.py 33-58. *)
Definition soap_name_nice (group : name) : res name :=
  match split group with
  | [] => Err IndexError
  | w :: ws =>
      match dict_get soap_nice w with
      | None => Err KeyError
      | Some v => Ok (join [] (map capitalize (v :: ws)))
      end
  end.
