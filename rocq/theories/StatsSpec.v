(** Specification vocabulary for statistics files. *)
From Coq Require Import String List ZArith Bool Ascii.
From Verif Require Import Base StatsModel.
Import ListNotations.
Open Scope nat_scope.

(** Every character of a text. *)
Fixpoint each (P : ascii -> Prop) (s : string) : Prop :=
  match s with EmptyString => True | String c s' => P c /\ each P s' end.

Definition blank (s : string) : Prop := each (fun c => is_space c = true) s.
Definition word (s : string) : Prop := s <> EmptyString /\ each (fun c => is_space c = false) s.

Definition begins (P : ascii -> Prop) (s : string) : Prop :=
  match s with EmptyString => True | String c _ => P c end.

(** [items] are the words of a line, in order. *)
Inductive spells : string -> list string -> Prop :=
| spells_end w : blank w -> spells w []
| spells_word w x rest l : blank w -> word x -> begins (fun c => is_space c = true) rest -> spells rest l ->
                           spells (w ++ x ++ rest)%string (x :: l).

(** The words of a line of names are separated by at least two blanks and may have single blanks
    inside. *)
Inductive phrase : string -> Prop :=
| phrase_word x : word x -> phrase x
| phrase_more x c p : word x -> is_space c = true -> phrase p -> phrase (x ++ String c p)%string.

Definition gap (s : string) : Prop := blank s /\ 2 <= String.length s.

Inductive names_line : string -> list string -> Prop :=
| nl_last p e : phrase p -> (e = EmptyString \/ e = String newline EmptyString \/ gap e) -> names_line (p ++ e)%string [p]
| nl_more p g rest l : phrase p -> gap g -> names_line rest l -> names_line (p ++ g ++ rest)%string (p :: l).

(** The attribute name for a phrase: full stops removed, blanks written as underscores, lower case. *)
Fixpoint attribute_name (s : string) : string :=
  match s with
  | EmptyString => EmptyString
  | String c s' =>
      if Ascii.eqb c "."%char || Ascii.eqb c newline then attribute_name s'
      else String (if Ascii.eqb c space then "_"%char else to_lower c) (attribute_name s')
  end.

(** A column in the header. *)
Record col_desc : Type := mk_col_desc {
  cd_number : string;                      (* digits *)
  cd_pad : string;                         (* spaces *)
  cd_name : string;
  cd_rest : string;                        (* from the first full stop or line break on *)
  cd_unit : option (string * string * string);   (* spaces, value, unit *)
  cd_remarks : list string                 (* other comment lines *)
}.

Definition spaces (s : string) : Prop := each (fun c => c = space) s.
Definition plain_comment (s : string) : Prop :=
  starts_hash s = true /\ match_name s = None /\ match_unit s = None.

(** A line that names a column, and a line that tells a unit. *)
Definition says_name (s name : string) : Prop :=
  exists digits pad rest, s = ("# (" ++ digits ++ ") " ++ pad ++ name ++ rest)%string
    /\ each (fun x => is_digit x = true) digits /\ spaces pad
    /\ each (fun x => x <> "."%char /\ x <> newline) name
    /\ begins (fun x => x <> space) (name ++ rest)%string
    /\ begins (fun x => x = "."%char \/ x = newline) rest.
Definition says_unit (s value unit : string) : Prop :=
  exists pad sep rest, s = ("#" ++ pad ++ "Unit = " ++ value ++ sep ++ unit ++ rest)%string
    /\ spaces pad /\ word value /\ each (fun x => x <> newline) unit /\ begins (fun x => x = newline) rest
    /\ (sep = " "%string
        \/ (sep = EmptyString /\ begins (fun x => is_space x = true /\ x <> space) (unit ++ rest)%string)).

Definition name_line (c : col_desc) : string :=
  ("# (" ++ cd_number c ++ ") " ++ cd_pad c ++ cd_name c ++ cd_rest c)%string.

Definition unit_line (u : string * string * string) : string :=
  let '(pad, value, unit) := u in
  ("#" ++ pad ++ "Unit = " ++ value ++ " " ++ unit ++ String newline EmptyString)%string.

Definition desc_lines (c : col_desc) : list string :=
  name_line c :: match cd_unit c with Some u => [unit_line u] | None => [] end ++ cd_remarks c.

Definition desc_ok (c : col_desc) : Prop :=
  each (fun x => is_digit x = true) (cd_number c) /\ spaces (cd_pad c) /\
  each (fun x => x <> "."%char /\ x <> newline) (cd_name c) /\ begins (fun x => x <> space) (cd_name c ++ cd_rest c)%string /\
  begins (fun x => x = "."%char \/ x = newline) (cd_rest c) /\
  (forall pad value unit, cd_unit c = Some (pad, value, unit) ->
     spaces pad /\ word value /\ each (fun x => x <> newline) unit) /\
  Forall plain_comment (cd_remarks c).

Section Values.
Context {U F I : Type}.
Variable dimensionless : U.
Variable parse_unit : string -> string -> option U.
Variable parse_float : string -> option F.
Variable parse_int : string -> option I.
Variables (zero_float : F) (zero_int : I).

Definition unit_of (c : col_desc) (u : U) : Prop :=
  match cd_unit c with
  | None => u = dimensionless
  | Some (_, value, unit) =>
      if string_dec value "dimensionless" then u = dimensionless else parse_unit value unit = Some u
  end.

(** A column is read as floating point if the item of its first line has a point or an e. *)
Definition looks_float (item : string) : Prop :=
  exists a b, item = (a ++ "." ++ b)%string \/ item = (a ++ "e" ++ b)%string.

(** Entry for entry: the item of the line, or zero where the line is too short. *)
Definition entries {A} (parse : string -> option A) (zero : A) (j : nat) (lines : list string) (l : list A) : Prop :=
  Forall2 (fun line x => exists items, spells line items /\
             match nth_error items j with Some v => parse v = Some x | None => x = zero end) lines l.

Definition column_of (j : nat) (lines : list string) (item : string) (c : @column F I) : Prop :=
  match c with
  | Floats l => looks_float item /\ entries parse_float zero_float j lines l
  | Ints l => ~ looks_float item /\ entries parse_int zero_int j lines l
  end.

End Values.

(** A statistics file: remarks, the columns, the line of names, the data. *)
Definition stats_file (remarks : list string) (cols : list col_desc) (names : string) (data : list string) : list string :=
  remarks ++ flat_map desc_lines cols ++ names :: data.
