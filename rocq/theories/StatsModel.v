(** Model of swiftsimio/statistics.py and of accelerated.list_of_strings_to_arrays.  Definitions
    only.

    Text is a sequence of ASCII characters.  A file is the list of its lines, each with its line
    break (the last one may have none).  What [float], [np.float64], [np.int64] and unyt make of
    a text are arguments of the model. *)
From Coq Require Import String List ZArith Bool Ascii.
From Verif Require Import Base.
Import ListNotations.
Open Scope nat_scope.

(** * Characters and text *)

Definition newline : ascii := ascii_of_nat 10.
Definition space : ascii := ascii_of_nat 32.

(** Whitespace of [str.split] and of [\s]. *)
Definition is_space (c : ascii) : bool :=
  let n := nat_of_ascii c in
  ((9 <=? n) && (n <=? 13)) || ((28 <=? n) && (n <=? 32)).

Definition is_digit (c : ascii) : bool :=
  let n := nat_of_ascii c in (48 <=? n) && (n <=? 57).

Definition to_lower (c : ascii) : ascii :=
  let n := nat_of_ascii c in if (65 <=? n) && (n <=? 90) then ascii_of_nat (n + 32) else c.

Fixpoint map_text (f : ascii -> ascii) (s : string) : string :=
  match s with
  | EmptyString => EmptyString
  | String c s' => String (f c) (map_text f s')
  end.

Fixpoint filter_text (f : ascii -> bool) (s : string) : string :=
  match s with
  | EmptyString => EmptyString
  | String c s' => if f c then String c (filter_text f s') else filter_text f s'
  end.

(** The longest beginning whose characters satisfy [f], and the rest: a greedy [*]. *)
Fixpoint span (f : ascii -> bool) (s : string) : string * string :=
  match s with
  | EmptyString => (EmptyString, EmptyString)
  | String c s' =>
      if f c then let (a, b) := span f s' in (String c a, b) else (EmptyString, s)
  end.

(** Match a fixed text at the beginning. *)
Fixpoint expect (w s : string) : option string :=
  match w, s with
  | EmptyString, _ => Some s
  | String c w', String c' s' => if Ascii.eqb c c' then expect w' s' else None
  | String _ _, EmptyString => None
  end.

Definition is_empty (s : string) : bool := match s with EmptyString => true | _ => false end.

(** [str.split()]: the maximal pieces without whitespace.  [cur] is the piece being read. *)
Fixpoint split_at (cur : string) (s : string) : list string :=
  match s with
  | EmptyString => if is_empty cur then [] else [cur]
  | String c s' =>
      if is_space c then (if is_empty cur then [] else [cur]) ++ split_at EmptyString s'
      else split_at (cur ++ String c EmptyString) s'
  end.

Definition split_space (s : string) : list string := split_at EmptyString s.

(** [re.split(r"\s{2,}", s)]: cut at every maximal run of two or more whitespace characters.
    [cur] is the piece being read, [run] the whitespace read since. *)
Fixpoint split_wide_at (cur run : string) (s : string) : list string :=
  match s with
  | EmptyString => if Nat.leb 2 (String.length run) then [cur; EmptyString] else [(cur ++ run)%string]
  | String c s' =>
      if is_space c then split_wide_at cur (run ++ String c EmptyString) s'
      else if Nat.leb 2 (String.length run)
           then cur :: split_wide_at (String c EmptyString) EmptyString s'
           else split_wide_at (cur ++ run ++ String c EmptyString) EmptyString s'
  end.

Definition split_wide (s : string) : list string := split_wide_at EmptyString EmptyString s.

(** * The header *)

(** statistics.py:51, [regex_name.match]; the second group. *)
Definition match_name (line : string) : option string :=
  match expect "# (" line with
  | None => None
  | Some s1 =>
      let (_, s2) := span is_digit s1 in
      match expect ") " s2 with
      | None => None
      | Some s3 =>
          let (_, s4) := span (fun c => Ascii.eqb c space) s3 in
          Some (fst (span (fun c => negb (Ascii.eqb c "."%char || Ascii.eqb c newline)) s4))
      end
  end.

(** statistics.py:52, [regex_unit.match]; both groups. *)
Definition match_unit (line : string) : option (string * string) :=
  match expect "#" line with
  | None => None
  | Some s1 =>
      let (_, s2) := span (fun c => Ascii.eqb c space) s1 in
      match expect "Unit = " s2 with
      | None => None
      | Some s3 =>
          let (value, s4) := span (fun c => negb (is_space c)) s3 in
          if is_empty value then None
          else
            let s5 := match expect " " s4 with Some s => s | None => s4 end in
            Some (value, fst (span (fun c => negb (Ascii.eqb c newline)) s5))
      end
  end.

Section Reader.
Context {U F I : Type}.
Variable dimensionless : U.
Variable parse_unit : string -> string -> option U.   (* unyt_quantity(float(v), u); None: an exception *)

(** The units are a dictionary whose keys are names, or None for a unit before the first name. *)
Definition units_dict : Type := list (option string * U).

Definition key_eqb (a b : option string) : bool :=
  match a, b with
  | Some x, Some y => (x =? y)%string
  | None, None => true
  | _, _ => false
  end.

Fixpoint get_unit (k : option string) (d : units_dict) : option U :=
  match d with
  | [] => None
  | (k', u) :: d' => if key_eqb k k' then Some u else get_unit k d'
  end.

Definition set_unit (k : option string) (u : U) (d : units_dict) : units_dict := (k, u) :: d.

Record header : Type := mk_header {
  h_names : list string;
  h_units : units_dict;
  h_current : option string
}.

(** statistics.py:54-85, one comment line. *)
Definition header_step (h : header) (line : string) : res header :=
  match match_name line with
  | Some name => Ok (mk_header (h_names h ++ [name]) (set_unit (Some name) dimensionless (h_units h)) (Some name))
  | None =>
      match match_unit line with
      | Some (value, unit) =>
          if (value =? "dimensionless")%string then
            Ok (mk_header (h_names h) (set_unit (h_current h) dimensionless (h_units h)) (h_current h))
          else match parse_unit value unit with
               | Some u => Ok (mk_header (h_names h) (set_unit (h_current h) u (h_units h)) (h_current h))
               | None => Err ValueError
               end
      | None => Ok h
      end
  end.

Definition starts_hash (s : string) : bool :=
  match s with String c _ => Ascii.eqb c "#"%char | EmptyString => false end.

(** The loop: the header and the number of comment lines.  Without a line that is no comment
    the index runs out of the list. *)
Fixpoint read_header (h : header) (n : nat) (lines : list string) : res (header * nat) :=
  match lines with
  | [] => Err IndexError
  | line :: rest =>
      if starts_hash line then do h' <- header_step h line; read_header h' (S n) rest
      else Ok (h, n)
  end.

(** statistics.py:88-92, one name. *)
Definition snake_name (x : string) : string :=
  map_text to_lower
    (filter_text (fun c => negb (Ascii.eqb c newline))
      (map_text (fun c => if Ascii.eqb c space then "_"%char else c)
        (filter_text (fun c => negb (Ascii.eqb c "."%char)) x))).

Definition drop_first (s : string) : string := match s with String _ s' => s' | EmptyString => EmptyString end.

Definition line_names (line : string) : list string :=
  map snake_name (filter (fun x => negb (is_empty x)) (split_wide (drop_first line))).

(** [lines[i - 1]]: the last line when [i] is 0. *)
Definition line_before (lines : list string) (i : nat) : string :=
  match i with
  | O => last lines EmptyString
  | S j => nth j lines EmptyString
  end.

(** * The columns *)

Variable parse_float : string -> option F.   (* np.float64(text); None: ValueError *)
Variable parse_int : string -> option I.     (* np.int64(text) *)
Variables (zero_float : F) (zero_int : I).

Inductive column : Type :=
| Floats (l : list F)
| Ints (l : list I).

Fixpoint has_char (c : ascii) (s : string) : bool :=
  match s with EmptyString => false | String c' s' => Ascii.eqb c c' || has_char c s' end.

(** accelerated.py:566-575: the type of a column from its first item. *)
Definition is_float_item (item : string) : bool := has_char "."%char item || has_char "e"%char item.

Definition empty_column (n : nat) (item : string) : column :=
  if is_float_item item then Floats (repeat zero_float n) else Ints (repeat zero_int n).

(** [array[index] = dtype(value)]. *)
Definition store (i : nat) (value : string) (c : column) : res column :=
  match c with
  | Floats l => match parse_float value with Some x => Ok (Floats (upd i x l)) | None => Err ValueError end
  | Ints l => match parse_int value with Some x => Ok (Ints (upd i x l)) | None => Err ValueError end
  end.

(** accelerated.py:577-579, one line; [zip] stops at the shorter of the columns and the items. *)
Fixpoint store_line (i : nat) (items : list string) (cols : list column) : res (list column) :=
  match cols, items with
  | c :: cols', v :: items' =>
      do c' <- store i v c;
      do rest <- store_line i items' cols';
      Ok (c' :: rest)
  | _, _ => Ok cols
  end.

Fixpoint store_lines (i : nat) (lines : list string) (cols : list column) : res (list column) :=
  match lines with
  | [] => Ok cols
  | line :: rest => do cols' <- store_line i (split_space line) cols; store_lines (S i) rest cols'
  end.

(** accelerated.py:543-580 [list_of_strings_to_arrays]. *)
Definition list_of_strings_to_arrays (lines : list string) : res (list column) :=
  match lines with
  | [] => Err IndexError
  | first :: _ => store_lines 0 lines (map (empty_column (length lines)) (split_space first))
  end.

(** * The object *)

(** An attribute: name, unit, label and values.  Attributes are set in the order of the list; a
    later one of the same name replaces the earlier one.  (The names of methods and of the
    object's own attributes are not treated apart.) *)
Record attribute : Type := mk_attribute {
  at_name : string;
  at_unit : U;
  at_label : string;
  at_values : column
}.

Fixpoint zip_attributes (cols : list column) (names : list string) (snakes : list string) (units : units_dict)
  : res (list attribute) :=
  match cols, names, snakes with
  | c :: cols', n :: names', s :: snakes' =>
      match get_unit (Some n) units with
      | None => Err KeyError
      | Some u => do rest <- zip_attributes cols' names' snakes' units; Ok (mk_attribute s u n c :: rest)
      end
  | _, _, _ => Ok []
  end.

(** statistics.py:29-122: [SWIFTStatisticsFile(filename)]. *)
Definition read_statistics (lines : list string) : res (list attribute) :=
  do hn <- read_header (mk_header [] [] None) 0 lines;
  let (h, n) := hn in
  do cols <- list_of_strings_to_arrays (skipn n lines);
  zip_attributes cols (h_names h) (line_names (line_before lines n)) (h_units h).

(** Attribute access. *)
Fixpoint get_attribute (name : string) (l : list attribute) : option attribute :=
  match l with
  | [] => None
  | a :: l' => match get_attribute name l' with
               | Some b => Some b
               | None => if (at_name a =? name)%string then Some a else None
               end
  end.

End Reader.
