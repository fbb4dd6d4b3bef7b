(** Vocabulary for texts that describe files. *)
From Coq Require Import String Ascii List Arith ZArith QArith Qabs Bool.
From Verif Require Import Base NamesModel NamesSpec SubsetModel MetaModel InfoModel.
Import ListNotations.
Open Scope list_scope.
Open Scope Q_scope.

(** * Numbers as text *)

Definition digit_char (c : ascii) (d : Z) : Prop :=
  exists i, nth_error (txt "0123456789") i = Some c /\ d = Z.of_nat i.

(** Digits that stand for a number, zeros in front allowed. *)
Inductive number : name -> Z -> Prop :=
| number_one : forall c d, digit_char c d -> number [c] d
| number_more : forall s n c d, number s n -> digit_char c d -> number (s ++ [c]) (10 * n + d)%Z.

(** No zeros in front. *)
Definition canonical (s : name) : Prop := forall t, s = "0"%char :: t -> t = [].

(** The nearest integers, the even one of two. *)
Definition nearest (x : Q) (m : Z) : Prop :=
  Qabs (x - inject_Z m) <= 1 # 2 /\ (Qabs (x - inject_Z m) == 1 # 2 -> Z.Even m).

(** Two places after the point: [m] hundredths. *)
Definition two_places (s : name) (m : Z) : Prop :=
  exists w a b i f, s = w ++ ["."%char; a; b] /\ canonical w /\ number w i /\ number [a; b] f /\ m = (100 * i + f)%Z.

(** A point and digits that do not end with zero, or nothing. *)
Inductive fraction : name -> Q -> Prop :=
| fraction_none : fraction [] 0
| fraction_some : forall f c k, number (f ++ [c]) k -> c <> "0"%char ->
    fraction ("."%char :: f ++ [c]) (inject_Z k / Qpower 10 (Z.of_nat (length (f ++ [c])))).

(** Four significant digits [m] of a positive number; [e] is the power of ten of the first. *)
Definition significant (x : Q) (m e : Z) : Prop :=
  exists e0 m0, Qpower 10 e0 <= x /\ x < Qpower 10 (e0 + 1)
  /\ nearest (x * Qpower 10 (3 - e0)) m0
  /\ ((m0 <> 10000%Z /\ m = m0 /\ e = e0) \/ (m0 = 10000%Z /\ m = 1000%Z /\ e = (e0 + 1)%Z)).

(** The digits [m] at the power [e], as text. *)
Inductive written (m e : Z) : name -> Prop :=
| written_plain : forall w i f q, (-4 <= e < 4)%Z -> canonical w -> number w i -> fraction f q ->
    inject_Z m * Qpower 10 (e - 3) == inject_Z i + q -> written m e (w ++ f)
| written_power : forall c d f q s x, ~ (-4 <= e < 4)%Z -> digit_char c d -> fraction f q ->
    inject_Z m / 1000 == inject_Z d + q ->
    (s = "+"%char /\ (0 <= e)%Z \/ s = "-"%char /\ (e < 0)%Z) ->
    number x (Z.abs e) -> (2 <= length x)%nat -> (length x = 2%nat \/ canonical x) ->
    written m e ([c] ++ f ++ ["e"%char; s] ++ x).

(** * Attributes *)

(** An attribute of a group of the file that the object holds as [group]. *)
Definition held (log : list (name * mval)) (group param : string) (h : hval) : Prop :=
  exists d, dict_get log (txt group) = Some (VDict d) /\ dict_get d (txt param) = Some h.

(** Text stored as bytes, and a number as the first item of an array. *)
Definition held_bytes (log : list (name * mval)) (group param : string) (s : name) : Prop :=
  held log group param (HBytes s).

Definition first_number (h : hval) (x : Q) : Prop :=
  (exists l, h = HArr (x :: l)) \/ (exists c s, h = HBytes (c :: s) /\ x = inject_Z (Z.of_nat (nat_of_ascii c))).

(** A number as text with two places. *)
Definition held_float (log : list (name * mval)) (param : string) (t : name) : Prop :=
  exists h x s m, held log "hydro_scheme" param h /\ first_number h x
  /\ nearest (Qabs x * 100) m /\ two_places s m
  /\ (0 <= x /\ t = s \/ x < 0 /\ t = "-"%char :: s).

(** An integer as text. *)
Definition integer (z : Z) (t : name) : Prop :=
  exists s, canonical s /\ number s (Z.abs z) /\ ((0 <= z)%Z /\ t = s \/ (z < 0)%Z /\ t = "-"%char :: s).

(** The integer part of a number, towards zero. *)
Definition whole_part (x : Q) (z : Z) : Prop :=
  (0 <= x /\ inject_Z z <= x /\ x < inject_Z z + 1) \/ (x < 0 /\ x <= inject_Z z /\ inject_Z z - 1 < x).

(** An integer of the scheme: a number without its fraction, or what the first text of a list says. *)
Definition held_int (int_of_text : name -> res Z) (log : list (name * mval)) (param : string) (z : Z) : Prop :=
  exists h, held log "hydro_scheme" param h
  /\ ((exists x, first_number h x /\ whole_part x z)
      \/ exists s, ((exists c r, h = HStr (c :: r) /\ s = [c]) \/ (exists l, h = HStrs (s :: l))) /\ int_of_text s = Ok z).

(** A number with four significant digits. *)
Definition general (x : Q) (t : name) : Prop :=
  (x == 0 /\ t = ["0"%char])
  \/ exists m e s, ~ x == 0 /\ significant (Qabs x) m e /\ written m e s
     /\ (0 < x /\ t = s \/ x < 0 /\ t = "-"%char :: s).

(** * Files *)

(** The file says that it was written by SWIFT. *)
Definition swift_file (f : mfile) : Prop :=
  exists g, dict_get (mf_groups f) (txt "Code") = Some g
  /\ dict_get (gi_attrs g) (txt "Code") = Some (HBytes (txt "SWIFT")).

(** It says so with a value that cannot be compared. *)
Definition odd_file (f : mfile) : Prop :=
  exists g h, dict_get (mf_groups f) (txt "Code") = Some g /\ dict_get (gi_attrs g) (txt "Code") = Some h
  /\ ((exists l, h = HArr l /\ length l <> 1%nat) \/ (exists l, h = HStrs l /\ length l <> 1%nat)).

(** * Reports *)

(** A number, or the time in its unit, with four significant digits. *)
Inductive shown (time_unit : name) : mval -> name -> Prop :=
| shown_number : forall x t, general x t -> shown time_unit (VNum x) t
| shown_time : forall x t, general x t -> shown time_unit (VUnit x DTime) (t ++ " "%char :: time_unit).

(** The types of particles, with names for people. *)
Definition people_names : list (string * string) :=
  [ ("n_gas", "Gas"); ("n_dark_matter", "Dark Matter"); ("n_boundary", "Boundary"); ("n_sinks", "Sinks");
    ("n_stars", "Stars"); ("n_black_holes", "Black Holes"); ("n_neutrinos", "Neutrinos"); ("n_sidm", "Sidm") ]%string.

(** The number of one type; 0 if the object does not have it. *)
Definition counted (log : list (name * mval)) (attr people : string) (t : name) : Prop :=
  exists x n, general x n /\ t = txt people ++ txt ": " ++ n
  /\ (dict_get log (txt attr) = Some (VNum x) \/ dict_get log (txt attr) = None /\ x = 0).

(** Whether a flag is on: a number other than zero. *)
Inductive flag : hval -> bool -> Prop :=
| flag_on : forall x, ~ x == 0 -> flag (HArr [x]) true
| flag_off : forall x, x == 0 -> flag (HArr [x]) false
| flag_number_on : forall x, ~ x == 0 -> flag (HNum x) true
| flag_number_off : forall x, x == 0 -> flag (HNum x) false.

(** The names of those that are on, in their order. *)
Inductive switched_on : dict -> list name -> Prop :=
| on_nil : switched_on [] []
| on_yes : forall n h d l, flag h true -> switched_on d l -> switched_on ((n, h) :: d) (n :: l)
| on_no : forall n h d l, flag h false -> switched_on d l -> switched_on ((n, h) :: d) l.

(** Words with something between them; nothing for no words. *)
Definition listed (sep : name) (l : list name) (t : name) : Prop := (l = [] /\ t = []) \/ glued sep l t.

(** Text of an attribute. *)
Definition as_text (h : hval) (s : name) : Prop := h = HBytes s \/ h = HStr s.

(** The scheme that a group names, or None. *)
Definition scheme_name (log : list (name * mval)) (group : string) (s : name) : Prop :=
  exists d, dict_get log (txt group) = Some (VDict d)
  /\ ((exists h, dict_get d (txt "Scheme") = Some h /\ as_text h s) \/ (dict_get d (txt "Scheme") = None /\ s = txt "None")).

(** Every "Model" in a name becomes "model". *)
Definition small_model (n t : name) : Prop :=
  length t = length n
  /\ forall i c, nth_error n i = Some c ->
     (firstn 5 (skipn i n) = txt "Model" -> nth_error t i = Some "m"%char)
     /\ (firstn 5 (skipn i n) <> txt "Model" -> nth_error t i = Some c).

(** The lines of the subgrid scheme, without the named columns. *)
Inductive scheme_lines : dict -> list name -> Prop :=
| lines_nil : scheme_lines [] []
| lines_columns : forall h d l, scheme_lines d l -> scheme_lines ((txt "NamedColumns", h) :: d) l
| lines_one : forall n h d l t s, n <> txt "NamedColumns" -> small_model n t -> as_text h s -> scheme_lines d l ->
    scheme_lines ((n, h) :: d) ((t ++ txt ": " ++ s) :: l).

(** All the lines about one snapshot. *)
Definition about_file (time_unit : name) (show : mval -> name) (wrap : name -> list name)
    (log : list (name * mval)) (lines : list name) : Prop :=
  exists run date policies active kind selection counts numbers compiler code z a t cosmology gravity hydro subgrid schemes,
    dict_get log (txt "run_name") = Some (VText run)
    /\ dict_get log (txt "snapshot_date") = Some date
    /\ (exists d l, dict_get log (txt "policy") = Some (VDict d) /\ switched_on d l /\ listed (txt ", ") l active
        /\ policies = wrap (txt "Active policies: " ++ active))
    /\ dict_get log (txt "output_type") = Some kind
    /\ dict_get log (txt "select_output") = Some selection
    /\ Forall2 (fun ap w => counted log (fst ap) (snd ap) w) people_names counts
    /\ (exists w, glued (txt ", ") counts w /\ numbers = wrap (txt "Number of particles: " ++ w))
    /\ compiler_info log = Ok compiler /\ code_info log = Ok code
    /\ (exists vz va vt, dict_get log (txt "z") = Some vz /\ dict_get log (txt "a") = Some va /\ dict_get log (txt "time") = Some vt
        /\ shown time_unit vz z /\ shown time_unit va a /\ shown time_unit vt t)
    /\ dict_get log (txt "cosmology") = Some cosmology
    /\ scheme_name log "gravity_scheme" gravity /\ scheme_name log "hydro_scheme" hydro
    /\ dict_get log (txt "subgrid_scheme") = Some (VDict subgrid) /\ scheme_lines subgrid schemes
    /\ lines = [run; txt "Written at: " ++ show date] ++ policies ++ [[]]
        ++ [txt "Output type: " ++ show kind ++ txt ", Output selection: " ++ show selection; []]
        ++ numbers ++ [[]] ++ [compiler; code; []]
        ++ [txt "Simulation state: z=" ++ z ++ txt ", a=" ++ a ++ txt ", t=" ++ t; []]
        ++ [txt "Cosmology: " ++ show cosmology; []]
        ++ [txt "Gravity scheme: " ++ gravity; txt "Hydrodynamics scheme: " ++ hydro] ++ schemes.

(** A name on the command line whose file is one of SWIFT's; one whose file is none, or is missing. *)
Definition valid_file (nf : name * option mfile) : Prop := exists f, snd nf = Some f /\ swift_file f.
Definition invalid_file (nf : name * option mfile) : Prop :=
  snd nf = None \/ exists f, snd nf = Some f /\ ~ swift_file f /\ ~ odd_file f.

(** The metadata of a file on the command line. *)
Definition metadata_of (text_error : pyerr) (is_date : name -> bool) (cosmology_ok : dict -> res unit) (read_units : mfile -> res unit)
    (nf : name * option mfile) (kl : file_kind * list (name * mval)) : Prop :=
  exists f, snd nf = Some f /\ swift_file f /\ read_units f = Ok tt /\ open_metadata text_error is_date cosmology_ok f = Ok kl.
