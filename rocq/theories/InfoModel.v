(** Model of the texts that describe a file: metadata/objects.py 1019-1335 and 1338-1352, swiftsnap.py, and
    [validate_file] of swiftsimio/__init__.py 80-110.

    Numbers are rational, so minus zero, infinities and NaN are left out; text is ASCII. *)
From Coq Require Import String Ascii List Arith ZArith QArith Qabs Qround Bool.
From Verif Require Import Base NamesModel SubsetModel MetaModel.
Import ListNotations.
Open Scope list_scope.
Open Scope nat_scope.

(** * Python's formatting of numbers *)

Definition digit (d : Z) : ascii := ascii_of_nat (48 + Z.to_nat d).

(** A natural number in decimals. *)
Fixpoint digits (fuel : nat) (n : Z) (acc : name) : name :=
  match fuel with
  | O => acc
  | S f => if (n <? 10)%Z then digit n :: acc else digits f (n / 10)%Z (digit (n mod 10)%Z :: acc)
  end.
Definition dec (n : Z) : name := digits (S (Z.to_nat (Z.log2 n))) n [].

(** The nearest integer, the even one if there are two. *)
Definition half_even (x : Q) : Z :=
  let f := Qfloor x in
  match Qcompare (x - inject_Z f) (1 # 2) with
  | Lt => f
  | Gt => (f + 1)%Z
  | Eq => if Z.even f then f else (f + 1)%Z
  end.

Definition sign (x : Q) : name := if Qle_bool 0 x then [] else txt "-".

Definition pad (w : nat) (s : name) : name := repeat " "%char (w - length s) ++ s.

(** [f"{x:4.2f}"] *)
Definition fixed2 (x : Q) : name :=
  let m := half_even (Qabs x * (100 # 1)) in
  pad 4 (sign x ++ dec (m / 100)%Z ++ txt "." ++ [digit (m / 10 mod 10)%Z; digit (m mod 10)%Z]).

(** The decimal exponent of a positive number. *)
Definition exponent (x : Q) : Z :=
  let e := (Z.of_nat (length (dec (Qnum x))) - Z.of_nat (length (dec (Z.pos (Qden x)))))%Z in
  if Qle_bool (Qpower (10 # 1) e) x then e else (e - 1)%Z.

(** Four digits and the exponent of the first. *)
Definition rounded4 (x : Q) : Z * Z :=
  let e := exponent x in
  let m := half_even (x * Qpower (10 # 1) (3 - e)) in
  if (m =? 10000)%Z then (1000%Z, (e + 1)%Z) else (m, e).

(** Without zeros at the end, and without the point if nothing is left after it. *)
Fixpoint strip (s : name) : name :=
  match s with
  | [] => []
  | c :: t => match strip t with
              | [] => if Ascii.eqb c "0"%char then [] else [c]
              | r => c :: r
              end
  end.
Definition point (s : name) : name := match strip s with [] => [] | r => txt "." ++ r end.

Definition show_exponent (e : Z) : name :=
  txt "e" ++ (if (0 <=? e)%Z then txt "+" else txt "-")
          ++ (if (Z.abs e <? 10)%Z then txt "0" else []) ++ dec (Z.abs e).

(** [f"{x:.4g}"] *)
Definition general4 (x : Q) : name :=
  if Qeq_bool x 0 then txt "0"
  else
    let '(m, e) := rounded4 (Qabs x) in
    let s := dec m in
    sign x ++
    (if ((-4 <=? e) && (e <? 4))%Z then
       if (0 <=? e)%Z then firstn (Z.to_nat (e + 1)) s ++ point (skipn (Z.to_nat (e + 1)) s)
       else txt "0" ++ point (repeat "0"%char (Z.to_nat (- e - 1)) ++ s)
     else firstn 1 s ++ point (skipn 1 s) ++ show_exponent e).

(** * The texts of the metadata object *)

Definition newline : name := [ascii_of_nat 10].

(** [self.code[param]] and [self.hydro_scheme[param]]: a dictionary or None. *)
Definition group_attr (log : list (name * mval)) (group param : name) : res hval :=
  match dict_get log group with
  | Some (VDict d) => match dict_get d param with Some h => Ok h | None => Err KeyError end
  | Some _ => Err TypeError
  | None => Err AttributeError
  end.

(** [.decode("utf-8")] *)
Definition decode_bytes (h : hval) : res name :=
  match h with HBytes s => Ok s | _ => Err AttributeError end.

Definition format_string (log : list (name * mval)) (group param : name) : res name :=
  do h <- group_attr log group param; decode_bytes h.

(** [value[0]] as [4.2f]. *)
Definition format_float (log : list (name * mval)) (param : name) : res name :=
  do h <- group_attr log (txt "hydro_scheme") param;
  do v <- first_item h;
  match v with VNum x => Ok (fixed2 x) | _ => Err ValueError end.

(** 1019-1058 *)
Definition code_info (log : list (name * mval)) : res name :=
  let s := format_string log (txt "code") in
  do code <- s (txt "Code");
  do branch <- s (txt "Git Branch");
  do revision <- s (txt "Git Revision");
  do date <- s (txt "Git Date");
  Ok (code ++ txt " (" ++ branch ++ txt ")" ++ newline ++ revision ++ newline ++ date).

(** 1060-1096 *)
Definition compiler_info (log : list (name * mval)) : res name :=
  let s := format_string log (txt "code") in
  do compiler <- s (txt "Compiler Name");
  do version <- s (txt "Compiler Version");
  do mpi <- s (txt "MPI library");
  Ok (compiler ++ txt " (" ++ version ++ txt ")" ++ newline ++ mpi).

(** 1098-1136 *)
Definition library_info (log : list (name * mval)) : res name :=
  let s := fun p => format_string log (txt "code") (txt p ++ txt " library version") in
  do fftw <- s "FFTW"%string;
  do gsl <- s "GSL"%string;
  do hdf5 <- s "HDF5"%string;
  Ok (txt "FFTW v" ++ fftw ++ newline ++ txt "GSL v" ++ gsl ++ newline ++ txt "HDF5 v" ++ hdf5).

Section Texts.
(** Python's [int] of a text. *)
Variable int_of_text : name -> res Z.

Definition get_int (log : list (name * mval)) (param : name) : res Z :=
  do h <- group_attr log (txt "hydro_scheme") param;
  do v <- first_item h;
  match v with
  | VNum x => Ok (truncate x)
  | VHeader (HStr s) => int_of_text s
  | _ => Err ValueError
  end.

Definition show_int (z : Z) : name := (if (z <? 0)%Z then txt "-" else []) ++ dec (Z.abs z).

(** 1138-1210 *)
Definition hydro_info (log : list (name * mval)) : res name :=
  let s := format_string log (txt "hydro_scheme") in
  do scheme <- s (txt "Scheme");
  do kernel <- s (txt "Kernel function");
  do dimension <- get_int log (txt "Dimension");
  do eta <- format_float log (txt "Kernel eta");
  do ngb <- format_float log (txt "Kernel target N_ngb");
  do cfl <- format_float log (txt "CFL parameter");
  Ok (scheme ++ newline ++ kernel ++ txt " in " ++ show_int dimension ++ txt "D" ++ newline
      ++ txt "$\eta$ = " ++ eta ++ txt " (" ++ ngb ++ txt " $N_{ngb}$)" ++ newline
      ++ txt "$C_{\rm CFL}$ = " ++ cfl).
End Texts.

(** 1212-1272 *)
Definition viscosity_info (log : list (name * mval)) : res name :=
  do model <- format_string log (txt "hydro_scheme") (txt "Viscosity Model");
  do alpha <- format_float log (txt "Alpha viscosity");
  do l <- format_float log (txt "Viscosity decay length [internal units]");
  do beta <- format_float log (txt "Beta viscosity");
  do lo <- format_float log (txt "Alpha viscosity (min)");
  do hi <- format_float log (txt "Alpha viscosity (max)");
  Ok (model ++ newline ++ txt "$\alpha_{V, 0}$ = " ++ alpha ++ txt ", $\ell_V$ = " ++ l
      ++ txt ", $\beta_V$ = " ++ beta ++ newline ++ lo ++ txt " < $\alpha_V$ < " ++ hi).

(** 1274-1316 *)
Definition diffusion_info (log : list (name * mval)) : res name :=
  do alpha <- format_float log (txt "Diffusion alpha");
  do beta <- format_float log (txt "Diffusion beta");
  do lo <- format_float log (txt "Diffusion alpha (min)");
  do hi <- format_float log (txt "Diffusion alpha (max)");
  Ok (txt "$\alpha_{D, 0}$ = " ++ alpha ++ txt ", $\beta_D$ = " ++ beta ++ newline
      ++ txt "$" ++ lo ++ txt " < \alpha_D < " ++ hi ++ txt "$").

(** 1318-1335 [partial_snapshot]: a truth value for every item. *)
Definition partial_snapshot (log : list (name * mval)) : res (list bool) :=
  let more := fun x => negb (Qle_bool x 1) in
  match dict_get log (txt "num_files_per_snapshot") with
  | Some (VHeader (HArr l)) => Ok (map more l)
  | Some (VHeader (HNum x)) => Ok [more x]
  | Some _ => Err TypeError
  | None => Err AttributeError
  end.

(** * swiftsnap *)

(** [validate_file] on an opened file; comparing an array gives an array. *)
Definition validate_file (f : mfile) : res unit :=
  match dict_get (mf_groups f) (txt "Code") with
  | None => Err OSErr
  | Some g =>
      match dict_get (gi_attrs g) (txt "Code") with
      | None => Err OSErr
      | Some (HBytes s) => if name_eqb s (txt "SWIFT") then Ok tt else Err OSErr
      | Some (HStr _) | Some (HNum _) | Some (HArr [_]) | Some (HStrs [_]) => Err OSErr
      | Some (HArr _) | Some (HStrs _) => Err ValueError
      end
  end.

(** How the program ends. *)
Inductive ending : Set := Exit (code : nat) | Raised (e : pyerr) | Returned.

(** A print that may fail; those after a failure do not happen. *)
Fixpoint emit (l : list (res name)) : list name * option pyerr :=
  match l with
  | [] => ([], None)
  | Ok s :: t => let '(p, e) := emit t in (s :: p, e)
  | Err e :: _ => ([], Some e)
  end.

Section Snap.
(** What unyt raises for text, dates, cosmologies: see MetaModel. *)
Variable text_error : pyerr.
Variable is_date : name -> bool.
Variable cosmology_ok : dict -> res unit.
(** Reading the units of a file. *)
Variable read_units : mfile -> res unit.
(** [str] of a value; the name of the unit of time; [textwrap.wrap]. *)
Variable show : mval -> name.
Variable time_unit : name.
Variable wrap : name -> list name.

(** [textwrap]'s lines, or the error. *)
Definition wrapped (t : res name) : list (res name) :=
  match t with Ok t => map Ok (wrap t) | Err e => [Err e] end.

Definition attr (log : list (name * mval)) (n : name) : res mval :=
  match dict_get log n with Some v => Ok v | None => Err AttributeError end.

(** [f"{value:.4g}"] *)
Definition show4 (v : mval) : res name :=
  match v with
  | VNum x => Ok (general4 x)
  | VUnit x DTime => Ok (general4 x ++ txt " " ++ time_unit)
  | VHeader (HStr _) => Err ValueError
  | _ => Err TypeError
  end.

(** swiftsnap.py:13-32 [decode] *)
Definition decode (v : mval) : name :=
  match v with VText s | VHeader (HBytes s) | VHeader (HStr s) => s | _ => show v end.

(** [policy_name for policy_name, active in data.policy.items() if active] *)
Fixpoint active (d : dict) : res (list name) :=
  match d with
  | [] => Ok []
  | (n, h) :: t => do b <- truth h; do r <- active t; Ok (if b then n :: r else r)
  end.

(** A dictionary of the object, for a method of it. *)
Definition the_dict (log : list (name * mval)) (n : name) : res dict :=
  match dict_get log n with Some (VDict d) => Ok d | _ => Err AttributeError end.

(** [str.title] and [str.replace] of one character. *)
Fixpoint title_from (after_letter : bool) (s : name) : name :=
  match s with
  | [] => []
  | c :: t => (if after_letter then lower_char c else upper_char c) :: title_from (is_letter c) t
  end.
Definition replace_char (a b : ascii) (s : name) : name := map (fun c => if Ascii.eqb c a then b else c) s.

Definition count (log : list (name * mval)) (x : name) : res name :=
  do v <- show4 (match dict_get log (txt "n_" ++ x) with Some v => v | None => VNum 0 end);
  Ok (replace_char underscore " "%char (title_from false x) ++ txt ": " ++ v).

(** [name.replace("Model", "model")] *)
Fixpoint replace_model (s : name) : name :=
  match s with
  | [] => []
  | c :: t => (if starts_with (txt "Model") s then "m"%char else c) :: replace_model t
  end.

Definition scheme (log : list (name * mval)) (n : name) : res name :=
  do d <- the_dict log n;
  Ok (decode (match dict_get d (txt "Scheme") with Some h => VHeader h | None => VHeader (HBytes (txt "None")) end)).

(** swiftsnap.py:132-199: what is printed for one file. *)
Definition report (k : file_kind) (log : list (name * mval)) : list (res name) :=
  let about := fun info => match k with KSnapshot | KLineOfSight => info log | _ => Err AttributeError end in
  [ (do v <- attr log (txt "run_name"); Ok (decode v));
    (do v <- attr log (txt "snapshot_date"); Ok (txt "Written at: " ++ show v)) ]
  ++ wrapped (do d <- the_dict log (txt "policy"); do l <- active d;
              Ok (txt "Active policies: " ++ join (txt ", ") l))
  ++ [ Ok [];
       (do t <- attr log (txt "output_type"); do o <- attr log (txt "select_output");
        Ok (txt "Output type: " ++ show t ++ txt ", Output selection: " ++ show o));
       Ok [] ]
  ++ wrapped (do l <- all_ok (map (count log) (map snd particle_name_underscores));
              Ok (txt "Number of particles: " ++ join (txt ", ") l))
  ++ [ Ok []; about compiler_info; about code_info; Ok [];
       (do z <- attr log (txt "z"); do z <- show4 z;
        do a <- attr log (txt "a"); do a <- show4 a;
        do t <- attr log (txt "time"); do t <- show4 t;
        Ok (txt "Simulation state: z=" ++ z ++ txt ", a=" ++ a ++ txt ", t=" ++ t));
       Ok [];
       (do c <- attr log (txt "cosmology"); Ok (txt "Cosmology: " ++ show c));
       Ok [];
       (do s <- scheme log (txt "gravity_scheme"); Ok (txt "Gravity scheme: " ++ s));
       (do s <- scheme log (txt "hydro_scheme"); Ok (txt "Hydrodynamics scheme: " ++ s)) ]
  ++ (match the_dict log (txt "subgrid_scheme") with
      | Err e => [Err e]
      | Ok d => flat_map (fun nh => if name_eqb (fst nh) (txt "NamedColumns") then []
                                    else [Ok (replace_model (fst nh) ++ txt ": " ++ decode (VHeader (snd nh)))]) d
      end).

(** The first file that cannot be opened or is none of SWIFT's; other errors stop the program. *)
Fixpoint first_invalid (files : list (name * option mfile)) : res (option name) :=
  match files with
  | [] => Ok None
  | (n, f) :: t =>
      match (match f with None => Err OSErr | Some f => validate_file f end) with
      | Ok _ => first_invalid t
      | Err OSErr => Ok (Some n)
      | Err e => Err e
      end
  end.

Definition finish (r : list name * option pyerr) : list name * ending :=
  (fst r, match snd r with Some e => Raised e | None => Returned end).

(** One line of [n] for every file, or the error before anything is printed. *)
Definition listing (n : name) (logs : list (list (name * mval))) : list name * ending :=
  match all_ok (map (fun log => do v <- attr log n; show4 v) logs) with
  | Ok l => ([join newline l], Exit 0)
  | Err e => ([], Raised e)
  end.

(** swiftsnap.py:80-199 *)
Definition swiftsnap (redshift scale_factor : bool) (files : list (name * option mfile)) : list name * ending :=
  match first_invalid files with
  | Err e => ([], Raised e)
  | Ok (Some n) => ([n ++ txt " is not a SWIFT snapshot."], Exit 1)
  | Ok None =>
      let opened := flat_map (fun nf => match snd nf with Some f => [f] | None => [] end) files in
      match (do _ <- all_ok (map read_units opened); all_ok (map (open_metadata text_error is_date cosmology_ok) opened)) with
      | Err e => ([], Raised e)
      | Ok l =>
          if redshift then listing (txt "z") (map snd l)
          else if scale_factor then listing (txt "a") (map snd l)
          else finish (emit (flat_map (fun kl => report (fst kl) (snd kl)) l))
      end
  end.
End Snap.
