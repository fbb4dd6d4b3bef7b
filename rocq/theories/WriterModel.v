(** Model of swiftsimio/snapshot_writer.py and of the functions that read its output
    back (metadata/field/attr_reader.py, metadata/unit/unit_types.py).

    Simplifications.
    - Numbers are exact reals; a unit is its value in cgs units together with its
      dimensions; particle IDs are numbers like any others (dtypes are not modelled).
    - Arrays given for IDs are one-dimensional.
    - [boxsize] is one-dimensional; [extra_header] is in TripModel.v, compression is not modelled.
    - The array made for IDs is a copy of the given one, in Python it is a view of it.
    - Of sympy's behaviour only [getattr(a ** e, "exp", 1.0)] is used, see
      [written_exponent]. *)
From Coq Require Import String List ZArith Bool Reals QArith Qreals.
From Verif Require Import Base CosmoModel.
Import ListNotations.
Open Scope R_scope.

(** * Units *)

(** Dimensions: exponents of mass, length, time, temperature, current and of the
    remaining base dimensions of unyt (angle etc., one number stands for all). *)
Record dims := mkdims { dM : Q; dL : Q; dt : Q; dT : Q; dI : Q; dX : Q }.

(** [value.units.dimensions == dimensions]. *)
Definition dims_eqb (x y : dims) : bool :=
  Qeq_bool (dM x) (dM y) && Qeq_bool (dL x) (dL y) && Qeq_bool (dt x) (dt y)
  && Qeq_bool (dT x) (dT y) && Qeq_bool (dI x) (dI y) && Qeq_bool (dX x) (dX y).

Definition d_none := mkdims 0 0 0 0 0 0.
Definition d_length := mkdims 0 1 0 0 0 0.
Definition d_mass := mkdims 1 0 0 0 0 0.
Definition d_velocity := mkdims 0 1 (-1) 0 0 0.
Definition d_specific_energy := mkdims 0 2 (-2) 0 0 0.

(** A unit system: its base units in cgs. *)
Record usys := mkusys { uM : R; uL : R; ut : R; uT : R; uI : R; uX : R }.

Definition upow (u : R) (e : Q) : R := Rpower u (Q2R e).

(** The unit of dimensions [d] in a unit system. *)
Definition base_unit (s : usys) (d : dims) : R :=
  upow (uM s) (dM d) * upow (uL s) (dL d) * upow (ut s) (dt d)
  * upow (uT s) (dT d) * upow (uI s) (dI d) * upow (uX s) (dX d).

(** An array with units: its shape, its values and cosmology attributes, the
    dimensions and size of its unit.  [wint] tells that the scale-factor expression
    is in sympy's canonical form for an integer exponent ([a ** 0] is then [1]). *)
Record warr := mkwarr {
  wshape : list Z;
  wdata : carr;
  wdims : dims;
  wunit : R;
  wint : bool
}.

Definition set_data (x : warr) (d : carr) : warr :=
  mkwarr (wshape x) d (wdims x) (wunit x) (wint x).

(** [value.convert_to_base(unit_system)] of unyt. *)
Definition convert_to_base (s : usys) (x : warr) : warr :=
  let d := wdata x in
  mkwarr (wshape x)
         (mkarr (map (fun v => v * (wunit x / base_unit s (wdims x))) (avals d))
                (acf d) (acm d) (avt d) (acomp d))
         (wdims x) (base_unit s (wdims x)) (wint x).

(** * Required fields, metadata/writer/required_fields.py and
    metadata/particle/particle_types.py *)

Definition shared : list (string * dims) :=
  [("coordinates", d_length); ("particle_ids", d_none);
   ("velocities", d_velocity); ("masses", d_mass)]%string.

(** [required_fields.<particle_name>] for PartType0 .. PartType7. *)
Definition required (t : nat) : list (string * dims) :=
  match t with
  | 0%nat => [("smoothing_lengths", d_length); ("internal_energy", d_specific_energy)]%string
             ++ shared
  | 4%nat => shared ++ [("smoothing_lengths", d_length)]%string
  | _ => shared
  end.

(** The values of [particle_name_underscores], in order. *)
Definition ptypes : list nat := seq 0 8.

(** * The writer *)

(** Python objects: arrays live in a memory [mem], a dataset refers to them. *)
Record writer := mkwriter {
  w_sys : usys;
  w_a : R;
  w_box : list R;
  w_fields : nat -> string -> option nat
}.

Record state := mkstate { mem : list warr; writers : list writer }.

Definition set_field (w : writer) (t : nat) (name : string) (v : option nat) : writer :=
  mkwriter (w_sys w) (w_a w) (w_box w)
           (fun t' n' => if Nat.eqb t' t && String.eqb n' name then v else w_fields w t' n').

(** [SWIFTSnapshotWriter.__init__], snapshot_writer.py 661-697: the box is copied and
    converted to base units. *)
Definition new_writer (s : usys) (box : warr) (dimension : Z) (a : R) : res writer :=
  if negb (Z.eqb (zlen (avals (wdata box))) dimension) then Err ValueError
  else Ok (mkwriter s a (avals (wdata (convert_to_base s box))) (fun _ _ => None)).

(** [getattr(dataset, name)] *)
Definition lookup (st : state) (w : writer) (t : nat) (name : string) : option warr :=
  match w_fields w t name with Some l => nth_error (mem st) l | None => None end.

(** [np.unique(v).size != v.size], negated. *)
Fixpoint distinctb (l : list R) : bool :=
  match l with
  | [] => true
  | x :: t => negb (existsb (Reqb x) t) && distinctb t
  end.

(** The value given to a setter: an array of the memory, or one without cosmology. *)
Inductive given := GArr (l : nat) | GPlain (shape : list Z) (v : list R).

(** The [cosmo_array(value, dimensionless, comoving=True, scale_factor=a,
    scale_exponent=0.0)] of the setter, objects.py 1163-1228; units are ignored if the
    value is a cosmo array. *)
Definition wrap_dimensionless (a : R) (x : warr) : res warr :=
  match acf (wdata x) with
  | None => Err AttributeError
  | Some c =>
      do c' <- (if cf_eq c null_cf then Ok (cf_create a 0)
                else if cf_eq (cf_create a 0) c then Ok c else Err ValueError);
      let d := wdata x in
      do y <- convert_to_comoving (mkarr (avals d) (Some c') (acm d) (avt d) (acomp d));
      Ok (set_data x (mkarr (avals y) (acf y) (acm y) true (acomp y)))
  end.

Definition wrap_plain (a : R) (shape : list Z) (v : list R) : warr :=
  mkwarr shape (mkarr v (Some (cf_create a 0)) (Some true) true CNone) d_none 1 false.

(** The checks on IDs, snapshot_writer.py 416-422. *)
Definition check_ids (name : string) (shape : list Z) (v : list R) : res unit :=
  if String.eqb name "particle_ids" then
    if negb (Nat.eqb (length shape) 1) then Err ValueError
    else if existsb (fun x => Rleb x 0) v then Err ValueError
    else if negb (distinctb v) then Err ValueError
    else Ok tt
  else Ok tt.

(** [value.cosmo_factor.scale_factor == self.writer.scale_factor], 396-400. *)
Definition check_scale (a : R) (x : warr) : res unit :=
  match acf (wdata x) with
  | None => Err AttributeError
  | Some c => if oreqb (cscale c) (Some a) then Ok tt else Err AssertionErr
  end.

Definition upd_writer (st : state) (i : nat) (w : writer) : state :=
  mkstate (mem st) (upd i w (writers st)).

(** The setter of field [name] of type [t], snapshot_writer.py 376-436.  The array
    itself is converted, also when the assignment fails at [convert_to_comoving]. *)
Definition setter (st : state) (i : nat) (w : writer) (t : nat) (name : string)
           (d : dims) (g : given) : state * res unit :=
  let arr := match g with GArr l => nth_error (mem st) l | GPlain _ _ => None end in
  match match arr with Some x => check_scale (w_a w) x | None => Ok tt end with
  | Err e => (st, Err e)
  | Ok _ =>
      if negb (dims_eqb d d_none) then
        match g, arr with
        | GArr l, Some x =>
            if dims_eqb (wdims x) d then
              let x1 := convert_to_base (w_sys w) x in
              let st1 := mkstate (upd l x1 (mem st)) (writers st) in
              match convert_to_comoving (wdata x1) with
              | Err e => (st1, Err e)
              | Ok y => (upd_writer (mkstate (upd l (set_data x1 y) (mem st)) (writers st))
                                    i (set_field w t name (Some l)), Ok tt)
              end
            else (st, Err InvalidUnit)
        | _, _ => (st, Err TypeError)
        end
      else
        let made :=
          match g, arr with
          | GArr _, Some x => do _ <- check_ids name (wshape x) (avals (wdata x));
                              wrap_dimensionless (w_a w) x
          | GArr _, None => Err TypeError
          | GPlain shape v, _ => do _ <- check_ids name shape v;
                                 Ok (wrap_plain (w_a w) shape v)
          end in
        match made with
        | Err e => (st, Err e)
        | Ok y => (mkstate (mem st ++ [y])
                           (upd i (set_field w t name (Some (length (mem st)))) (writers st)),
                   Ok tt)
        end
  end.

(** [check_empty], 90-103. *)
Definition check_empty (w : writer) (t : nat) : bool :=
  forallb (fun r => match w_fields w t (fst r) with None => true | Some _ => false end)
          (required t).

(** The loop of [check_consistent], 127-134: the sizes, and whether IDs are missing. *)
Fixpoint field_sizes (st : state) (w : writer) (t : nat) (reqs : list (string * dims))
  : res (list Z * bool) :=
  match reqs with
  | [] => Ok ([], false)
  | (name, _) :: rest =>
      match lookup st w t name with
      | None => if String.eqb name "particle_ids"
                then do r <- field_sizes st w t rest; Ok (fst r, true)
                else Err AttributeError
      | Some x => match wshape x with
                  | [] => Err IndexError
                  | n :: _ => do r <- field_sizes st w t rest; Ok (n :: fst r, snd r)
                  end
      end
  end.

Fixpoint zlist_eqb (x y : list Z) : bool :=
  match x, y with
  | [], [] => true
  | a :: s, b :: t => Z.eqb a b && zlist_eqb s t
  | _, _ => false
  end.

(** [check_consistent], 105-150: the number of particles, and whether IDs are missing. *)
Definition check_consistent (st : state) (w : writer) (t : nat) : res (Z * bool) :=
  do r <- field_sizes st w t (required t);
  match fst r with
  | [] => Err IndexError
  | n :: ns =>
      if negb (forallb (Z.eqb n) (n :: ns)) then Err AssertionErr
      else match lookup st w t "coordinates", lookup st w t "velocities" with
           | Some x, Some y => if zlist_eqb (wshape x) (wshape y) then Ok (n, snd r)
                               else Err AttributeError
           | _, _ => Err AttributeError
           end
  end.

(** The first loop of [write], 865-877: types to write with their particle numbers,
    and whether IDs have to be generated. *)
Fixpoint to_write (st : state) (w : writer) (ts : list nat) : res (list (nat * Z) * bool) :=
  match ts with
  | [] => Ok ([], false)
  | t :: rest =>
      if check_empty w t then to_write st w rest
      else do r <- check_consistent st w t;
           do q <- to_write st w rest;
           Ok ((t, fst r) :: fst q, snd r || snd q)
  end.

(** [np.arange(lo, hi)] *)
Definition arange (lo hi : Z) : list R := map IZR (zrange lo hi).

(** [_generate_ids], 710-741. *)
Fixpoint generate_ids (st : state) (i : nat) (w : writer) (names : list (nat * Z)) (used : Z)
  : state * res writer :=
  match names with
  | [] => (st, Ok w)
  | (t, n) :: rest =>
      let x := wrap_plain (w_a w) [n] (arange used (n + used)) in
      let st1 := mkstate (mem st ++ [x]) (writers st) in
      match setter st1 i w t "particle_ids" d_none (GArr (length (mem st))) with
      | (st2, Err e) => (st2, Err e)
      | (st2, Ok _) =>
          match nth_error (writers st2) i with
          | None => (st2, Err IndexError)
          | Some w2 => generate_ids st2 i w2 rest (used + n)
          end
      end
  end.

(** * The file *)

(** The attributes of a dataset that are read back: the exponents of the base units
    and of the scale factor, get_attributes 233-280; [at_cgs], [at_phys] are the two
    conversion factors. *)
Record attrs := mkattrs {
  at_M : Q; at_L : Q; at_t : Q; at_T : Q; at_I : Q;
  at_a : R;
  at_cgs : R; at_phys : R
}.

Record dset := mkdset { ds_shape : list Z; ds_vals : list R; ds_attrs : attrs }.

Record file := mkfile {
  f_a : R;                              (* Header: Scale-factor *)
  f_box : list R;                       (* Header: BoxSize *)
  f_counts : list Z;                    (* Header: NumPart_Total, NumPart_ThisFile *)
  f_masses : list R;                    (* Header: MassTable *)
  f_units : usys;                       (* Units *)
  f_groups : list (nat * list (string * dset))
}.

(** [float(getattr(field.cosmo_factor.expr, "exp", 1.0))], 273-275: a symbol [a] and
    the integer [1] (which is [a ** 0]) have no [exp].  Whether sympy also turns
    [a ** 0.0] into a number is left open ([fz]). *)
Definition written_exponent (fz : bool) (isint : bool) (e : R) : R :=
  if Reqb e 0 then (if isint || fz then 1 else 0) else e.

(** [get_attributes] for one field, 247-278. *)
Definition get_attributes (fz : bool) (x : warr) : res attrs :=
  match acf (wdata x) with
  | None => Err AttributeError
  | Some c =>
      match a_factor c, cexpr c with
      | Some f, Some e =>
          Ok (mkattrs (dM (wdims x)) (dL (wdims x)) (dt (wdims x)) (dT (wdims x))
                      (dI (wdims x)) (written_exponent fz (wint x) e)
                      (wunit x) (wunit x * f))
      | _, _ => Err TypeError
      end
  end.

(** [write_particle_group] and [write_particle_group_metadata], 182-231. *)
Fixpoint write_fields (fz : bool) (st : state) (w : writer) (t : nat)
         (reqs : list (string * dims)) : res (list (string * dset)) :=
  match reqs with
  | [] => Ok []
  | (name, _) :: rest =>
      match lookup st w t name with
      | None => Err TypeError
      | Some x =>
          do at_ <- get_attributes fz x;
          do r <- write_fields fz st w t rest;
          Ok ((name, mkdset (wshape x) (avals (wdata x)) at_) :: r)
      end
  end.

Fixpoint write_groups (fz : bool) (st : state) (w : writer) (names : list (nat * Z))
  : res (list (nat * list (string * dset))) :=
  match names with
  | [] => Ok []
  | (t, _) :: rest =>
      do g <- write_fields fz st w t (required t);
      do r <- write_groups fz st w rest;
      Ok ((t, g) :: r)
  end.

(** [number_of_particles], 763-778. *)
Definition count_of (names : list (nat * Z)) (t : nat) : Z :=
  match find (fun p => Nat.eqb (fst p) t) names with Some p => snd p | None => 0%Z end.

(** One entry of [mass_table]: [masses[0]]. *)
Definition mass_of (st : state) (w : writer) (names : list (nat * Z)) (t : nat) : res R :=
  if existsb (fun p => Nat.eqb (fst p) t) names then
    match lookup st w t "masses" with
    | None => Err TypeError
    | Some x => match avals (wdata x) with [] => Err IndexError | m :: _ => Ok m end
    end
  else Ok 0.

(** The outcome of [write]: an exception before the file is opened for writing, an
    exception after that (an incomplete file is left), or a file. *)
Inductive outcome := NotCreated (e : pyerr) | Incomplete (e : pyerr) | Written (f : file).

Definition all_ids (st : state) (w : writer) (names : list (nat * Z)) : list R :=
  concat (map (fun p => match lookup st w (fst p) "particle_ids" with
                        | Some x => avals (wdata x) | None => [] end) names).

(** The part of [write] inside [with h5py.File(filename, "w")], 889-896, with
    [_write_metadata] 743-800 and [_write_units] 802-853. *)
Definition write_file (fz : bool) (st : state) (w : writer) (names : list (nat * Z)) : outcome :=
  match all_ok (map (mass_of st w names) ptypes) with
  | Err e => Incomplete e
  | Ok masses =>
      match write_groups fz st w names with
      | Err e => Incomplete e
      | Ok gs => Written (mkfile (w_a w) (w_box w) (map (count_of names) ptypes) masses
                                 (mkusys (uM (w_sys w)) (uL (w_sys w)) (ut (w_sys w))
                                         (uT (w_sys w)) 1 1)
                                 gs)
      end
  end.

(** [write], 855-898. *)
Definition write (fz : bool) (st : state) (i : nat) : state * outcome :=
  match nth_error (writers st) i with
  | None => (st, NotCreated IndexError)
  | Some w =>
      match to_write st w ptypes with
      | Err e => (st, NotCreated e)
      | Ok (names, gen) =>
          if gen then
            match generate_ids st i w names 1 with
            | (st1, Err e) => (st1, NotCreated e)
            | (st1, Ok w1) => (st1, write_file fz st1 w1 names)
            end
          else
            match names with
            | [] => (st, NotCreated ValueError)     (* np.concatenate([]) *)
            | _ => if negb (distinctb (all_ids st w names)) then (st, NotCreated ValueError)
                   else (st, write_file fz st w names)
            end
      end
  end.

(** * Histories *)

Inductive op :=
| ONew (x : warr)                                     (* the user makes an array *)
| OMutate (l : nat) (x : warr)                        (* and changes it in place *)
| OWriter (s : usys) (box : warr) (dimension : Z) (a : R)
| OAssign (i t : nat) (name : string) (g : given)     (* writer.<type>.<name> = ... *)
| ODelete (i t : nat) (name : string)                 (* del writer.<type>.<name> *)
| OWrite (i : nat).

Definition field_dims (t : nat) (name : string) : option dims :=
  match find (fun r => String.eqb (fst r) name) (required t) with
  | Some r => Some (snd r) | None => None
  end.

Definition wstep (fz : bool) (st : state) (o : op) : state * option outcome :=
  match o with
  | ONew x => (mkstate (mem st ++ [x]) (writers st), None)
  | OMutate l x => (mkstate (upd l x (mem st)) (writers st), None)
  | OWriter s box dimension a =>
      match new_writer s box dimension a with
      | Err _ => (st, None)
      | Ok w => (mkstate (mem st) (writers st ++ [w]), None)
      end
  | OAssign i t name g =>
      match nth_error (writers st) i, field_dims t name with
      | Some w, Some d => (fst (setter st i w t name d g), None)
      | _, _ => (st, None)
      end
  | ODelete i t name =>
      match nth_error (writers st) i with
      | Some w => (upd_writer st i (set_field w t name None), None)
      | None => (st, None)
      end
  | OWrite i => let r := write fz st i in (fst r, Some (snd r))
  end.

(** The state after a history (exceptions are caught and the session goes on). *)
Fixpoint wrun (fz : bool) (st : state) (l : list op) : state :=
  match l with [] => st | o :: t => wrun fz (fst (wstep fz st o)) t end.

Definition init : state := mkstate [] [].

(** * Reading back *)

(** [load_field_units], attr_reader.py 13-48: each unit to its exponent, skipping
    zero exponents. *)
Definition load_units (u : usys) (at_ : attrs) : R * dims :=
  let p := fun x e => if Qeq_bool e 0 then 1 else upow x e in
  (p (uI u) (at_I at_) * p (uL u) (at_L at_) * p (uM u) (at_M at_)
   * p (uT u) (at_T at_) * p (ut u) (at_t at_),
   mkdims (at_M at_) (at_L at_) (at_t at_) (at_T at_) (at_I at_) 0).

(** [load_field_cosmo_factor] 102-124, [load_field_physical] 127-143,
    [load_field_valid_transform] 146-164: the writer sets neither of the two flags,
    so a field is comoving and convertible.  [ru] is [SWIFTUnits] (see [nearest]
    below): what the reader takes the units of the file to be. *)
Definition read_field (ru : usys -> usys) (f : file) (d : dset) : warr :=
  let u := load_units (ru (f_units f)) (ds_attrs d) in
  mkwarr (ds_shape d)
         (mkarr (ds_vals d) (Some (cf_create (f_a f) (at_a (ds_attrs d)))) (Some true) true CNone)
         (snd u) (fst u) false.

(** The box in the metadata, metadata/objects.py 226-247 with metadata_fields.py
    96-102: lengths, comoving, scaling as [a]. *)
Definition read_box (ru : usys -> usys) (f : file) : warr :=
  mkwarr [zlen (f_box f)]
         (mkarr (f_box f) (Some (cf_create (f_a f) 1)) (Some true) true CNone)
         d_length (uL (ru (f_units f))) true.

(** [float("%.5g" % x)] for [x > 0], half away from zero (C rounds exact ties to
    even; the bound proved is the same). *)
Definition decade (x : R) : Z := (Int_part (ln x / ln 10) - 4)%Z.
Definition round5 (x : R) : R :=
  IZR (Int_part (x / powerRZ 10 (decade x) + / 2)) * powerRZ 10 (decade x).

(** [find_nearest_base_unit], unit_types.py 33-76, on sizes in cgs: [min] takes the
    first base with the smallest [abs(log10(base / unit))]. *)
Fixpoint closest (unit : R) (best : R) (bases : list R) : R :=
  match bases with
  | [] => best
  | b :: t => if Rltb (Rabs (ln (b / unit) / ln 10)) (Rabs (ln (best / unit) / ln 10))
              then closest unit b t else closest unit best t
  end.
Definition nearest (bases : list R) (unit : R) : res R :=
  match bases with
  | [] => Err ValueError
  | b :: t => let c := closest unit b t in Ok (round5 (unit / c) * c)
  end.

(** [generate_smoothing_lengths], 152-180: the box lengths are those of the writer, [n]
    the number of particles. *)
Definition smoothing_lengths (box : list R) (dimension : Z) (n : Z) : res (list R) :=
  match box with
  | [] => Err IndexError
  | l :: rest =>
      if negb (forallb (Reqb l) rest) then Err ValueError
      else Ok (map (fun one => 2 * (l / Rpower (IZR n) (1 / IZR dimension)) * one)
                   (repeat 1 (Z.to_nat n)))
  end.
