(** Statements C88 and C89. *)
From Coq Require Import String Ascii List Arith ZArith QArith Qabs Bool Lia Lqa.
From Verif Require Import Base BaseLemmas NamesModel NamesSpec NamesProofs SubsetModel MetaModel MetaProofs InfoModel InfoSpec InfoProofs InfoTextProofs.
Import ListNotations.
Open Scope list_scope.
Open Scope Q_scope.

(** * C88: the texts about code, compiler and schemes *)

(** [4.2f]: hundredths, the nearest, half to even; one text for each number. *)
Theorem C88_two_places : forall x t, t = fixed2 x <->
  exists s m, nearest (Qabs x * 100) m /\ two_places s m /\ (0 <= x /\ t = s \/ x < 0 /\ t = "-"%char :: s).
Proof. exact fixed2_iff. Qed.

Example C88_two_places_example : fixed2 (12345 # 1000) = txt "12.34" /\ fixed2 (-7 # 2) = txt "-3.50" /\ fixed2 (1 # 8) = txt "0.12"
  /\ fixed2 (-1 # 1000) = txt "-0.00" /\ nearest (Qabs (12345 # 1000) * 100) 1234.
Proof. repeat split; try reflexivity; try (vm_compute; discriminate). intros _. exists 617%Z. reflexivity. Qed.

Theorem C88_code : forall log t, code_info log = Ok t <->
  exists code branch revision date, held_bytes log "code" "Code" code /\ held_bytes log "code" "Git Branch" branch
  /\ held_bytes log "code" "Git Revision" revision /\ held_bytes log "code" "Git Date" date
  /\ t = code ++ txt " (" ++ branch ++ txt ")" ++ [ascii_of_nat 10] ++ revision ++ [ascii_of_nat 10] ++ date.
Proof.
  intros log t. unfold code_info. rewrite bind_iff. split.
  - intros (a & A & H). apply bind_iff in H. destruct H as (b & B & H). apply bind_iff in H. destruct H as (c & C & H).
    apply bind_iff in H. destruct H as (d & D & H). injection H as <-. apply format_string_iff in A, B, C, D. exists a, b, c, d. repeat split; assumption.
  - intros (a & b & c & d & A & B & C & D & ->). apply format_string_iff in A, B, C, D.
    exists a. split; [exact A|]. rewrite B. cbn [bind]. rewrite C. cbn [bind]. rewrite D. reflexivity.
Qed.

Theorem C88_compiler : forall log t, compiler_info log = Ok t <->
  exists compiler version mpi, held_bytes log "code" "Compiler Name" compiler /\ held_bytes log "code" "Compiler Version" version
  /\ held_bytes log "code" "MPI library" mpi
  /\ t = compiler ++ txt " (" ++ version ++ txt ")" ++ [ascii_of_nat 10] ++ mpi.
Proof.
  intros log t. unfold compiler_info. rewrite bind_iff. split.
  - intros (a & A & H). apply bind_iff in H. destruct H as (b & B & H). apply bind_iff in H. destruct H as (c & C & H).
    injection H as <-. apply format_string_iff in A, B, C. exists a, b, c. repeat split; assumption.
  - intros (a & b & c & A & B & C & ->). apply format_string_iff in A, B, C.
    exists a. split; [exact A|]. rewrite B. cbn [bind]. rewrite C. reflexivity.
Qed.

Theorem C88_libraries : forall log t, library_info log = Ok t <->
  exists fftw gsl hdf5, held_bytes log "code" "FFTW library version" fftw /\ held_bytes log "code" "GSL library version" gsl
  /\ held_bytes log "code" "HDF5 library version" hdf5
  /\ t = txt "FFTW v" ++ fftw ++ [ascii_of_nat 10] ++ txt "GSL v" ++ gsl ++ [ascii_of_nat 10] ++ txt "HDF5 v" ++ hdf5.
Proof.
  intros log t. unfold library_info.
  change (txt "FFTW" ++ txt " library version") with (txt "FFTW library version").
  change (txt "GSL" ++ txt " library version") with (txt "GSL library version").
  change (txt "HDF5" ++ txt " library version") with (txt "HDF5 library version").
  rewrite bind_iff. split.
  - intros (a & A & H). apply bind_iff in H. destruct H as (b & B & H). apply bind_iff in H. destruct H as (c & C & H).
    injection H as <-. apply format_string_iff in A, B, C. exists a, b, c. repeat split; assumption.
  - intros (a & b & c & A & B & C & ->). apply format_string_iff in A, B, C.
    exists a. split; [exact A|]. rewrite B. cbn [bind]. rewrite C. reflexivity.
Qed.

Theorem C88_hydrodynamics : forall int_of_text log t, hydro_info int_of_text log = Ok t <->
  exists scheme kernel z dimension eta ngb cfl,
    held_bytes log "hydro_scheme" "Scheme" scheme /\ held_bytes log "hydro_scheme" "Kernel function" kernel
  /\ held_int int_of_text log "Dimension" z /\ integer z dimension
  /\ held_float log "Kernel eta" eta /\ held_float log "Kernel target N_ngb" ngb /\ held_float log "CFL parameter" cfl
  /\ t = scheme ++ [ascii_of_nat 10] ++ kernel ++ txt " in " ++ dimension ++ txt "D" ++ [ascii_of_nat 10]
       ++ txt "$\eta$ = " ++ eta ++ txt " (" ++ ngb ++ txt " $N_{ngb}$)" ++ [ascii_of_nat 10] ++ txt "$C_{\rm CFL}$ = " ++ cfl.
Proof.
  intros int_of_text log t. unfold hydro_info. rewrite bind_iff. split.
  - intros (a & A & H). apply bind_iff in H. destruct H as (b & B & H). apply bind_iff in H. destruct H as (c & C & H).
    apply bind_iff in H. destruct H as (d & D & H). apply bind_iff in H. destruct H as (e & E & H). apply bind_iff in H. destruct H as (f & F & H).
    injection H as <-. apply format_string_iff in A, B. apply get_int_iff in C. apply format_float_iff in D, E, F.
    exists a, b, c, (show_int c), d, e, f. repeat split; try assumption. apply show_int_iff. reflexivity.
  - intros (a & b & c & s & d & e & f & A & B & C & S & D & E & F & ->).
    apply format_string_iff in A, B. apply get_int_iff in C. apply format_float_iff in D, E, F. apply show_int_iff in S. subst s.
    exists a. split; [exact A|]. rewrite B. cbn [bind]. rewrite C. cbn [bind]. rewrite D. cbn [bind]. rewrite E. cbn [bind]. rewrite F. reflexivity.
Qed.

Theorem C88_viscosity : forall log t, viscosity_info log = Ok t <->
  exists model alpha l beta lo hi, held_bytes log "hydro_scheme" "Viscosity Model" model
  /\ held_float log "Alpha viscosity" alpha /\ held_float log "Viscosity decay length [internal units]" l
  /\ held_float log "Beta viscosity" beta /\ held_float log "Alpha viscosity (min)" lo /\ held_float log "Alpha viscosity (max)" hi
  /\ t = model ++ [ascii_of_nat 10] ++ txt "$\alpha_{V, 0}$ = " ++ alpha ++ txt ", $\ell_V$ = " ++ l ++ txt ", $\beta_V$ = " ++ beta
       ++ [ascii_of_nat 10] ++ lo ++ txt " < $\alpha_V$ < " ++ hi.
Proof.
  intros log t. unfold viscosity_info. rewrite bind_iff. split.
  - intros (a & A & H). apply bind_iff in H. destruct H as (b & B & H). apply bind_iff in H. destruct H as (c & C & H).
    apply bind_iff in H. destruct H as (d & D & H). apply bind_iff in H. destruct H as (e & E & H). apply bind_iff in H. destruct H as (f & F & H).
    injection H as <-. apply format_string_iff in A. apply format_float_iff in B, C, D, E, F. exists a, b, c, d, e, f. repeat split; assumption.
  - intros (a & b & c & d & e & f & A & B & C & D & E & F & ->). apply format_string_iff in A. apply format_float_iff in B, C, D, E, F.
    exists a. split; [exact A|]. rewrite B. cbn [bind]. rewrite C. cbn [bind]. rewrite D. cbn [bind]. rewrite E. cbn [bind]. rewrite F. reflexivity.
Qed.

Theorem C88_diffusion : forall log t, diffusion_info log = Ok t <->
  exists alpha beta lo hi, held_float log "Diffusion alpha" alpha /\ held_float log "Diffusion beta" beta
  /\ held_float log "Diffusion alpha (min)" lo /\ held_float log "Diffusion alpha (max)" hi
  /\ t = txt "$\alpha_{D, 0}$ = " ++ alpha ++ txt ", $\beta_D$ = " ++ beta ++ [ascii_of_nat 10] ++ txt "$" ++ lo ++ txt " < \alpha_D < " ++ hi ++ txt "$".
Proof.
  intros log t. unfold diffusion_info. rewrite bind_iff. split.
  - intros (a & A & H). apply bind_iff in H. destruct H as (b & B & H). apply bind_iff in H. destruct H as (c & C & H).
    apply bind_iff in H. destruct H as (d & D & H).
    injection H as <-. apply format_float_iff in A, B, C, D. exists a, b, c, d. repeat split; assumption.
  - intros (a & b & c & d & A & B & C & D & ->). apply format_float_iff in A, B, C, D.
    exists a. split; [exact A|]. rewrite B. cbn [bind]. rewrite C. cbn [bind]. rewrite D. reflexivity.
Qed.

(** Whether the snapshot is split over files. *)
Theorem C88_incomplete_snapshot : forall log l, partial_snapshot log = Ok l <->
  exists h, dict_get log (txt "num_files_per_snapshot") = Some (VHeader h)
  /\ ((exists q, h = HArr q /\ Forall2 (fun x b => b = true <-> 1 < x) q l)
      \/ exists x b, h = HNum x /\ l = [b] /\ (b = true <-> 1 < x)).
Proof.
  assert (M : forall x b, negb (Qle_bool x 1) = b <-> (b = true <-> 1 < x)).
  { intros x b. destruct (Qle_bool x 1) eqn:E.
    - apply Qle_bool_iff in E. split; [intros <-; split; [discriminate|intro; lra]|]. intro H. destruct b; [assert (1 < x) by (apply H; reflexivity); lra|reflexivity].
    - assert (1 < x) by (apply Qnot_le_lt; intro H; apply Qle_bool_iff in H; congruence).
      split; [intros <-; split; [intro; assumption|reflexivity]|]. intro K. symmetry. apply K. exact H. }
  intros log l. unfold partial_snapshot. split.
  - destruct (dict_get log (txt "num_files_per_snapshot")) as [v|]; [|discriminate]. destruct v as [h| | | | | | | | | | | | | | | ]; try discriminate.
    destruct h; try discriminate; intro H; injection H as <-; eexists; (split; [reflexivity|]).
    + left. exists l0. split; [reflexivity|]. induction l0 as [|x q IH]; constructor; [apply M; reflexivity|exact IH].
    + right. eexists x, _. split; [reflexivity|]. split; [reflexivity|]. apply M. reflexivity.
  - intros (h & -> & [(q & -> & F)|(x & b & -> & -> & B)]).
    + f_equal. induction F as [|x b q l B F IH]; [reflexivity|]. cbn [map]. rewrite IH. f_equal. apply M. exact B.
    + f_equal. f_equal. apply M. exact B.
Qed.

Definition code_group : dict :=
  [ (txt "Code", HBytes (txt "SWIFT")); (txt "Git Branch", HBytes (txt "master")); (txt "Git Revision", HBytes (txt "v0.9")); (txt "Git Date", HBytes (txt "2020"));
    (txt "Compiler Name", HBytes (txt "ICC")); (txt "Compiler Version", HBytes (txt "19")); (txt "MPI library", HBytes (txt "none")) ].
Definition hydro_group : dict :=
  [ (txt "Scheme", HBytes (txt "SPHENIX")); (txt "Kernel function", HBytes (txt "Quartic spline")); (txt "Dimension", HArr [3]);
    (txt "Kernel eta", HArr [6 # 5]); (txt "Kernel target N_ngb", HArr [572 # 10]); (txt "CFL parameter", HArr [1 # 5]) ].

Example C88_example : code_info [(txt "code", VDict code_group)] = Ok (txt "SWIFT (master)" ++ [ascii_of_nat 10] ++ txt "v0.9" ++ [ascii_of_nat 10] ++ txt "2020")
  /\ compiler_info [(txt "code", VDict code_group)] = Ok (txt "ICC (19)" ++ [ascii_of_nat 10] ++ txt "none")
  /\ library_info [(txt "code", VDict code_group)] = Err KeyError
  /\ hydro_info (fun _ => Err ValueError) [(txt "hydro_scheme", VDict hydro_group)]
     = Ok (txt "SPHENIX" ++ [ascii_of_nat 10] ++ txt "Quartic spline in 3D" ++ [ascii_of_nat 10]
           ++ txt "$\eta$ = 1.20 (57.20 $N_{ngb}$)" ++ [ascii_of_nat 10] ++ txt "$C_{\rm CFL}$ = 0.20")
  /\ partial_snapshot [(txt "num_files_per_snapshot", VHeader (HArr [1; 4]))] = Ok [false; true].
Proof. repeat split; vm_compute; reflexivity. Qed.

(** Text stored as a variable-length string has no [decode]: no texts for such files. *)
Theorem C88_strings_refuted : forall log p s, held log "code" p (HStr s) -> In p ["Code"; "Git Branch"; "Git Revision"; "Git Date"]%string ->
  forall t, code_info log <> Ok t.
Proof.
  intros log p s (d & D & P) I t H. apply C88_code in H. destruct H as (a & b & c & e & A & B & C & E & _).
  destruct I as [<-|[<-|[<-|[<-|[]]]]]; [destruct A as (d' & D' & P')|destruct B as (d' & D' & P')|destruct C as (d' & D' & P')|destruct E as (d' & D' & P')];
    rewrite D in D'; injection D' as <-; rewrite P in P'; discriminate.
Qed.

(** * C89: swiftsnap *)

(** [.4g]: four significant digits; one text for each number. *)
Theorem C89_significant : forall x t, t = general4 x <-> general x t.
Proof. exact general4_iff. Qed.

Example C89_significant_example : general4 (123456 # 10) = txt "1.235e+04" /\ general4 (99996 # 10000) = txt "10" /\ general4 (-1 # 3) = txt "-0.3333"
  /\ general4 (1 # 100000) = txt "1e-05" /\ general4 0 = txt "0" /\ general4 1000 = txt "1000" /\ general4 (12345 # 100000000) = txt "0.0001234".
Proof. repeat split; vm_compute; reflexivity. Qed.

(** A file is one of SWIFT's if its group Code says so in bytes. *)
Theorem C89_accepts_iff : forall f, (validate_file f = Ok tt <-> swift_file f) /\ (validate_file f = Err ValueError <-> odd_file f)
  /\ (validate_file f = Err OSErr <-> ~ swift_file f /\ ~ odd_file f).
Proof. intro f. split; [apply validate_ok|]. split; [apply validate_odd|apply validate_bad]. Qed.

Section Program.
Variable text_error : pyerr.
Variable is_date : name -> bool.
Variable cosmology_ok : dict -> res unit.
Variable read_units : mfile -> res unit.
Variable show : mval -> name.
Variable time_unit : name.
Variable wrap : name -> list name.
Let run := swiftsnap text_error is_date cosmology_ok read_units show time_unit wrap.
Let metadata := metadata_of text_error is_date cosmology_ok read_units.

(** The first file that is none of SWIFT's stops the program, with its name. *)
Theorem C89_invalid : forall redshift scale_factor valid n f rest, Forall valid_file valid -> invalid_file (n, f) ->
  run redshift scale_factor (valid ++ (n, f) :: rest) = ([n ++ txt " is not a SWIFT snapshot."], Exit 1).
Proof.
  intros r a valid n f rest V I. unfold run, swiftsnap. rewrite (first_invalid_skip _ _ V). cbn [first_invalid].
  destruct I as [E|(g & E & K)]; cbn [snd] in E; subst f; [reflexivity|]. apply validate_bad in K. rewrite K. reflexivity.
Qed.

(** A value that cannot be compared stops it before anything is printed. *)
Theorem C89_odd_refuted : forall redshift scale_factor valid n f rest, Forall valid_file valid -> odd_file f ->
  run redshift scale_factor (valid ++ (n, Some f) :: rest) = ([], Raised ValueError).
Proof.
  intros r a valid n f rest V I. unfold run, swiftsnap. rewrite (first_invalid_skip _ _ V). cbn [first_invalid].
  apply validate_odd in I. rewrite I. reflexivity.
Qed.

Lemma opened_files : forall files l, Forall2 metadata files l ->
  first_invalid files = Ok None
  /\ (do _ <- all_ok (map read_units (flat_map (fun nf => match snd nf with Some f => [f] | None => [] end) files));
      all_ok (map (open_metadata text_error is_date cosmology_ok) (flat_map (fun nf => match snd nf with Some f => [f] | None => [] end) files))) = Ok l.
Proof.
  intros files l H.
  assert (V : Forall valid_file files) by (clear - H; induction H as [|nf kl files l (f & E & S & _) H IH]; constructor; [exists f; split; assumption|exact IH]).
  split; [rewrite <- (app_nil_r files); rewrite (first_invalid_skip _ _ V); reflexivity|].
  assert (U : map read_units (flat_map (fun nf => match snd nf with Some f => [f] | None => [] end) files) = map Ok (map (fun _ => tt) files)
    /\ map (open_metadata text_error is_date cosmology_ok) (flat_map (fun nf => match snd nf with Some f => [f] | None => [] end) files) = map Ok l).
  { clear V. induction H as [|nf kl files l (f & E & S & R & M) H (IH1 & IH2)]; [split; reflexivity|].
    cbn [flat_map map]. rewrite E. cbn [app map]. rewrite R, M. split; f_equal; assumption. }
  destruct U as (-> & ->). rewrite (proj2 (all_ok_spec _ _) eq_refl). cbn [bind]. apply all_ok_spec. reflexivity.
Qed.

(** With -r the redshifts, one line for each file, also if -a is given; with -a the scale factors. *)
Theorem C89_redshifts : forall redshift scale_factor (attr : string) files l zs text,
  (redshift = true /\ attr = "z"%string \/ redshift = false /\ scale_factor = true /\ attr = "a"%string) ->
  Forall2 metadata files l ->
  Forall2 (fun kl z => exists v, dict_get (snd kl) (txt attr) = Some v /\ shown time_unit v z) l zs ->
  listed [ascii_of_nat 10] zs text ->
  run redshift scale_factor files = ([text], Exit 0).
Proof.
  intros r a attr files l zs text F H Z T. unfold run, swiftsnap. destruct (opened_files _ _ H) as (-> & ->).
  assert (L : listing time_unit (txt attr) (map snd l) = ([text], Exit 0)).
  { unfold listing. apply listed_iff in T. subst text.
    assert (E : all_ok (map (fun log => do v <- InfoModel.attr log (txt attr); show4 time_unit v) (map snd l)) = Ok zs).
    { apply all_ok_spec. clear H. induction Z as [|kl z l zs (v & D & S) Z IH]; [reflexivity|]. cbn [map]. f_equal; [|exact IH].
      unfold InfoModel.attr. rewrite D. cbn [bind]. apply shown_iff. exact S. }
    rewrite E. reflexivity. }
  destruct F as [(-> & ->)|(-> & -> & ->)]; exact L.
Qed.

(** Without options: all the lines about every snapshot. *)
Theorem C89_report : forall files l lines, Forall2 metadata files l ->
  Forall2 (fun kl ls => (fst kl = KSnapshot \/ fst kl = KLineOfSight) /\ about_file time_unit show wrap (snd kl) ls) l lines ->
  run false false files = (concat lines, Returned).
Proof.
  intros files l lines H L. unfold run, swiftsnap. destruct (opened_files _ _ H) as (-> & ->).
  assert (E : flat_map (fun kl => report show time_unit wrap (fst kl) (snd kl)) l = map Ok (concat lines)).
  { clear H. induction L as [|kl ls l lines (K & A) L IH]; [reflexivity|]. cbn [flat_map concat]. rewrite map_app, IH. f_equal.
    apply report_ok; assumption. }
  rewrite E, emit_ok. reflexivity.
Qed.

(** What cannot be read is found before anything is printed. *)
Theorem C89_unreadable : forall redshift scale_factor files, Forall valid_file files ->
  (forall l, ~ Forall2 metadata files l) -> exists e, run redshift scale_factor files = ([], Raised e).
Proof.
  intros r a files V N. unfold run, swiftsnap.
  assert (F : first_invalid files = Ok None) by (rewrite <- (app_nil_r files); rewrite (first_invalid_skip _ _ V); reflexivity). rewrite F.
  match goal with |- context [match ?m with Ok l => _ | Err e => ([], Raised e) end] => destruct m as [l|e] eqn:E end; [|exists e; reflexivity].
  exfalso. apply (N l). apply bind_iff in E. destruct E as (us & E1 & E2). apply all_ok_spec in E1, E2. clear N F. revert us l E1 E2.
  induction V as [|[n f] files (g & E & S) V IH]; intros us l E1 E2; cbn [flat_map map snd] in *.
  - destruct l; [constructor|discriminate].
  - subst f. cbn [app map] in *. destruct us as [|u us]; [discriminate|]. destruct l as [|kl l]; [discriminate|]. cbn [map] in *.
    injection E1 as E1 E1'. injection E2 as E2 E2'. constructor; [|apply (IH us l E1' E2')].
    exists g. destruct u. split; [reflexivity|]. split; [exact S|]. split; assumption.
Qed.

(** Catalogues of groups and of haloes have no text about the compiler: the program stops at the first of them. *)
Theorem C89_catalogues_refuted : forall files l kl, Forall2 metadata files l -> In kl l -> fst kl = KSOAP \/ fst kl = KFOF ->
  exists e, snd (run false false files) = Raised e.
Proof.
  intros files l kl H I K. unfold run, swiftsnap. destruct (opened_files _ _ H) as (-> & ->).
  destruct (emit_err (flat_map (fun kl => report show time_unit wrap (fst kl) (snd kl)) l) AttributeError) as (e & E).
  - apply in_flat_map. exists kl. split; [exact I|]. unfold report. apply in_or_app. right. apply in_or_app. right. apply in_or_app. right.
    apply in_or_app. right. apply in_or_app. left. right. left. destruct K as [->| ->]; reflexivity.
  - exists e. unfold finish. cbn [snd]. rewrite E. reflexivity.
Qed.
End Program.

(** A snapshot, a catalogue of groups and the report about the first. *)
Definition common (kind : string) : list (name * ginfo) :=
  [ (txt "Header", mk_ginfo [ (txt "NumPart_ThisFile", HArr [5; 0; 0; 0; 12345; 0; 0; 0]); (txt "CanHaveTypes", HArr [0; 0; 0; 0; 0; 0; 0; 0]);
                              (txt "Redshift", HArr [1 # 4]); (txt "Scale-factor", HArr [4 # 5]); (txt "Time", HArr [3 # 2]); (txt "RunName", HBytes (txt "small"));
                              (txt "OutputType", HBytes (txt kind)) ] []);
    (txt "Code", mk_ginfo code_group []); (txt "HydroScheme", mk_ginfo hydro_group []); (txt "GravityScheme", mk_ginfo [] []);
    (txt "Policy", mk_ginfo [(txt "cosmology", HArr [1]); (txt "rt", HArr [0]); (txt "gravity", HArr [1])] []);
    (txt "SubgridScheme", mk_ginfo [(txt "NamedColumns", HStr []); (txt "Cooling Model", HBytes (txt "PS2020"))] []);
    (txt "Groups", mk_ginfo [] [txt "Masses"]) ].
Definition a_snapshot : mfile := mk_mfile (common "FullVolume") [] None None None None.
Definition a_catalogue : mfile := mk_mfile (common "FOF") [] None None None None.
Definition show_some (v : mval) : name := match v with VText s => s | _ => txt "-" end.
Definition demo (r a : bool) (files : list (name * option mfile)) : list name * ending :=
  swiftsnap ValueError (fun _ => false) (fun _ => Ok tt) (fun _ => Ok tt) show_some (txt "Gyr") (fun s => [s]) r a files.

Example C89_example :
  demo false false [(txt "a", Some a_snapshot)] =
    ([ txt "small"; txt "Written at: "; txt "Active policies: cosmology, gravity"; [];
       txt "Output type: FullVolume, Output selection: "; [];
       txt "Number of particles: Gas: 5, Dark Matter: 0, Boundary: 0, Sinks: 0, Stars: 1.234e+04, Black Holes: 0, Neutrinos: 0, Sidm: 0"; [];
       txt "ICC (19)" ++ [ascii_of_nat 10] ++ txt "none"; txt "SWIFT (master)" ++ [ascii_of_nat 10] ++ txt "v0.9" ++ [ascii_of_nat 10] ++ txt "2020"; [];
       txt "Simulation state: z=0.25, a=0.8, t=1.5 Gyr"; []; txt "Cosmology: -"; []; txt "Gravity scheme: None"; txt "Hydrodynamics scheme: SPHENIX";
       txt "Cooling model: PS2020" ], Returned)
  /\ demo true true [(txt "a", Some a_snapshot); (txt "b", Some a_catalogue)] = ([txt "0.25" ++ [ascii_of_nat 10] ++ txt "0.25"], Exit 0)
  /\ demo false true [(txt "a", Some a_snapshot)] = ([txt "0.8"], Exit 0)
  /\ demo false true [(txt "a", Some a_snapshot); (txt "b", None); (txt "c", None)] = ([txt "b is not a SWIFT snapshot."], Exit 1)
  /\ (let '(p, e) := demo false false [(txt "b", Some a_catalogue); (txt "a", Some a_snapshot)] in (length p, e)) = (8%nat, Raised AttributeError).
Proof. repeat split; vm_compute; reflexivity. Qed.

Example C89_hypotheses : exists kl, metadata_of ValueError (fun _ => false) (fun _ => Ok tt) (fun _ => Ok tt) (txt "a", Some a_snapshot) kl /\ fst kl = KSnapshot
  /\ valid_file (txt "a", Some a_snapshot) /\ invalid_file (txt "b", None)
  /\ odd_file (mk_mfile [(txt "Code", mk_ginfo [(txt "Code", HArr [])] [])] [] None None None None)
  /\ switched_on [(txt "cosmology", HArr [1]); (txt "rt", HArr [0]); (txt "gravity", HArr [1])] [txt "cosmology"; txt "gravity"]
  /\ scheme_name (snd kl) "gravity_scheme" (txt "None")
  /\ small_model (txt "Cooling Model") (txt "Cooling model").
Proof.
  assert (S : swift_file a_snapshot) by (eexists; split; reflexivity).
  eexists. split; [exists a_snapshot; split; [reflexivity|]; split; [exact S|]; split; [reflexivity|vm_compute; reflexivity]|].
  split; [reflexivity|]. split; [exists a_snapshot; split; [reflexivity|exact S]|]. split; [left; reflexivity|].
  split; [eexists _, _; split; [reflexivity|]; split; [reflexivity|]; left; exists []; split; [reflexivity|discriminate]|].
  split; [apply on_yes; [constructor; discriminate|]; apply on_no; [constructor; reflexivity|]; apply on_yes; [constructor; discriminate|constructor]|].
  split; [eexists; split; [vm_compute; reflexivity|]; right; split; reflexivity|].
  apply small_model_iff. reflexivity.
Qed.

Print Assumptions C88_two_places.
Print Assumptions C88_code.
Print Assumptions C88_compiler.
Print Assumptions C88_libraries.
Print Assumptions C88_hydrodynamics.
Print Assumptions C88_viscosity.
Print Assumptions C88_diffusion.
Print Assumptions C88_incomplete_snapshot.
Print Assumptions C88_strings_refuted.
Print Assumptions C89_significant.
Print Assumptions C89_accepts_iff.
Print Assumptions C89_invalid.
Print Assumptions C89_odd_refuted.
Print Assumptions C89_redshifts.
Print Assumptions C89_report.
Print Assumptions C89_unreadable.
Print Assumptions C89_catalogues_refuted.
