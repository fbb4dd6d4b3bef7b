(** Vocabulary for the errors of the texts that describe files. *)
From Coq Require Import String Ascii List Arith ZArith QArith Qabs Bool.
From Verif Require Import Base NamesModel NamesSpec SubsetModel MetaModel InfoModel InfoSpec.
Import ListNotations.
Open Scope list_scope.
Open Scope Q_scope.

(** The error of the first step that has one; the steps before it have none. *)
Inductive first_error : list (pyerr -> Prop) -> pyerr -> Prop :=
| fe_here : forall (P : pyerr -> Prop) l e, P e -> first_error (P :: l) e
| fe_later : forall (P : pyerr -> Prop) l e, (forall x, ~ P x) -> first_error l e -> first_error (P :: l) e.

(** A parameter of a group that cannot be had. *)
Inductive missing (log : list (name * mval)) (group param : string) : pyerr -> Prop :=
| mi_group : dict_get log (txt group) = None -> missing log group param AttributeError
| mi_kind : forall v, dict_get log (txt group) = Some v -> (forall d, v <> VDict d) -> missing log group param TypeError
| mi_param : forall d, dict_get log (txt group) = Some (VDict d) -> dict_get d (txt param) = None -> missing log group param KeyError.

(** It is there but is not bytes; it has no first item; its first item is text. *)
Inductive no_text (log : list (name * mval)) (group param : string) : pyerr -> Prop :=
| nt_missing : forall e, missing log group param e -> no_text log group param e
| nt_kind : forall h, held log group param h -> (forall s, h <> HBytes s) -> no_text log group param AttributeError.
Definition no_item (h : hval) : Prop := h = HArr [] \/ (exists x, h = HNum x) \/ h = HStr [] \/ h = HBytes [] \/ h = HStrs [].
Definition first_text (h : hval) (s : name) : Prop := (exists c r, h = HStr (c :: r) /\ s = [c]) \/ (exists l, h = HStrs (s :: l)).
Inductive no_float (log : list (name * mval)) (param : string) : pyerr -> Prop :=
| nf_missing : forall e, missing log "hydro_scheme" param e -> no_float log param e
| nf_empty : forall h, held log "hydro_scheme" param h -> no_item h -> no_float log param IndexError
| nf_text : forall h s, held log "hydro_scheme" param h -> first_text h s -> no_float log param ValueError.
Inductive no_int (int_of_text : name -> res Z) (log : list (name * mval)) (param : string) : pyerr -> Prop :=
| ni_missing : forall e, missing log "hydro_scheme" param e -> no_int int_of_text log param e
| ni_empty : forall h, held log "hydro_scheme" param h -> no_item h -> no_int int_of_text log param IndexError
| ni_text : forall h s e, held log "hydro_scheme" param h -> first_text h s -> int_of_text s = Err e -> no_int int_of_text log param e.

(** * Reports *)

(** What a value is in print: its text, or Python's [str] of it. *)
Inductive spoken (show : mval -> name) : mval -> name -> Prop :=
| sp_text : forall s, spoken show (VText s) s
| sp_bytes : forall s, spoken show (VHeader (HBytes s)) s
| sp_str : forall s, spoken show (VHeader (HStr s)) s
| sp_other : forall v, (forall s, v <> VText s /\ v <> VHeader (HBytes s) /\ v <> VHeader (HStr s)) -> spoken show v (show v).

(** A value that cannot be shown with four significant digits. *)
Inductive not_shown : mval -> pyerr -> Prop :=
| ns_str : forall s, not_shown (VHeader (HStr s)) ValueError
| ns_other : forall v, (forall x, v <> VNum x) -> (forall x, v <> VUnit x DTime) -> (forall s, v <> VHeader (HStr s)) -> not_shown v TypeError.

(** Flags: numbers other than zero and text that is not empty are on; arrays of several items are neither. *)
Inductive switch : hval -> bool -> Prop :=
| sw_flag : forall h b, flag h b -> switch h b
| sw_on : forall c s h, h = HStr (c :: s) \/ h = HBytes (c :: s) \/ h = HStrs [c :: s] -> switch h true
| sw_off : forall h, h = HStr [] \/ h = HBytes [] \/ h = HStrs [[]] -> switch h false.
Definition no_switch (h : hval) : Prop :=
  (exists l, h = HArr l /\ length l <> 1%nat) \/ (exists l, h = HStrs l /\ length l <> 1%nat).
Inductive on_names : dict -> list name -> Prop :=
| onn_nil : on_names [] []
| onn_yes : forall n h d l, switch h true -> on_names d l -> on_names ((n, h) :: d) (n :: l)
| onn_no : forall n h d l, switch h false -> on_names d l -> on_names ((n, h) :: d) l.

(** A step of the report: lines that it prints, or an error. *)
Definition step := (list name + pyerr) -> Prop.
Inductive printed : list step -> list name -> option pyerr -> Prop :=
| pr_end : printed [] [] None
| pr_lines : forall (P : step) l ls rest e, P (inl ls) -> printed l rest e -> printed (P :: l) (ls ++ rest) e
| pr_error : forall (P : step) l e, P (inr e) -> printed (P :: l) [] (Some e).

Section Steps.
Variable show : mval -> name.
Variable time_unit : name.
Variable wrap : name -> list name.
Variable log : list (name * mval).

Definition without (n : string) (e : pyerr) : Prop := dict_get log (txt n) = None /\ e = AttributeError.
(** A name of the object that is no dictionary, or is not there. *)
Definition no_dict (n : string) (e : pyerr) : Prop := (forall d, dict_get log (txt n) <> Some (VDict d)) /\ e = AttributeError.

Inductive s_name : step :=
| s_name_ok : forall v s, dict_get log (txt "run_name") = Some v -> spoken show v s -> s_name (inl [s])
| s_name_not : forall e, without "run_name" e -> s_name (inr e).
Inductive s_date : step :=
| s_date_ok : forall v, dict_get log (txt "snapshot_date") = Some v -> s_date (inl [txt "Written at: " ++ show v])
| s_date_not : forall e, without "snapshot_date" e -> s_date (inr e).
Inductive s_policy : step :=
| s_policy_ok : forall d l t, dict_get log (txt "policy") = Some (VDict d) -> on_names d l -> listed (txt ", ") l t ->
    s_policy (inl (wrap (txt "Active policies: " ++ t)))
| s_policy_dict : forall e, no_dict "policy" e -> s_policy (inr e)
| s_policy_flag : forall d n h, dict_get log (txt "policy") = Some (VDict d) -> In (n, h) d -> no_switch h -> s_policy (inr ValueError).
Inductive s_output : step :=
| s_output_ok : forall t o, dict_get log (txt "output_type") = Some t -> dict_get log (txt "select_output") = Some o ->
    s_output (inl [txt "Output type: " ++ show t ++ txt ", Output selection: " ++ show o])
| s_output_not : forall e, without "output_type" e \/ without "select_output" e -> s_output (inr e).
(** Numbers of particles, 0 if the object has none; the first that is no number is the error. *)
Definition number_of (ap : string * string) (t : name) : Prop :=
  exists n, t = txt (snd ap) ++ txt ": " ++ n
  /\ ((exists v, dict_get log (txt (fst ap)) = Some v /\ shown time_unit v n) \/ (dict_get log (txt (fst ap)) = None /\ n = txt "0")).
Definition no_number_of (ap : string * string) (e : pyerr) : Prop :=
  exists v, dict_get log (txt (fst ap)) = Some v /\ not_shown v e.
Inductive s_numbers : step :=
| s_numbers_ok : forall l w, Forall2 number_of people_names l -> glued (txt ", ") l w ->
    s_numbers (inl (wrap (txt "Number of particles: " ++ w)))
| s_numbers_not : forall e, first_error (map no_number_of people_names) e -> s_numbers (inr e).
Inductive s_text (has : bool) (params : list string) (text : res name) : step :=
| s_text_ok : forall t, has = true -> text = Ok t -> s_text has params text (inl [t])
| s_text_not : forall e, has = true -> first_error (map (no_text log "code") params) e -> s_text has params text (inr e)
| s_text_none : has = false -> s_text has params text (inr AttributeError).
Definition no_state (n : string) (e : pyerr) : Prop :=
  without n e \/ exists v, dict_get log (txt n) = Some v /\ not_shown v e.
Inductive s_state : step :=
| s_state_ok : forall vz va vt z a t, dict_get log (txt "z") = Some vz -> dict_get log (txt "a") = Some va -> dict_get log (txt "time") = Some vt ->
    shown time_unit vz z -> shown time_unit va a -> shown time_unit vt t ->
    s_state (inl [txt "Simulation state: z=" ++ z ++ txt ", a=" ++ a ++ txt ", t=" ++ t])
| s_state_not : forall e, first_error (map no_state ["z"; "a"; "time"]%string) e -> s_state (inr e).
Inductive s_cosmology : step :=
| s_cosmology_ok : forall v, dict_get log (txt "cosmology") = Some v -> s_cosmology (inl [txt "Cosmology: " ++ show v])
| s_cosmology_not : forall e, without "cosmology" e -> s_cosmology (inr e).
Inductive s_scheme (n title : string) : step :=
| s_scheme_ok : forall d h s, dict_get log (txt n) = Some (VDict d) -> dict_get d (txt "Scheme") = Some h -> spoken show (VHeader h) s ->
    s_scheme n title (inl [txt title ++ s])
| s_scheme_none : forall d, dict_get log (txt n) = Some (VDict d) -> dict_get d (txt "Scheme") = None -> s_scheme n title (inl [txt title ++ txt "None"])
| s_scheme_not : forall e, no_dict n e -> s_scheme n title (inr e).
Inductive all_schemes : dict -> list name -> Prop :=
| as_nil : all_schemes [] []
| as_columns : forall h d l, all_schemes d l -> all_schemes ((txt "NamedColumns", h) :: d) l
| as_one : forall n h d l t s, n <> txt "NamedColumns" -> small_model n t -> spoken show (VHeader h) s -> all_schemes d l ->
    all_schemes ((n, h) :: d) ((t ++ txt ": " ++ s) :: l).
Inductive s_subgrid : step :=
| s_subgrid_ok : forall d l, dict_get log (txt "subgrid_scheme") = Some (VDict d) -> all_schemes d l -> s_subgrid (inl l)
| s_subgrid_not : forall e, no_dict "subgrid_scheme" e -> s_subgrid (inr e).
Inductive s_blank : step := s_blank_ok : s_blank (inl [[]]).

(** The steps for one file; catalogues have no texts about the compiler and the code. *)
Definition report_steps (texts : bool) : list step :=
  [s_name; s_date; s_policy; s_blank; s_output; s_blank; s_numbers; s_blank;
   s_text texts ["Compiler Name"; "Compiler Version"; "MPI library"]%string (compiler_info log);
   s_text texts ["Code"; "Git Branch"; "Git Revision"; "Git Date"]%string (code_info log);
   s_blank; s_state; s_blank; s_cosmology; s_blank;
   s_scheme "gravity_scheme" "Gravity scheme: "; s_scheme "hydro_scheme" "Hydrodynamics scheme: "; s_subgrid].
End Steps.

Definition has_texts (k : file_kind) : bool := match k with KSnapshot | KLineOfSight => true | KSOAP | KFOF => false end.
