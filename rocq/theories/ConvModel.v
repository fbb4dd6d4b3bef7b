(** Model of conversions.py: the cosmology of a file as parameters for astropy.  Definitions only.

    The dictionary is the one of the area Meta.  Numbers of the file are rational; the temperature of
    the background is a real number.  astropy's constants are arguments. *)
From Coq Require Import String Ascii List Arith ZArith QArith Reals Qreals Bool.
From Verif Require Import Base NamesModel MetaModel.
Import ListNotations.

(** [int] of a number: the fraction is cut off. *)
Definition int_of (x : Q) : Z := truncate x.

(** [cosmo[key][0]].  An item that is no number is refused (unyt or astropy does so). *)
Definition first_number (cosmo : dict) (key : string) : res Q :=
  match dict_get cosmo (txt key) with
  | None => Err KeyError
  | Some v => match item_at v 0 with
              | Some (VNum x) => Ok x
              | Some _ => Err TypeError
              | None => Err IndexError
              end
  end.

(** [cosmo[key][0]] with a default for a KeyError or an IndexError (98-100, 117-120). *)
Definition first_or (cosmo : dict) (key : string) (default : res Q) : res Q :=
  match first_number cosmo key with
  | Err KeyError | Err IndexError => default
  | r => r
  end.

(** [cosmo[key]] with a default, as the list of its items (39-42: a scalar is a list of one item).  A
    text is refused here; the code does so later, unless no item of it is used. *)
Definition items_or (cosmo : dict) (key : string) (default : Q) : res (list Q) :=
  match dict_get cosmo (txt key) with
  | None => Ok [default]
  | Some (HArr l) => Ok l
  | Some (HNum x) => Ok [x]
  | Some _ => Err TypeError
  end.

Definition default_neff : Q := 304 # 100.

(** [int(np.squeeze(N_ur))]: the array has to have one item. *)
Definition single_int (l : list Q) : res Z :=
  match l with [x] => Ok (int_of x) | _ => Err TypeError end.

Definition is_int (x : Q) : bool := Qeq_bool x (inject_Z (int_of x)).

(** 16-59 [swift_neutrinos_to_astropy].  [zip] stops at the end of the shorter list; a list times a
    negative number is empty. *)
Definition neutrinos (n_eff : Q) (n_ur m_nu deg_nu : list Q) : res (list Q) :=
  if negb (forallb is_int deg_nu) then Err AttributeError
  else
    do ur <- single_int n_ur;
    if negb (int_of n_eff =? fold_right Z.add 0 (map int_of deg_nu) + ur)%Z then Err AttributeError
    else Ok (flat_map (fun md => repeat (fst md) (Z.to_nat (int_of (snd md)))) (combine m_nu deg_nu)
             ++ repeat zero (Z.to_nat ur)).

(** The arguments of [w0waCDM].  H0 is in units of one over the unit of time. *)
Record astropy_cosmology : Type := mk_astropy {
  ac_H0 : Q; ac_Om0 : Q; ac_Ode0 : Q; ac_w0 : Q; ac_wa : Q; ac_Tcmb0 : R; ac_Ob0 : Q; ac_Neff : Q;
  ac_m_nu : list Q
}.

Section Conv.
(** The constants in cgs, and the unit of time in seconds. *)
Variables newton stefan light time_unit : R.

(** 103-115. *)
Definition critical_density (h0 : Q) : R := (3 / (8 * PI * newton) * (Q2R h0 / time_unit) ^ 2)%R.
Definition radiation_constant : R := (4 * stefan / light ^ 3)%R.
(** The fourth root; of a negative number it is NaN in numpy (here 0). *)
Definition background_temperature (h0 omega_r : Q) : R :=
  sqrt (sqrt (Q2R omega_r * critical_density h0 / radiation_constant)).

(** 61-151 [swift_cosmology_to_astropy]. *)
Definition to_astropy (cosmo : dict) : res astropy_cosmology :=
  do h0 <- first_number cosmo "H0 [internal units]";
  do ob <- first_number cosmo "Omega_b";
  do ol <- first_number cosmo "Omega_lambda";
  do omr <- first_number cosmo "Omega_r";
  do om <- first_number cosmo "Omega_m";
  do w0 <- first_number cosmo "w_0";
  do wa <- first_number cosmo "w_a";
  do t <- first_or cosmo "T_CMB_0 [K]" (Ok zero);
  let t := if is_zero t then background_temperature h0 omr else Q2R t in
  do neff <- first_or cosmo "N_eff" (Ok default_neff);
  do m <- items_or cosmo "M_nu_eV" zero;
  do deg <- items_or cosmo "deg_nu" zero;
  do ur <- items_or cosmo "N_ur" default_neff;
  do nu <- neutrinos neff ur m deg;
  Ok (mk_astropy h0 om ol w0 wa t ob neff nu).

(** The same as a check, for the metadata objects. *)
Definition convertible (cosmo : dict) : res unit :=
  match to_astropy cosmo with Ok _ => Ok tt | Err e => Err e end.
End Conv.
