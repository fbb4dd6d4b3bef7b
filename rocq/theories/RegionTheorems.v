(** C100: constraints of a mask given in physical or comoving coordinates. *)
From Coq Require Import List ZArith QArith Qabs Bool Reals Qreals Lra Lia.
From Verif Require Import Base BaseLemmas MaskModel CosmoModel CosmoSpec CosmoProofs CosmoExprProofs CtorModel
  CtorSpec CtorTheorems RegionModel RegionSpec RegionProofs.
Import ListNotations.
Open Scope R_scope.

(** ** Spatial constraints *)

(** Whatever mixture of comoving and physical arrays and lists of quantities the region is given in, and in
    whichever frame box and cells are stored: the call does to the mask, and raises, what the same call on the
    bare numbers does, all measured in the same way.  So all that is proved of [constrain_spatial] on numbers
    (C07 to C13) holds of it. *)
Theorem C100_spatial : forall s c mm lm region numbers union st, 0 < c ->
  portrays s c lm mm -> Forall2 (says s c) region numbers ->
  l_constrain_spatial mm lm region union st = constrain_spatial mm numbers union st.
Proof. intros s c mm lm region numbers union st C P F. exact (l_constrain_spatial_worth s c C lm mm region numbers union st P F). Qed.

(** A row may be given in either frame, as an array or as a list of quantities. *)
Theorem C100_frames : forall s c mm lm region region' numbers union st, 0 < c ->
  portrays s c lm mm -> Forall2 (says s c) region numbers -> Forall2 (says s c) region' numbers ->
  l_constrain_spatial mm lm region union st = l_constrain_spatial mm lm region' union st.
Proof.
  intros s c mm lm region region' numbers union st C P F F'.
  rewrite (C100_spatial s c mm lm region numbers union st C P F). symmetry. apply (C100_spatial s c); assumption.
Qed.

(** Converting an array does not change what it says. *)
Theorem C100_converted : forall s k c x q, worth s k c x q ->
  (forall y, to_physical x = Ok y -> worth s k c y q) /\ (forall y, to_comoving x = Ok y -> worth s k c y q).
Proof.
  intros s k c x q (G & P). split; intros y H.
  - rewrite (to_p_good s k x G) in H. injection H as <-. split; [apply good_set_cm, G|]. rewrite phys_set_p. exact P.
  - rewrite (to_c_good s k x G) in H. injection H as <-. split; [apply good_set_cm, G|]. rewrite (phys_set_c s k x G). exact P.
Qed.

(** Rows at another scale factor, or that scale differently, are refused; the mask stays as it was. *)
Theorem C100_spatial_refused : forall s t j mm lm region union st,
  (forall a, good s 1 (lm_box lm a) /\ length (avals (lm_box lm a)) = 1%nat) -> unlike s 1 t j ->
  length region = 3%nat -> (forall r, In r region -> r = RowNone \/ stranger t j r) ->
  (exists r, In r region /\ r <> RowNone) ->
  (ms_constrained st = None \/ (ms_constrained st = Some CSpatial /\ union = true)) ->
  l_constrain_spatial mm lm region union st = (st, Some ValueError).
Proof. exact l_spatial_refused. Qed.

(** So are rows without a frame. *)
Theorem C100_no_frame_refused : forall mm lm x ry rz union st, acm x = None -> acf x <> None -> length (avals x) = 2%nat ->
  (row_len ry = None \/ row_len ry = Some 2%nat) -> (row_len rz = None \/ row_len rz = Some 2%nat) ->
  l_constrain_spatial mm lm [RowArray x; ry; rz] union st = (st, Some InvalidConversion).
Proof.
  intros mm lm x ry rz union st M F L Ly Lz. unfold l_constrain_spatial, l_sanitize. cbn [forallb row_len]. rewrite L.
  assert (Y : (match row_len ry with Some n => Nat.eqb n 2 | None => true end) = true) by (destruct Ly as [-> | ->]; reflexivity).
  assert (Z : (match row_len rz with Some n => Nat.eqb n 2 | None => true end) = true) by (destruct Lz as [-> | ->]; reflexivity).
  rewrite Y, Z. cbn [andb Nat.eqb sane_row].
  unfold array_of, new_array, kw0. cbn [k_bypass]. unfold from_cosmo. cbn [u_arr k_sf k_se k_cm k_vt k_comp].
  destruct (acf x) as [c|]; [|congruence]. cbn [bind]. rewrite M.
  destruct (cf_eq c null_cf); reflexivity.
Qed.

(** ** Properties *)

(** A particle is kept exactly if it was kept before and its physical value lies above the physical lower bound
    and not above the physical upper one, whichever frames field and bounds are in. *)
Theorem C100_property : forall s k mm key vals cm lower upper lo up st l current size,
  good s k lower -> phys lower = [lo] -> good s k upper -> phys upper = [up] ->
  convert_masks_to_bool mm (ms_masks st) = InBools l -> nth_error l key = Some (current, size) ->
  length current = length vals ->
  exists m, l_constrain_property mm key (Some vals) (mkcf (Some k) (Some s)) cm lower upper st
            = (mk_mask_state (Some CProperty) (ms_cell_mask st) (InBools (upd key (m, size) l)), None)
  /\ length m = length current
  /\ forall i v, nth_error vals i = Some v ->
     (nth_error m i = Some true
      <-> nth_error current i = Some true /\ lo < (if cm then Rpower s k * v else v) <= up).
Proof.
  intros s k mm key vals cm lower upper lo up st l current size Gl Pl Gu Pu E N L.
  unfold l_constrain_property. rewrite E, N.
  unfold new_array. cbn [k_bypass]. unfold from_numbers. cbn [k_cf k_sf k_se parse_cf bind k_cm k_vt k_units or_unit or_null k_comp].
  assert (V : verify (Some cm) true = Ok tt) by (destruct cm; reflexivity). rewrite V. cbn [bind u_arr].
  set (d := mkarr (compress current vals) (Some (mkcf (Some k) (Some s))) (Some cm) true CNone).
  assert (Gd : good s k d) by (constructor; cbn; (reflexivity || discriminate)).
  rewrite (cmpop_phys s k Cgt d lower Gd Gl), (cmpop_phys s k Cle d upper Gd Gu), Pl, Pu, !bc_one. cbn [bind].
  rewrite (combine_maps R bool bool bool andb).
  assert (Pd : phys d = map (fun v => if cm then Rpower s k * v else v) (compress current vals)).
  { unfold phys, d. cbn [acm acf avals]. destruct cm; [reflexivity|]. symmetry. apply map_id. }
  rewrite Pd, map_map. eexists. split; [reflexivity|].
  set (f := fun x : R => cfun Cgt (if cm then Rpower s k * x else x) lo && cfun Cle (if cm then Rpower s k * x else x) up).
  assert (K : forall v, f v = true <-> lo < (if cm then Rpower s k * v else v) <= up).
  { intro v. unfold f. cbn [cfun]. rewrite andb_true_iff, Rltb_true, Rleb_true. tauto. }
  clearbody f. clear - L K. revert vals L. induction current as [|b current IH]; intros [|w vals] L; try discriminate.
  - split; [reflexivity|]. intros [|i] v H; discriminate.
  - cbn in L. injection L as L. destruct (IH vals L) as (A & B). cbn [compress map].
    destruct b; cbn [map masked_assign length].
    + split; [rewrite A; reflexivity|]. intros [|i] v H; cbn [nth_error] in *.
      * injection H as ->. rewrite <- K. split; [intro Q; injection Q as ->; auto|intros (_ & ->); reflexivity].
      * apply B. exact H.
    + split; [rewrite A; reflexivity|]. intros [|i] v H; cbn [nth_error] in *.
      * split; [discriminate|intros (Q & _); discriminate].
      * apply B. exact H.
Qed.

(** Where the values are worth numbers, it is the call on the numbers. *)
Theorem C100_property_numbers : forall s k c mm key vals qs cm lower upper lo up st, 0 < c ->
  worth s k c (mkarr vals (Some (mkcf (Some k) (Some s))) (Some cm) true CNone) qs ->
  worth s k c lower [lo] -> worth s k c upper [up] ->
  l_constrain_property mm key (Some vals) (mkcf (Some k) (Some s)) cm lower upper st
  = constrain_property mm key (Some qs) lo up st.
Proof. intros s k c mm key vals qs cm lower upper lo up st C. exact (l_constrain_property_worth s c C k mm key vals qs cm lower upper lo up st). Qed.

(** Bounds at another scale factor, or that scale differently, are refused; what is selected stays, but the
    masks are in boolean form from then on. *)
Theorem C100_property_refused : forall s t k j mm key vals cm lower upper st l current,
  good t j lower -> s <> t \/ ~ close_factors s k j ->
  convert_masks_to_bool mm (ms_masks st) = InBools l -> nth_error l key = Some current ->
  l_constrain_property mm key (Some vals) (mkcf (Some k) (Some s)) cm lower upper st
  = (mk_mask_state (ms_constrained st) (ms_cell_mask st) (InBools l), Some ValueError).
Proof.
  intros s t k j mm key vals cm lower upper st l (current, size) Gl N E H. unfold l_constrain_property. rewrite E, H.
  unfold new_array. cbn [k_bypass]. unfold from_numbers. cbn [k_cf k_sf k_se parse_cf bind k_cm k_vt k_units or_unit or_null k_comp].
  assert (V : verify (Some cm) true = Ok tt) by (destruct cm; reflexivity). rewrite V. cbn [bind u_arr].
  set (d := mkarr (compress current vals) (Some (mkcf (Some k) (Some s))) (Some cm) true CNone).
  assert (Gd : good s k d) by (constructor; cbn; (reflexivity || discriminate)).
  rewrite (cmp_reject s t k j Cgt d lower Gd Gl N). reflexivity.
Qed.

(** Bounds without a frame as well. *)
Theorem C100_property_no_frame : forall s k mm key vals cm lower upper st l current,
  acm lower = None -> convert_masks_to_bool mm (ms_masks st) = InBools l -> nth_error l key = Some current ->
  l_constrain_property mm key (Some vals) (mkcf (Some k) (Some s)) cm lower upper st
  = (mk_mask_state (ms_constrained st) (ms_cell_mask st) (InBools l), Some ValueError).
Proof.
  intros s k mm key vals cm lower upper st l (current, size) M E H. unfold l_constrain_property. rewrite E, H.
  unfold new_array. cbn [k_bypass]. unfold from_numbers. cbn [k_cf k_sf k_se parse_cf bind k_cm k_vt k_units or_unit or_null k_comp].
  assert (V : verify (Some cm) true = Ok tt) by (destruct cm; reflexivity). rewrite V. cbn [bind u_arr].
  unfold cmpop, ufunc_cmp, prepare. cbn [map op_cm acm filter fst snd]. rewrite M. destruct cm; reflexivity.
Qed.

(** ** Examples *)

(** At scale factor 1/2: two cells along every axis of a box of 10 (comoving), the first along x from 0 to 5.
    The region is 1 to 2 physical along x: 2 to 4 comoving, so the first cell only. *)
Definition half_cf : cf := mkcf (Some 1) (Some (/ 2)).
Definition ex_arr (cm : bool) (v : list R) : carr := mkarr v (Some half_cf) (Some cm) true CNone.

Lemma ex_comoving : forall v q, map Q2R q = v -> worth (/ 2) 1 (/ 2) (ex_arr true v) q.
Proof.
  intros v q H. split; [constructor; cbn; (reflexivity || discriminate)|]. unfold phys, ex_arr, half_cf. cbn [acm acf avals].
  rewrite Rpower_1 by lra. rewrite <- H, map_map. reflexivity.
Qed.

Lemma ex_physical : forall v q, map (fun x => / 2 * Q2R x) q = v -> worth (/ 2) 1 (/ 2) (ex_arr false v) q.
Proof. intros v q H. split; [constructor; cbn; (reflexivity || discriminate)|]. unfold phys, ex_arr. cbn. symmetry. exact H. Qed.

Definition ex_cells : list cell :=
  [mk_cell 0 3 (fun _ => 0%Q) (fun _ => 5%Q);
   mk_cell 3 4 (fun a => match a with AX => 5%Q | _ => 0%Q end) (fun a => match a with AX => 10%Q | _ => 5%Q end)].
Definition ex_mm : mask_meta := mk_mask_meta false (fun _ => 10%Q) [mk_mask_key ex_cells 7].
Definition ex_lm : lmeta :=
  mklmeta (fun _ => ex_arr true [10])
    [mklkey (fun a => ex_arr true (match a with AX => [0; 5] | _ => [0; 0] end))
            (fun a => ex_arr true (match a with AX => [5; 10] | _ => [5; 5] end))].

Lemma ex_portrays : portrays (/ 2) (/ 2) ex_lm ex_mm.
Proof.
  split.
  - intro a. apply ex_comoving. cbn. unfold Q2R. cbn. f_equal. lra.
  - constructor; [|constructor]. intro a. split; apply ex_comoving; destruct a; cbn; unfold Q2R; cbn; f_equal; try lra; f_equal; lra.
Qed.

(** Physical region, comoving cells. *)
Example C100_spatial_example :
  l_constrain_spatial ex_mm ex_lm [RowArray (ex_arr false [1; 2]); RowNone; RowNone] false (new_mask ex_mm)
  = (mk_mask_state (Some CSpatial) [[true; false]] (InRanges [([(0, 3)%Z], 3%Z)]), None).
Proof.
  rewrite (C100_spatial (/ 2) (/ 2) ex_mm ex_lm _ [Some [2%Q; 4%Q]; None; None] false (new_mask ex_mm)); [reflexivity|lra|exact ex_portrays|].
  constructor; [|constructor; [constructor|constructor; [constructor|constructor]]].
  constructor. apply ex_physical. cbn. unfold Q2R. cbn. f_equal; [lra|f_equal; lra].
Qed.

(** The same as a list of a comoving and a physical quantity. *)
Example C100_spatial_example_list :
  l_constrain_spatial ex_mm ex_lm [RowList [ex_arr true [2]; ex_arr false [2]]; RowNone; RowNone] false (new_mask ex_mm)
  = (mk_mask_state (Some CSpatial) [[true; false]] (InRanges [([(0, 3)%Z], 3%Z)]), None).
Proof.
  rewrite (C100_spatial (/ 2) (/ 2) ex_mm ex_lm _ [Some [2%Q; 4%Q]; None; None] false (new_mask ex_mm)); [reflexivity|lra|exact ex_portrays|].
  constructor; [|constructor; [constructor|constructor; [constructor|constructor]]].
  constructor. constructor; [|constructor; [|constructor]].
  - apply ex_comoving. cbn. unfold Q2R. cbn. f_equal. lra.
  - apply ex_physical. cbn. unfold Q2R. cbn. f_equal. lra.
Qed.

(** A region at scale factor 1. *)
Example C100_refused_example :
  l_constrain_spatial ex_mm ex_lm
    [RowArray (mkarr [1; 2] (Some (mkcf (Some 1) (Some 1))) (Some true) true CNone); RowNone; RowNone] false (new_mask ex_mm)
  = (new_mask ex_mm, Some ValueError).
Proof.
  apply (C100_spatial_refused (/ 2) 1 1).
  - intro a. split; [constructor; cbn; (reflexivity || discriminate)|reflexivity].
  - left. lra.
  - reflexivity.
  - intros r [<-|[<-|[<-|[]]]]; [right|left; reflexivity|left; reflexivity].
    constructor; [constructor; cbn; (reflexivity || discriminate)|reflexivity].
  - eexists. split; [left; reflexivity|discriminate].
  - left. reflexivity.
Qed.

(** Comoving values 1, 2, 3 of a quantity that scales with [a], bounds 1/2 (physical) and 2 (comoving): only the
    second is kept. *)
Example C100_property_example :
  let mm := mk_mask_meta false (fun _ => 10%Q) [mk_mask_key [mk_cell 0 3 (fun _ => 0%Q) (fun _ => 5%Q)] 3] in
  l_constrain_property mm 0 (Some [1; 2; 3]) half_cf true (ex_arr false [/ 2]) (ex_arr true [2]) (new_mask mm)
  = (mk_mask_state (Some CProperty) [[true]] (InBools [([false; true; false], 3%Z)]), None).
Proof.
  cbn zeta.
  rewrite (C100_property_numbers (/ 2) 1 (/ 2) _ 0 [1; 2; 3] [1%Q; 2%Q; 3%Q] true _ _ 1%Q 2%Q); [reflexivity|lra| | |].
  - apply ex_comoving. cbn. unfold Q2R. cbn. f_equal; [lra|f_equal; [lra|f_equal; lra]].
  - apply ex_physical. cbn. unfold Q2R. cbn. f_equal. lra.
  - apply ex_comoving. cbn. unfold Q2R. cbn. f_equal. lra.
Qed.

Print Assumptions C100_spatial.
Print Assumptions C100_frames.
Print Assumptions C100_converted.
Print Assumptions C100_spatial_refused.
Print Assumptions C100_no_frame_refused.
Print Assumptions C100_property.
Print Assumptions C100_property_numbers.
Print Assumptions C100_property_refused.
Print Assumptions C100_property_no_frame.
