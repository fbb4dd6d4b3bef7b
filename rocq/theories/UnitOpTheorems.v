(** C120: arithmetic, comparisons and constraints of arrays in different units. *)
From Coq Require Import List ZArith QArith Bool Reals Qreals Lra Lia.
From Verif Require Import Base BaseLemmas MaskModel CosmoModel CosmoSpec CosmoProofs CtorModel RegionModel RegionSpec RegionTheorems
  UnitOpModel UnitOpSpec UnitOpProofs UnitOpRegionProofs.
Import ListNotations.
Open Scope R_scope.

(** ** Expressions *)

(** Whatever units the arrays of an expression have: the expression is refused for its dimensions, or it gives what it gives
    for the arrays in units of size one, errors included, in a unit of positive size. *)
Theorem C120_expressions : forall D deqb (done : D) dmul dpow (e : qexpr D), proper_expr e ->
  match q_eval D deqb done dmul dpow e with
  | Ok x => proper_op x /\ eval (bare_expr e) = Ok (bare_op x)
  | Err r => r = InvalidUnit \/ eval (bare_expr e) = Err r
  end.
Proof. intros D deqb done dmul dpow e P. exact (q_eval_same D deqb done dmul dpow e P). Qed.

(** The unit an array is in does not matter: the same expression over the same arrays in other units. *)
Theorem C120_other_units : forall D deqb (done : D) dmul dpow (e e' : qexpr D) x x', proper_expr e -> proper_expr e' ->
  bare_expr e = bare_expr e' -> q_eval D deqb done dmul dpow e = Ok x -> q_eval D deqb done dmul dpow e' = Ok x' -> bare_op x = bare_op x'.
Proof.
  intros D deqb done dmul dpow e e' x x' P P' E H H'. pose proof (C120_expressions D deqb done dmul dpow e P) as A. pose proof (C120_expressions D deqb done dmul dpow e' P') as A'.
  rewrite H in A. rewrite H' in A'. destruct A as [_ A], A' as [_ A']. congruence.
Qed.

(** Products and quotients are never refused for their units, sums and comparisons are not between equal dimensions: they give,
    or raise, what they do in units of size one. *)
Theorem C120_accepted : forall D deqb (done : D) dmul dpow o (x y : qop D), proper_op x -> proper_op y ->
  (o = Bmul \/ o = Bdiv \/ deqb (dims_of done x) (dims_of done y) = true) ->
  match q_binop D deqb done dmul dpow o x y with
  | Ok r => proper r /\ binop o (bare_op x) (bare_op y) = Ok (bare r)
  | Err e => binop o (bare_op x) (bare_op y) = Err e
  end.
Proof.
  intros D deqb done dmul dpow o x y X Y H. apply (q_binop_accepted D deqb done dmul dpow o x y); [|exact X|exact Y].
  destruct H as [-> | [-> | H]]; [now left|now left|]. right. destruct x, y; exact H.
Qed.

Theorem C120_comparisons : forall D deqb o (x y : qarr D), proper x -> proper y -> deqb (dims (q_unit x)) (dims (q_unit y)) = true ->
  q_cmp D deqb o x y = cmpop o (OArr (bare x)) (OArr (bare y)).
Proof. intros D deqb o x y X Y H. now apply (q_cmp_accepted D deqb (dims (q_unit x))). Qed.

(** The dimensions of results. *)
Theorem C120_dimensions : forall D deqb (done : D) dmul dpow (x y : qop D) r,
  (q_binop D deqb done dmul dpow Bmul x y = Ok r -> dims (q_unit r) = dmul (dims_of done x) (dims_of done y))
  /\ (q_binop D deqb done dmul dpow Bdiv x y = Ok r -> dims (q_unit r) = dmul (dims_of done x) (dpow (dims_of done y) (- 1)))
  /\ (forall o, o <> Bmul -> o <> Bdiv -> dims_of done x = dims_of done y -> q_binop D deqb done dmul dpow o x y = Ok r -> dims (q_unit r) = dims_of done x)
  /\ (forall o, q_unop D done dmul dpow o x = Ok r ->
        dims (q_unit r) = match o with
                          | Uneg | Uabs => dims_of done x
                          | Usqrt => dpow (dims_of done x) (/ 2)
                          | Usquare => dmul (dims_of done x) (dims_of done x)
                          | Ucbrt => dpow (dims_of done x) (/ 3)
                          | Urecip => dpow (dims_of done x) (- 1)
                          end)
  /\ (forall p, q_power D done dpow x p = Ok r -> dims (q_unit r) = dpow (dims_of done x) p)
  /\ (q_sum D done x = Ok r -> dims (q_unit r) = dims_of done x)
  /\ (q_prod D done dpow x = Ok r -> dims (q_unit r) = dpow (dims_of done x) (INR (length (match x with QArr a => avals (q_arr a) | QPlain v => v end)))).
Proof.
  intros D deqb done dmul dpow x y r. assert (E : forall z : qop D, dims (unit_of D done z) = dims_of done z) by now intros [].
  split; [|split; [|split; [|split; [|split; [|split]]]]].
  - intros H. destruct (binop_unit D deqb done dmul dpow _ _ _ _ H) as (v & v' & a & A & ->). injection A as <-. cbn [snd dims]. now rewrite !E.
  - intros H. destruct (binop_unit D deqb done dmul dpow _ _ _ _ H) as (v & v' & a & A & ->). injection A as <-. cbn [snd dims]. now rewrite !E.
  - intros o N1 N2 S H. destruct (binop_unit D deqb done dmul dpow _ _ _ _ H) as (v & v' & a & A & ->).
    assert (A' : align D deqb (unit_of D done x) v (unit_of D done y) v' = Ok a) by (destruct o; try congruence; exact A).
    rewrite (align_dims D deqb _ _ _ _ _ A'); now rewrite !E.
  - intros o. unfold q_unop. destruct (unop o (strip x)); [|discriminate]. cbn [bind]. intros [= <-]. cbn [q_unit]. destruct o; cbn [unit1 dims]; now rewrite E.
  - intros p. unfold q_power. destruct (powop _ _); [|discriminate]. cbn [bind]. intros [= <-]. cbn [q_unit dims]. now rewrite E.
  - unfold q_sum. destruct (sumop _); [|discriminate]. cbn [bind]. intros [= <-]. cbn [q_unit]. now rewrite E.
  - unfold q_prod. destruct (prodop _); [|discriminate]. cbn [bind]. intros [= <-]. cbn [q_unit dims]. rewrite E. now destruct x.
Qed.

(** Arrays in one frame at one scale factor. *)
Definition alike (c : cf) (b : bool) (x : carr) : Prop := acf x = Some c /\ acm x = Some b /\ avt x = true.

Lemma alike_prepare c b x y : alike c b x -> alike c b y ->
  exists p, prepare true [OArr x; OArr y] = Ok p /\ p_args p = [OArr x; OArr y].
Proof.
  intros (_ & Mx & _) (_ & My & _). unfold prepare. cbn [map op_cm filter fst snd]. rewrite Mx, My. destruct b; cbn; eexists; split; reflexivity.
Qed.

Lemma cf_same c : cf_eq c c = true.
Proof.
  unfold cf_eq. destruct (cscale c) as [s|]; cbn [oreqb]; [unfold Reqb; destruct (Req_EM_T s s); [|congruence]|]; cbn [andb]; destruct (a_factor c) as [u|]; try reflexivity.
  all: unfold isclose, Rleb; destruct (Rle_dec _ _) as [_|N]; [reflexivity|]; exfalso; apply N; rewrite Rminus_diag_eq, Rabs_R0 by reflexivity; pose proof (Rabs_pos u); lra.
Qed.

Lemma nonzero_zeros v : (exists a, In a v /\ a <> 0) -> zeros v = false.
Proof. intros (a & H & N). destruct (zeros v) eqn:Z; [|reflexivity]. exfalso. apply N. now apply (zeros_In v Z). Qed.

(** Sums, differences, maxima, minima and comparisons of arrays of different dimensions are refused, unless one is zero throughout. *)
Theorem C120_refused : forall D deqb (done : D) dmul dpow c b (x y : qarr D), alike c b (q_arr x) -> alike c b (q_arr y) ->
  (exists a, In a (avals (q_arr x)) /\ a <> 0) -> (exists a, In a (avals (q_arr y)) /\ a <> 0) ->
  deqb (dims (q_unit x)) (dims (q_unit y)) = false ->
  (forall o, o <> Bmul -> o <> Bdiv -> q_binop D deqb done dmul dpow o (QArr x) (QArr y) = Err InvalidUnit)
  /\ (forall o, q_cmp D deqb o x y = Err InvalidUnit).
Proof.
  intros D deqb done dmul dpow c b x y X Y NX NY H. destruct (alike_prepare c b _ _ X Y) as (p & E & A).
  assert (L : align D deqb (q_unit x) (avals (q_arr x)) (q_unit y) (avals (q_arr y)) = Err InvalidUnit)
    by (unfold align; now rewrite (nonzero_zeros _ NX), (nonzero_zeros _ NY), H).
  split; intros o; [intros N1 N2; unfold q_binop|unfold q_cmp]; cbn [strip unit_of]; rewrite E; cbn [bind]; rewrite A; cbn [op_vals].
  - replace (combine_units D deqb dmul dpow o (q_unit x) (avals (q_arr x)) (q_unit y) (avals (q_arr y))) with (Err InvalidUnit : res (list R * list R * unt D))
      by (destruct o; try congruence; symmetry; exact L). reflexivity.
  - now rewrite L.
Qed.

(** An array of zeros may be added to, and compared with, an array of any dimensions; the sum is in the unit of the other. *)
Theorem C120_zeros : forall D deqb (done : D) dmul dpow c b (x y : qarr D), alike c b (q_arr x) -> alike c b (q_arr y) ->
  length (avals (q_arr x)) = length (avals (q_arr y)) -> (forall a, In a (avals (q_arr x)) -> a = 0) ->
  exists r, q_binop D deqb done dmul dpow Badd (QArr x) (QArr y) = Ok r /\ q_unit r = q_unit y /\ avals (q_arr r) = avals (q_arr y)
            /\ q_cmp D deqb Clt x y = Ok (map (fun v => Rltb 0 v) (avals (q_arr y))).
Proof.
  intros D deqb done dmul dpow c b x y X Y L Z. destruct (alike_prepare c b _ _ X Y) as (p & E & A).
  assert (ZZ : zeros (avals (q_arr x)) = true). { unfold zeros. apply forallb_forall. intros a Ha. unfold Reqb. destruct (Req_EM_T a 0) as [_|N]; [reflexivity|]. exfalso. apply N. now apply Z. }
  pose proof (cf_same c) as CF.
  unfold q_binop, q_cmp. cbn [strip unit_of op_cf]. rewrite E. cbn [bind]. rewrite A. cbn [op_vals combine_units]. unfold align. rewrite ZZ. cbn [bind fst snd].
  destruct X as (Cx & _ & _), Y as (Cy & _ & _). rewrite Cx, Cy. cbn [bhandler h_preserve reduce reduce_from h_preserve2 h_compare]. rewrite CF. cbn [negb bind].
  unfold broadcast. rewrite L, Nat.eqb_refl. cbn [bind]. eexists; repeat split.
  - cbn [q_arr avals]. revert L Z. clear. generalize (avals (q_arr x)) (avals (q_arr y)). induction l as [|a l IH]; intros [|v w] L Z; try discriminate; [reflexivity|].
    cbn [map2 bfun]. rewrite IH; [|now injection L|intros; apply Z; now right]. rewrite (Z a) by (now left). f_equal. ring.
  - f_equal. revert L Z. clear. generalize (avals (q_arr x)) (avals (q_arr y)). induction l as [|a l IH]; intros [|v w] L Z; try discriminate; [reflexivity|].
    cbn [map2 map cfun]. rewrite IH; [|now injection L|intros; apply Z; now right]. rewrite (Z a) by (now left). reflexivity.
Qed.

(** ** Constraints *)

(** Region, box and cells in whatever units of length: [constrain_spatial] does, and raises, what it does with all of them in one
    unit.  [d] stands for the dimensions of a length. *)
Theorem C120_spatial : forall D deqb (done : D) dmul dpow d, deqb d d = true -> dmul done d = d -> dmul d (dpow done (- 1)) = d ->
  forall mm (qm : qmeta D) region union st, meta_dims d qm -> Forall (row_dims d) region ->
  q_constrain_spatial D deqb done dmul dpow mm qm region union st = l_constrain_spatial mm (bare_meta qm) (map bare_row region) union st.
Proof. intros D deqb done dmul dpow d H1 H2 H3 mm qm region union st. now apply spatial_same. Qed.

(** With C100: the cells chosen are those of the numbers. *)
Theorem C120_spatial_numbers : forall D deqb (done : D) dmul dpow d, deqb d d = true -> dmul done d = d -> dmul d (dpow done (- 1)) = d ->
  forall s c mm (qm : qmeta D) region numbers union st, 0 < c -> meta_dims d qm -> Forall (row_dims d) region ->
  portrays s c (bare_meta qm) mm -> Forall2 (fun r n => says s c (bare_row r) n) region numbers ->
  q_constrain_spatial D deqb done dmul dpow mm qm region union st = constrain_spatial mm numbers union st.
Proof.
  intros D deqb done dmul dpow d H1 H2 H3 s c mm qm region numbers union st C M R P F. rewrite (C120_spatial D deqb done dmul dpow d) by assumption.
  apply (C100_spatial s c); [exact C|exact P|]. clear - F. induction F; constructor; auto.
Qed.

(** Rows of different dimensions are refused and the mask stays as it was. *)
Theorem C120_region_refused : forall D deqb (done : D) dmul dpow c b mm (qm : qmeta D) (x y z : qarr D) union st,
  alike c b (q_arr x) -> alike c b (q_arr y) -> alike c b (q_arr z) ->
  length (avals (q_arr x)) = 2%nat -> length (avals (q_arr y)) = 2%nat -> length (avals (q_arr z)) = 2%nat ->
  deqb (dims (q_unit x)) (dims (q_unit x)) = true ->
  deqb (dims (q_unit x)) (dims (q_unit y)) = false \/ (deqb (dims (q_unit x)) (dims (q_unit y)) = true /\ deqb (dims (q_unit x)) (dims (q_unit z)) = false) ->
  q_constrain_spatial D deqb done dmul dpow mm qm [QRowArray x; QRowArray y; QRowArray z] union st = (st, Some InvalidUnit).
Proof.
  intros D deqb done dmul dpow c b mm qm x y z union st X Y Z Lx Ly Lz R H. unfold q_constrain_spatial.
  assert (K : forall w : qarr D, alike c b (q_arr w) -> q_sane_row D deqb done dmul dpow (QRowArray w) (qm_box qm AX) = Ok w
     /\ q_sane_row D deqb done dmul dpow (QRowArray w) (qm_box qm AY) = Ok w /\ q_sane_row D deqb done dmul dpow (QRowArray w) (qm_box qm AZ) = Ok w).
  { intros w (Cw & Mw & Vw). cbn [q_sane_row]. unfold array_of, new_array. cbn [kw0 k_bypass]. unfold from_cosmo. cbn [u_arr]. rewrite Cw. cbn [bind kw0 k_sf k_se k_cm k_vt k_comp].
    destruct w as [u [v cw mw vw pw]]. cbn [q_arr q_unit acf acm avt acomp avals] in *. subst. destruct (cf_eq c null_cf), b, pw; cbn; repeat split; reflexivity. }
  unfold q_sanitize. cbn [forallb q_row_len]. rewrite Lx, Ly, Lz. cbn [Nat.eqb andb].
  rewrite (proj1 (K x X)), (proj1 (proj2 (K y Y))), (proj2 (proj2 (K z Z))). cbn [bind]. unfold q_list. cbn [map].
  destruct X as (Cx & Mx & Vx), Y as (Cy & My & Vy), Z as (Cz & Mz & Vz).
  assert (E : exists p, prepare true [OArr (q_arr x); OArr (q_arr y); OArr (q_arr z)] = Ok p /\ p_args p = [OArr (q_arr x); OArr (q_arr y); OArr (q_arr z)]
     /\ p_cfs p = [Some c; Some c; Some c] /\ p_cm p = Some b).
  { unfold prepare. cbn [map op_cm op_cf filter fst snd]. rewrite Mx, My, Mz, Cx, Cy, Cz. destruct b; cbn; eexists; repeat split. }
  destruct E as (p & E & A & F & M). rewrite E. cbn [bind]. unfold array_of, new_array. cbn [kw0 k_bypass]. unfold from_list. cbn [kw0 k_cm k_cf k_sf k_se k_vt k_comp].
  rewrite E. cbn [bind parse_cf]. rewrite F, M. cbn [h_preserve reduce reduce_from h_preserve2]. rewrite cf_same. cbn [negb bind reduce_from h_preserve2 or_cm]. rewrite ?cf_same. cbn [negb bind].
  replace (verify (Some b) true) with (Ok tt : res unit) by (destruct b; reflexivity). cbn [bind].
  rewrite A. cbn [map combine to_unit]. rewrite R. destruct H as [-> | [-> ->]]; reflexivity.
Qed.

(** [constrain_property] with bounds in other units than the field: as with all of them in one unit. *)
Theorem C120_property : forall D deqb d, deqb d d = true ->
  forall mm key values (u : unt D) c cm lower upper st, 0 < size u -> dims u = d -> has_dims d lower -> has_dims d upper ->
  q_constrain_property D deqb mm key values u c cm lower upper st
  = l_constrain_property mm key (option_map (map (Rmult (size u))) values) c cm (bare lower) (bare upper) st.
Proof. intros D deqb d H mm key values u c cm lower upper st. apply property_same; auto. Qed.

(** ** Examples *)

(** Dimensions are powers of length; a megaparsec is one, a kiloparsec a thousandth. *)
Definition mpc : unt R := mkunt 1 1.
Definition kpc : unt R := mkunt (/ 1000) 1.
Definition mpc2 : unt R := mkunt 1 2.
Definition eval_l := q_eval R Reqb 0 Rplus Rmult.

Lemma Reqb_yes a b : a = b -> Reqb a b = true. Proof. intros ->. unfold Reqb. destruct (Req_EM_T b b); [reflexivity|congruence]. Qed.
Lemma Reqb_no a b : a <> b -> Reqb a b = false. Proof. intros N. unfold Reqb. destruct (Req_EM_T a b); [contradiction|reflexivity]. Qed.

(** 2 Mpc + 500 kpc = 2.5 Mpc; the other way around it is 2500 kpc. *)
Example C120_expressions_example :
  exists x y, eval_l (QEBin Badd (QEArr (mkq mpc (ex_arr true [2]))) (QEArr (mkq kpc (ex_arr true [500])))) = Ok (QArr (mkq mpc x)) /\ avals x = [5 / 2]
           /\ eval_l (QEBin Badd (QEArr (mkq kpc (ex_arr true [500]))) (QEArr (mkq mpc (ex_arr true [2])))) = Ok (QArr (mkq kpc y)) /\ avals y = [2500].
Proof.
  unfold eval_l. cbn [q_eval bind q_lift2]. unfold q_binop. cbn [strip ex_arr]. unfold prepare. cbn.
  unfold align. cbn [zeros forallb mpc kpc size dims]. rewrite !Reqb_no by lra. rewrite Reqb_yes by lra. cbn [andb bind fst snd]. rewrite cf_same. cbn.
  eexists _, _. split; [reflexivity|]. split; [cbn; f_equal; field|]. split; [reflexivity|]. cbn; f_equal; field.
Qed.

(** A length and an area. *)
Example C120_refused_example : eval_l (QEBin Badd (QEArr (mkq mpc (ex_arr true [2]))) (QEArr (mkq mpc2 (ex_arr true [2])))) = Err InvalidUnit.
Proof.
  unfold eval_l. cbn [q_eval bind q_lift2]. rewrite (proj1 (C120_refused R Reqb 0 Rplus Rmult half_cf true (mkq mpc (ex_arr true [2])) (mkq mpc2 (ex_arr true [2]))
    ltac:(repeat split) ltac:(repeat split) ltac:(exists 2; split; [now left|lra]) ltac:(exists 2; split; [now left|lra]) ltac:(apply Reqb_no; cbn; lra)) Badd) by discriminate. reflexivity.
Qed.

Example C120_zeros_example : exists r, q_binop R Reqb 0 Rplus Rmult Badd (QArr (mkq mpc2 (ex_arr true [0]))) (QArr (mkq kpc (ex_arr true [7]))) = Ok r /\ q_unit r = kpc /\ avals (q_arr r) = [7].
Proof.
  destruct (C120_zeros R Reqb 0 Rplus Rmult half_cf true (mkq mpc2 (ex_arr true [0])) (mkq kpc (ex_arr true [7])) ltac:(repeat split) ltac:(repeat split) eq_refl ltac:(now intros a [<-|[]])) as (r & E & U & V & _).
  exists r. auto.
Qed.

(** The region of [C100_spatial_example] in kiloparsecs, the cells in megaparsecs. *)
Definition in_mpc (x : carr) : qarr R := mkq mpc x.
Definition ex_qm : qmeta R := mkqmeta (fun a => in_mpc (lm_box ex_lm a)) (map (fun k => mkqkey (fun a => in_mpc (lk_min k a)) (fun a => in_mpc (lk_max k a))) (lm_keys ex_lm)).

Lemma mpc_dims x : has_dims 1 (mkq mpc x).
Proof. split; [unfold proper; cbn [q_unit mpc size]; lra|reflexivity]. Qed.
Lemma kpc_dims x : has_dims 1 (mkq kpc x).
Proof. split; [unfold proper; cbn [q_unit kpc size]; lra|reflexivity]. Qed.
Lemma scale_one v : map (Rmult 1) v = v. Proof. rewrite <- (map_id v) at 2. apply map_ext. intros; ring. Qed.

Example C120_spatial_example :
  q_constrain_spatial R Reqb 0 Rplus Rmult ex_mm ex_qm [QRowArray (mkq kpc (ex_arr false [1000; 2000])); QRowNone; QRowNone] false (new_mask ex_mm)
  = (mk_mask_state (Some CSpatial) [[true; false]] (InRanges [([(0, 3)%Z], 3%Z)]), None).
Proof.
  rewrite (C120_spatial_numbers R Reqb 0 Rplus Rmult 1 ltac:(now apply Reqb_yes) ltac:(ring) ltac:(ring) (/ 2) (/ 2) ex_mm ex_qm _ [Some [2%Q; 4%Q]; None; None]); [reflexivity|lra| | | |].
  - split; [intro a; apply mpc_dims|]. constructor; [|constructor]. intro a. split; apply mpc_dims.
  - constructor; [apply kpc_dims|constructor; [exact I|constructor; [exact I|constructor]]].
  - split.
    + intro a. apply ex_comoving. cbn. unfold Q2R. cbn. f_equal. lra.
    + constructor; [|constructor]. intro a. split; apply ex_comoving; destruct a; cbn; unfold Q2R; cbn; f_equal; try lra; f_equal; lra.
  - constructor; [|constructor; [constructor|constructor; [constructor|constructor]]].
    constructor. apply ex_physical. cbn. unfold Q2R. cbn. f_equal; [lra|f_equal; lra].
Qed.

(** A field in megaparsecs with bounds in kiloparsecs. *)
Example C120_property_example :
  let mm := mk_mask_meta false (fun _ => 10%Q) [mk_mask_key [mk_cell 0 3 (fun _ => 0%Q) (fun _ => 5%Q)] 3] in
  q_constrain_property R Reqb mm 0 (Some [1; 2; 3]) mpc half_cf true (mkq kpc (ex_arr false [500])) (mkq kpc (ex_arr true [2000])) (new_mask mm)
  = (mk_mask_state (Some CProperty) [[true]] (InBools [([false; true; false], 3%Z)]), None).
Proof.
  cbn zeta. rewrite (C120_property R Reqb 1 ltac:(now apply Reqb_yes)); [|cbn; lra|reflexivity|apply kpc_dims|apply kpc_dims].
  cbn [option_map mpc size]. rewrite scale_one.
  rewrite (C100_property_numbers (/ 2) 1 (/ 2) _ 0 [1; 2; 3] [1%Q; 2%Q; 3%Q] true _ _ 1%Q 2%Q); [reflexivity|lra| | |].
  - apply ex_comoving. cbn. unfold Q2R. cbn. f_equal; [lra|f_equal; [lra|f_equal; lra]].
  - apply ex_physical. cbn. unfold Q2R. cbn. f_equal. lra.
  - apply ex_comoving. cbn. unfold Q2R. cbn. f_equal. lra.
Qed.

(** A row of an area. *)
Example C120_region_refused_example :
  q_constrain_spatial R Reqb 0 Rplus Rmult ex_mm ex_qm [QRowArray (mkq kpc (ex_arr true [1; 2])); QRowArray (mkq mpc (ex_arr true [1; 2])); QRowArray (mkq mpc2 (ex_arr true [1; 2]))] false (new_mask ex_mm)
  = (new_mask ex_mm, Some InvalidUnit).
Proof.
  apply (C120_region_refused R Reqb 0 Rplus Rmult half_cf true); try (repeat split; fail); try reflexivity; try (now apply Reqb_yes).
  right. split; [now apply Reqb_yes|apply Reqb_no; cbn; lra].
Qed.

Print Assumptions C120_expressions.
Print Assumptions C120_other_units.
Print Assumptions C120_accepted.
Print Assumptions C120_comparisons.
Print Assumptions C120_dimensions.
Print Assumptions C120_refused.
Print Assumptions C120_zeros.
Print Assumptions C120_spatial.
Print Assumptions C120_spatial_numbers.
Print Assumptions C120_region_refused.
Print Assumptions C120_property.
