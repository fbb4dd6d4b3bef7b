(** Properties C25-C30 and C49-C51: comoving and physical arrays. *)
From Coq Require Import String List ZArith Bool Reals Lra Lia.
From Verif Require Import Base CosmoModel CosmoSpec CosmoProofs CosmoExprProofs CosmoHeapProofs.
Import ListNotations.
Open Scope R_scope.

(** * C25 *)

(** Conversion succeeds, sets the flag, keeps the label and the meaning. *)
Theorem C25_conversion_keeps_meaning :
  forall s k x, 0 < s -> good s k x ->
  forall conv b, In (conv, b) [ (convert_to_comoving, true); (convert_to_physical, false);
                                (to_comoving, true); (to_physical, false);
                                (to_cm (Some true), true); (to_cm (Some false), false) ] ->
  exists y, conv x = Ok y /\ good s k y /\ acm y = Some b /\ acomp y = acomp x
    /\ phys y = phys x /\ comov y = comov x
    /\ avals y = (if b then comov x else phys x).
Proof.
  intros s k x _ G conv b I.
  assert (C : exists y, convert_to_comoving x = Ok y /\ good s k y /\ acm y = Some true
    /\ acomp y = acomp x /\ phys y = phys x /\ comov y = comov x /\ avals y = comov x).
  { exists (set_cm x true (comov x)). split; [ apply (conv_c_good s k x G) | ].
    split; [ apply good_set_cm; assumption | ].
    repeat split. apply (phys_set_c s k x G). }
  assert (P : exists y, convert_to_physical x = Ok y /\ good s k y /\ acm y = Some false
    /\ acomp y = acomp x /\ phys y = phys x /\ comov y = comov x /\ avals y = phys x).
  { exists (set_cm x false (phys x)). split; [ apply (conv_p_good s k x G) | ].
    split; [ apply good_set_cm; assumption | ].
    repeat split. apply (comov_set_p s k x G). }
  cbn in I. destruct I as [E|[E|[E|[E|[E|[E|[]]]]]]]; injection E as <- <-; try assumption;
    unfold to_comoving, to_physical, to_cm; rewrite (g_vt _ _ _ G); cbn [negb andb]; assumption.
Qed.

(** Converting and converting back restores the array. *)
Theorem C25_roundtrip :
  forall s k x, 0 < s -> good s k x ->
  (acm x = Some true -> (do y <- convert_to_physical x; convert_to_comoving y) = Ok x
                        /\ (do y <- to_physical x; to_comoving y) = Ok x)
  /\ (acm x = Some false -> (do y <- convert_to_comoving x; convert_to_physical y) = Ok x
                            /\ (do y <- to_comoving x; to_physical y) = Ok x).
Proof.
  intros s k x _ G.
  assert (A : forall b v, good s k (set_cm x b v)) by (intros; apply good_set_cm; assumption).
  split; intro M.
  - rewrite (conv_p_good s k x G), (to_p_good s k x G). cbn [bind].
    rewrite (conv_c_good s k _ (A _ _)), (to_c_good s k _ (A _ _)).
    rewrite (comov_set_p s k x G).
    assert (E : set_cm (set_cm x false (phys x)) true (comov x) = x).
    { destruct x as [v c cm vt cp]; cbn in M; subst. unfold set_cm, comov; reflexivity. }
    rewrite E; auto.
  - rewrite (conv_c_good s k x G), (to_c_good s k x G). cbn [bind].
    rewrite (conv_p_good s k _ (A _ _)), (to_p_good s k _ (A _ _)).
    rewrite (phys_set_c s k x G).
    assert (E : set_cm (set_cm x true (comov x)) false (phys x) = x).
    { destruct x as [v c cm vt cp]; cbn in M; subst. unfold set_cm, phys; reflexivity. }
    rewrite E; auto.
Qed.

(** Converting twice is converting once. *)
Theorem C25_idempotent :
  forall x y,
  (convert_to_comoving x = Ok y -> convert_to_comoving y = Ok y)
  /\ (convert_to_physical x = Ok y -> convert_to_physical y = Ok y)
  /\ (to_comoving x = Ok y -> convert_to_comoving y = Ok y)
  /\ (to_physical x = Ok y -> convert_to_physical y = Ok y).
Proof.
  assert (C : forall x y, convert_to_comoving x = Ok y -> convert_to_comoving y = Ok y).
  { intros x y H. unfold convert_to_comoving in H.
    destruct (acm x) as [[|]|] eqn:E.
    - injection H as <-. unfold convert_to_comoving. rewrite E. reflexivity.
    - destruct (negb (avt x) || false); [ discriminate | ].
      apply bind_ok in H. destruct H as (f & _ & H). injection H as <-. reflexivity.
    - rewrite orb_true_r in H. discriminate. }
  assert (P : forall x y, convert_to_physical x = Ok y -> convert_to_physical y = Ok y).
  { intros x y H. unfold convert_to_physical in H.
    destruct (acm x) as [[|]|] eqn:E; [ | | discriminate ].
    - apply bind_ok in H. destruct H as (f & _ & H). injection H as <-. reflexivity.
    - injection H as <-. unfold convert_to_physical. rewrite E. reflexivity. }
  intros x y. split; [ apply C | split; [ apply P | split ] ]; intro H.
  - unfold to_comoving in H. destruct (negb (avt x) && _); [ discriminate | eauto ].
  - unfold to_physical in H. destruct (negb (avt x) && _); [ discriminate | eauto ].
Qed.

(** A comoving length of 4 at [a = 1/2] is a physical length of 2. *)
Definition ex_x : carr := mkarr [4; 8] (Some (mkcf (Some 1) (Some (/ 2)))) (Some true) true CNone.
Definition ex_y : carr := mkarr [3; 5] (Some (mkcf (Some 1) (Some (/ 2)))) (Some false) true CNone.

Example C25_example : good (/ 2) 1 ex_x /\ phys ex_x = [2; 4].
Proof.
  split; [ constructor; cbn; (reflexivity || discriminate) | ].
  unfold phys; cbn. rewrite Rpower_1 by lra. repeat f_equal; lra.
Qed.

(** * C26 *)

(** Any well-dimensioned expression over convertible arrays, in whatever coordinates
    each of them is stored, evaluates to an array that stands for the expression over
    the physical values; it fails exactly when shapes do not match. *)
Theorem C26_expressions :
  forall s e d, 0 < s -> has_dim s e d ->
  match meaning e with
  | Ok v => exists o, eval e = Ok o /\ agrees s d o v
  | Err er => eval e = Err er
  end.
Proof. intros s e d _ H; apply eval_agrees; assumption. Qed.

(** Comparisons compare the physical values. *)
Theorem C26_comparisons :
  forall s k o x y, 0 < s -> good s k x -> good s k y ->
  cmpop o (OArr x) (OArr y) = broadcast (cfun o) (phys x) (phys y).
Proof. intros s k o x y _ Gx Gy; apply (cmpop_phys s k); assumption. Qed.

(** An array of unknown coordinates is never combined with one of known coordinates,
    whatever the labels. *)
Theorem C26_unknown_rejected :
  forall x y, acm x = None -> acm y <> None ->
  forall a b, (a = OArr x /\ b = OArr y) \/ (a = OArr y /\ b = OArr x) ->
  (forall o, binop o a b = Err ValueError) /\ (forall o, cmpop o a b = Err ValueError)
  /\ powop a b = Err ValueError.
Proof.
  intros x y Mx My a b A.
  assert (P : prepare true [a; b] = Err ValueError).
  { unfold prepare.
    destruct A as [[-> ->]|[-> ->]]; cbn [map op_cm filter fst snd forallb existsb];
      rewrite Mx; destruct (acm y) as [[|]|]; try congruence; reflexivity. }
  split; [|split].
  - intro o. unfold binop, ufunc2. rewrite P. reflexivity.
  - intro o. unfold cmpop, ufunc_cmp. rewrite P. reflexivity.
  - unfold powop. destruct (op_vals b) as [|p [|]]; try reflexivity.
    unfold ufunc2. rewrite P. reflexivity.
Qed.

Example C26_unknown_example :
  binop Badd (OArr (mkarr [1] None None false CNone))
             (OArr (mkarr [1] (Some (cf_create (/ 2) 1)) (Some true) true CNone)) = Err ValueError.
Proof. reflexivity. Qed.

(** Sums, differences, maxima, minima and comparisons of arrays at different scale
    factors, or whose scale-factor powers differ by more than the tolerance, are
    rejected; products and quotients at different scale factors too. *)
Theorem C26_unlike_rejected :
  forall s t j k x y, 0 < s -> 0 < t -> good s j x -> good t k y ->
  (s <> t \/ Rabs (Rpower s j - Rpower s k) > 1 / 10 ^ 8 + 1 / 10 ^ 6 * Rpower s k ->
     (forall o, In o [Badd; Bsub; Bmax; Bmin] -> binop o (OArr x) (OArr y) = Err ValueError)
     /\ (forall o, cmpop o (OArr x) (OArr y) = Err ValueError))
  /\ (s <> t -> forall o, In o [Bmul; Bdiv] -> binop o (OArr x) (OArr y) = Err InvalidScaleFactor).
Proof.
  intros s t j k x y _ _ Gx Gy. split.
  - intro N.
    assert (N' : s <> t \/ ~ close_factors s j k).
    { destruct N as [N|N]; [ left; exact N | right; unfold close_factors; lra ]. }
    split; intros o; [ intro I; apply (same_reject s t j k) | apply (cmp_reject s t j k) ]; assumption.
  - intros N o I. apply (muldiv_reject s t j k); assumption.
Qed.

(** A sum that is accepted although the exponents differ is wrong by at most the
    tolerance times the comoving value of the second operand. *)
Theorem C26_accepted_sum_error :
  forall s j k x y r, 0 < s -> good s j x -> good s k y ->
  length (avals x) = length (avals y) ->
  binop Badd (OArr x) (OArr y) = Ok r ->
  forall i u v, nth_error (phys x) i = Some u -> nth_error (comov y) i = Some v ->
  exists w, nth_error (phys r) i = Some w
    /\ Rabs (w - (u + Rpower s k * v)) <= (1 / 10 ^ 8 + 1 / 10 ^ 6 * Rpower s k) * Rabs v.
Proof. intros s j k x y r _ Gx Gy L E. exact (proj2 (add_unlike s j k x y r Gx Gy L E)). Qed.

Lemma Rpower_nat : forall s n, 0 < s -> Rpower s (INR n) = s ^ n.
Proof. intros; apply Rpower_pow; assumption. Qed.

(** The absolute tolerance of 1e-8 lets unlike exponents through: at redshift 99 a sum
    of an [a ** 4] and an [a ** 5] array is accepted, and the second operand counts a
    hundred times its value. *)
Theorem C26_unlike_sum_accepted_refuted :
  exists x y r, good (/ 100) 4 x /\ good (/ 100) 5 y
    /\ binop Badd (OArr x) (OArr y) = Ok r
    /\ phys x = [0] /\ phys y = [/ 10 ^ 10] /\ phys r = [/ 10 ^ 8].
Proof.
  set (x := mkarr [0] (Some (mkcf (Some 4) (Some (/ 100)))) (Some true) true CNone).
  set (y := mkarr [1] (Some (mkcf (Some 5) (Some (/ 100)))) (Some true) true CNone).
  assert (P4 : Rpower (/ 100) 4 = / 10 ^ 8).
  { replace 4 with (INR 4) by (cbn; lra). rewrite Rpower_nat by lra. cbn. field. }
  assert (P5 : Rpower (/ 100) 5 = / 10 ^ 10).
  { replace 5 with (INR 5) by (cbn; lra). rewrite Rpower_nat by lra. cbn. field. }
  assert (C : cf_eq (mkcf (Some 4) (Some (/ 100))) (mkcf (Some 5) (Some (/ 100))) = true).
  { apply cf_eq_close. unfold close_factors. rewrite P4, P5.
    rewrite Rabs_right; lra. }
  exists x, y, (mkarr [0 + 1] (Some (mkcf (Some 4) (Some (/ 100)))) (Some true) true (CPair true CNone)).
  split; [ constructor; cbn; (reflexivity || discriminate) | ].
  split; [ constructor; cbn; (reflexivity || discriminate) | ].
  split.
  - unfold binop, ufunc2, x, y.
    cbn [prepare map op_cm op_cf op_vt filter fst snd forallb existsb is_true andb bind acm acf avt
         bhandler h_preserve reduce reduce_from h_preserve2].
    rewrite C. reflexivity.
  - unfold phys, x, y; cbn [acm acf avals map]. rewrite P4, P5.
    repeat split; f_equal; lra.
Qed.

(** Raising to a power given by another cosmo array: its label must be trivial. *)
Theorem C26_power_by_array :
  forall s k l x y p, 0 < s -> good s k x -> good s l y -> avals y = [p] ->
  (Rpower s l <> 1 -> powop (OArr x) (OArr y) = Err ValueError)
  /\ (Rpower s l = 1 ->
      exists r, powop (OArr x) (OArr y) = Ok r /\ good s (k * p) r
        /\ phys y = [p] /\ phys r = map (fun u => npow u p) (phys x)).
Proof.
  intros s k l x y p _ Gx Gy Ev.
  destruct (prepare_good2 s k l x y Gx Gy) as (x' & y' & b & cp & P & Gx' & Gy' & Bx & By & Px & Py).
  unfold powop; cbn [op_vals]. rewrite Ev. unfold ufunc2. rewrite P. cbn [bind op_cf p_args p_cm p_vt p_comp].
  rewrite (g_cf _ _ _ Gx), (g_cf _ _ _ Gy). unfold h_power, a_factor; cbn [cexpr cscale].
  split; intro T.
  - apply Reqb_false in T. rewrite T. reflexivity.
  - assert (T' := T). apply Reqb_true in T'. rewrite T'. cbn [negb bind op_vals cf_pow cexpr].
    assert (Yp : phys y = [p]).
    { destruct (acm y) as [by_|] eqn:M; [ | destruct Gy as [_ M' _]; congruence ].
      rewrite (vals_by_cm s l y by_ Gy M), Ev. destruct by_; [ cbn | reflexivity ].
      rewrite T. f_equal; lra. }
    assert (Yv : avals y' = [p]).
    { rewrite <- Py in Yp. rewrite (vals_by_cm s l y' b Gy' By) in Yp. destruct b; [ | assumption ].
      rewrite T in Yp. rewrite <- Yp. rewrite <- (map_id (avals y')) at 1.
      apply map_ext; intro; lra. }
    rewrite Yv.
    assert (E : forall v, broadcast npow v [p] = Ok (map (fun x => npow x p) v)).
    { intros v. unfold broadcast. destruct v as [|a [|a' v]]; cbn; reflexivity. }
    rewrite E. cbn [bind]. eexists. split; [ reflexivity | ].
    split; [ constructor; cbn; (reflexivity || discriminate) | ].
    split; [ assumption | ].
    rewrite <- Px, (vals_by_cm s k x' b Gx' Bx). unfold phys; cbn [acm acf avals].
    cbn [cscale]. destruct b; [ | reflexivity ]. rewrite !map_map. apply map_ext. intro u.
    symmetry; apply npow_scale.
Qed.

(** [2 * (x + y) / x] with [x] comoving and [y] physical: it has dimension 0 and its
    meaning is computed from the physical values [2; 4] and [3; 5]. *)
Example C26_example :
  has_dim (/ 2) (EBin Bdiv (EBin Bmul (ENum 2) (EBin Badd (EArr ex_x) (EArr ex_y))) (EArr ex_x))
          (DArr (1 - 1))
  /\ meaning (EBin Bdiv (EBin Bmul (ENum 2) (EBin Badd (EArr ex_x) (EArr ex_y))) (EArr ex_x))
     = Ok [2 * (2 + 3) / 2; 2 * (4 + 5) / 4].
Proof.
  assert (Gx : good (/ 2) 1 ex_x) by (constructor; cbn; (reflexivity || discriminate)).
  assert (Gy : good (/ 2) 1 ex_y) by (constructor; cbn; (reflexivity || discriminate)).
  split.
  - apply hd_div; [ apply hd_num_l; [ reflexivity | apply hd_num | ] | apply hd_arr; assumption ].
    apply hd_same; [ left; reflexivity | apply hd_arr; assumption | apply hd_arr; assumption ].
  - cbn [meaning]. destruct C25_example as [_ ->]. reflexivity.
Qed.

(** * C27 *)

(** A comoving operand together with a non-convertible one: the operation uses the
    comoving numbers as they are and the result is labelled physical. *)
Theorem C27_mixed_result :
  forall s k x y o, good s k x -> acm x = Some true -> fixed_arr s k y ->
  In o [Badd; Bsub; Bmul] ->
  (exists rcf cp, binop o (OArr x) (OArr y)
     = do v <- broadcast (bfun o) (avals x) (avals y); Ok (mkarr v rcf (Some false) false cp))
  /\ (exists rcf cp, binop o (OArr y) (OArr x)
     = do v <- broadcast (bfun o) (avals y) (avals x); Ok (mkarr v rcf (Some false) false cp)).
Proof.
  intros s k x y o Gx Mx [Fy My Vy] Ho.
  assert (Hh : exists rcf, bhandler o (Some (mkcf (Some k) (Some s))) (Some (mkcf (Some k) (Some s))) = Ok rcf).
  { cbn in Ho. destruct Ho as [<-|[<-|[<-|[]]]]; cbn [bhandler].
    - eexists; apply h_same.
    - eexists; apply h_same.
    - eexists. unfold h_multiply, reduce, reduce_from.
      change (Some (mkcf (Some k) (Some s))) with (lcf s k). rewrite h_mul_ok. reflexivity. }
  destruct Hh as (rcf & Hh).
  destruct (mixed_lr (bfun o) (bhandler o) x y _ _ (g_cf _ _ _ Gx) Fy Mx My Vy (g_vt _ _ _ Gx)) as (cp & E).
  destruct (mixed_rl (bfun o) (bhandler o) x y _ _ (g_cf _ _ _ Gx) Fy Mx My Vy (g_vt _ _ _ Gx)) as (cp' & E').
  split; [ exists rcf, cp; apply E; exact Hh | exists rcf, cp'; apply E'; exact Hh ].
Qed.

(** So every element with a non-zero comoving operand is wrong as soon as the
    conversion factor is not 1 (for a product, also the other operand non-zero). *)
Theorem C27_mixed_value_wrong :
  forall s k x y o r, 0 < s -> good s k x -> acm x = Some true -> fixed_arr s k y ->
  length (avals x) = length (avals y) -> In o [Badd; Bsub; Bmul] ->
  binop o (OArr x) (OArr y) = Ok r ->
  Rpower s k <> 1 ->
  forall i u v w, nth_error (phys x) i = Some u -> nth_error (phys y) i = Some v ->
  nth_error (phys r) i = Some w ->
  u <> 0 -> (o = Bmul -> v <> 0) -> w <> bfun o u v.
Proof.
  intros s k x y o r _ Gx Mx Fy L Ho E NF i u v w Hu Hv Hw NZ NZ'.
  destruct (C27_mixed_result s k x y o Gx Mx Fy Ho) as [(rcf & cp & E') _].
  rewrite E' in E. unfold broadcast in E. rewrite L, Nat.eqb_refl in E. cbn [bind] in E.
  injection E as <-.
  assert (Pw : nth_error (map2 (bfun o) (avals x) (avals y)) i = Some w).
  { unfold phys in Hw; cbn [acm avals] in Hw. exact Hw. }
  assert (Pv : nth_error (avals y) i = Some v).
  { unfold phys in Hv. rewrite (f_cm _ _ _ Fy) in Hv. exact Hv. }
  unfold phys in Hu. rewrite Mx, (g_cf _ _ _ Gx) in Hu. rewrite nth_error_map in Hu.
  destruct (nth_error (avals x) i) as [a|] eqn:Ha; [ | discriminate ]. cbn in Hu. injection Hu as <-.
  rewrite (map2_nth _ _ _ (bfun o) _ _ i a v Ha Pv) in Pw. injection Pw as <-.
  assert (a <> 0) by (intros ->; apply NZ; ring).
  intro Q. apply NF. apply (Rmult_eq_reg_r a); [ | assumption ].
  cbn in Ho. destruct Ho as [<-|[<-|[<-|[]]]]; cbn [bfun] in Q.
  - lra.
  - lra.
  - apply (Rmult_eq_reg_r v); [ lra | apply NZ'; reflexivity ].
Qed.

Example C27_example :
  exists x y r, good (/ 2) 1 x /\ fixed_arr (/ 2) 1 y
    /\ binop Badd (OArr x) (OArr y) = Ok r
    /\ phys x = [2] /\ phys y = [1] /\ phys r = [4 + 1].
Proof.
  exists (mkarr [4] (Some (mkcf (Some 1) (Some (/ 2)))) (Some true) true CNone),
         (mkarr [1] (Some (mkcf (Some 1) (Some (/ 2)))) (Some false) false CNone),
         (mkarr [4 + 1] (Some (mkcf (Some 1) (Some (/ 2)))) (Some false) false (CPair true CNone)).
  split; [ constructor; cbn; (reflexivity || discriminate) | ].
  split; [ constructor; reflexivity | ].
  split.
  - unfold binop, ufunc2.
    cbn [prepare map op_cm op_cf op_vt filter fst snd forallb existsb is_true is_false is_none negb orb
         andb bind acm acf avt bhandler h_preserve reduce reduce_from h_preserve2 coerce to_physical
         convert_to_physical all_ok].
    rewrite cf_eq_refl. reflexivity.
  - unfold phys; cbn [acm acf avals map]. rewrite Rpower_1 by lra.
    repeat split; f_equal; lra.
Qed.

(** * C28 *)

(** Along any history of views, copies, conversions, arithmetic and re-wrapping that
    does not override [valid_transform], arrays that must not be converted keep their
    attributes and numbers, and everything made from them, however indirectly, is
    non-convertible and not comoving. *)
Theorem C28_never_converted :
  forall h l, heap_ok h -> all_steps no_rewrap h l ->
  forall i o, nth_error (objs h) i = Some o -> o_vt o = false ->
    nth_error (objs (run h l)) i = Some o
    /\ buf_of (run h l) o = buf_of h o
    /\ (forall k p, derived (run h l) k i -> nth_error (objs (run h l)) k = Some p ->
        o_vt p = false /\ o_cm p <> Some true).
Proof.
  intros h l H W i o E V. destruct (run_ok l h H W) as [H' [F1 F2]].
  destruct (F1 i o E V) as [E' B]. split; [ assumption | split; [ assumption | ] ].
  intros k p D Ep. exact (derived_vt _ H' k i D o p E' V Ep).
Qed.

(** Every attempt to convert such an array to comoving coordinates raises and leaves
    the whole heap as it was; converting to physical changes nothing. *)
Theorem C28_conversion_raises :
  forall h i o, heap_ok h -> nth_error (objs h) i = Some o -> o_vt o = false ->
  (forall s, In s [SConvC i; SToC i; STo i (Some true); SWrap i (Some true) true; SWrap i (Some true) false] ->
     step h s = (h, Err InvalidConversion))
  /\ fst (step h (SConvP i)) = h
  /\ avt (arr_of h o) = false.
Proof.
  intros h i o H E V. pose proof (ho_lawful h H i o E) as L. unfold lawful in L. rewrite V in L.
  assert (C : o_cm o = Some false \/ o_cm o = None) by (destruct (o_cm o) as [[|]|]; auto; discriminate).
  assert (CC : convert_to_comoving (arr_of h o) = Err InvalidConversion).
  { unfold convert_to_comoving, arr_of; cbn [acm avt]. rewrite V.
    destruct C as [-> | ->]; reflexivity. }
  apply get_ok in E. split; [ | split ].
  - intros s I. cbn in I.
    destruct I as [<-|[<-|[<-|[<-|[<-|[]]]]]]; cbn [step].
    + unfold convert. rewrite E, CC. reflexivity.
    + rewrite E. cbn [bind]. unfold to_comoving. rewrite CC.
      destruct (negb (avt (arr_of h o)) && _); reflexivity.
    + rewrite E. cbn [bind to_cm]. rewrite CC.
      destruct (negb (avt (arr_of h o)) && _); reflexivity.
    + unfold wrap. rewrite E, CC. reflexivity.
    + unfold wrap. rewrite E, CC. reflexivity.
  - cbn [step]. unfold convert. rewrite E.
    destruct (convert_to_physical (arr_of h o)) as [x|e] eqn:P; [ | reflexivity ].
    unfold convert_to_physical in P. change (acm (arr_of h o)) with (o_cm o) in P.
    destruct C as [C|C]; rewrite C in P; [ | discriminate ]. injection P as <-.
    cbn [fst]. apply inplace_self. apply get_ok; exact E.
  - exact V.
Qed.

(** What single statements do.  A new array is the computed one, has its own memory, and the other arrays stay;
    if the computation raises, the statement raises the same and nothing changes. *)
Lemma old_array : forall h b o i x, heap_ok h -> array_at h i x -> array_at (mkheap (bufs h ++ b) (objs h ++ [o])) i x.
Proof.
  intros h b o i x H (p & E & A). exists p. split.
  - cbn [objs]. rewrite nth_error_app1; [exact E|]. apply nth_error_Some. congruence.
  - rewrite <- A. unfold arr_of, buf_of. cbn [bufs]. rewrite app_nth1 by (apply (ho_buf h H i p E)). reflexivity.
Qed.

Theorem C28_new_array : forall h s r, heap_ok h -> yields h s r ->
  match r with
  | Err e => step h s = (h, Err e)
  | Ok x => exists h', step h s = (h', Ok tt) /\ length (objs h') = S (length (objs h))
      /\ array_at h' (length (objs h)) x
      /\ (forall i y, array_at h i y -> array_at h' i y)
      /\ (forall i, (i < length (objs h))%nat -> ~ shared h' i (length (objs h)))
  end.
Proof.
  intros h s r H Y.
  assert (S : exists from, step h s = store h r from).
  { destruct Y; repeat match goal with E : nth_error _ _ = Some _ |- _ => apply get_ok in E end; cbn [step];
      repeat match goal with E : get _ _ = Ok _ |- _ => rewrite E; clear E end; cbn [bind]; eexists; reflexivity. }
  destruct S as (from & S). rewrite S. unfold store. destruct r as [x|e]; [|reflexivity].
  eexists. split; [reflexivity|]. unfold alloc. cbn [objs]. rewrite app_length. cbn [length].
  split; [lia|]. split; [|split].
  - eexists. split.
    + cbn [objs]. rewrite nth_error_app2 by lia. rewrite Nat.sub_diag. reflexivity.
    + unfold arr_of, buf_of. cbn [bufs o_buf o_cf o_cm o_vt o_comp]. rewrite app_nth2 by lia. rewrite Nat.sub_diag. destruct x; reflexivity.
  - intros i y A. apply old_array; assumption.
  - intros i Hi (o & p & E & F & B). cbn [objs] in E, F. rewrite nth_error_app1 in E by exact Hi.
    rewrite nth_error_app2 in F by lia. rewrite Nat.sub_diag in F. cbn in F. injection F as <-. cbn [o_buf] in B.
    pose proof (ho_buf h H i o E). lia.
Qed.

(** A conversion in place changes the attributes of its array alone, and the numbers of those that share its memory. *)
Theorem C28_in_place : forall h s i conv o, heap_ok h -> converts i s conv -> nth_error (objs h) i = Some o ->
  match conv (arr_of h o) with
  | Err e => step h s = (h, Err e)
  | Ok x => exists h', step h s = (h', Ok tt) /\ length (objs h') = length (objs h)
      /\ array_at h' i x
      /\ (forall j p, j <> i -> nth_error (objs h) j = Some p -> nth_error (objs h') j = Some p
          /\ (shared h i j -> buf_of h' p = avals x) /\ (~ shared h i j -> buf_of h' p = buf_of h p))
  end.
Proof.
  intros h s i conv o H C E. pose proof (proj2 (get_ok _ _ _) E) as G.
  assert (S : step h s = convert h i conv) by (destruct C; reflexivity). rewrite S. unfold convert. rewrite G.
  destruct (conv (arr_of h o)) as [x|e]; [|reflexivity].
  eexists. split; [reflexivity|]. unfold inplace. cbn [objs]. rewrite hupd_len. split; [reflexivity|].
  assert (Hi : (i < length (objs h))%nat) by (apply nth_error_Some; congruence).
  pose proof (ho_buf h H i o E) as Hb. split.
  - eexists. split; [cbn [objs]; apply (hupd_same _ _ _ _ o); exact E|].
    unfold arr_of, buf_of. cbn [bufs o_buf o_cf o_cm o_vt o_comp]. rewrite hupd_nth_same by exact Hb. destruct x; reflexivity.
  - intros j p D Ej. split; [rewrite hupd_other by auto; exact Ej|]. unfold buf_of. cbn [bufs]. split.
    + intros (o' & p' & E' & F' & B). assert (o' = o) by congruence. assert (p' = p) by congruence. subst.
      rewrite <- B. apply hupd_nth_same. exact Hb.
    + intro N. apply hupd_nth_other. intro B. apply N. exists o, p. auto.
Qed.

(** A view has the memory and the attributes of its array; re-wrapping also converts the memory they share. *)
Theorem C28_view : forall h i o, heap_ok h -> nth_error (objs h) i = Some o ->
  (exists h', step h (SView i) = (h', Ok tt) /\ array_at h' (length (objs h)) (arr_of h o)
     /\ shared h' i (length (objs h)) /\ forall j y, array_at h j y -> array_at h' j y)
  /\ (forall cm vt, let conv := match cm with None => Ok (arr_of h o) | Some true => convert_to_comoving (arr_of h o)
                                | Some false => convert_to_physical (arr_of h o) end in
      (forall e, conv = Err e -> step h (SWrap i cm vt) = (h, Err e))
      /\ (forall y, conv = Ok y -> acm y = Some false \/ acm y = Some vt \/ (acm y = None /\ vt = false) -> exists h', step h (SWrap i cm vt) = (h', Ok tt)
          /\ array_at h' (length (objs h)) (mkarr (avals y) (acf y) (acm y) vt (acomp y))
          /\ shared h' i (length (objs h)) /\ (forall j p, nth_error (objs h) j = Some p -> nth_error (objs h') j = Some p))
      /\ (forall y, conv = Ok y -> (acm y = Some true /\ vt = false) \/ (acm y = None /\ vt = true) ->
          exists h', step h (SWrap i cm vt) = (h', Err InvalidConversion) /\ objs h' = objs h)).
Proof.
  intros h i o H E. pose proof (proj2 (get_ok _ _ _) E) as G. pose proof (ho_buf h H i o E) as Hb.
  assert (Hi : (i < length (objs h))%nat) by (apply nth_error_Some; congruence). split.
  - cbn [step]. rewrite G. eexists. split; [reflexivity|]. repeat split.
    + eexists. split; [cbn [objs]; rewrite nth_error_app2 by lia; rewrite Nat.sub_diag; reflexivity|reflexivity].
    + eexists _, _. split; [cbn [objs]; rewrite nth_error_app1 by exact Hi; exact E|].
      split; [cbn [objs]; rewrite nth_error_app2 by lia; rewrite Nat.sub_diag; reflexivity|reflexivity].
    + intros j y A. pose proof (old_array h [] (mkobj (o_buf o) (o_cf o) (o_cm o) (o_vt o) (o_comp o) [i]) j y H A) as X.
      rewrite app_nil_r in X. exact X.
  - intros cm vt conv. cbn [step]. unfold wrap. rewrite G. fold conv. repeat split.
    + intros e ->. reflexivity.
    + intros y -> V.
      assert (Vy : verify (acm y) vt = Ok tt).
      { unfold verify. destruct V as [->|[->|(-> & ->)]]; try reflexivity. destruct vt; reflexivity. }
      rewrite Vy. eexists. split; [reflexivity|]. repeat split.
      * eexists. split; [cbn [objs]; rewrite nth_error_app2 by lia; rewrite Nat.sub_diag; reflexivity|].
        unfold arr_of, buf_of. cbn [bufs o_buf o_cf o_cm o_vt o_comp]. rewrite hupd_nth_same by exact Hb. reflexivity.
      * eexists _, _. split; [cbn [objs]; rewrite nth_error_app1 by exact Hi; exact E|].
        split; [cbn [objs]; rewrite nth_error_app2 by lia; rewrite Nat.sub_diag; reflexivity|reflexivity].
      * intros j p Ej. cbn [objs]. rewrite nth_error_app1; [exact Ej|]. apply nth_error_Some. congruence.
    + intros y -> [(Ey & ->)|(Ey & ->)]; rewrite Ey; cbn [verify]; eexists; split; reflexivity.
Qed.

(** No statement works on an array that does not exist. *)
Theorem C28_no_array : forall h i, (length (objs h) <= i)%nat ->
  forall s, In s [SView i; SCopy i; SConvC i; SConvP i; SToC i; SToP i] -> step h s = (h, Err KeyError).
Proof.
  intros h i H s I. apply nth_error_None in H.
  assert (G : get h i = Err KeyError) by (unfold get; rewrite H; reflexivity).
  cbn in I. destruct I as [<-|[<-|[<-|[<-|[<-|[<-|[]]]]]]]; cbn [step]; unfold store, convert; rewrite G; reflexivity.
Qed.

Definition ex_fixed : obj := mkobj 0 (Some (mkcf (Some 1) (Some (/ 2)))) (Some false) false CNone [].
Definition ex_heap : heap := mkheap [[1]] [ex_fixed].

Lemma ex_heap_ok : heap_ok ex_heap.
Proof.
  constructor; cbn [objs bufs ex_heap].
  - intros [|[|i]] o E; cbn in E; try discriminate; injection E as <-; reflexivity.
  - intros [|[|i]] o E; cbn in E; try discriminate; injection E as <-; cbn; lia.
  - intros [|[|i]] o j E I; cbn in E; try discriminate; injection E as <-; destruct I.
  - intros [|[|i]] [|[|j]] o p E F _; cbn in E, F; try discriminate; congruence.
  - intros [|[|i]] o j p E I; cbn in E; try discriminate; injection E as <-; destruct I.
Qed.

(** A view of a non-convertible array, its negative, an attempted conversion of that
    and a re-wrapping: the negative derives from the original array. *)
Example C28_example :
  heap_ok ex_heap
  /\ all_steps no_rewrap ex_heap [SView 0; SUn Uneg 1; SConvC 2; SWrap 2 None false]
  /\ derived (run ex_heap [SView 0; SUn Uneg 1; SConvC 2; SWrap 2 None false]) 3 0.
Proof.
  split; [ exact ex_heap_ok | split ].
  - cbn. repeat split. intros o E; injection E as <-; reflexivity.
  - eapply der_step; [ reflexivity | left; reflexivity | ].
    eapply der_step; [ reflexivity | left; reflexivity | ].
    eapply der_step; [ reflexivity | left; reflexivity | ]. apply der_self.
Qed.

(** * C29 *)

(** The exponent of a product, quotient and power; different scale factors and, for
    sums, different exponents are errors. *)
Theorem C29_labels_homomorphism :
  forall s t j k p,
  cf_mul (cf_create s j) (cf_create s k) = Ok (cf_create s (j + k))
  /\ cf_div (cf_create s j) (cf_create s k) = Ok (cf_create s (j - k))
  /\ cf_pow (cf_create s j) p = cf_create s (j * p)
  /\ cf_add (cf_create s j) (cf_create s j) = Ok (cf_create s j)
  /\ (j <> k -> cf_add (cf_create s j) (cf_create s k) = Err InvalidScaleFactor)
  /\ (s <> t -> cf_mul (cf_create s j) (cf_create t k) = Err InvalidScaleFactor
                /\ cf_div (cf_create s j) (cf_create t k) = Err InvalidScaleFactor
                /\ cf_add (cf_create s j) (cf_create t k) = Err InvalidScaleFactor).
Proof.
  intros s t j k p. unfold cf_mul, cf_div, cf_pow, cf_add, cf_create; cbn [cexpr cscale oreqb].
  rewrite !Reqb_refl. cbn [negb].
  repeat split.
  - intro N. apply Reqb_false in N. rewrite N. reflexivity.
  - apply Reqb_false in H. rewrite H. reflexivity.
  - apply Reqb_false in H. rewrite H. reflexivity.
  - apply Reqb_false in H. rewrite H. reflexivity.
Qed.

(** The value of a label follows: products multiply, quotients divide, powers raise. *)
Theorem C29_values_homomorphism :
  forall c d u v p, a_factor c = Some u -> a_factor d = Some v ->
  (forall r, cf_mul c d = Ok r -> a_factor r = Some (u * v))
  /\ (forall r, cf_div c d = Ok r -> a_factor r = Some (u / v))
  /\ a_factor (cf_pow c p) = Some (Rpower u p).
Proof.
  intros [[e|] [a|]] [[f|] [b|]] u v p Hu Hv; cbn in Hu, Hv; try discriminate.
  injection Hu as <-. injection Hv as <-.
  unfold cf_mul, cf_div, cf_pow, a_factor; cbn [cexpr cscale oreqb].
  split; [ | split ].
  - intros r H. destruct (Reqb a b) eqn:E; cbn [negb] in H; [ | discriminate ].
    apply Reqb_true in E; subst b. injection H as <-. cbn. rewrite Rpower_plus. reflexivity.
  - intros r H. destruct (Reqb a b) eqn:E; cbn [negb] in H; [ | discriminate ].
    apply Reqb_true in E; subst b. injection H as <-. cbn. unfold Rminus, Rdiv.
    rewrite Rpower_plus, Rpower_Ropp. reflexivity.
  - rewrite Rpower_mult. reflexivity.
Qed.

(** Multiplying and dividing by the same label, or taking a power and its inverse,
    returns the original exponent; dividing is multiplying by the inverse power. *)
Theorem C29_mul_div_inverse :
  forall c d r,
  (cf_mul c d = Ok r -> cexpr d <> None -> cf_div r d = Ok c)
  /\ (cf_div c d = Ok r -> cexpr d <> None -> cf_mul r d = Ok c)
  /\ cf_div c d = cf_mul c (cf_pow d (- 1)).
Proof.
  intros [e a] [f b] r. unfold cf_mul, cf_div, cf_pow; cbn [cexpr cscale].
  split; [ | split ].
  - intros H N. destruct (oreqb a b) eqn:E; cbn [negb] in H; [ | discriminate ].
    apply oreqb_true in E; subst b.
    destruct e as [e|]; destruct f as [f|]; try discriminate; try congruence.
    injection H as <-. cbn [cexpr cscale]. rewrite oreqb_refl. cbn [negb].
    do 3 f_equal. ring.
  - intros H N. destruct (oreqb a b) eqn:E; cbn [negb] in H; [ | discriminate ].
    apply oreqb_true in E; subst b.
    destruct e as [e|]; destruct f as [f|]; try discriminate; try congruence.
    injection H as <-. cbn [cexpr cscale]. rewrite oreqb_refl. cbn [negb].
    do 3 f_equal. ring.
  - destruct f as [f|]; cbn [cexpr cscale]; destruct (oreqb a b); cbn [negb]; try reflexivity.
    destruct e as [e|]; [ | reflexivity ]. do 3 f_equal. ring.
Qed.

Example C29_example :
  cf_mul (cf_create (/ 2) 1) (cf_create (/ 2) (- 3)) = Ok (cf_create (/ 2) (1 + - 3))
  /\ cf_mul (cf_create (/ 2) 1) (cf_create 1 1) = Err InvalidScaleFactor.
Proof.
  split; [ exact (proj1 (C29_labels_homomorphism (/ 2) 1 1 (- 3) 0)) | ].
  assert (N : / 2 <> 1) by lra.
  exact (proj1 (proj2 (proj2 (proj2 (proj2 (proj2 (C29_labels_homomorphism (/ 2) 1 1 1 0))))) N)).
Qed.

(** * C30 *)

(** What equality of labels decides. *)
Theorem C30_equality_meaning :
  forall s t j k,
  cf_eq (cf_create s j) (cf_create t k) = true
  <-> s = t /\ Rabs (Rpower s j - Rpower t k) <= 1 / 10 ^ 8 + 1 / 10 ^ 6 * Rpower t k.
Proof.
  intros s t j k. split.
  - intro H. pose proof (cf_eq_scale _ _ H) as E. cbn in E. injection E as E. subst t.
    split; [ reflexivity | ]. apply cf_eq_close; exact H.
  - intros [<- H]. apply cf_eq_close; exact H.
Qed.

Theorem C30_reflexive : forall c, cf_eq c c = true.
Proof. exact cf_eq_refl. Qed.

(** The redshift z of a scale factor a: (1 + z) a = 1. *)
Theorem C30_redshift : forall c z, cf_redshift c = Some z <->
  exists a, cscale c = Some a /\ z = / a - 1 /\ (a <> 0 -> (1 + z) * a = 1).
Proof.
  intros c z. unfold cf_redshift. destruct (cscale c) as [a|].
  - split.
    + intro H. injection H as <-. exists a. split; [reflexivity|]. split; [reflexivity|]. intro Ha. field. exact Ha.
    + intros (b & E & -> & _). injection E as ->. reflexivity.
  - split; [discriminate|]. intros (b & E & _). discriminate.
Qed.

(** At scale factor 1 all exponents are identified. *)
Theorem C30_exponents_lost_at_one : forall j k, cf_eq (cf_create 1 j) (cf_create 1 k) = true.
Proof.
  intros j k. apply C30_equality_meaning. split; [ reflexivity | ].
  unfold Rpower. rewrite ln_1, !Rmult_0_r, exp_0. rewrite Rminus_diag_eq, Rabs_R0 by reflexivity. lra.
Qed.

Lemma Rpower_O' : forall s, Rpower s 0 = 1.
Proof. intros; unfold Rpower. rewrite Rmult_0_l. apply exp_0. Qed.

(** The tolerance is relative to the right-hand side, so equality is not symmetric:
    [a ** 1 == a ** 0] holds and [a ** 0 == a ** 1] does not at this scale factor. *)
Theorem C30_not_symmetric_refuted :
  exists s, 0 < s < 1 /\ cf_eq (cf_create s 1) (cf_create s 0) = true
    /\ cf_eq (cf_create s 0) (cf_create s 1) = false.
Proof.
  exists (1 - 101 / 10 ^ 8). split; [ lra | ]. split.
  - apply C30_equality_meaning. split; [ reflexivity | ].
    rewrite Rpower_1, Rpower_O' by lra. rewrite Rabs_left; lra.
  - match goal with |- ?b = false => destruct b eqn:E; [ exfalso | reflexivity ] end.
    apply C30_equality_meaning in E. destruct E as [_ E].
    rewrite Rpower_1, Rpower_O' in E by lra. rewrite Rabs_right in E by lra. lra.
Qed.

(** It is not transitive either. *)
Theorem C30_not_transitive_refuted :
  exists s, 0 < s < 1 /\ cf_eq (cf_create s 2) (cf_create s 1) = true
    /\ cf_eq (cf_create s 1) (cf_create s 0) = true
    /\ cf_eq (cf_create s 2) (cf_create s 0) = false.
Proof.
  exists (1 - 8 / 10 ^ 7).
  assert (P2 : Rpower (1 - 8 / 10 ^ 7) 2 = (1 - 8 / 10 ^ 7) * (1 - 8 / 10 ^ 7)).
  { replace 2 with (INR 2) by (cbn; lra). rewrite Rpower_nat by lra. ring. }
  split; [ lra | ]. split; [ | split ].
  - apply C30_equality_meaning. split; [ reflexivity | ].
    rewrite P2, Rpower_1 by lra. rewrite Rabs_left; lra.
  - apply C30_equality_meaning. split; [ reflexivity | ].
    rewrite Rpower_1, Rpower_O' by lra. rewrite Rabs_left; lra.
  - match goal with |- ?b = false => destruct b eqn:E; [ exfalso | reflexivity ] end.
    apply C30_equality_meaning in E. destruct E as [_ E].
    rewrite P2, Rpower_O' in E. rewrite Rabs_left in E by lra. lra.
Qed.

(** * C49 *)

(** The compression attribute of a result is not the operand's but a pair
    [(True, compression)], one level deeper for every operation applied. *)
Theorem C49_compression_nests :
  forall s k o x r, good s k x -> unop o (OArr x) = Ok r -> acomp r = CPair true (acomp x).
Proof.
  intros s k o x r G H. unfold unop, ufunc1 in H.
  apply bind_ok in H. destruct H as (p & P & H). apply bind_ok in H. destruct H as (c & _ & H).
  unfold prepare in P. cbn [map op_cm op_cf op_vt filter fst snd forallb existsb] in P.
  pose proof (g_cm _ _ _ G) as M.
  destruct (acm x) as [[|]|] eqn:E; [ | | congruence ];
    cbn [is_true is_false is_none andb orb negb forallb existsb] in P; injection P as <-;
    cbn [p_args p_comp] in H; injection H as <-; reflexivity.
Qed.

(** After [n] negations. *)
Theorem C49_compression_depth :
  forall n s k x, good s k x ->
  exists r, Nat.iter n (fun y => do z <- y; unop Uneg (OArr z)) (Ok x) = Ok r
    /\ acomp r = Nat.iter n (CPair true) (acomp x).
Proof.
  intros n s k x G.
  assert (K : exists r, Nat.iter n (fun y => do z <- y; unop Uneg (OArr z)) (Ok x) = Ok r
    /\ good s k r /\ acomp r = Nat.iter n (CPair true) (acomp x)).
  { induction n as [|n (r & E & Gr & C)].
    - exists x; auto.
    - cbn [Nat.iter nat_rect] in *. fold (Nat.iter n (fun y => do z <- y; unop Uneg (OArr z)) (Ok x)).
      rewrite E. cbn [bind].
      pose proof (unop_gives s k Uneg r Gr) as U. destruct (unop Uneg (OArr r)) as [r'|e] eqn:E';
        [ | contradiction ].
      destruct U as [Gr' _]. exists r'. split; [ reflexivity | ]. split; [ exact Gr' | ].
      rewrite (C49_compression_nests s k Uneg r r' Gr E'). f_equal. exact C. }
  destruct K as (r & E & _ & C). exists r; auto.
Qed.

(** Two operands with the same attribute keep it (one level deeper), others lose it. *)
Theorem C49_compression_binary :
  forall s j k x y o r, good s j x -> good s k y -> binop o (OArr x) (OArr y) = Ok r ->
  acomp r = (if comp_eqb (acomp x) (acomp y) then CPair true (acomp x) else CNone).
Proof.
  intros s j k x y o r Gx Gy H. unfold binop, ufunc2 in H.
  apply bind_ok in H. destruct H as (p & P & H). apply bind_ok in H. destruct H as (c & _ & H).
  assert (E : p_comp p = if comp_eqb (acomp x) (acomp y) then CPair true (acomp x) else CNone).
  { unfold prepare in P. cbn [map op_cm op_cf op_vt op_comp filter fst snd forallb existsb] in P.
    pose proof (g_cm _ _ _ Gx) as Mx. pose proof (g_cm _ _ _ Gy) as My.
    rewrite (g_vt _ _ _ Gx), (g_vt _ _ _ Gy) in P.
    cbn [comp_eqb Bool.eqb andb] in P. rewrite andb_true_r in P.
    destruct (acm x) as [[|]|]; [ | | congruence ]; destruct (acm y) as [[|]|]; try congruence;
      cbn [is_true is_false is_none andb orb negb forallb existsb] in P;
      rewrite ?andb_true_r in P; try (injection P as <-; reflexivity);
      match type of P with bind ?e _ = _ => destruct e as [a|er] end; cbn [bind] in P;
      try discriminate P; injection P as <-; reflexivity. }
  destruct (p_args p) as [|x' [|y' [|]]]; try discriminate.
  apply bind_ok in H. destruct H as (v & _ & H). injection H as <-. exact E.
Qed.

(** A plain number always makes it [None]. *)
Theorem C49_compression_plain :
  forall o x v r, binop o (OArr x) (OPlain v) = Ok r \/ binop o (OPlain v) (OArr x) = Ok r ->
  acomp r = CNone.
Proof.
  intros o x v r H.
  assert (E : forall args p, args = [OArr x; OPlain v] \/ args = [OPlain v; OArr x] ->
              prepare true args = Ok p -> p_comp p = CNone).
  { intros args p A P. unfold prepare in P.
    destruct A as [-> | ->];
      cbn [map op_cm op_cf op_vt op_comp filter fst snd forallb existsb comp_eqb Bool.eqb andb] in P;
      destruct (acm x) as [[|]|]; cbn [is_true is_false is_none andb orb negb forallb existsb] in P;
      injection P as <-; reflexivity. }
  unfold binop, ufunc2 in H.
  destruct H as [H|H]; apply bind_ok in H; destruct H as (p & P & H);
    apply bind_ok in H; destruct H as (c & _ & H);
    (destruct (p_args p) as [|x' [|y' [|]]]; try discriminate);
    apply bind_ok in H; destruct H as (w & _ & H); injection H as <-; cbn [acomp];
    [ apply (E _ _ (or_introl eq_refl) P) | apply (E _ _ (or_intror eq_refl) P) ].
Qed.

Example C49_plain_example :
  exists r, binop Bmul (OArr (mkarr [1] (Some (cf_create (/ 2) 1)) (Some true) true (CStr "Lossless")))
                       (OPlain [2]) = Ok r /\ acomp r = CNone.
Proof. eexists; split; reflexivity. Qed.

Example C49_example :
  exists r, unop Uneg (OArr (mkarr [1] (Some (cf_create (/ 2) 1)) (Some true) true (CStr "Lossless")))
            = Ok r /\ acomp r = CPair true (CStr "Lossless").
Proof. eexists; split; reflexivity. Qed.

(** * C50 *)

(** In-place conversion of an array that shares its memory (a view or a slice of
    another one, or the result of [cosmo_array(x, comoving=...)]) changes the numbers of
    the other arrays but not their flags: a comoving array then stands for values
    multiplied once more by the conversion factor. *)
Theorem C50_view_conversion_changes_original :
  forall h i o s k, heap_ok h -> nth_error (objs h) i = Some o ->
  good s k (arr_of h o) -> o_cm o = Some true ->
  forall prog, In prog [ [SView i; SConvP (length (objs h))]; [SWrap i (Some false) true] ] ->
  nth_error (objs (run h prog)) i = Some o
  /\ phys (arr_of (run h prog) o) = map (fun v => Rpower s k * v) (phys (arr_of h o)).
Proof.
  intros h i o s k H E G M prog I.
  pose proof (ho_buf h H i o E) as B. pose proof (nth_lt _ _ _ _ E) as L.
  destruct G as [F _ V]; cbn in F, V.
  assert (E' : get h i = Ok o) by (apply get_ok; exact E).
  assert (K : forall v, buf_of h o = v -> phys (arr_of h o) = map (fun x => Rpower s k * x) v).
  { intros v <-. unfold phys, arr_of; cbn. rewrite M, F. reflexivity. }
  rewrite (K _ eq_refl).
  assert (K' : forall h', nth (o_buf o) (bufs h') [] = map (fun x => x * Rpower s k) (buf_of h o) ->
     phys (arr_of h' o) = map (fun v => Rpower s k * v) (map (fun x => Rpower s k * x) (buf_of h o))).
  { intros h' Eb. unfold phys, arr_of; cbn [acm acf avals]. rewrite M, F.
    change (buf_of h' o) with (nth (o_buf o) (bufs h') []). rewrite Eb.
    f_equal. apply map_ext; intro; ring. }
  cbn in I. destruct I as [<-|[<-|[]]].
  - cbn [run step fst]. rewrite E'. cbn [fst].
    unfold convert, get; cbn [objs]. rewrite nth_error_app2, Nat.sub_diag by lia.
    cbn [nth_error]. unfold convert_to_physical; cbn [arr_of acm acf o_cm o_cf buf_of bufs o_buf o_vt o_comp].
    rewrite M, F. cbn [factor_of a_factor cexpr cscale bind fst].
    unfold inplace; cbn [bufs objs o_buf avals].
    split.
    + rewrite hupd_other by lia. apply nth_app_old; exact E.
    + apply K'. cbn [bufs]. apply hupd_nth_same; exact B.
  - cbn [run step fst]. unfold wrap. rewrite E'.
    unfold convert_to_physical; cbn [arr_of acm acf]. rewrite M, F.
    cbn [factor_of a_factor cexpr cscale bind fst avals acm acf acomp verify bufs objs].
    split.
    + apply nth_app_old; exact E.
    + apply K'. cbn [bufs]. apply hupd_nth_same; exact B.
Qed.

(** The constructor may also convert the caller's numbers and then raise: asking for a
    comoving, non-convertible version of a physical array. *)
Theorem C50_failed_wrap_changes_original :
  forall h i o s k, heap_ok h -> nth_error (objs h) i = Some o ->
  good s k (arr_of h o) -> o_cm o = Some false ->
  snd (step h (SWrap i (Some true) false)) = Err InvalidConversion
  /\ nth_error (objs (fst (step h (SWrap i (Some true) false)))) i = Some o
  /\ phys (arr_of (fst (step h (SWrap i (Some true) false))) o)
     = map (fun v => v / Rpower s k) (phys (arr_of h o)).
Proof.
  intros h i o s k H E G M.
  pose proof (ho_buf h H i o E) as B. destruct G as [F _ V]; cbn in F, V.
  assert (E' : get h i = Ok o) by (apply get_ok; exact E).
  cbn [step]. unfold wrap. rewrite E'. unfold convert_to_comoving; cbn [arr_of acm acf avt].
  rewrite M, F, V. cbn [negb orb factor_of a_factor cexpr cscale bind avals acm acf acomp verify fst snd objs].
  split; [ reflexivity | split; [ exact E | ] ].
  unfold phys, arr_of; cbn [acm acf avals]. rewrite M. unfold buf_of at 1; cbn [bufs].
  apply hupd_nth_same; exact B.
Qed.

Definition ex_conv : obj := mkobj 0 (Some (mkcf (Some 1) (Some (/ 2)))) (Some true) true CNone [].
Example C50_example :
  exists h o, heap_ok h /\ nth_error (objs h) 0 = Some o /\ good (/ 2) 1 (arr_of h o)
    /\ o_cm o = Some true /\ phys (arr_of h o) = [2].
Proof.
  exists (mkheap [[4]] [ex_conv]), ex_conv. split.
  - constructor; cbn [objs bufs].
    + intros [|[|i]] o E; cbn in E; try discriminate; injection E as <-; reflexivity.
    + intros [|[|i]] o E; cbn in E; try discriminate; injection E as <-; cbn; lia.
    + intros [|[|i]] o j E I; cbn in E; try discriminate; injection E as <-; destruct I.
    + intros [|[|i]] [|[|j]] o p E F _; cbn in E, F; try discriminate; congruence.
    + intros [|[|i]] o j p E I; cbn in E; try discriminate; injection E as <-; destruct I.
  - split; [ reflexivity | ]. split; [ constructor; cbn; (reflexivity || discriminate) | ].
    split; [ reflexivity | ]. unfold phys; cbn. rewrite Rpower_1 by lra. f_equal; lra.
Qed.

(** * C51 *)

(** [cosmo_array(x)] of an array that must not be converted gives a convertible array
    on the same memory (the default [valid_transform=True] overrides what the input
    says), so converting the new array changes the numbers of the protected one. *)
Theorem C51_rewrap_lifts_protection :
  forall h i o s k, heap_ok h -> nth_error (objs h) i = Some o ->
  fixed_arr s k (arr_of h o) ->
  let prog := [SWrap i None true; SConvC (length (objs h))] in
  nth_error (objs (run h prog)) i = Some o
  /\ buf_of (run h prog) o = map (fun v => v / Rpower s k) (buf_of h o)
  /\ exists p, nth_error (objs (run h prog)) (length (objs h)) = Some p
       /\ o_vt p = true /\ o_cm p = Some true /\ o_buf p = o_buf o.
Proof.
  intros h i o s k H E [F M V] prog. cbn in F, M, V.
  pose proof (ho_buf h H i o E) as B. pose proof (nth_lt _ _ _ _ E) as L.
  assert (E' : get h i = Ok o) by (apply get_ok; exact E).
  unfold prog; cbn [run step fst]. unfold wrap. rewrite E'.
  cbn [arr_of acm acf acomp avals]. rewrite M. cbn [verify fst bufs objs].
  unfold convert, get; cbn [objs]. rewrite nth_error_app2, Nat.sub_diag by lia.
  cbn [nth_error]. unfold convert_to_comoving; cbn [arr_of acm acf avt o_cm o_cf o_vt negb orb].
  rewrite F. cbn [factor_of a_factor cexpr cscale bind fst avals acm acf acomp].
  unfold buf_of at 2 3; cbn [bufs o_buf]. unfold buf_of at 2. rewrite hupd_id.
  unfold inplace; cbn [bufs objs o_buf avals acf acm avt acomp o_from].
  split; [ | split ].
  - rewrite hupd_other by lia. apply nth_app_old; exact E.
  - unfold buf_of; cbn [bufs]. rewrite hupd_nth_same by (rewrite hupd_len; exact B).
    unfold arr_of, buf_of; cbn [avals bufs o_buf]. rewrite hupd_id. reflexivity.
  - eexists. split.
    + eapply hupd_same. rewrite nth_error_app2, Nat.sub_diag by lia. reflexivity.
    + cbn. auto.
Qed.

Example C51_example : fixed_arr (/ 2) 1 (arr_of ex_heap ex_fixed).
Proof. constructor; reflexivity. Qed.

Print Assumptions C25_conversion_keeps_meaning.
Print Assumptions C25_roundtrip.
Print Assumptions C25_idempotent.
Print Assumptions C26_expressions.
Print Assumptions C26_comparisons.
Print Assumptions C26_unknown_rejected.
Print Assumptions C26_unlike_rejected.
Print Assumptions C26_accepted_sum_error.
Print Assumptions C26_unlike_sum_accepted_refuted.
Print Assumptions C26_power_by_array.
Print Assumptions C27_mixed_result.
Print Assumptions C27_mixed_value_wrong.
Print Assumptions C28_never_converted.
Print Assumptions C28_conversion_raises.
Print Assumptions C28_new_array.
Print Assumptions C28_in_place.
Print Assumptions C28_view.
Print Assumptions C28_no_array.
Print Assumptions C29_labels_homomorphism.
Print Assumptions C29_values_homomorphism.
Print Assumptions C29_mul_div_inverse.
Print Assumptions C30_equality_meaning.
Print Assumptions C30_reflexive.
Print Assumptions C30_redshift.
Print Assumptions C30_exponents_lost_at_one.
Print Assumptions C30_not_symmetric_refuted.
Print Assumptions C30_not_transitive_refuted.
Print Assumptions C49_compression_nests.
Print Assumptions C49_compression_depth.
Print Assumptions C49_compression_binary.
Print Assumptions C49_compression_plain.
Print Assumptions C50_view_conversion_changes_original.
Print Assumptions C50_failed_wrap_changes_original.
Print Assumptions C51_rewrap_lifts_protection.
