(** C93: labels and values of every numpy ufunc on cosmo arrays. *)
From Coq Require Import String List ZArith Bool Reals Lra Lia.
From Verif Require Import Base BaseLemmas CosmoModel CosmoSpec CosmoExactSpec CosmoProofs CosmoTheorems CosmoExactTheorems FuncModel FuncSpec FuncProofs UfuncModel UfuncSpec UfuncProofs UfuncSoundProofs UfuncScaleProofs.
Import ListNotations.
Open Scope R_scope.
Local Open Scope string_scope.

(** Which ufunc has which rule; all others are key errors. *)
Theorem C93_table : forall u h,
  (entry u = Ok h <-> In u (names_of h))
  /\ (entry u = Err KeyError <-> forall g, ~ In u (names_of g)).
Proof.
  intros u h. destruct (entry_cases u) as [(g & E & I)|[E N]].
  - split; split.
    + intro E'. rewrite E in E'. injection E' as ->. exact I.
    + apply entry_sound.
    + intro E'. rewrite E in E'. discriminate.
    + intro N. exfalso. exact (N g I).
  - split; split.
    + intro E'. rewrite E in E'. discriminate.
    + apply entry_sound.
    + intros _. exact N.
    + intros _. exact E.
Qed.

(** The label of every call and every reduction, its warnings and its errors. *)
Theorem C93_labels : forall u m i r, (length i <= 2)%nat ->
  (label_for u m (map label_in i) i = r <-> labelled u m i r).
Proof.
  intros u m i r L. split.
  - intros <-. destruct (labelled_total u m i L) as (q & H). rewrite (labelled_sound u m i q H). exact H.
  - apply labelled_sound.
Qed.

(** The call itself: arguments that cannot be brought to one frame are refused first,
    then the label is found, then the numbers; the arrays given as [out] change only
    when all of that worked, and then have the attributes of the results. *)
Theorem C93_stages : forall f u m i kw out,
  let all_kw := (kw ++ match out with Some _ => [OPlain []] | None => [] end)%list in
  match prepare_kw true (map uop_of i) all_kw with
  | Err e => array_ufunc f u m i kw out = (out, Err e)
  | Ok p =>
      match label_for u m (map label_in i) i with
      | Err e => array_ufunc f u m i kw out = (out, Err e)
      | Ok (c, w) =>
          match f (numbers (k_args p)) (numbers (firstn (length kw) (k_kw p))) with
          | Err e => array_ufunc f u m i kw out = (out, Err e)
          | Ok vs =>
              let arr := fun v => mkarr v c (k_cm p) (k_vt p) (k_comp p) in
              snd (array_ufunc f u m i kw out)
              = Ok (mkures (map (fun v => if drops u then OPlain v else OArr (arr v)) vs) w)
              /\ forall os n o v, out = Some os -> nth_error os n = Some o -> nth_error vs n = Some v ->
                 exists os', fst (array_ufunc f u m i kw out) = Some os'
                   /\ nth_error os' n = Some (match o with OArr _ => OArr (arr v) | OPlain _ => OPlain v end)
          end
      end
  end.
Proof.
  intros f u m i kw out. cbv zeta. unfold array_ufunc. cbv zeta.
  destruct (prepare_kw true (map uop_of i) (kw ++ match out with Some _ => [OPlain []] | None => [] end)) as [p|e] eqn:P; cbn [bind]; [|reflexivity].
  assert (EL : k_cfs p = map label_in i).
  { rewrite <- uop_labels. clear - P. unfold prepare_kw in P. cbv zeta in P.
    destruct (map snd _) as [|a l]; [injection P as <-; reflexivity|].
    destruct (forallb is_true _); [injection P as <-; reflexivity|].
    destruct (forallb is_none _); [injection P as <-; reflexivity|].
    destruct (existsb is_none _); [discriminate|].
    destruct (forallb is_false _); [injection P as <-; reflexivity|].
    destruct (true && _).
    - destruct (all_ok (map (coerce to_comoving) (map uop_of i))); [|discriminate]. cbn [bind] in P.
      destruct (all_ok _); [|discriminate]. injection P as <-; reflexivity.
    - destruct (all_ok (map (coerce to_physical) (map uop_of i))); [|discriminate]. cbn [bind] in P.
      destruct (all_ok _); [|discriminate]. injection P as <-; reflexivity. }
  rewrite EL. destruct (label_for u m (map label_in i) i) as [[c w]|e]; cbn [bind fst snd]; [|reflexivity].
  destruct (f (numbers (k_args p)) (numbers (firstn (length kw) (k_kw p)))) as [vs|e]; cbn [bind]; [|reflexivity].
  cbn [snd fst]. split; [reflexivity|]. intros os n o v -> Ho Hv. eexists. split; [reflexivity|].
  rewrite (map2_nth' _ _ _ _ os vs n o v Ho Hv). destruct o; reflexivity.
Qed.

(** Values: whatever the frames of the arrays, the results stand for the function of the
    physical values if the numbers scale as the label says; so do arrays given as [out]
    ([x += y]). *)
Theorem C93_sound : forall s f u m xs kw out aks kks e,
  0 < s -> lawful_call u m aks e ->
  Forall2 (fun x k => good s k x) xs aks -> Forall2 (sized s) kw kks ->
  scales f aks kks e ->
  let v := f (map phys xs) (map op_phys kw) in
  all_right s e (snd (array_ufunc f u m (map UArr xs) kw out)) v
  /\ forall os ws n x w, out = Some os -> v = Ok ws -> nth_error os n = Some (OArr x) -> nth_error ws n = Some w ->
     exists os' o, fst (array_ufunc f u m (map UArr xs) kw out) = Some os' /\ nth_error os' n = Some o /\ right s e o w.
Proof.
  intros s f u m xs kw out aks kks e Hs L G K F. cbv zeta.
  assert (E : map phys xs = map op_phys (map uop_of (map UArr xs))) by (rewrite !map_map; reflexivity).
  assert (Ix : exists x, In (UArr x) (map UArr xs)).
  { destruct G as [|x k xs aks Gx G]; [inversion L|]. exists x. left; reflexivity. }
  pose proof (lawful_label u m aks e s (map UArr xs) L (arrays_labels s xs aks G)) as HL.
  rewrite E. split.
  - apply (ufunc_right s f u m (map UArr xs) kw out aks kks e [] Hs (arrays_sized s xs aks G) K Ix HL (lawful_drops u m aks e L) F).
  - intros os ws n x w -> V Ho Hw.
    apply (ufunc_out_right s f u m (map UArr xs) kw os aks kks e [] ws n x w Hs (arrays_sized s xs aks G) K Ix HL (lawful_drops u m aks e L) F V Ho Hw).
Qed.

(** Products and quotients with plain numbers. *)
Theorem C93_numbers : forall s f u k x a out,
  0 < s -> good s k x -> (forall y, a <> UArr y) ->
  (In u ["multiply"; "matmul"; "vecdot"] -> scales f [k; 0] [] k ->
     all_right s k (snd (array_ufunc f u MCall [UArr x; a] [] out)) (f [phys x; values_in a] []))
  /\ (In u ["multiply"; "matmul"; "vecdot"] -> scales f [0; k] [] k ->
     all_right s k (snd (array_ufunc f u MCall [a; UArr x] [] out)) (f [values_in a; phys x] []))
  /\ (In u ["divide"; "floor_divide"] -> scales f [k; 0] [] k ->
     all_right s k (snd (array_ufunc f u MCall [UArr x; a] [] out)) (f [phys x; values_in a] []))
  /\ (In u ["divide"; "floor_divide"] -> scales f [0; k] [] (- k) ->
     all_right s (- k) (snd (array_ufunc f u MCall [a; UArr x] [] out)) (f [values_in a; phys x] [])).
Proof.
  intros s f u k x a out Hs G P.
  assert (plain_sized : sized s (uop_of a) 0) by (destruct a as [y|v| |v]; [exfalso; exact (P y eq_refl)|apply sz_num|apply sz_num|apply sz_num]).
  assert (V : op_phys (uop_of a) = values_in a) by (destruct a as [y|v| |v]; [exfalso; exact (P y eq_refl)|reflexivity|reflexivity|reflexivity]).
  assert (S1 : Forall2 (sized s) (map uop_of [UArr x; a]) [k; 0]) by (constructor; [apply sz_arr; exact G|constructor; [exact plain_sized|constructor]]).
  assert (S2 : Forall2 (sized s) (map uop_of [a; UArr x]) [0; k]) by (constructor; [exact plain_sized|constructor; [apply sz_arr; exact G|constructor]]).
  assert (I1 : exists y, In (UArr y) [UArr x; a]) by (exists x; left; reflexivity).
  assert (I2 : exists y, In (UArr y) [a; UArr x]) by (exists x; right; left; reflexivity).
  assert (D : In u ["multiply"; "matmul"; "vecdot"] \/ In u ["divide"; "floor_divide"] -> drops u = false).
  { unfold drops. intros [I|I]; [rewrite (entry_sound u HMultiply I)|rewrite (entry_sound u HDivide I)]; reflexivity. }
  rewrite <- V. split; [|split; [|split]]; intros I F.
  - exact (ufunc_right s f u MCall [UArr x; a] [] out [k; 0] [] k [] Hs S1 (Forall2_nil _) I1 (proj1 (product_numbers u s k x a I G P)) (D (or_introl I)) F).
  - exact (ufunc_right s f u MCall [a; UArr x] [] out [0; k] [] k [] Hs S2 (Forall2_nil _) I2 (proj2 (product_numbers u s k x a I G P)) (D (or_introl I)) F).
  - exact (ufunc_right s f u MCall [UArr x; a] [] out [k; 0] [] k [] Hs S1 (Forall2_nil _) I1 (proj1 (quotient_numbers u s k x a I G P)) (D (or_intror I)) F).
  - exact (ufunc_right s f u MCall [a; UArr x] [] out [0; k] [] (- k) [] Hs S2 (Forall2_nil _) I2 (proj2 (quotient_numbers u s k x a I G P)) (D (or_intror I)) F).
Qed.

(** Exactly the functions with the right scaling are right on all arrays. *)
Theorem C93_right_iff : forall u,
  (In u (names_of HPreserve ++ names_of HPassthrough)%list -> forall g,
     right_one u g <-> forall c v, 0 < c -> g (c * v) = c * g v)
  /\ (In u ["add"; "subtract"; "remainder"; "fmod"; "hypot"; "fmax"; "fmin"; "nextafter"; "heaviside";
            "maximum"; "minimum"; "copysign"; "divmod"] -> forall g,
     right_alike u g <-> forall c v w, 0 < c -> g (c * v) (c * w) = c * g v w)
  /\ (In u (names_of HMultiply) -> forall g,
     right_product u g <-> forall c d v w, 0 < c -> 0 < d -> g (c * v) (d * w) = c * d * g v w)
  /\ (In u (names_of HDivide) -> forall g,
     right_quotient u g <-> forall c d v w, 0 < c -> 0 < d -> g (c * v) (d * w) = c / d * g v w)
  /\ (In u (names_of HWithout) -> forall g,
     right_plain u g <-> forall c v, 0 < c -> g (c * v) = g v).
Proof.
  intros u. split; [|split; [|split; [|split]]]; intros I g.
  - apply right_one_iff. cbn [names_of app In] in *. tauto.
  - apply right_alike_iff. exact I.
  - apply right_product_iff. exact I.
  - apply right_quotient_iff. exact I.
  - apply right_plain_iff. exact I.
Qed.

(** numpy's functions that are right. *)
Theorem C93_right_functions :
  right_one "negative" Ropp /\ right_one "absolute" Rabs /\ right_one "fabs" Rabs
  /\ right_one "positive" (fun x => x) /\ right_one "conjugate" (fun x => x)
  /\ right_alike "add" Rplus /\ right_alike "subtract" Rminus
  /\ right_alike "maximum" Rmax /\ right_alike "minimum" Rmin /\ right_alike "fmax" Rmax /\ right_alike "fmin" Rmin
  /\ right_alike "remainder" n_remainder /\ right_alike "fmod" n_fmod /\ right_alike "hypot" n_hypot
  /\ right_alike "copysign" n_copysign
  /\ right_product "multiply" Rmult /\ right_quotient "divide" Rdiv
  /\ right_plain "sign" n_sign.
Proof.
  repeat match goal with |- _ /\ _ => split end;
    first [ apply right_one_iff; [cbn; tauto|]
          | apply right_alike_iff; [cbn; tauto|]
          | apply right_product_iff; [cbn; tauto|]
          | apply right_quotient_iff; [cbn; tauto|]
          | apply right_plain_iff; [cbn; tauto|] ]; intros.
  - ring.
  - rewrite Rabs_mult, (Rabs_right c) by lra; reflexivity.
  - rewrite Rabs_mult, (Rabs_right c) by lra; reflexivity.
  - reflexivity.
  - reflexivity.
  - ring.
  - ring.
  - apply Rmax_scale; assumption.
  - apply Rmin_scale; assumption.
  - apply Rmax_scale; assumption.
  - apply Rmin_scale; assumption.
  - apply remainder_scale; assumption.
  - apply fmod_scale; assumption.
  - apply hypot_scale; assumption.
  - apply copysign_scale; assumption.
  - ring.
  - unfold Rdiv. rewrite Rinv_mult. ring.
  - apply sign_scale; assumption.
Qed.

(** numpy's functions that are not: rounding, the whole and fractional parts of [modf],
    the quotient of [divmod], [ones_like], [heaviside], [floor_divide] of unlike arrays,
    and functions of comoving numbers whose label is dropped. *)
Theorem C93_wrong_functions_refuted :
  ~ right_one "floor" n_floor /\ ~ right_one "ceil" n_ceil /\ ~ right_one "trunc" n_trunc
  /\ ~ right_one "modf" n_trunc /\ ~ right_one "modf" n_frac
  /\ ~ right_one "_ones_like" (fun _ => 1)
  /\ ~ right_alike "heaviside" n_heaviside /\ ~ right_alike "divmod" n_floordiv
  /\ ~ right_quotient "floor_divide" n_floordiv
  /\ ~ right_plain "exp" exp /\ ~ right_plain "log" ln
  /\ ~ right_plain "rint" (fun x => n_floor (x + 1 / 2)).
Proof.
  repeat match goal with |- _ /\ _ => split end; intro H;
    first [ refine (_ (proj1 (right_one_iff _ _ _) H)); [clear H; intro H|cbn; tauto]
          | refine (_ (proj1 (right_alike_iff _ _ _) H)); [clear H; intro H|cbn; tauto]
          | refine (_ (proj1 (right_quotient_iff _ _ _) H)); [clear H; intro H|cbn; tauto]
          | refine (_ (proj1 (right_plain_iff _ _ _) H)); [clear H; intro H|cbn; tauto] ].
  - exact (not_floor H).
  - exact (not_ceil H).
  - exact (not_trunc H).
  - exact (not_trunc H).
  - exact (not_frac H).
  - exact (not_ones H).
  - exact (not_heaviside H).
  - exact (not_floordiv_alike H).
  - exact (not_floordiv H).
  - exact (not_exp H).
  - exact (not_ln H).
  - exact (not_rint H).
Qed.

(** Of arrays that scale alike, [floor_divide] is right, and [remainder] is the second
    result of [divmod]. *)
Theorem C93_floor_divide_alike : forall s k x y,
  0 < s -> good s k x -> good s k y ->
  all_right s (k - k) (snd (array_ufunc (each2 n_floordiv) "floor_divide" MCall [UArr x; UArr y] [] None))
            (each2 n_floordiv [phys x; phys y] [])
  /\ right_alike "divmod" n_remainder.
Proof.
  intros s k x y Hs Gx Gy. split.
  - apply (C93_sound s (each2 n_floordiv) "floor_divide" MCall [x; y] [] None [k; k] [] (k - k) Hs).
    + apply lc_quotient. cbn; auto.
    + constructor; [exact Gx|constructor; [exact Gy|constructor]].
    + constructor.
    + apply scales_each2. intros t a b Ht. replace (k - k) with 0 by ring. rewrite Rpower_O by exact Ht.
      rewrite floordiv_common by apply Rpower_pos. ring.
  - apply right_alike_iff; [cbn; tauto|]. intros. apply remainder_scale; assumption.
Qed.

(** Reductions by multiplication and division along the columns of an array of [h] rows
    and [w] columns: right if [axis=0] is given. *)
Theorem C93_reduce_columns : forall s k x h w out,
  0 < s -> good s k x -> length (avals x) = (h * w)%nat -> (1 <= h)%nat ->
  let shape := [Z.of_nat h; Z.of_nat w] in
  all_right s (k * INR h)
    (snd (array_ufunc (down_of product_down h w) "multiply" (MReduce shape (AxInt 0)) [UArr x] [] out))
    (Ok [product_down w (phys x)])
  /\ all_right s (k * (2 - INR h))
    (snd (array_ufunc (down_of quotient_down h w) "divide" (MReduce shape (AxInt 0)) [UArr x] [] out))
    (Ok [quotient_down w (phys x)]).
Proof.
  intros s k x h w out Hs G L Hh. cbv zeta.
  assert (C : counted [Z.of_nat h; Z.of_nat w] (AxInt 0) (Ok (Z.of_nat h))) by (apply (ct_front [Z.of_nat h; Z.of_nat w] 0); reflexivity).
  assert (EL : Nat.eqb (length (phys x)) (h * w) = true).
  { rewrite phys_length, L. apply Nat.eqb_refl. }
  split.
  - assert (V : Ok [product_down w (phys x)] = down_of product_down h w (map phys [x]) (map op_phys [])).
    { cbn [map down_of]. rewrite EL. reflexivity. }
    rewrite V. apply (proj1 (C93_sound s (down_of product_down h w) "multiply" _ [x] [] out [k] [] (k * INR h) Hs
      (eq_ind _ (fun e => lawful_call "multiply" (MReduce [Z.of_nat h; Z.of_nat w] (AxInt 0)) [k] (k * e)) (lc_multiply _ _ _ k C) _ (eq_sym (INR_IZR_INZ h)))
      (Forall2_cons _ _ G (Forall2_nil _)) (Forall2_nil _) (scales_product h w k))).
  - assert (V : Ok [quotient_down w (phys x)] = down_of quotient_down h w (map phys [x]) (map op_phys [])).
    { cbn [map down_of]. rewrite EL. reflexivity. }
    assert (E : IZR (2 - Z.of_nat h) = 2 - INR h) by (rewrite minus_IZR, <- INR_IZR_INZ; reflexivity).
    rewrite V. apply (proj1 (C93_sound s (down_of quotient_down h w) "divide" _ [x] [] out [k] [] (k * (2 - INR h)) Hs
      (eq_ind _ (fun e => lawful_call "divide" (MReduce [Z.of_nat h; Z.of_nat w] (AxInt 0)) [k] (k * e)) (lc_divide _ _ _ k C) _ E)
      (Forall2_cons _ _ G (Forall2_nil _)) (Forall2_nil _) (scales_quotient h w k Hh))).
Qed.

(** Without [axis], numpy reduces along the columns too, but the label counts every
    element: the result is wrong. *)
Theorem C93_reduce_default_axis_refuted :
  ~ forall s k x h w, 0 < s -> good s k x -> length (avals x) = (h * w)%nat -> (1 <= h)%nat ->
    exists e, all_right s e
      (snd (array_ufunc (down_of product_down h w) "multiply" (MReduce [Z.of_nat h; Z.of_nat w] AxMissing) [UArr x] [] None))
      (Ok [product_down w (phys x)]).
Proof.
  intro H. specialize (H 2 1 (mkarr [1; 1] (lcf 2 1) (Some true) true CNone) 1%nat 2%nat).
  destruct H as (e & H); [lra|constructor; cbn; (reflexivity || discriminate)|reflexivity|lia|].
  unfold array_ufunc, label_for in H. cbn in H. inversion H as [|o v l l' Hr _]; subst. destruct Hr as [G P].
  pose proof (g_cf _ _ _ G) as C. cbn in C. injection C as C.
  unfold phys in P. cbn in P. injection P as P _.
  unfold product_down, column in P. cbn in P. rewrite !Rpower_1 in P by lra.
  replace (1 * 2) with 2 in P by ring. replace (Rpower 2 2) with 4 in P; [lra|].
  change 2 with (INR 2) at 2. rewrite Rpower_pow by lra. cbn. ring.
Qed.

(** The starting value of a sum takes part in the choice of a frame, but its label is
    not looked at. *)
Definition sum_from : mfun :=
  fun vs ks => match vs, ks with
               | [v], [[i]] => Ok [[i + fold_right Rplus 0 v]]
               | _, _ => Err TypeError
               end.
Theorem C93_initial_unchecked_refuted :
  ~ forall s j k x y r, 0 < s -> good s j x -> good s k y ->
    snd (array_ufunc sum_from "add" (MReduce [Z.of_nat (length (avals x))] AxMissing) [UArr x] [OArr y] None) = Ok r ->
    all_right s j (Ok r) (sum_from [phys x] [phys y]).
Proof.
  intro H. specialize (H 2 1 2 (com 2 1 1) (com 2 2 1)).
  specialize (H (mkures [OArr (mkarr [1 + (1 + 0)] (lcf 2 1) (Some true) true (CPair true CNone))] []) ltac:(lra) (com_good 2 1 1) (com_good 2 2 1)).
  specialize (H eq_refl). rewrite !com_phys in H. cbn [sum_from all_right r_values fold_right] in H.
  inversion H as [|o v l l' Hr _]; subst. destruct Hr as [_ P]. unfold phys in P. cbn in P. injection P as P.
  rewrite !Rpower_1 in P by lra. replace (Rpower 2 2) with 4 in P; [lra|].
  change 2 with (INR 2) at 2. rewrite Rpower_pow by lra. cbn. ring.
Qed.

(** Numbers of arguments: comparisons, divisions and powers cannot be reduced, and the
    method [clip] with both bounds never works. *)
Theorem C93_never : forall f u m i kw out,
  (u = "clip" /\ m = MCall /\ length i = 3%nat)
  \/ (In u ["power"; "floor_divide"; "arctan2"; "greater"; "greater_equal"; "less"; "less_equal"; "equal"; "not_equal"]
      /\ exists shape ax, m = MReduce shape ax /\ length i = 1%nat)
  \/ (forall h, ~ In u (names_of h)) ->
  exists e, array_ufunc f u m i kw out = (out, Err e).
Proof.
  intros f u m i kw out H.
  assert (B : exists e, label_for u m (map label_in i) i = Err e).
  { destruct H as [(-> & -> & L)|[(I & shape & ax & -> & L)|N]].
    - destruct i as [|a [|b [|c [|d i]]]]; try discriminate L. eexists. reflexivity.
    - destruct i as [|a [|b i]]; try discriminate L.
      cbn [In] in I. repeat (destruct I as [<-|I]; [eexists; reflexivity|]). contradiction.
    - destruct m as [|shape ax].
      + eexists. apply (labelled_sound u MCall i). apply lb_unknown_call. exact N.
      + destruct i as [|x i]; [eexists; reflexivity|]. eexists. apply (labelled_sound u _ (x :: i)). apply lb_unknown; [exact N|discriminate]. }
  destruct B as (e & B). pose proof (C93_stages f u m i kw out) as S. cbv zeta in S. rewrite B in S.
  destruct (prepare_kw true (map uop_of i) _) as [p|e']; eexists; exact S.
Qed.

(** Compression: with [out] (so with any in-place operation) it is lost. *)
Theorem C93_out_loses_compression : forall f u m i kw os r,
  (exists x, In (UArr x) i) ->
  snd (array_ufunc f u m i kw (Some os)) = Ok r ->
  forall x, In (OArr x) (r_values r) -> acomp x = CNone.
Proof.
  intros f u m i kw os r (x0 & I0) H x I.
  pose proof (C93_stages f u m i kw (Some os)) as S. cbv zeta in S.
  destruct (prepare_kw true (map uop_of i) (kw ++ [OPlain []])) as [p|e] eqn:P; [|rewrite S in H; discriminate].
  destruct (label_for u m (map label_in i) i) as [[c w]|e]; [|rewrite S in H; discriminate].
  destruct (f (numbers (k_args p)) (numbers (firstn (length kw) (k_kw p)))) as [vs|e]; [|rewrite S in H; discriminate].
  destruct S as [S _]. rewrite S in H. injection H as <-. cbn [r_values] in I. apply in_map_iff in I.
  destruct I as (v & E & _). destruct (drops u); [discriminate|]. injection E as <-. cbn [acomp].
  assert (C : k_comp p = comp_of (map uop_of i ++ (kw ++ [OPlain []]))).
  { clear - P. unfold prepare_kw in P. cbv zeta in P. fold (comp_of (map uop_of i ++ (kw ++ [OPlain []]))) in P.
    destruct (map snd _) as [|a l]; [injection P as <-; reflexivity|].
    destruct (forallb is_true _); [injection P as <-; reflexivity|].
    destruct (forallb is_none _); [injection P as <-; reflexivity|].
    destruct (existsb is_none _); [discriminate|].
    destruct (forallb is_false _); [injection P as <-; reflexivity|].
    destruct (true && _).
    - destruct (all_ok (map (coerce to_comoving) (map uop_of i))); [|discriminate]. cbn [bind] in P.
      destruct (all_ok _); [|discriminate]. injection P as <-; reflexivity.
    - destruct (all_ok (map (coerce to_physical) (map uop_of i))); [|discriminate]. cbn [bind] in P.
      destruct (all_ok _); [|discriminate]. injection P as <-; reflexivity. }
  rewrite C. unfold comp_of.
  assert (A1 : In (op_comp (OArr x0)) (map op_comp (map uop_of i ++ (kw ++ [OPlain []])))).
  { apply in_map, in_or_app. left. change (OArr x0) with (uop_of (UArr x0)). apply in_map. exact I0. }
  assert (A2 : In (CPair false CNone) (map op_comp (map uop_of i ++ (kw ++ [OPlain []])))).
  { change (CPair false CNone) with (op_comp (OPlain [])). apply in_map, in_or_app. right. apply in_or_app. right. left. reflexivity. }
  destruct (map op_comp (map uop_of i ++ (kw ++ [OPlain []]))) as [|a l]; [destruct A1|].
  destruct (forallb (comp_eqb a) l) eqn:F; [|reflexivity]. exfalso. rewrite forallb_forall in F.
  assert (Q : forall b, In b (a :: l) -> match a, b with CPair p _, CPair q _ => p = q | _, _ => True end).
  { intros b [<-|Ib]; [destruct a; reflexivity || exact Logic.I|]. specialize (F b Ib).
    destruct a, b; cbn in F; try exact Logic.I. apply andb_prop in F. destruct F as [F _]. apply Bool.eqb_prop in F. exact F. }
  pose proof (Q _ A1) as Q1. pose proof (Q _ A2) as Q2. cbn [op_comp] in Q1. 
  assert (T : exists p q, a = CPair p q).
  { destruct A2 as [->|A2]; [eauto|]. specialize (F _ A2). destruct a; cbn in F; try discriminate. eauto. }
  destruct T as (p0 & q0 & ->). congruence.
Qed.

(** The operators of C26 are these ufuncs. *)
Lemma prepare_is : forall args,
  match prepare true args, prepare_kw true args [] with
  | Ok p, Ok q => k_args q = p_args p /\ k_cfs q = map op_cf args /\ p_cfs p = map op_cf args
                  /\ k_cm q = p_cm p /\ k_vt q = p_vt p /\ k_comp q = p_comp p
  | Err e, Err e' => e = e'
  | _, _ => False
  end.
Proof.
  intros args. unfold prepare_kw, prepare. cbv zeta. rewrite app_nil_r.
  change (existsb (fun o => match o with OArr x => negb (avt x) | OPlain _ => false end) args) with (existsb protected args).
  destruct (map snd (filter fst (map op_cm args))) as [|a l]; [repeat split|].
  destruct (forallb is_true (a :: l)); [repeat split|]. destruct (forallb is_none (a :: l)); [repeat split|].
  destruct (existsb is_none (a :: l)); [reflexivity|]. destruct (forallb is_false (a :: l)); [repeat split|].
  destruct (true && negb (existsb protected args)).
  - destruct (all_ok (map (coerce to_comoving) args)); repeat split.
  - destruct (all_ok (map (coerce to_physical) args)); repeat split.
Qed.
Definition bname (o : bop) : string :=
  match o with Badd => "add" | Bsub => "subtract" | Bmul => "multiply" | Bdiv => "divide"
             | Bmax => "maximum" | Bmin => "minimum" end.
Definition uname (o : uop) : string :=
  match o with Uneg => "negative" | Uabs => "absolute" | Usqrt => "sqrt" | Usquare => "square"
             | Ucbrt => "cbrt" | Urecip => "reciprocal" end.
Definition only_value (r : res uresult) : res operand :=
  match r with Ok x => match r_values x with [o] => Ok o | _ => Err TypeError end | Err e => Err e end.
Definition as_array (r : res carr) : res operand :=
  match r with Ok x => Ok (OArr x) | Err e => Err e end.
Lemma bname_label : forall o x y,
  match label_for (bname o) MCall [op_cf (uop_of x); op_cf (uop_of y)] [x; y] with Ok l => Ok (fst l) | Err e => Err e end
  = bhandler o (op_cf (uop_of x)) (op_cf (uop_of y)) /\ drops (bname o) = false.
Proof.
  intros o x y. split; [|destruct o; reflexivity]. generalize (op_cf (uop_of x)) as c, (op_cf (uop_of y)) as d. intros c d.
  unfold label_for. cbv zeta. destruct o; cbn [bname bhandler].
  - change (entry "add") with (Ok HPreserve). destruct c as [c|], d as [d|]; try reflexivity.
    cbn. destruct (cf_eq c d); reflexivity.
  - change (entry "subtract") with (Ok HPreserve). destruct c as [c|], d as [d|]; try reflexivity.
    cbn. destruct (cf_eq c d); reflexivity.
  - change (entry "multiply") with (Ok HMultiply). cbn [bind run_handler]. destruct (h_multiply [c; d]); reflexivity.
  - change (entry "divide") with (Ok HDivide). cbn [bind run_handler]. destruct (h_divide c d); reflexivity.
  - change (entry "maximum") with (Ok HPassthrough). cbn [bind run_handler]. destruct (h_passthrough2 c d); reflexivity.
  - change (entry "minimum") with (Ok HPassthrough). cbn [bind run_handler]. destruct (h_passthrough2 c d); reflexivity.
Qed.
Lemma uname_label : forall o x,
  match label_for (uname o) MCall [op_cf (uop_of x)] [x] with Ok l => Ok (fst l) | Err e => Err e end
  = uhandler o (op_cf (uop_of x)) /\ drops (uname o) = false.
Proof.
  intros o x. split; [|destruct o; reflexivity]. generalize (op_cf (uop_of x)) as c. intros c.
  unfold label_for. cbv zeta. destruct o; cbn [uname uhandler]; try reflexivity.
  - change (entry "sqrt") with (Ok HSqrt). cbn [bind run_handler]. destruct (h_sqrt c); reflexivity.
  - change (entry "square") with (Ok HSquare). cbn [bind run_handler]. destruct (h_square c); reflexivity.
  - change (entry "cbrt") with (Ok HCbrt). cbn [bind run_handler]. destruct (h_cbrt c); reflexivity.
  - change (entry "reciprocal") with (Ok HReciprocal). cbn [bind run_handler]. destruct (h_reciprocal c); reflexivity.
Qed.
Definition whole_product : mfun :=
  fun vs _ => match vs with [v] => Ok [[prodR v]] | _ => Err TypeError end.
Theorem C93_operators : forall x y,
  (forall o, only_value (snd (array_ufunc (each2 (bfun o)) (bname o) MCall [x; y] [] None)) = as_array (binop o (uop_of x) (uop_of y)))
  /\ (forall o, only_value (snd (array_ufunc (each1 (ufun o)) (uname o) MCall [x] [] None)) = as_array (unop o (uop_of x)))
  /\ (forall p, values_in y = [p] ->
        only_value (snd (array_ufunc (each2 npow) "power" MCall [x; y] [] None)) = as_array (powop (uop_of x) (uop_of y)))
  /\ only_value (snd (array_ufunc whole_product "multiply" (MReduce [Z.of_nat (length (values_in x))] AxNone) [x] [] None))
     = as_array (prodop (uop_of x)).
Proof.
  assert (VI : forall z, values_in z = op_vals (uop_of z)) by (intros []; reflexivity).
  intros x y. split; [|split; [|split]]; [intro o|intro o|intros q0 V|].
  - destruct (bname_label o x y) as [L D]. unfold array_ufunc, binop, ufunc2, marked, label. cbv zeta. rewrite D. cbn [app map].
    pose proof (prepare_is [uop_of x; uop_of y]) as Q.
    destruct (prepare true [uop_of x; uop_of y]) as [p|e]; destruct (prepare_kw true [uop_of x; uop_of y] []) as [q|e']; try contradiction; [|subst; reflexivity].
    destruct Q as (Qa & Qk & Qc & Qm & Qv & Qp). cbn [bind]. rewrite Qk, Qa, Qm, Qv, Qp. cbn [map].
    destruct (label_for (bname o) MCall _ [x; y]) as [[c w]|e]; rewrite <- L; cbn [bind fst snd]; [|reflexivity].
    destruct (p_args p) as [|a [|b [|d l]]]; try reflexivity. cbn [numbers map each2 firstn length].
    destruct (broadcast (bfun o) (op_vals a) (op_vals b)); reflexivity.
  - destruct (uname_label o x) as [L D]. unfold array_ufunc, unop, ufunc1, marked, label. cbv zeta. rewrite D. cbn [app map].
    pose proof (prepare_is [uop_of x]) as Q.
    destruct (prepare true [uop_of x]) as [p|e]; destruct (prepare_kw true [uop_of x] []) as [q|e']; try contradiction; [|subst; reflexivity].
    destruct Q as (Qa & Qk & Qc & Qm & Qv & Qp). cbn [bind]. rewrite Qk, Qa, Qm, Qv, Qp. cbn [map].
    destruct (label_for (uname o) MCall _ [x]) as [[c w]|e]; rewrite <- L; cbn [bind fst snd]; [|reflexivity].
    destruct (p_args p) as [|a [|b l]]; reflexivity.
  - rewrite VI in V. unfold array_ufunc, powop, ufunc2, marked, label. cbv zeta. rewrite V. change (drops "power") with false. cbn [app map].
    pose proof (prepare_is [uop_of x; uop_of y]) as Q.
    destruct (prepare true [uop_of x; uop_of y]) as [p|e]; destruct (prepare_kw true [uop_of x; uop_of y] []) as [q|e']; try contradiction; [|subst; reflexivity].
    destruct Q as (Qa & Qk & Qc & Qm & Qv & Qp). cbn [bind]. rewrite Qk, Qa, Qm, Qv, Qp. cbn [map].
    unfold label_for. change (entry "power") with (Ok HPower). cbn [bind run_handler]. rewrite V.
    destruct (h_power (op_cf (uop_of x)) (op_cf (uop_of y)) q0) as [c|e]; cbn [quiet bind fst snd]; [|reflexivity].
    destruct (p_args p) as [|a [|b [|d l]]]; try reflexivity. cbn [numbers map each2 firstn length].
    destruct (broadcast npow (op_vals a) (op_vals b)); reflexivity.
  - unfold array_ufunc, prodop, marked, label. cbv zeta. rewrite VI. change (drops "multiply") with false. cbn [app map].
    pose proof (prepare_is [uop_of x]) as Q.
    destruct (prepare true [uop_of x]) as [p|e]; destruct (prepare_kw true [uop_of x] []) as [q|e']; try contradiction; [|subst; reflexivity].
    destruct Q as (Qa & Qk & Qc & Qm & Qv & Qp). cbn [bind]. rewrite Qk, Qa, Qm, Qv, Qp. cbn [map].
    unfold label_for. change (existsb (String.eqb "multiply") ["multiply"; "divide"]) with true. cbn [reduced_number bind entries fold_right].
    change (power_map "multiply" (Z.of_nat (length (op_vals (uop_of x))) * 1)) with (Z.of_nat (length (op_vals (uop_of x))) * 1)%Z.
    rewrite Z.mul_1_r, <- INR_IZR_INZ.
    destruct (h_power (op_cf (uop_of x)) None (INR (length (op_vals (uop_of x))))) as [c|e]; cbn [quiet bind fst snd]; [|reflexivity].
    destruct (p_args p) as [|a [|b l]]; reflexivity.
Qed.

(** * Concrete cases *)
Definition at_half : carr := mkarr [3; 5] (lcf (1 / 2) 1) (Some true) true CNone.
Definition physical_half : carr := mkarr [1; 1] (lcf (1 / 2) 1) (Some false) true CNone.
Example ex_good : good (1 / 2) 1 at_half /\ good (1 / 2) 1 physical_half.
Proof. split; constructor; cbn; (reflexivity || discriminate). Qed.
Example ex_add : all_right (1 / 2) 1 (snd (array_ufunc (each2 Rplus) "add" MCall [UArr at_half; UArr physical_half] [] (Some [OArr at_half])))
                   (each2 Rplus [phys at_half; phys physical_half] []).
Proof.
  destruct ex_good as [G1 G2].
  apply (C93_sound (1 / 2) (each2 Rplus) "add" MCall [at_half; physical_half] [] (Some [OArr at_half]) [1; 1] [] 1).
  - lra.
  - apply lc_same2. cbn. tauto.
  - constructor; [exact G1|constructor; [exact G2|constructor]].
  - constructor.
  - apply scales_each2. intros. ring.
Qed.
Example ex_arity : label_for "clip" MCall [acf at_half; None; None] [UArr at_half; UNum [0]; UNum [1]] = Err TypeError.
Proof. reflexivity. Qed.
Example ex_unknown : entry "degrees" = Err KeyError /\ forall h, ~ In "degrees" (names_of h).
Proof. split; [reflexivity|]. apply (proj1 (proj2 (C93_table "degrees" HPreserve))). reflexivity. Qed.
Example ex_list_compare : label_for "greater" MCall [acf at_half; None] [UArr at_half; UList [0; 0]] = Err AttributeError.
Proof.
  apply (C93_labels "greater" MCall [UArr at_half; UList [0; 0]]); [cbn; lia|]. apply (lb_call _ HCompare); [cbn; tauto|].
  apply sd_compare_list. right. exists [0; 0]. reflexivity.
Qed.
Example ex_zero_compare : label_for "greater" MCall [acf at_half; None] [UArr at_half; UNum [0]] = Ok (None, [])
  /\ label_for "greater" MCall [acf at_half; None] [UArr at_half; UFalse] = Ok (None, [mkcf (Some 1) (Some (1 / 2))]).
Proof.
  split.
  - apply (C93_labels "greater" MCall [UArr at_half; UNum [0]]); [cbn; lia|]. apply (lb_call _ HCompare); [cbn; tauto|].
    apply sd_compare; [intros (v & E); discriminate|intros (v & E); discriminate|].
    cbn. apply dr_left_silent. right. split; [discriminate|]. cbn. intros v [<-|[]]. reflexivity.
  - apply (C93_labels "greater" MCall [UArr at_half; UFalse]); [cbn; lia|]. apply (lb_call _ HCompare); [cbn; tauto|].
    apply sd_compare; [intros (v & E); discriminate|intros (v & E); discriminate|].
    cbn. apply dr_left. intros [[_ Z]|[N _]]; [|exact (N eq_refl)].
    specialize (Z 3 (or_introl eq_refl)). lra.
Qed.
Example ex_columns : length (avals at_half) = (2 * 1)%nat /\ (1 <= 2)%nat.
Proof. split; [reflexivity|lia]. Qed.
Example ex_divide_number : all_right (1 / 2) (- 1) (snd (array_ufunc (each2 Rdiv) "divide" MCall [UNum [2]; UArr at_half] [] None))
                   (each2 Rdiv [[2]; phys at_half] []).
Proof.
  refine (proj2 (proj2 (proj2 (C93_numbers (1 / 2) (each2 Rdiv) "divide" 1 at_half (UNum [2]) None _ (proj1 ex_good) _))) _ _).
  - lra.
  - discriminate.
  - cbn; tauto.
  - apply scales_each2. intros t a b Ht. rewrite Rpower_O, Rpower_Ropp by exact Ht. unfold Rdiv. rewrite Rinv_mult. ring.
Qed.

Print Assumptions C93_table.
Print Assumptions C93_labels.
Print Assumptions C93_stages.
Print Assumptions C93_sound.
Print Assumptions C93_numbers.
Print Assumptions C93_right_iff.
Print Assumptions C93_right_functions.
Print Assumptions C93_wrong_functions_refuted.
Print Assumptions C93_floor_divide_alike.
Print Assumptions C93_reduce_columns.
Print Assumptions C93_reduce_default_axis_refuted.
Print Assumptions C93_initial_unchecked_refuted.
Print Assumptions C93_never.
Print Assumptions C93_out_loses_compression.
Print Assumptions C93_operators.
