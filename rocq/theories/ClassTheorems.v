(** C95: classes, shapes and attributes of the results of methods and ufuncs. *)
From Coq Require Import String List Bool Lia.
From Verif Require Import Base BaseLemmas ClassModel ClassSpec.
Import ListNotations.

(** The classes inherit as Python's class statements say. *)
Theorem C95_classes : forall c d, issubclass c d = true <-> inherits c d.
Proof.
  intros c d. split.
  - destruct c, d; cbn; intro H; try discriminate H; clear H; eauto 8 using in_self, in_step, b_unyt, b_unyt_quantity, b_cosmo, b_cosmo_quantity, b_cosmo_unyt.
  - induction 1 as [c|a b c B I IH]; [destruct c; reflexivity|].
    destruct B; destruct c; cbn in IH |- *; congruence.
Qed.

Lemma cosmo_iff : forall c, issubclass c CosmoArray = true <-> cosmo c.
Proof. intro c. unfold cosmo. destruct c; cbn; split; intro H; try discriminate; auto; destruct H; discriminate. Qed.
Lemma not_cosmo : forall c, issubclass c CosmoArray = false -> ~ cosmo c.
Proof. intros c H X. apply cosmo_iff in X. congruence. Qed.

Section Objects.
Context {F C D : Type}.
Variables (null : F) (none : C).
Notation obj := (pobj F C D).
Notation promote := (@promote F C D null none).
Notation matches_shape := (@matches_shape F C D null none).
Notation fitted := (@fitted F C D null none).

Lemma class_for_unique : forall s c d, class_for s c -> class_for s d -> c = d.
Proof. intros s c d H K. destruct H; inversion K; reflexivity. Qed.
Ltac not_class := unfold cosmo, unyt_only; let H := fresh in intro H; destruct H; discriminate.
Ltac is_class := unfold cosmo, unyt_only; auto.

Lemma fit_ok : forall o : obj, wellmade o -> fitted o (matches_shape (promote o)).
Proof.
  intros [k s d a] W. unfold wellmade in W. cbn in W.
  assert (A : cosmo k -> exists x, a = Some x) by apply W.
  assert (B : ~ cosmo k -> a = None).
  { intro N. destruct a as [x|]; [|reflexivity]. exfalso. apply N, W. eauto. }
  destruct k; unfold ClassModel.promote, ClassModel.matches_shape, isinstance, view, copy_attrs, np_view, finalize, isinstance, scalar;
    cbn [o_class o_shape o_data o_attrs]; cbn [issubclass mro existsb klass_eqb orb andb negb].
  - apply ft_other; not_class.
  - apply ft_other; not_class.
  - apply ft_other; not_class.
  - rewrite (B ltac:(not_class)). destruct s as [|n s].
    + refine (ft_unyt null none (mkp UnytArray [] d None) CosmoQuantity _ _); [is_class|apply cl_scalar].
    + refine (ft_unyt null none (mkp UnytArray (n :: s) d None) CosmoArray _ _); [is_class|apply cl_array].
  - rewrite (B ltac:(not_class)). destruct s as [|n s].
    + refine (ft_unyt null none (mkp UnytQuantity [] d None) CosmoQuantity _ _); [is_class|apply cl_scalar].
    + refine (ft_unyt null none (mkp UnytQuantity (n :: s) d None) CosmoArray _ _); [is_class|apply cl_array].
  - destruct (A ltac:(is_class)) as (x & ->). destruct s as [|n s].
    + refine (ft_cosmo null none (mkp CosmoArray [] d (Some x)) CosmoQuantity _ _); [is_class|apply cl_scalar].
    + refine (ft_cosmo null none (mkp CosmoArray (n :: s) d (Some x)) CosmoArray _ _); [is_class|apply cl_array].
  - destruct (A ltac:(is_class)) as (x & ->). destruct s as [|n s].
    + refine (ft_cosmo null none (mkp CosmoQuantity [] d (Some x)) CosmoQuantity _ _); [is_class|apply cl_scalar].
    + refine (ft_cosmo null none (mkp CosmoQuantity (n :: s) d (Some x)) CosmoArray _ _); [is_class|apply cl_array].
Qed.
Lemma fitted_unique : forall (o x y : obj), fitted o x -> fitted o y -> x = y.
Proof.
  intros o x y H K.
  assert (X : cosmo (o_class o) -> unyt_only (o_class o) -> False).
  { unfold cosmo, unyt_only. intros [A|A] [B|B]; congruence. }
  destruct H as [H1 H2|c H1 H2|c H1 H2], K as [K1 K2|e K1 K2|e K1 K2]; try contradiction; try tauto;
    rewrite (class_for_unique _ _ _ H2 K2); reflexivity.
Qed.
Lemma hand_ok : forall self o : obj, cosmo (o_class self) -> handed self o (copy_attrs self o).
Proof.
  intros self o S. unfold copy_attrs, isinstance. rewrite (proj2 (cosmo_iff _) S), andb_true_r.
  destruct (issubclass (o_class o) CosmoArray) eqn:E; cbn [negb].
  - apply hd_cosmo. apply cosmo_iff. exact E.
  - apply hd_other. apply not_cosmo. exact E.
Qed.
Lemma handed_unique : forall self o x y : obj, handed self o x -> handed self o y -> x = y.
Proof. intros self o x y H K. destruct H, K; try contradiction; reflexivity. Qed.

Lemma fit_all : forall l : list obj, (forall o, In o l -> wellmade o) ->
  Forall2 fitted l (map (fun o => matches_shape (promote o)) l).
Proof. induction l as [|o l IH]; intro W; cbn [map]; constructor; [apply fit_ok, W; left; reflexivity|apply IH; intros; apply W; right; assumption]. Qed.
Lemma fitted_all_unique : forall (l x y : list obj), Forall2 fitted l x -> Forall2 fitted l y -> x = y.
Proof.
  intros l x y H. revert y. induction H as [|a b l x H0 H IH]; intros y K; inversion K as [|a' b' l' y' K0 K1]; subst; [reflexivity|].
  rewrite (fitted_unique _ _ _ H0 K0), (IH _ K1). reflexivity.
Qed.

(** The table of methods is the one above. *)
Lemma kinds : forall m w, find (fun p => String.eqb (fst p) m) methods = Some w ->
  match snd w with Propagated => In m keeping | Both => In m fitting | Ensured => m = "squeeze"%string end.
Proof.
  intros m w H. apply find_some in H. destruct H as [I E]. apply String.eqb_eq in E. subst m.
  cbn in I. repeat (destruct I as [<-|I]; [cbn; tauto|]). contradiction.
Qed.
Lemma kind_of : forall m, In m (keeping ++ fitting ++ ["squeeze"%string]) ->
  exists w, find (fun p => String.eqb (fst p) m) methods = Some w.
Proof. intros m I. cbn in I. repeat (destruct I as [<-|I]; [eexists; reflexivity|]). contradiction. Qed.
Lemma kinds_apart : forall m, In m keeping -> In m fitting -> False.
Proof. intros m I J. cbn in I, J. repeat (destruct I as [<-|I]; [repeat (destruct J as [J|J]; [discriminate J|]); exact J|]). exact I. Qed.
Lemma squeeze_apart : ~ In "squeeze"%string keeping /\ ~ In "squeeze"%string fitting.
Proof. split; intro I; cbn in I; repeat (destruct I as [I|I]; [discriminate I|]); exact I. Qed.
Ltac apart := exfalso; destruct squeeze_apart; first [tauto|eapply kinds_apart; eassumption].

Lemma made_unique : forall (self : obj) m q r r', made null none self m q r -> made null none self m q r' -> r = r'.
Proof.
  intros self m q r r' H K.
  destruct H as [m o o' I H|m l I|m o o' o'' I H H'|m l l' I H|o o' H|l l' H];
    inversion K as [m1 p p' J L|m1 l1 J|m1 p p' p'' J L L'|m1 l1 l1' J L|p p' L|l1 l1' L]; subst; try apart; try reflexivity.
  - rewrite (handed_unique _ _ _ _ H L). reflexivity.
  - rewrite (fitted_unique _ _ _ H L) in H'. rewrite (handed_unique _ _ _ _ H' L'). reflexivity.
  - rewrite (fitted_all_unique _ _ _ H L). reflexivity.
  - rewrite (fitted_unique _ _ _ H L). reflexivity.
  - rewrite (fitted_all_unique _ _ _ H L). reflexivity.
Qed.

(** C95: every method gives unyt's (or numpy's) result with the class and the attributes of its kind. *)
Theorem C95_methods : forall m (f : obj -> res (outcome F C D)) self, In m (keeping ++ fitting ++ ["squeeze"%string]) ->
  cosmo (o_class self) -> (forall q, f self = Ok q -> wellmade_all q) ->
  (forall e, call null none m f self = Err e <-> f self = Err e)
  /\ (forall r, call null none m f self = Ok r <-> exists q, f self = Ok q /\ made null none self m q r).
Proof.
  intros m f self I S W. destruct (kind_of m I) as (w & E). pose proof (kinds _ _ E) as K.
  assert (X : forall q, f self = Ok q -> exists r, call null none m f self = Ok r /\ made null none self m q r).
  { intros q Q. specialize (W q Q). unfold call. rewrite E. destruct w as [m' w]; cbn [snd] in *.
    destruct w; cbn [wrapped]; unfold propagate, ensure; rewrite Q; cbn [bind]; eexists; (split; [reflexivity|]).
    - destruct q as [o|l]; cbn [copy_to]; [apply md_keeping|apply md_keeping_tuple]; try exact K. apply hand_ok; exact S.
    - destruct q as [o|l]; cbn [copy_to ensured]; [eapply md_fitting|apply md_fitting_tuple]; try exact K.
      + apply fit_ok. exact W.
      + apply hand_ok. exact S.
      + apply fit_all. exact W.
    - subst m. destruct q as [o|l]; cbn [ensured]; [apply md_squeeze, fit_ok; exact W|apply md_squeeze_tuple, fit_all; exact W]. }
  assert (Y : forall e, f self = Err e -> call null none m f self = Err e).
  { intros e Q. unfold call. rewrite E. destruct w as [m' w]; destruct w; cbn [wrapped snd]; unfold propagate, ensure; rewrite Q; reflexivity. }
  split.
  - intro e. split; [|apply Y]. intro H. destruct (f self) as [q|e'] eqn:Q.
    + destruct (X q eq_refl) as (r & R & _). rewrite R in H. discriminate H.
    + rewrite (Y e' eq_refl) in H. injection H as <-. reflexivity.
  - intro r. split.
    + intro H. destruct (f self) as [q|e'] eqn:Q.
      * destruct (X q eq_refl) as (r' & R & M). rewrite R in H. injection H as <-. eauto.
      * rewrite (Y e' eq_refl) in H. discriminate H.
    + intros (q & Q & M). destruct (X q Q) as (r' & R & M'). rewrite R, (made_unique _ _ _ _ _ M M'). reflexivity.
Qed.
Theorem C95_no_other_method : forall m (f : obj -> res (outcome F C D)) self, ~ In m (keeping ++ fitting ++ ["squeeze"%string]) ->
  call null none m f self = Err AttributeError.
Proof.
  intros m f self N. unfold call. destruct (find (fun p => String.eqb (fst p) m) methods) as [w|] eqn:E; [|reflexivity].
  exfalso. apply N. apply kinds in E. destruct (snd w); rewrite !in_app_iff; [left|right; left|right; right; left]; auto.
Qed.

(** C95: indexing, taking, reshaping and rounding give an array or a quantity as the shape asks for, with the
    attributes of the array, whatever unyt returned. *)
Theorem C95_indexing : forall m (f : obj -> res (outcome F C D)) self o r, In m fitting -> cosmo (o_class self) ->
  f self = Ok (One o) -> wellmade o -> cosmo (o_class o) \/ unyt_only (o_class o) ->
  call null none m f self = Ok r ->
  exists c, class_for (o_shape o) c /\ r = One (mkp c (o_shape o) (o_data o) (o_attrs self)).
Proof.
  intros m f self o r I S Q W U H.
  assert (I' : In m (keeping ++ fitting ++ ["squeeze"%string])) by (rewrite !in_app_iff; tauto).
  assert (W' : forall q, f self = Ok q -> wellmade_all q) by (intros q Q'; rewrite Q in Q'; injection Q' as <-; exact W).
  apply (proj2 (C95_methods m f self I' S W')) in H. destruct H as (q & Q' & M). rewrite Q in Q'. injection Q' as <-.
  inversion M as [m1 p p' J L|m1 l1 J|m1 p p' p'' J L L'|m1 l1 l1' J L|p p' L|l1 l1' L]; subst; try apart.
  assert (CF : forall s c, class_for s c -> cosmo c) by (intros s c X; destruct X; unfold cosmo; auto).
  destruct L as [L1 L2|c L1 L2|c L1 L2]; [tauto| |]; exists c; (split; [exact L2|]); apply CF in L2;
    inversion L' as [X|X]; subst; cbn [o_class o_shape o_data] in *; try contradiction; reflexivity.
Qed.
(** C95: all but [squeeze] give arrays the attributes of [self]; [squeeze] leaves those numpy put there. *)
Theorem C95_attributes : forall m (f : obj -> res (outcome F C D)) self o r, In m (keeping ++ fitting ++ ["squeeze"%string]) ->
  cosmo (o_class self) -> f self = Ok (One o) -> wellmade o -> call null none m f self = Ok (One r) -> cosmo (o_class r) ->
  o_shape r = o_shape o /\ o_data r = o_data o
  /\ (m <> "squeeze"%string -> o_attrs r = o_attrs self)
  /\ (m = "squeeze"%string -> cosmo (o_class o) -> o_attrs r = o_attrs o)
  /\ (m = "squeeze"%string -> ~ cosmo (o_class o) -> o_attrs r = Some (mkat null None none true)).
Proof.
  intros m f self o r I S Q W H R.
  assert (W' : forall q, f self = Ok q -> wellmade_all q) by (intros q Q'; rewrite Q in Q'; injection Q' as <-; exact W).
  apply (proj2 (C95_methods m f self I S W')) in H. destruct H as (q & Q' & M). rewrite Q in Q'. injection Q' as <-.
  inversion M as [m1 p p' J L|m1 l1 J|m1 p p' p'' J L L'|m1 l1 l1' J L|p p' L|l1 l1' L]; subst.
  - assert (m <> "squeeze"%string) by (intros ->; destruct squeeze_apart; contradiction).
    destruct L; [|contradiction]. cbn. repeat split; intros; try reflexivity; contradiction.
  - assert (m <> "squeeze"%string) by (intros ->; destruct squeeze_apart; contradiction).
    assert (o_shape p' = o_shape o /\ o_data p' = o_data o) as [P1 P2] by (destruct L; split; reflexivity).
    destruct L' as [X|X]; [|contradiction]. cbn. repeat split; intros; try reflexivity; try assumption; contradiction.
  - destruct L as [L1 L2|c L1 L2|c L1 L2]; [contradiction| |]; cbn; repeat split; intros; try reflexivity; try contradiction.
    unfold cosmo, unyt_only in *. destruct L1 as [L1|L1]; rewrite L1 in *; destruct H0; discriminate.
Qed.

(** C95: the methods that only keep attributes do not look at the shape: whenever numpy derives an array from a
    quantity the result still is a quantity. *)
Theorem C95_quantity_with_axes_refuted : forall m (self : obj) n s (d : D) a, In m keeping -> o_class self = CosmoQuantity ->
  o_attrs self = Some a ->
  call null none m (fun x => Ok (One (derive null none x (n :: s) d))) self = Ok (One (mkp CosmoQuantity (n :: s) d (Some a))).
Proof.
  intros m self n s d a I S A.
  assert (I' : In m (keeping ++ fitting ++ ["squeeze"%string])) by (rewrite !in_app_iff; tauto).
  assert (Sc : cosmo (o_class self)) by (rewrite S; unfold cosmo; auto).
  assert (G : derive null none self (n :: s) d = mkp CosmoQuantity (n :: s) d (Some a)).
  { unfold derive, finalize. rewrite S, A. reflexivity. }
  apply (C95_methods m _ self I' Sc).
  - intros q Q. injection Q as <-. unfold wellmade_all, wellmade. rewrite G. cbn. unfold cosmo. split; intro; [auto|eauto].
  - exists (One (mkp CosmoQuantity (n :: s) d (Some a))). split; [rewrite G; reflexivity|]. apply md_keeping; [exact I|].
    rewrite <- A. refine (hd_cosmo self (mkp CosmoQuantity (n :: s) d _) _). cbn. unfold cosmo. auto.
Qed.

(** C95: times a unit: unyt's result with the class for its shape and the attributes of the array. *)
Theorem C95_times_unit : forall (b : obj -> res (outcome F C D)) self r, cosmo (o_class self) ->
  (forall o q, b o = Ok q -> wellmade_all q) ->
  let plain := mkp (match o_shape self with [] => UnytQuantity | _ => UnytArray end) (o_shape self) (o_data self) None in
  (mul_unit null none b self = r <->
   match b plain with
   | Err e => r = Err e
   | Ok (One o) => exists o' o'', fitted o o' /\ handed self o' o'' /\ r = Ok (One o'')
   | Ok (Tuple l) => exists l', Forall2 fitted l l' /\ r = Ok (Tuple l')
   end).
Proof.
  intros b self r S W plain. unfold mul_unit, ensure.
  assert (V : (if scalar self then view null none UnytQuantity self else view null none UnytArray self) = plain).
  { unfold plain, scalar, view, copy_attrs, np_view, isinstance. rewrite (proj2 (cosmo_iff _) S).
    destruct (o_shape self); reflexivity. }
  rewrite V. specialize (W plain). destruct (b plain) as [[o|l]|e]; cbn [bind ensured copy_to].
  - specialize (W _ eq_refl). cbn in W. split.
    + intros <-. eexists. eexists. split; [apply fit_ok; exact W|]. split; [apply hand_ok; exact S|reflexivity].
    + intros (o' & o'' & A & B & ->). rewrite (fitted_unique _ _ _ A (fit_ok _ W)) in B.
      rewrite (handed_unique _ _ _ _ B (hand_ok _ _ S)). reflexivity.
  - specialize (W _ eq_refl). cbn in W. split.
    + intros <-. eexists. split; [apply fit_all; exact W|reflexivity].
    + intros (l' & A & ->). rewrite (fitted_all_unique _ _ _ A (fit_all _ W)). reflexivity.
  - split; [intros <-; reflexivity|intros ->; reflexivity].
Qed.

(** * Results of ufuncs *)
Lemma given_ok : forall a (o : obj), wellmade o -> given a o (set_attrs a (matches_shape (promote o))).
Proof.
  intros a o W. pose proof (fit_ok o W) as H. set (p := matches_shape (promote o)) in *. clearbody p.
  unfold set_attrs, isinstance. destruct H as [A B|c A B|c A B]; cbn [o_class].
  - destruct (issubclass (o_class o) CosmoArray) eqn:E; [apply cosmo_iff in E; contradiction|]. apply gv_other; assumption.
  - rewrite (proj2 (cosmo_iff c)) by (destruct B; unfold cosmo; auto). cbn. apply gv_fit; auto.
  - rewrite (proj2 (cosmo_iff c)) by (destruct B; unfold cosmo; auto). cbn. apply gv_fit; auto.
Qed.
Lemma given_unique : forall a (o x y : obj), given a o x -> given a o y -> x = y.
Proof.
  intros a o x y H K. destruct H as [A B|c A B], K as [A' B'|c' A' B']; try tauto.
  rewrite (class_for_unique _ _ _ B B'). reflexivity.
Qed.
Lemma all_unique : forall (R : obj -> obj -> Prop), (forall o x y, R o x -> R o y -> x = y) ->
  forall l x y, Forall2 R l x -> Forall2 R l y -> x = y.
Proof.
  intros R U l x y H. revert y. induction H as [|a b l x H0 H IH]; intros y K; inversion K as [|a' b' l' y' K0 K1]; subst; [reflexivity|].
  rewrite (U _ _ _ H0 K0), (IH _ K1). reflexivity.
Qed.
Theorem C95_ufunc_results : forall a (q r : outcome F C D), wellmade_all q ->
  (ufunc_result null none a q = r <-> given_all a q r).
Proof.
  intros a q r W.
  assert (G : given_all a q (ufunc_result null none a q)).
  { unfold ufunc_result. destruct q as [o|l]; cbn [ensured].
    - apply ga_one, given_ok. exact W.
    - apply ga_tuple. rewrite map_map. cbn in W. induction l as [|o l IH]; cbn [map]; constructor.
      + apply given_ok, W. left. reflexivity.
      + apply IH. intros x X. apply W. right. exact X. }
  split; [intros <-; exact G|]. intro K. revert G. generalize (ufunc_result null none a q). intros r' G.
  destruct K as [o o' K|l l' K]; inversion G as [p p' G'|p p' G']; subst.
  - rewrite (given_unique _ _ _ _ G' K). reflexivity.
  - rewrite (all_unique _ (given_unique a) _ _ _ G' K). reflexivity.
Qed.

Lemma hooked_unique : forall a (o x y : obj), hooked a o x -> hooked a o y -> x = y.
Proof.
  intros a o x y H K.
  assert (X : cosmo (o_class o) -> unyt_only (o_class o) -> False).
  { unfold cosmo, unyt_only. intros [A|A] [B|B]; congruence. }
  destruct H as [A B|A|c A B], K as [A' B'|A'|c' A' B']; try tauto; try reflexivity.
  rewrite (class_for_unique _ _ _ B B'). reflexivity.
Qed.
Lemma hooked_each_unique : forall a (o x y : obj), hooked_each a o x -> hooked_each a o y -> x = y.
Proof.
  intros a o x y H K.
  assert (X : cosmo (o_class o) -> unyt_only (o_class o) -> False).
  { unfold cosmo, unyt_only. intros [A|A] [B|B]; congruence. }
  destruct H as [T Z|A N|A N|T A B N], K as [T' Z'|A' N'|A' N'|T' A' B' N']; try tauto; reflexivity.
Qed.
Lemma hook_item_ok : forall a (o : obj), wellmade o -> o_class o <> Thing ->
  exists p, hook_item null none o = Ok p /\ hooked_each a o (set_attrs a p).
Proof.
  intros a [k s d t] W N. cbn in N. unfold hook_item. cbn [o_class].
  assert (Q : (match k with Thing => Err AttributeError
               | _ => Ok (if scalar (mkp k s d t) then view null none CosmoQuantity (mkp k s d t)
                          else if isinstance (mkp k s d t) UnytArray && negb (isinstance (mkp k s d t) CosmoArray)
                          then view null none CosmoArray (mkp k s d t) else mkp k s d t) end)
              = Ok (if scalar (mkp k s d t) then view null none CosmoQuantity (mkp k s d t)
                          else if isinstance (mkp k s d t) UnytArray && negb (isinstance (mkp k s d t) CosmoArray)
                          then view null none CosmoArray (mkp k s d t) else mkp k s d t)).
  { destruct k; try reflexivity. contradiction. }
  rewrite Q. eexists. split; [reflexivity|]. clear Q. unfold scalar. cbn [o_shape]. destruct s as [|n s].
  - assert (E : set_attrs a (view null none CosmoQuantity (mkp k [] d t)) = mkp CosmoQuantity [] d (Some a)) by (destruct k; reflexivity).
    rewrite E. exact (he_scalar a (mkp k [] d t) N eq_refl).
  - destruct k; cbn [isinstance o_class issubclass mro existsb klass_eqb orb andb negb] in *.
    + contradiction.
    + apply (he_other a (mkp Foreign (n :: s) d t)); cbn; try not_class; discriminate.
    + apply (he_other a (mkp Ndarray (n :: s) d t)); cbn; try not_class; discriminate.
    + apply (he_unyt a (mkp UnytArray (n :: s) d t)); cbn; try is_class; discriminate.
    + apply (he_unyt a (mkp UnytQuantity (n :: s) d t)); cbn; try is_class; discriminate.
    + apply (he_cosmo a (mkp CosmoArray (n :: s) d t)); cbn; try is_class; discriminate.
    + apply (he_cosmo a (mkp CosmoQuantity (n :: s) d t)); cbn; try is_class; discriminate.
Qed.
Lemma hooked_each_shape : forall a (o p : obj), hooked_each a o p -> o_class o <> Thing.
Proof. intros a o p H X. destruct H as [T Z|A N|A N|T A B N]; unfold cosmo, unyt_only in *; try contradiction; rewrite X in A; destruct A; discriminate. Qed.

(** C95: every outcome of the hook of unyt. *)
Theorem C95_hook_results : forall a (q : outcome F C D) r, wellmade_all q ->
  (hook_result null none a q = r <-> hooked_all a q r).
Proof.
  intros a q r W.
  assert (T : forall l : list obj, (forall o, In o l -> wellmade o) ->
     (exists o, In o l /\ o_class o = Thing /\ all_ok (map (hook_item null none) l) = Err AttributeError)
     \/ exists l', all_ok (map (hook_item null none) l) = Ok l' /\ Forall2 (hooked_each a) l (map (set_attrs a) l')).
  { induction l as [|o l IH]; intro W'.
    - right. exists []. split; [reflexivity|constructor].
    - destruct (klass_eqb (o_class o) Thing) eqn:E.
      + left. exists o. assert (K : o_class o = Thing) by (destruct (o_class o); try discriminate E; reflexivity).
        split; [left; reflexivity|]. split; [exact K|]. cbn [map all_ok]. unfold hook_item at 1. rewrite K. reflexivity.
      + assert (K : o_class o <> Thing) by (intro K; rewrite K in E; discriminate E).
        destruct (hook_item_ok a o (W' o (or_introl eq_refl)) K) as (p & P & H).
        destruct (IH (fun x X => W' x (or_intror X))) as [(x & X & Y & Z)|(l' & A & B)].
        * left. exists x. split; [right; exact X|]. split; [exact Y|]. cbn [map all_ok]. rewrite P, Z. reflexivity.
        * right. exists (p :: l'). split; [cbn [map all_ok]; rewrite P, A; reflexivity|]. cbn [map]. constructor; assumption. }
  assert (G : hooked_all a q (hook_result null none a q)).
  { destruct q as [o|l]; cbn [hook_result].
    - unfold isinstance. destruct o as [k s d t]. cbn [wellmade_all] in W. unfold wellmade in W. cbn in W.
      destruct k; cbn [o_class issubclass mro existsb klass_eqb orb negb].
      + apply ha_one, hk_other; not_class.
      + apply ha_one, hk_other; not_class.
      + apply ha_one, hk_other; not_class.
      + apply ha_one. destruct s as [|n s];
          [refine (hk_unyt a (mkp UnytArray [] d t) CosmoQuantity _ _)|refine (hk_unyt a (mkp UnytArray (n :: s) d t) CosmoArray _ _)];
          first [is_class; fail|apply cl_scalar|apply cl_array].
      + apply ha_one. destruct s as [|n s];
          [refine (hk_unyt a (mkp UnytQuantity [] d t) CosmoQuantity _ _)|refine (hk_unyt a (mkp UnytQuantity (n :: s) d t) CosmoArray _ _)];
          first [is_class; fail|apply cl_scalar|apply cl_array].
      + apply ha_one. refine (hk_cosmo a (mkp CosmoArray s d t) _). is_class.
      + apply ha_one. refine (hk_cosmo a (mkp CosmoQuantity s d t) _). is_class.
    - destruct (T l W) as [(o & I & K & ->)|(l' & -> & B)]; cbn [bind].
      + apply (ha_no_shape a l o); assumption.
      + apply ha_tuple. exact B. }
  split; [intros <-; exact G|]. intro K. revert G. generalize (hook_result null none a q). intros r' G.
  assert (No : forall (l : list obj) l' o, Forall2 (hooked_each a) l l' -> In o l -> o_class o = Thing -> False).
  { intros l l' o H I X. apply In_nth_error in I. destruct I as (i & I). revert i I.
    induction H as [|x y l l' H0 H IH]; intros [|i] I; try discriminate I; cbn in I.
    - injection I as ->. exact (hooked_each_shape _ _ _ H0 X).
    - exact (IH i I). }
  destruct K as [o o' K|l l' K|l o I K]; inversion G as [p p' G'|p p' G'|p p' I' G']; subst; try reflexivity.
  - rewrite (hooked_unique _ _ _ _ G' K). reflexivity.
  - rewrite (all_unique _ (hooked_each_unique a) _ _ _ G' K). reflexivity.
  - exfalso. eapply No; eassumption.
  - exfalso. eapply No; eassumption.
Qed.

(** The object has the class its shape asks for. *)
Definition proper (o : obj) : Prop := cosmo (o_class o) -> class_for (o_shape o) (o_class o).
(** C95: the two ways agree on one result unless it is of the package and has the wrong class for its shape; on
    several when moreover all of them are arrays and those without unit are no scalars. *)
Theorem C95_hook_agrees : forall a (q : outcome F C D), wellmade_all q ->
  (hook_result null none a q = Ok (ufunc_result null none a q) <->
   match q with
   | One o => proper o
   | Tuple l => forall o, In o l -> o_class o <> Thing /\ (o_class o = CosmoQuantity -> o_shape o = [])
                          /\ (o_class o = Foreign \/ o_class o = Ndarray -> o_shape o <> [])
   end).
Proof.
  intros a q W. rewrite (C95_hook_results a q _ W).
  assert (G : given_all a q (ufunc_result null none a q)) by (apply C95_ufunc_results; [exact W|reflexivity]).
  revert G. generalize (ufunc_result null none a q). intros r G.
  assert (X : forall o : obj, cosmo (o_class o) -> unyt_only (o_class o) -> False).
  { intro o. unfold cosmo, unyt_only. intros [A|A] [B|B]; congruence. }
  destruct q as [o|l].
  - inversion G as [p p' G'|]; subst. unfold proper. split.
    + intro H. inversion H as [p q H'| |]; subst. intro Cs. destruct G' as [A B|c A B]; [contradiction|].
      clear H G. remember (mkp c (o_shape o) (o_data o) (Some a)) as y eqn:Ey. destruct H' as [A' B'|A'|c' A' B'].
      * contradiction.
      * injection Ey as E1. rewrite E1. exact B.
      * exfalso. eapply X; eassumption.
    + intro H. apply ha_one. destruct G' as [A B|c [A|A] B].
      * apply hk_other; assumption.
      * rewrite (class_for_unique _ _ _ B (H A)). apply hk_cosmo. exact A.
      * apply hk_unyt; assumption.
  - inversion G as [|p l' G']; subst. clear G W. split.
    + intro H. inversion H as [|p q H'|]; subst. clear H. revert l' G' H'. induction l as [|o l IH]; intros l' G H o' I; [contradiction I|].
      inversion G as [|x y xs ys G0 G1]; subst. inversion H as [|x' y' xs' ys' H0 H1]; subst.
      destruct I as [<-|I]; [|exact (IH _ G1 H1 o' I)]. split; [exact (hooked_each_shape _ _ _ H0)|]. split.
      * intro K. assert (Cs : cosmo (o_class o)) by (rewrite K; unfold cosmo; auto).
        destruct G0 as [A B|c A B]; [contradiction|]. clear G H.
        remember (mkp c (o_shape o) (o_data o) (Some a)) as y eqn:Ey. destruct H0 as [T Z|U N|Co N|T A' B' N].
        -- exact Z.
        -- exfalso; eapply X; eassumption.
        -- injection Ey as E1. rewrite <- E1, K in B. inversion B; subst; congruence.
        -- contradiction.
      * intros K N.
        assert (NC : ~ cosmo (o_class o)) by (unfold cosmo; intros [L|L]; rewrite L in K; destruct K; discriminate).
        assert (NU : ~ unyt_only (o_class o)) by (unfold unyt_only; intros [L|L]; rewrite L in K; destruct K; discriminate).
        destruct G0 as [A B|c A B]; [|tauto]. clear G H.
        assert (Y : forall y, hooked_each a o y -> y <> o).
        { intros y Hy E. destruct Hy as [T Z|U N'|Co N'|T A' B' N']; try contradiction.
          rewrite <- E in NC. apply NC. unfold cosmo. auto. }
        exact (Y _ H0 eq_refl).
    + intro H. apply ha_tuple. induction G' as [|o p l l' G0 G1 IH]; constructor.
      * destruct (H o (or_introl eq_refl)) as (T & Q & P). destruct G0 as [A B|c A B].
        -- apply he_other; try assumption. apply P. destruct (o_class o); auto; try contradiction; exfalso;
             first [apply A; unfold cosmo; tauto|apply B; unfold unyt_only; tauto].
        -- destruct (o_shape o) as [|n s] eqn:Sh.
           ++ inversion B; subst. exact (he_scalar a o T Sh).
           ++ inversion B; subst. rewrite <- Sh. destruct A as [A|A].
              ** assert (o_class o = CosmoArray) as K by (destruct A as [A|A]; [exact A|]; specialize (Q A); discriminate Q).
                 rewrite <- K. apply he_cosmo; [exact A|congruence].
              ** apply he_unyt; [exact A|congruence].
      * apply IH. intros x I. apply H. right. exact I.
Qed.
End Objects.

(** * Which function answers *)
Lemma klass_eqb_iff : forall a b, klass_eqb a b = true <-> a = b.
Proof. intros a b. destruct a, b; cbn; split; intro H; try reflexivity; discriminate. Qed.

Section Dispatch.
Context {N : Type}.
Variables (unsupported own unyts : N -> bool).
Notation array_function := (array_function unsupported own unyts).
Notation dispatch := (dispatch unsupported own unyts).

(** C95: every answer of [__array_function__]. *)
Theorem C95_answers : forall func types r, array_function func types = r <-> answers unsupported own unyts func types r.
Proof.
  intros func types r.
  assert (A : forallb (fun t => issubclass t CosmoArray || klass_eqb t Ndarray) types = true
              <-> forall t, In t types -> cosmo t \/ t = Ndarray).
  { rewrite forallb_forall. split; intros H t I; specialize (H t I).
    - apply orb_true_iff in H. rewrite cosmo_iff, klass_eqb_iff in H. exact H.
    - apply orb_true_iff. rewrite cosmo_iff, klass_eqb_iff. exact H. }
  unfold ClassModel.array_function. split.
  - intros <-. destruct (unsupported func) eqn:U; [apply an_unsupported; exact U|].
    destruct (forallb _ types) eqn:L; cbn [negb].
    + pose proof (proj1 A eq_refl) as L'. destruct (own func) eqn:O; [apply an_own; assumption|].
      destruct (unyts func) eqn:Y; [apply an_unyt|apply an_numpy]; assumption.
    + assert (X : exists t, In t types /\ (issubclass t CosmoArray || klass_eqb t Ndarray) = false).
      { clear A. induction types as [|t l IH]; [discriminate L|]. cbn [forallb] in L. apply andb_false_iff in L. destruct L as [L|L].
        - exists t. split; [left; reflexivity|exact L].
        - destruct (IH L) as (x & I & X). exists x. split; [right; exact I|exact X]. }
      destruct X as (t & I & X). apply orb_false_iff in X. destruct X as [X Y].
      apply (an_class _ _ _ _ _ t I); [apply not_cosmo; exact X|]. intro E. apply klass_eqb_iff in E. congruence.
  - intro H. destruct H as [U|t I X Y|U L O|U L O Y|U L O Y]; rewrite ?U; try reflexivity.
    + destruct (unsupported func); [reflexivity|]. destruct (forallb _ types) eqn:L; [|reflexivity].
      destruct (proj1 A eq_refl t I); contradiction.
    + rewrite (proj2 A L), O. reflexivity.
    + rewrite (proj2 A L), O, Y. reflexivity.
    + rewrite (proj2 A L), O, Y. reflexivity.
Qed.

Lemma insert_in : forall t l x, In x (insert t l) <-> x = t \/ In x l.
Proof.
  intros t l x. induction l as [|u l IH]; cbn [insert]; [cbn; intuition|].
  destruct (issubclass t u); cbn [In]; [intuition|]. rewrite IH. intuition.
Qed.
Lemma collect_in : forall args seen x, In x (collect seen args) <-> In x seen \/ (In x args /\ x <> Thing).
Proof.
  induction args as [|t rest IH]; intros seen x; [cbn; tauto|].
  assert (E : t <> Thing -> collect seen (t :: rest) = collect (if existsb (klass_eqb t) seen then seen else insert t seen) rest)
    by (intro T; destruct t; try reflexivity; contradiction).
  assert (T : t = Thing \/ t <> Thing) by (destruct t; (left; reflexivity) || (right; discriminate)). destruct T as [->|T].
  - cbn [collect]. rewrite IH. cbn [In]. intuition congruence.
  - rewrite (E T), IH. cbn [In]. destruct (existsb (klass_eqb t) seen) eqn:X.
    + apply existsb_exists in X. destruct X as (y & Y & K). apply klass_eqb_iff in K. subst y. intuition congruence.
    + rewrite insert_in. intuition congruence.
Qed.
(** C95: the classes asked: those of the arguments, except things that take no part. *)
Theorem C95_classes_asked : forall args x, In x (collect [] args) <-> In x args /\ x <> Thing.
Proof. intros args x. rewrite collect_in. cbn. tauto. Qed.

(** C95: with an array of unyt alone (or of another package) among the arguments no function of the package is used,
    and the answer is that of the other class. *)
Theorem C95_mixed : forall others func args t, In t args -> t <> Thing -> t <> Ndarray -> ~ cosmo t ->
  (forall c, others c <> OwnFunction) ->
  dispatch others func args <> Ok OwnFunction
  /\ (forall r, dispatch others func args = Ok r -> exists c, In c args /\ ~ cosmo c /\ others c = r).
Proof.
  intros others func args t I T Nd Nc O. unfold ClassModel.dispatch. set (types := collect [] args).
  assert (A : array_function func types = NotImpl).
  { apply C95_answers. apply (an_class _ _ _ _ _ t); try assumption. apply C95_classes_asked. split; assumption. }
  assert (G : forall todo r, (forall c, In c todo -> In c args) -> ask unsupported own unyts others func types todo = Ok r ->
              exists c, In c args /\ ~ cosmo c /\ others c = r).
  { induction todo as [|c todo IH]; intros r S H; [discriminate H|]. cbn [ask] in H.
    destruct (issubclass c CosmoArray) eqn:X.
    - rewrite A in H. apply IH; [intros; apply S; right; assumption|exact H].
    - destruct (others c) eqn:Y; [apply IH; [intros; apply S; right; assumption|exact H]| | |];
        injection H as <-; exists c; (split; [apply S; left; reflexivity|]); (split; [apply not_cosmo; exact X|exact Y]). }
  assert (G' : forall r, ask unsupported own unyts others func types types = Ok r -> exists c, In c args /\ ~ cosmo c /\ others c = r).
  { intros r. apply G. intros c K. apply C95_classes_asked in K. tauto. }
  split; [|exact G']. intro H. destruct (G' _ H) as (c & _ & _ & K). exact (O c K).
Qed.

Lemma collect_head : forall args seen, (forall t, In t args -> t = Thing \/ t = Ndarray \/ cosmo t) ->
  (seen = [] \/ seen = [Ndarray] \/ exists c l, seen = c :: l /\ cosmo c) ->
  (exists c, (In c args \/ In c seen) /\ cosmo c) -> exists c l, collect seen args = c :: l /\ cosmo c.
Proof.
  induction args as [|t rest IH]; intros seen A S (c & I & K).
  - cbn [collect]. destruct I as [[]|I]. destruct S as [->|[->|S]]; [contradiction I| |exact S].
    destruct I as [<-|[]]. unfold cosmo in K. destruct K; discriminate.
  - assert (R : forall t, In t rest -> t = Thing \/ t = Ndarray \/ cosmo t) by (intros x X; apply A; right; exact X).
    destruct (A t (or_introl eq_refl)) as [->|[->|Ct]].
    + cbn [collect]. apply IH; [exact R|exact S|]. exists c. split; [|exact K]. cbn [In] in I.
      destruct I as [[I|I]|I]; [subst c; unfold cosmo in K; destruct K; discriminate|left; exact I|right; exact I].
    + cbn [collect]. apply IH; [exact R| |].
      * destruct S as [->|[->|(d & l & -> & Kd)]]; [right; left; reflexivity|right; left; reflexivity|]. right. right.
        destruct (existsb (klass_eqb Ndarray) (d :: l)); [eauto|].
        exists d, (insert Ndarray l). split; [|exact Kd]. destruct Kd as [->| ->]; reflexivity.
      * exists c. split; [|exact K]. cbn [In] in I. destruct I as [[I|I]|I].
        -- subst c; unfold cosmo in K; destruct K; discriminate.
        -- left; exact I.
        -- right. destruct (existsb (klass_eqb Ndarray) seen); [exact I|]. apply insert_in. right. exact I.
    + assert (E : collect seen (t :: rest) = collect (if existsb (klass_eqb t) seen then seen else insert t seen) rest)
        by (destruct Ct as [->| ->]; reflexivity).
      rewrite E. clear E. apply IH; [exact R| |].
      * right. right. destruct (existsb (klass_eqb t) seen) eqn:X.
        -- destruct S as [->|[->|S]]; [discriminate X|destruct Ct as [->| ->]; discriminate X|exact S].
        -- destruct S as [->|[->|(d & l & -> & Kd)]]; [exists t, []; split; [reflexivity|exact Ct]
             |exists t, [Ndarray]; split; [destruct Ct as [->| ->]; reflexivity|exact Ct]|].
           cbn [insert]. destruct (issubclass t d); [exists t, (d :: l)|exists d, (insert t l)]; split; (reflexivity || assumption).
      * exists t. split; [|exact Ct]. right. destruct (existsb (klass_eqb t) seen) eqn:X.
        -- apply existsb_exists in X. destruct X as (y & Y & Z). apply klass_eqb_iff in Z. subst y. exact Y.
        -- apply insert_in. left. reflexivity.
Qed.
(** C95: with arrays of the package and plain ones only, the package's function is used if there is one, else unyt's,
    else numpy's own, unless unyt refuses the function. *)
Theorem C95_pure : forall others func args c, (forall t, In t args -> t = Thing \/ t = Ndarray \/ cosmo t) -> In c args -> cosmo c ->
  unsupported func = false ->
  dispatch others func args = Ok (if own func then OwnFunction else if unyts func then UnytFunction else NumpyFunction).
Proof.
  intros others func args c A I K U. unfold ClassModel.dispatch.
  destruct (collect_head args [] A (or_introl eq_refl) (ex_intro _ c (conj (or_introl I) K))) as (d & l & E & Kd).
  assert (X : array_function func (collect [] args) = if own func then OwnFunction else if unyts func then UnytFunction else NumpyFunction).
  { assert (L : forall t, In t (collect [] args) -> cosmo t \/ t = Ndarray).
    { intros t T. apply C95_classes_asked in T. destruct T as [T1 T2]. destruct (A t T1) as [->|[->|T3]]; tauto. }
    apply C95_answers. destruct (own func) eqn:O; [apply an_own; assumption|].
    destruct (unyts func) eqn:Y; [apply an_unyt|apply an_numpy]; assumption. }
  revert X. rewrite E. intro X. cbn [ask]. rewrite (proj2 (cosmo_iff d) Kd), X.
  destruct (own func), (unyts func); reflexivity.
Qed.
(** C95: what unyt refuses is refused for arrays of the package alone. *)
Theorem C95_refused : forall others func args, (forall t, In t args -> t = Thing \/ cosmo t) -> unsupported func = true ->
  dispatch others func args = Err TypeError.
Proof.
  intros others func args A U. unfold ClassModel.dispatch. set (types := collect [] args).
  assert (X : array_function func types = NotImpl) by (apply C95_answers; apply an_unsupported; exact U).
  assert (L : forall t, In t types -> cosmo t).
  { intros t T. apply C95_classes_asked in T. destruct T as [T1 T2]. destruct (A t T1); tauto. }
  clearbody types. assert (G : forall todo, (forall t, In t todo -> cosmo t) -> ask unsupported own unyts others func types todo = Err TypeError).
  { induction todo as [|t todo IH]; intro S; [reflexivity|]. cbn [ask].
    rewrite (proj2 (cosmo_iff t) (S t (or_introl eq_refl))), X. apply IH. intros; apply S; right; assumption. }
  apply G. exact L.
Qed.
End Dispatch.

(** * Texts *)
Lemma append_inj : forall a x y, (a ++ x)%string = (a ++ y)%string -> x = y.
Proof. induction a as [|h a IH]; intros x y H; [exact H|]. cbn in H. injection H as H. exact (IH _ _ H). Qed.
(** C95: the text of an array. *)
Theorem C95_text : forall s cm, array_text s cm = (s ++ " (Comoving)")%string <-> cm = Some true.
Proof.
  intros s cm. split.
  - intro H. apply append_inj in H. destruct cm as [[|]|]; [reflexivity|discriminate H|discriminate H].
  - intros ->. reflexivity.
Qed.
(** C95: the text of an array tells its frame. *)
Theorem C95_text_tells_frame : forall s cm cm', array_text s cm = array_text s cm' <-> cm = cm'.
Proof.
  intros s cm cm'. split; [|intros ->; reflexivity]. unfold array_text. intro H. apply append_inj in H.
  destruct cm as [[|]|], cm' as [[|]|]; try reflexivity; discriminate H.
Qed.

(** * Cases *)
Section Cases.
Let two : pobj nat nat nat := mkp CosmoArray [3] 7 (Some (mkat 5 (Some true) 0 true)).
Let one : pobj nat nat nat := mkp CosmoQuantity [] 7 (Some (mkat 5 (Some true) 0 true)).
(** unyt's indexing gives a quantity of its own without attributes. *)
Let item : pobj nat nat nat -> res (outcome nat nat nat) := fun x => Ok (One (mkp UnytQuantity [] (o_data x) None)).
Example C95_item_case : call 0 0 "__getitem__" item two = Ok (One one).
Proof. reflexivity. Qed.
Example C95_squeeze_case :
  call 0 0 "squeeze" item two = Ok (One (mkp CosmoQuantity [] 7 (Some (mkat 0 None 0 true)))).
Proof. reflexivity. Qed.
Example C95_hypotheses_case : In "__getitem__"%string fitting /\ cosmo (o_class two)
  /\ wellmade (mkp UnytQuantity [] 7 None : pobj nat nat nat) /\ wellmade two /\ unyt_only UnytQuantity.
Proof.
  split; [cbn; tauto|]. split; [left; reflexivity|]. split; [|split].
  - split; [intros (a & X); discriminate X|intros [X|X]; discriminate X].
  - split; [intros _; left; reflexivity|intros _; eexists; reflexivity].
  - right; reflexivity.
Qed.
(** A quantity repeated. *)
Example C95_repeat_case :
  call 0 0 "repeat" (fun x => Ok (One (derive 0 0 x [3] 7))) one
  = Ok (One (mkp CosmoQuantity [3] 7 (Some (mkat 5 (Some true) 0 true)))).
Proof. reflexivity. Qed.
Example C95_unit_case : mul_unit 0 0 (fun x => Ok (One x)) two = Ok (One two).
Proof. reflexivity. Qed.
(** Of two results a plain scalar becomes a quantity in the hook only. *)
Example C95_hook_case :
  let a := mkat 5 (Some true) 0 true in let plain := mkp Ndarray [] 1 None in
  hook_result 0 0 a (Tuple [two; plain]) = Ok (Tuple [two; mkp CosmoQuantity [] 1 (Some a)])
  /\ ufunc_result 0 0 a (Tuple [two; plain]) = Tuple [two; plain].
Proof. split; reflexivity. Qed.
End Cases.
Example C95_dispatch_case : forall others,
  let d := dispatch (fun f : nat => Nat.eqb f 2) (fun f => Nat.eqb f 0) (fun _ => true) others in
  d 0 [Ndarray; Thing; CosmoQuantity; CosmoArray] = Ok OwnFunction
  /\ d 1 [CosmoArray] = Ok UnytFunction /\ d 2 [CosmoArray] = Err TypeError
  /\ collect [] [Ndarray; UnytArray; Thing; CosmoArray; CosmoQuantity] = [CosmoQuantity; CosmoArray; UnytArray; Ndarray]
  /\ (others UnytArray = UnytFunction -> d 0 [UnytArray; CosmoArray] = Ok UnytFunction).
Proof. intro others. cbv zeta. repeat split. intro H. cbn. rewrite H. reflexivity. Qed.
Example C95_text_case : array_text "[1. 2.] Mpc" None = "[1. 2.] Mpc (Physical/comoving not set)"%string
  /\ array_text "1. K" (Some false) = "1. K (Physical)"%string.
Proof. split; reflexivity. Qed.

Print Assumptions C95_classes.
Print Assumptions C95_methods.
Print Assumptions C95_no_other_method.
Print Assumptions C95_indexing.
Print Assumptions C95_attributes.
Print Assumptions C95_quantity_with_axes_refuted.
Print Assumptions C95_times_unit.
Print Assumptions C95_ufunc_results.
Print Assumptions C95_hook_results.
Print Assumptions C95_hook_agrees.
Print Assumptions C95_answers.
Print Assumptions C95_classes_asked.
Print Assumptions C95_mixed.
Print Assumptions C95_pure.
Print Assumptions C95_refused.
Print Assumptions C95_text.
Print Assumptions C95_text_tells_frame.
