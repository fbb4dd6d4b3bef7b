(** Arithmetic of arrays with units is that of the arrays in units of size one. *)
From Coq Require Import String List ZArith QArith Bool Reals Lra Lia.
From Verif Require Import Base BaseLemmas MaskModel CosmoModel CtorModel RegionModel UnitOpModel UnitOpSpec.
Import ListNotations.
Open Scope R_scope.

Definition rmap {A B} (f : A -> B) (r : res A) : res B := match r with Ok a => Ok (f a) | Err e => Err e end.

(** * Scaled arrays *)

Definition oscale (k : R) (o : operand) : operand := match o with OArr x => OArr (scale k x) | OPlain v => OPlain v end.

Lemma bare_oscale {D} (done : D) (o : qop D) : bare_op o = oscale (size (unit_of D done o)) (strip o).
Proof. destruct o; reflexivity. Qed.

Lemma comoving_scale k x : convert_to_comoving (scale k x) = rmap (scale k) (convert_to_comoving x).
Proof.
  unfold convert_to_comoving. cbn [scale acm avt acf avals acomp]. destruct (acm x) as [[|]|]; [reflexivity| |].
  - destruct (_ || _); [reflexivity|]. destruct (factor_of (acf x)); [|reflexivity]. cbn [bind rmap]. unfold scale. cbn [avals acf acm avt acomp].
    rewrite !map_map. do 2 f_equal. apply map_ext. intros v. unfold Rdiv. ring.
  - destruct (_ || _); [reflexivity|]. destruct (factor_of (acf x)); [|reflexivity]. cbn [bind rmap]. unfold scale. cbn [avals acf acm avt acomp].
    rewrite !map_map. do 2 f_equal. apply map_ext. intros v. unfold Rdiv. ring.
Qed.

Lemma physical_scale k x : convert_to_physical (scale k x) = rmap (scale k) (convert_to_physical x).
Proof.
  unfold convert_to_physical. cbn [scale acm avt acf avals acomp]. destruct (acm x) as [[|]|]; [|reflexivity|reflexivity].
  destruct (factor_of (acf x)); [|reflexivity]. cbn [bind rmap]. unfold scale. cbn [avals acf acm avt acomp].
  rewrite !map_map. do 2 f_equal. apply map_ext. intros v. ring.
Qed.

Lemma to_comoving_scale k x : to_comoving (scale k x) = rmap (scale k) (to_comoving x).
Proof. unfold to_comoving. cbn [scale avt acm]. destruct (_ && _); [reflexivity|]. apply comoving_scale. Qed.
Lemma to_physical_scale k x : to_physical (scale k x) = rmap (scale k) (to_physical x).
Proof. unfold to_physical. cbn [scale avt acm]. destruct (_ && _); [reflexivity|]. apply physical_scale. Qed.

Lemma coerce_scale conv k o : (forall x, conv (scale k x) = rmap (scale k) (conv x)) -> coerce conv (oscale k o) = rmap (oscale k) (coerce conv o).
Proof.
  intros H. destruct o as [x|v]; [|reflexivity]. cbn [oscale coerce]. cbn [scale acm]. destruct (is_true (acm x)); [reflexivity|].
  fold (scale k x). rewrite H. destruct (conv x); reflexivity.
Qed.

Definition sc (p : R * operand) : operand := oscale (fst p) (snd p).

Lemma op_cm_sc p : op_cm (sc p) = op_cm (snd p). Proof. now destruct p as [k [x|v]]. Qed.
Lemma op_vt_sc p : op_vt (sc p) = op_vt (snd p). Proof. now destruct p as [k [x|v]]. Qed.
Lemma op_cf_sc p : op_cf (sc p) = op_cf (snd p). Proof. now destruct p as [k [x|v]]. Qed.
Lemma op_comp_sc p : op_comp (sc p) = op_comp (snd p). Proof. now destruct p as [k [x|v]]. Qed.

Lemma coerce_all conv l : (forall k x, conv (scale k x) = rmap (scale k) (conv x)) ->
  all_ok (map (coerce conv) (map sc l)) = rmap (fun args => map sc (combine (map fst l) args)) (all_ok (map (coerce conv) (map snd l))).
Proof.
  intros H. induction l as [|[k o] l IH]; [reflexivity|]. cbn [map all_ok fst snd]. unfold sc at 1. cbn [fst snd].
  rewrite coerce_scale by (intros; apply H). destruct (coerce conv o) as [o'|e]; [|reflexivity]. cbn [rmap].
  rewrite IH. destruct (all_ok (map (coerce conv) (map snd l))); reflexivity.
Qed.

Lemma combine_self l : map sc (combine (map fst l) (map snd l)) = map sc l.
Proof. induction l as [|[k o] l IH]; [reflexivity|]. cbn [map combine fst snd]. now rewrite IH. Qed.

Lemma prepare_scale b l : prepare b (map sc l) =
  rmap (fun p => mkprep (map sc (combine (map fst l) (p_args p))) (p_cfs p) (p_cm p) (p_vt p) (p_comp p)) (prepare b (map snd l)).
Proof.
  unfold prepare.
  replace (map op_cm (map sc l)) with (map op_cm (map snd l)) by (rewrite !map_map; apply map_ext; intros; now rewrite op_cm_sc).
  replace (forallb op_vt (map sc l)) with (forallb op_vt (map snd l)).
  2:{ induction l as [|p l IH]; [reflexivity|]. cbn [map forallb]. now rewrite op_vt_sc, IH. }
  replace (map op_comp (map sc l)) with (map op_comp (map snd l)) by (rewrite !map_map; apply map_ext; intros; now rewrite op_comp_sc).
  replace (map op_cf (map sc l)) with (map op_cf (map snd l)) by (rewrite !map_map; apply map_ext; intros; now rewrite op_cf_sc).
  assert (X : existsb (fun o => match o with OArr x => negb (avt x) | OPlain _ => false end) (map sc l)
            = existsb (fun o => match o with OArr x => negb (avt x) | OPlain _ => false end) (map snd l)).
  { clear. induction l as [|[k [x|v]] l IH]; [reflexivity| |]; cbn [map existsb fst snd]; now rewrite IH. }
  rewrite X. clear X. set (cms := map snd (filter fst (map op_cm (map snd l)))). clearbody cms.
  assert (S : forall cm vt co, (Ok (mkprep (map sc l) (map op_cf (map snd l)) cm vt co) : res prep) =
    rmap (fun p => mkprep (map sc (combine (map fst l) (p_args p))) (p_cfs p) (p_cm p) (p_vt p) (p_comp p)) (Ok (mkprep (map snd l) (map op_cf (map snd l)) cm vt co))).
  { intros. cbn [rmap p_args p_cfs p_cm p_vt p_comp]. now rewrite combine_self. }
  destruct cms as [|c0 cms]; [apply S|]. destruct (forallb is_true _); [apply S|]. destruct (forallb is_none _); [apply S|].
  destruct (existsb is_none _); [reflexivity|]. destruct (forallb is_false _); [apply S|].
  destruct (b && _).
  - rewrite (coerce_all to_comoving l to_comoving_scale). destruct (all_ok _); reflexivity.
  - rewrite (coerce_all to_physical l to_physical_scale). destruct (all_ok _); reflexivity.
Qed.

(** How many arguments there are afterwards. *)
Lemma all_ok_length {A} (l : list (res A)) r : all_ok l = Ok r -> length r = length l.
Proof.
  revert r. induction l as [|x l IH]; intros r H; cbn [all_ok] in H; [now injection H as <-|]. destruct x as [a|]; [|discriminate].
  destruct (all_ok l) as [r'|]; [|discriminate]. injection H as <-. cbn. now rewrite (IH r' eq_refl).
Qed.

Lemma prepare_length b l p : prepare b l = Ok p -> length (p_args p) = length l.
Proof.
  unfold prepare. set (cms := map snd _). clearbody cms.
  destruct cms; [intro H; injection H as <-; reflexivity|]. destruct (forallb is_true _); [intro H; injection H as <-; reflexivity|].
  destruct (forallb is_none _); [intro H; injection H as <-; reflexivity|]. destruct (existsb is_none _); [discriminate|].
  destruct (forallb is_false _); [intro H; injection H as <-; reflexivity|]. destruct (b && _).
  - destruct (all_ok _) as [r|] eqn:E; [|discriminate]. cbn [bind]. intro H; injection H as <-. cbn [p_args]. apply all_ok_length in E. now rewrite map_length in E.
  - destruct (all_ok _) as [r|] eqn:E; [|discriminate]. cbn [bind]. intro H; injection H as <-. cbn [p_args]. apply all_ok_length in E. now rewrite map_length in E.
Qed.

(** Plain numbers stay plain. *)
Definition is_plain (o : operand) : bool := match o with OPlain _ => true | _ => false end.
Lemma coerce_plain conv o o' : coerce conv o = Ok o' -> is_plain o' = is_plain o.
Proof. destruct o as [x|v]; cbn [coerce]; [|now intros [= <-]]. destruct (is_true _); [now intros [= <-]|]. destruct (conv x); [|discriminate]. now intros [= <-]. Qed.
Lemma coerce_plains conv l : forall r, all_ok (map (coerce conv) l) = Ok r -> map is_plain r = map is_plain l.
Proof.
  induction l as [|o l IH]; intros r H; cbn [map all_ok] in H; [now injection H as <-|]. destruct (coerce conv o) as [o'|] eqn:E; [|discriminate].
  destruct (all_ok _) as [r'|]; [|discriminate]. injection H as <-. cbn [map]. rewrite (coerce_plain conv o o' E). now rewrite (IH r' eq_refl).
Qed.
Lemma prepare_plain b l p : prepare b l = Ok p -> map is_plain (p_args p) = map is_plain l.
Proof.
  unfold prepare. set (cms := map snd _). clearbody cms.
  destruct cms; [intro H; injection H as <-; reflexivity|]. destruct (forallb is_true _); [intro H; injection H as <-; reflexivity|].
  destruct (forallb is_none _); [intro H; injection H as <-; reflexivity|]. destruct (existsb is_none _); [discriminate|].
  destruct (forallb is_false _); [intro H; injection H as <-; reflexivity|]. destruct (b && _).
  - destruct (all_ok _) as [r|] eqn:E; [|discriminate]. cbn [bind]. intro H; injection H as <-. now apply coerce_plains in E.
  - destruct (all_ok _) as [r|] eqn:E; [|discriminate]. cbn [bind]. intro H; injection H as <-. now apply coerce_plains in E.
Qed.

(** * Broadcasting *)

Lemma map2_ext {A B C} (f g : A -> B -> C) xs : forall ys, (forall a b, In a xs -> In b ys -> f a b = g a b) -> map2 f xs ys = map2 g xs ys.
Proof.
  induction xs as [|x xs IH]; intros [|y ys] H; try reflexivity. cbn [map2]. rewrite H by (now left). f_equal. apply IH. intros a b Ha Hb. apply H; now right.
Qed.
Lemma broadcast_ext {C} (f g : R -> R -> C) xs ys : (forall a b, In a xs -> In b ys -> f a b = g a b) -> broadcast f xs ys = broadcast g xs ys.
Proof.
  intros H. unfold broadcast. destruct (Nat.eqb _ _); [f_equal; now apply map2_ext|].
  destruct xs as [|x [|x' xs]], ys as [|y [|y' ys]]; try reflexivity; f_equal; try (apply map_ext_in; intros b Hb; apply H; [try (now left)|exact Hb]; try exact Hb).
  all: try (apply map_ext_in; intros b Hb; apply H; [exact Hb|now left]).
Qed.
Lemma broadcast_map {C} (f : R -> R -> C) g h xs ys : broadcast f (map g xs) (map h ys) = broadcast (fun a b => f (g a) (h b)) xs ys.
Proof.
  unfold broadcast. rewrite !map_length. assert (M : map2 f (map g xs) (map h ys) = map2 (fun a b => f (g a) (h b)) xs ys).
  { revert ys. induction xs as [|x xs IH]; intros [|y ys]; try reflexivity. cbn [map map2]. now rewrite IH. }
  rewrite M. destruct (Nat.eqb _ _); [reflexivity|].
  destruct xs as [|x [|x' xs]], ys as [|y [|y' ys]]; cbn [map]; try reflexivity; rewrite ?map_map; reflexivity.
Qed.
Lemma broadcast_post {B C} (k : B -> C) (f : R -> R -> B) xs ys : broadcast (fun a b => k (f a b)) xs ys = rmap (map k) (broadcast f xs ys).
Proof.
  unfold broadcast. assert (M : map2 (fun a b => k (f a b)) xs ys = map k (map2 f xs ys)).
  { revert ys. induction xs as [|x xs IH]; intros [|y ys]; try reflexivity. cbn [map map2]. now rewrite IH. }
  rewrite M. destruct (Nat.eqb _ _); [reflexivity|].
  destruct xs as [|x [|x' xs]], ys as [|y [|y' ys]]; cbn [map rmap]; try reflexivity; rewrite ?map_map; reflexivity.
Qed.

(** The numbers of scaled operands; plain numbers go with a factor of one. *)
Lemma vals_sc k o : (is_plain o = true -> k = 1) -> op_vals (oscale k o) = map (Rmult k) (op_vals o).
Proof. destruct o as [x|v]; intros H; [reflexivity|]. cbn. rewrite H by reflexivity. rewrite <- (map_id v) at 1. apply map_ext. intros; ring. Qed.

(** * Homogeneous functions *)

Lemma Rltb_scale k a b : 0 < k -> Rltb (k * a) (k * b) = Rltb a b.
Proof. intros K. unfold Rltb. destruct (Rlt_dec _ _) as [H|H], (Rlt_dec a b) as [H'|H']; try reflexivity; exfalso; [apply H'|apply H]; nra. Qed.
Lemma Rleb_scale k a b : 0 < k -> Rleb (k * a) (k * b) = Rleb a b.
Proof. intros K. unfold Rleb. destruct (Rle_dec _ _) as [H|H], (Rle_dec a b) as [H'|H']; try reflexivity; exfalso; [apply H'|apply H]; nra. Qed.
Lemma Reqb_scale k a b : 0 < k -> Reqb (k * a) (k * b) = Reqb a b.
Proof. intros K. unfold Reqb. destruct (Req_EM_T _ _) as [H|H], (Req_EM_T a b) as [H'|H']; try reflexivity; exfalso; [apply H'; nra|apply H; now rewrite H']. Qed.
Lemma cfun_scale o k a b : 0 < k -> cfun o (k * a) (k * b) = cfun o a b.
Proof. intros K. destruct o; cbn [cfun]; rewrite ?Rltb_scale, ?Rleb_scale, ?Reqb_scale by assumption; reflexivity. Qed.

Definition sums (o : bop) : bool := match o with Bmul | Bdiv => false | _ => true end.
Lemma bfun_scale o k a b : 0 < k -> sums o = true -> bfun o (k * a) (k * b) = k * bfun o a b.
Proof.
  intros K S. destruct o; try discriminate; cbn [bfun]; try ring.
  - apply RmaxRmult. lra.
  - unfold Rmin. destruct (Rle_dec _ _) as [H|H], (Rle_dec a b) as [H'|H']; try reflexivity; exfalso; [apply H'|apply H]; nra.
Qed.

Lemma zeros_In v : zeros v = true -> forall a, In a v -> a = 0.
Proof. unfold zeros. rewrite forallb_forall. intros H a Ha. specialize (H a Ha). unfold Reqb in H. destruct (Req_EM_T a 0); [assumption|discriminate]. Qed.

(** * One operation *)

Section Units.
Variable D : Type.
Variable deqb : D -> D -> bool.
Variable done : D.
Variable dmul : D -> D -> D.
Variable dpow : D -> R -> D.
Notation qarr := (qarr D). Notation qop := (qop D). Notation unt := (unt D).
Notation unit_of := (unit_of D done).
Notation q_binop := (q_binop D deqb done dmul dpow). Notation q_cmp := (q_cmp D deqb).

(** The aligned numbers are the numbers in units of size one, up to the size of the unit of the result. *)
Lemma align_worth {C} (f : R -> R -> C) (post : R -> C -> C) (u u' : unt) v v' a :
  (forall k x y, 0 < k -> f (k * x) (k * y) = post k (f x y)) -> 0 < size u -> 0 < size u' -> align D deqb u v u' v' = Ok a ->
  0 < size (snd a) /\
  broadcast f (map (Rmult (size u)) v) (map (Rmult (size u')) v') = rmap (map (post (size (snd a)))) (broadcast f (fst (fst a)) (snd (fst a))).
Proof.
  intros H P P' E. unfold align in E. rewrite broadcast_map. destruct (zeros v) eqn:Z; [|destruct (zeros v') eqn:Z'; [|destruct (deqb _ _); [|discriminate]]];
    injection E as <-; cbn [fst snd]; (split; [assumption|]).
  - rewrite <- broadcast_post. apply broadcast_ext. intros x y Hx _. rewrite <- H by assumption. f_equal. rewrite (zeros_In v Z x Hx). ring.
  - rewrite <- broadcast_post. apply broadcast_ext. intros x y _ Hy. rewrite <- H by assumption. f_equal. rewrite (zeros_In v' Z' y Hy). ring.
  - rewrite <- (map_id v) at 2. rewrite (broadcast_map f (fun x => x)), <- broadcast_post. apply broadcast_ext. intros x y _ _. rewrite <- H by assumption.
    f_equal. field. lra.
Qed.

Lemma align_same (u u' : unt) v v' : deqb (dims u) (dims u') = true -> exists a, align D deqb u v u' v' = Ok a.
Proof. intros H. unfold align. destruct (zeros v); [eauto|]. destruct (zeros v'); [eauto|]. rewrite H. eauto. Qed.

Lemma align_dims (u u' : unt) v v' a : align D deqb u v u' v' = Ok a -> dims u = dims u' -> dims (snd a) = dims u.
Proof. unfold align. intros E H. destruct (zeros v); [|destruct (zeros v'); [|destruct (deqb _ _); [|discriminate]]]; injection E as <-; cbn [snd]; congruence. Qed.

Lemma align_err (u u' : unt) v v' e : align D deqb u v u' v' = Err e -> e = InvalidUnit /\ deqb (dims u) (dims u') = false.
Proof. unfold align. destruct (zeros v); [discriminate|]. destruct (zeros v'); [discriminate|]. destruct (deqb _ _); [discriminate|]. intros [= <-]. auto. Qed.

Lemma combine_units_worth o (u u' : unt) v v' a : 0 < size u -> 0 < size u' -> combine_units D deqb dmul dpow o u v u' v' = Ok a ->
  0 < size (snd a) /\
  broadcast (bfun o) (map (Rmult (size u)) v) (map (Rmult (size u')) v') = rmap (map (Rmult (size (snd a)))) (broadcast (bfun o) (fst (fst a)) (snd (fst a))).
Proof.
  intros P P' E. destruct (sums o) eqn:S.
  - assert (E' : align D deqb u v u' v' = Ok a) by (destruct o; try discriminate; exact E).
    apply (align_worth (bfun o) Rmult u u' v v'); auto. intros k x y K. now apply bfun_scale.
  - destruct o; try discriminate; injection E as <-; cbn [fst snd size].
    + split; [now apply Rmult_lt_0_compat|]. rewrite broadcast_map, <- broadcast_post. apply broadcast_ext. intros x y _ _. cbn [bfun]. ring.
    + split; [now apply Rdiv_lt_0_compat|]. rewrite broadcast_map, <- broadcast_post. apply broadcast_ext. intros x y _ _. cbn [bfun].
      destruct (Req_dec y 0) as [->|N]; [|field; lra]. rewrite Rmult_0_r. unfold Rdiv. rewrite Rinv_0. ring.
Qed.

(** A result with units against one without. *)
Definition same (r : res qarr) (s : res carr) : Prop :=
  match r with
  | Ok x => proper x /\ s = Ok (bare x)
  | Err e => s = Err e
  end.
Definition same_or_refused (refused : Prop) (r : res qarr) (s : res carr) : Prop := (r = Err InvalidUnit /\ refused) \/ same r s.

Lemma unit_pos (x : qop) : proper_op x -> 0 < size (unit_of x).
Proof. destruct x; cbn; [auto|lra]. Qed.

Lemma plain_one (x : qop) (o : operand) : is_plain o = is_plain (strip x) -> is_plain o = true -> size (unit_of x) = 1.
Proof. destruct x; cbn; [congruence|reflexivity]. Qed.

Lemma prepare2 (x y : qop) : prepare true [bare_op x; bare_op y] =
  rmap (fun p => mkprep (map sc (combine [size (unit_of x); size (unit_of y)] (p_args p))) (p_cfs p) (p_cm p) (p_vt p) (p_comp p)) (prepare true [strip x; strip y]).
Proof. rewrite !(bare_oscale done). exact (prepare_scale true [(size (unit_of x), strip x); (size (unit_of y), strip y)]). Qed.

Lemma q_binop_same o (x y : qop) : proper_op x -> proper_op y -> same_or_refused (sums o = true /\ deqb (dims (unit_of x)) (dims (unit_of y)) = false) (q_binop o x y) (binop o (bare_op x) (bare_op y)).
Proof.
  intros Px Py. unfold UnitOpModel.q_binop, binop, ufunc2. rewrite prepare2.
  destruct (prepare true [strip x; strip y]) as [p|e] eqn:E; [|right; reflexivity]. cbn [bind rmap p_args p_cm p_vt p_comp].
  pose proof (prepare_length _ _ _ E) as L. pose proof (prepare_plain _ _ _ E) as Q.
  destruct (p_args p) as [|x' [|y' [|]]]; try discriminate. clear L. cbn [map] in Q. injection Q as Qx Qy.
  cbn [combine map]. unfold sc. cbn [fst snd]. rewrite (vals_sc _ x'), (vals_sc _ y').
  2:{ intros H. now apply (plain_one y y'). } 2:{ intros H. now apply (plain_one x x'). }
  assert (Cx : op_cf (bare_op x) = op_cf (strip x)) by now destruct x. assert (Cy : op_cf (bare_op y) = op_cf (strip y)) by now destruct y.
  rewrite Cx, Cy. destruct (combine_units D deqb dmul dpow o (unit_of x) (op_vals x') (unit_of y) (op_vals y')) as [a|e] eqn:A; cbn [bind].
  2:{ left. assert (align D deqb (unit_of x) (op_vals x') (unit_of y) (op_vals y') = Err e) as A' by (destruct o; try discriminate; exact A).
      apply align_err in A'. destruct A' as [-> F]. repeat split; [destruct o; try discriminate; reflexivity|exact F]. }
  right. destruct (combine_units_worth o _ _ _ _ _ (unit_pos x Px) (unit_pos y Py) A) as [S B]. rewrite B.
  destruct (bhandler o (op_cf (strip x)) (op_cf (strip y))) as [c|e]; [|reflexivity]. cbn [bind].
  destruct (broadcast (bfun o) (fst (fst a)) (snd (fst a))) as [v|e]; [|reflexivity]. cbn [bind rmap].
  split; [exact S|reflexivity].
Qed.

(** Refused only if the dimensions differ. *)
Lemma q_binop_accepted o (x y : qop) : sums o = false \/ deqb (dims (unit_of x)) (dims (unit_of y)) = true -> proper_op x -> proper_op y ->
  same (q_binop o x y) (binop o (bare_op x) (bare_op y)).
Proof.
  intros H Px Py. destruct (q_binop_same o x y Px Py) as [[_ [A B]]|R]; [|exact R]. destruct H; congruence.
Qed.

(** * One argument *)

Lemma prepare_one o p : prepare true [o] = Ok p -> p_args p = [o].
Proof. unfold prepare. destruct o as [x|v]; [|intros [= <-]; reflexivity]. cbn. destruct (acm x) as [[|]|]; cbn; intros [= <-]; reflexivity. Qed.

Lemma prepare1 (x : qop) : prepare true [bare_op x] =
  rmap (fun p => mkprep (map sc (combine [size (unit_of x)] (p_args p))) (p_cfs p) (p_cm p) (p_vt p) (p_comp p)) (prepare true [strip x]).
Proof. rewrite !(bare_oscale done). exact (prepare_scale true [(size (unit_of x), strip x)]). Qed.

Lemma cbrt_scale k v : 0 < k -> ncbrt (k * v) = ncbrt k * ncbrt v.
Proof.
  intros K. unfold ncbrt. destruct (Rlt_dec 0 k) as [_|N]; [|contradiction].
  destruct (Rlt_dec 0 v) as [V|V].
  - destruct (Rlt_dec 0 (k * v)) as [_|N]; [|exfalso; apply N; now apply Rmult_lt_0_compat]. symmetry. now apply Rpower_mult_distr.
  - destruct (Rlt_dec 0 (k * v)) as [N|_]; [exfalso; nra|]. destruct (Rlt_dec v 0) as [V'|V'].
    + destruct (Rlt_dec (k * v) 0) as [_|N]; [|exfalso; nra]. replace (- (k * v)) with (k * - v) by ring. rewrite <- Rpower_mult_distr by lra. ring.
    + destruct (Rlt_dec (k * v) 0) as [N|_]; [exfalso; nra|]. ring.
Qed.

Lemma npow_scale k v p : 0 < k -> npow (k * v) p = Rpower k p * npow v p.
Proof.
  intros K. unfold npow. destruct (Rlt_dec 0 v) as [V|V].
  - destruct (Rlt_dec 0 (k * v)) as [_|N]; [|exfalso; apply N; now apply Rmult_lt_0_compat]. symmetry. now apply Rpower_mult_distr.
  - destruct (Rlt_dec 0 (k * v)) as [N|_]; [exfalso; nra|]. destruct (Req_EM_T v 0) as [->|V'].
    + destruct (Req_EM_T (k * 0) 0) as [_|N]; [|exfalso; apply N; ring]. destruct (Req_EM_T p 0) as [->|_]; [rewrite Rpower_O by assumption|]; ring.
    + destruct (Req_EM_T (k * v) 0) as [N|_]; [exfalso; nra|]. destruct (Req_EM_T p (IZR (up p - 1))) as [E|_]; [|ring].
      rewrite powerRZ_mult_distr by (right; nra). f_equal. rewrite E at 2. now apply powerRZ_Rpower.
Qed.

Lemma sum_scale k v : sumR (map (Rmult k) v) = k * sumR v.
Proof. unfold sumR. induction v as [|a v IH]; cbn [map fold_right]; [ring|]. rewrite IH. ring. Qed.
Lemma prod_scale k v : prodR (map (Rmult k) v) = k ^ length v * prodR v.
Proof. unfold prodR. induction v as [|a v IH]; cbn [map fold_right length pow]; [ring|]. rewrite IH. ring. Qed.

Lemma unit1_worth o (u : unt) v : 0 < size u -> ufun o (size u * v) = size (unit1 D dmul dpow o u) * ufun o v.
Proof.
  intros P. destruct o; cbn [ufun unit1 size].
  - ring.
  - rewrite Rabs_mult, (Rabs_pos_eq (size u)) by lra. reflexivity.
  - destruct (Rle_dec 0 v) as [V|V]; [apply sqrt_mult_alt; lra|]. rewrite (sqrt_neg_0 v), (sqrt_neg_0 (size u * v)) by nra. ring.
  - ring.
  - now apply cbrt_scale.
  - destruct (Req_dec v 0) as [->|N]; [rewrite Rmult_0_r, Rinv_0; ring|]. field. lra.
Qed.

Lemma unit1_pos o (u : unt) : 0 < size u -> 0 < size (unit1 D dmul dpow o u).
Proof.
  intros P. destruct o; cbn [unit1 size]; try assumption.
  - now apply sqrt_lt_R0.
  - now apply Rmult_lt_0_compat.
  - unfold ncbrt. destruct (Rlt_dec 0 (size u)); [|contradiction]. unfold Rpower. apply exp_pos.
  - now apply Rinv_0_lt_compat.
Qed.

Lemma cf_bare (x : qop) : op_cf (bare_op x) = op_cf (strip x). Proof. now destruct x. Qed.
Lemma vals_bare (x : qop) : op_vals (bare_op x) = map (Rmult (size (unit_of x))) (op_vals (strip x)).
Proof. rewrite (bare_oscale done). apply vals_sc. now apply plain_one. Qed.
Lemma length_bare (x : qop) : length (op_vals (bare_op x)) = length (op_vals (strip x)).
Proof. rewrite vals_bare. apply map_length. Qed.

Lemma q_unop_same o (x : qop) : proper_op x -> same (q_unop D done dmul dpow o x) (unop o (bare_op x)).
Proof.
  intros P. unfold q_unop, unop, ufunc1. rewrite prepare1, cf_bare. destruct (prepare true [strip x]) as [p|e] eqn:E; [|reflexivity].
  apply prepare_one in E. cbn [bind rmap p_args p_cm p_vt p_comp]. rewrite E. cbn [combine map]. change (sc (size (unit_of x), strip x)) with (oscale (size (unit_of x)) (strip x)).
  rewrite <- (bare_oscale done), vals_bare. destruct (uhandler o (op_cf (strip x))) as [c|e]; [|reflexivity]. cbn [bind same]. split.
  - cbn. now apply unit1_pos, unit_pos.
  - unfold bare, scale. cbn [q_unit q_arr avals acf acm avt acomp]. rewrite !map_map. do 2 f_equal. apply map_ext. intros v. apply unit1_worth, unit_pos, P.
Qed.

Lemma q_sum_same (x : qop) : proper_op x -> same (q_sum D done x) (sumop (bare_op x)).
Proof.
  intros P. unfold q_sum, sumop. rewrite prepare1, cf_bare. destruct (prepare true [strip x]) as [p|e] eqn:E; [|reflexivity].
  apply prepare_one in E. cbn [bind rmap p_args p_cm p_vt p_comp]. rewrite E. cbn [combine map]. change (sc (size (unit_of x), strip x)) with (oscale (size (unit_of x)) (strip x)).
  rewrite <- (bare_oscale done), vals_bare. destruct (h_preserve [op_cf (strip x)]) as [c|e]; [|reflexivity]. cbn [bind same]. split.
  - cbn. now apply unit_pos.
  - unfold bare, scale. cbn [q_unit q_arr avals acf acm avt acomp map]. now rewrite sum_scale.
Qed.

Lemma q_prod_same (x : qop) : proper_op x -> same (q_prod D done dpow x) (prodop (bare_op x)).
Proof.
  intros P. unfold q_prod, prodop. rewrite prepare1, cf_bare, length_bare. destruct (prepare true [strip x]) as [p|e] eqn:E; [|reflexivity].
  apply prepare_one in E. cbn [bind rmap p_args p_cm p_vt p_comp]. rewrite E. cbn [combine map]. change (sc (size (unit_of x), strip x)) with (oscale (size (unit_of x)) (strip x)).
  rewrite <- (bare_oscale done), vals_bare. destruct (h_power (op_cf (strip x)) None (INR (length (op_vals (strip x))))) as [c|e]; [|reflexivity]. cbn [bind same]. split.
  - cbn. now apply pow_lt, unit_pos.
  - unfold bare, scale. cbn [q_unit q_arr avals acf acm avt acomp map size]. now rewrite prod_scale.
Qed.

Lemma plain_op v : is_plain (OPlain v) = true. Proof. reflexivity. Qed.

Lemma q_power_same (x : qop) r : proper_op x -> same (q_power D done dpow x r) (powop (bare_op x) (OPlain [r])).
Proof.
  intros P. unfold q_power, powop. cbn [op_vals]. unfold ufunc2.
  change (prepare true [bare_op x; OPlain [r]]) with (prepare true [bare_op x; bare_op (QPlain [r] : qop)]). rewrite prepare2, cf_bare. cbn [strip]. destruct (prepare true [strip x; OPlain [r]]) as [p|e] eqn:E; [|reflexivity].
  pose proof (prepare_length _ _ _ E) as L. pose proof (prepare_plain _ _ _ E) as Q.
  assert (W : exists x', p_args p = [x'; OPlain [r]]).
  { revert E. unfold prepare. set (cms := map snd _). clearbody cms. set (P1 := forallb op_vt _). clearbody P1.
    destruct cms; [intros [= <-]; eexists; reflexivity|]. destruct (forallb is_true _); [intros [= <-]; eexists; reflexivity|].
    destruct (forallb is_none _); [intros [= <-]; eexists; reflexivity|]. destruct (existsb is_none _); [discriminate|].
    destruct (forallb is_false _); [intros [= <-]; eexists; reflexivity|]. cbn [map all_ok].
    destruct (_ && _).
    - destruct (coerce to_comoving (strip x)) as [x'|]; [|discriminate]. cbn [coerce bind]. intros [= <-]. eexists; reflexivity.
    - destruct (coerce to_physical (strip x)) as [x'|]; [|discriminate]. cbn [coerce bind]. intros [= <-]. eexists; reflexivity. }
  destruct W as [x' W]. rewrite W in Q. injection Q as Qx. cbn [bind rmap p_args p_cm p_vt p_comp]. rewrite W. cbn [combine map]. unfold sc. cbn [fst snd oscale op_cf op_vals].
  rewrite (vals_sc _ x') by (now apply plain_one). destruct (h_power (op_cf (strip x)) None r) as [c|e]; [|reflexivity]. cbn [bind].
  rewrite <- (map_id [r]) at 2. rewrite broadcast_map. rewrite (broadcast_ext (fun a b => npow (size (unit_of x) * a) b) (fun a b => Rpower (size (unit_of x)) r * npow a b)).
  2:{ intros a b _ [<-|[]]. apply npow_scale, unit_pos, P. }
  rewrite broadcast_post. destruct (broadcast npow (op_vals x') [r]) as [v|e]; [|reflexivity]. cbn [bind rmap same]. split; [|reflexivity].
  cbn. apply exp_pos.
Qed.

(** * Nested expressions *)

Definition same_op (r : res qop) (s : res operand) : Prop :=
  match r with
  | Ok x => proper_op x /\ s = Ok (bare_op x)
  | Err e => e = InvalidUnit \/ s = Err e
  end.

Lemma lift_op (r : res qarr) (s : res carr) refused : same_or_refused refused r s -> same_op (do x <- r; Ok (QArr x)) (do x <- s; Ok (OArr x)).
Proof.
  intros [[-> _]|H]; [now left|]. destruct r as [x|e]; cbn [same] in H.
  - destruct H as [P ->]. cbn [bind same_op]. auto.
  - rewrite H. now right.
Qed.
Lemma lift_op1 (r : res qarr) (s : res carr) : same r s -> same_op (do x <- r; Ok (QArr x)) (do x <- s; Ok (OArr x)).
Proof. intros H. apply (lift_op r s False). now right. Qed.

Lemma q_eval_same (e : qexpr D) : proper_expr e -> same_op (q_eval D deqb done dmul dpow e) (eval (bare_expr e)).
Proof.
  induction e as [x|v|o e1 IH1 e2 IH2|o e1 IH1|e1 IH1 p|e1 IH1|e1 IH1]; cbn [proper_expr q_eval bare_expr eval].
  - intros P. split; [exact P|reflexivity].
  - intros _. split; [exact I|reflexivity].
  - intros [P1 P2]. specialize (IH1 P1). specialize (IH2 P2). destruct (q_eval D deqb done dmul dpow e1) as [x|er]; cbn [same_op] in IH1.
    2:{ cbn [bind same_op]. destruct IH1 as [IH1|IH1]; [now left|right]. now rewrite IH1. }
    destruct IH1 as [Px E1]. rewrite E1. cbn [bind]. destruct (q_eval D deqb done dmul dpow e2) as [y|er]; cbn [same_op] in IH2.
    2:{ cbn [bind same_op]. destruct IH2 as [IH2|IH2]; [now left|right]. now rewrite IH2. }
    destruct IH2 as [Py E2]. rewrite E2. cbn [bind]. pose proof (q_binop_same o x y Px Py) as B. unfold q_lift2, lift2.
    destruct x as [x|v], y as [y|w]; cbn [bare_op] in *; try (apply (lift_op _ _ _ B)).
    unfold plain2. destruct (broadcast (bfun o) v w); [split; [exact I|reflexivity]|now right].
  - intros P1. specialize (IH1 P1). destruct (q_eval D deqb done dmul dpow e1) as [x|er]; cbn [same_op] in IH1.
    2:{ cbn [bind same_op]. destruct IH1 as [IH1|IH1]; [now left|right]. now rewrite IH1. }
    destruct IH1 as [Px E1]. rewrite E1. cbn [bind]. unfold q_lift1, lift1. destruct x as [x|v]; [|split; [exact I|reflexivity]]. apply lift_op1. now apply (q_unop_same o (QArr x)).
  - intros P1. specialize (IH1 P1). destruct (q_eval D deqb done dmul dpow e1) as [x|er]; cbn [same_op] in IH1.
    2:{ cbn [bind same_op]. destruct IH1 as [IH1|IH1]; [now left|right]. now rewrite IH1. }
    destruct IH1 as [Px E1]. rewrite E1. cbn [bind]. unfold lift2. destruct x as [x|v].
    + apply lift_op1. now apply (q_power_same (QArr x)).
    + cbn [bare_op]. unfold plain2. destruct (broadcast npow v [p]); [split; [exact I|reflexivity]|now right].
  - intros P1. specialize (IH1 P1). destruct (q_eval D deqb done dmul dpow e1) as [x|er]; cbn [same_op] in IH1.
    2:{ cbn [bind same_op]. destruct IH1 as [IH1|IH1]; [now left|right]. now rewrite IH1. }
    destruct IH1 as [Px E1]. rewrite E1. cbn [bind]. unfold q_lift1, lift1. destruct x as [x|v]; [|split; [exact I|reflexivity]]. apply lift_op1. now apply (q_sum_same (QArr x)).
  - intros P1. specialize (IH1 P1). destruct (q_eval D deqb done dmul dpow e1) as [x|er]; cbn [same_op] in IH1.
    2:{ cbn [bind same_op]. destruct IH1 as [IH1|IH1]; [now left|right]. now rewrite IH1. }
    destruct IH1 as [Px E1]. rewrite E1. cbn [bind]. unfold q_lift1, lift1. destruct x as [x|v]; [|split; [exact I|reflexivity]]. apply lift_op1. now apply (q_prod_same (QArr x)).
Qed.

(** * Comparisons *)

Lemma q_cmp_same o (x y : qarr) : proper x -> proper y ->
  (q_cmp o x y = Err InvalidUnit /\ deqb (dims (q_unit x)) (dims (q_unit y)) = false) \/ q_cmp o x y = cmpop o (OArr (bare x)) (OArr (bare y)).
Proof.
  intros Px Py. unfold UnitOpModel.q_cmp, cmpop, ufunc_cmp. change (OArr (bare x)) with (bare_op (QArr x)). change (OArr (bare y)) with (bare_op (QArr y)).
  rewrite prepare2, !cf_bare. cbn [strip UnitOpModel.unit_of op_cf]. destruct (prepare true [OArr (q_arr x); OArr (q_arr y)]) as [p|e] eqn:E; [|right; reflexivity].
  cbn [bind rmap p_args]. pose proof (prepare_length _ _ _ E) as L. pose proof (prepare_plain _ _ _ E) as Q.
  destruct (p_args p) as [|x' [|y' [|]]]; try discriminate. clear L. cbn [map is_plain] in Q. injection Q as Qx Qy.
  cbn [combine map]. unfold sc. cbn [fst snd]. rewrite (vals_sc _ x'), (vals_sc _ y') by congruence.
  destruct (align D deqb (q_unit x) (op_vals x') (q_unit y) (op_vals y')) as [a|e] eqn:A; cbn [bind].
  2:{ left. apply align_err in A. destruct A as [-> F]. auto. }
  right. destruct (h_compare (acf (q_arr x)) (acf (q_arr y))) as [c|e]; [|reflexivity]. cbn [bind].
  destruct (align_worth (cfun o) (fun _ b => b) _ _ _ _ _ (fun k a b => cfun_scale o k a b) Px Py A) as [_ B]. rewrite B.
  destruct (broadcast (cfun o) (fst (fst a)) (snd (fst a))); cbn [rmap]; [now rewrite map_id|reflexivity].
Qed.

Lemma q_cmp_accepted o (x y : qarr) : deqb (dims (q_unit x)) (dims (q_unit y)) = true -> proper x -> proper y -> q_cmp o x y = cmpop o (OArr (bare x)) (OArr (bare y)).
Proof. intros H Px Py. destruct (q_cmp_same o x y Px Py) as [[_ F]|R]; [congruence|exact R]. Qed.
End Units.
