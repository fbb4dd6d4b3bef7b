(** C141: the directions of a rotation matrix with rounded numbers. *)
From Coq Require Import String List ZArith QArith Bool Floats.SpecFloat Reals Lia Lra Psatz Qreals.
From Flocq Require Import Core.
From Verif Require Import Base RoundModel RoundFloatModel RoundFloatTheorems RoundExactTheorems WrapSpec WrapTheorems
  KroundTheorems TurnModel TurnSpec AimModel AimSpec.
From Verif Require Import RotModel RotTheorems TurnTheorems.
From Verif Require RoundSumTheorems.
Open Scope R_scope.

(** * Factors *)

Lemma fac_plus n a b s t : 0 <= a -> 0 <= b -> fac n s -> fac n t -> exists r, fac n r /\ a * s + b * t = (a + b) * r.
Proof.
  intros Ha Hb [A1 A2] [B1 B2]. destruct (Req_dec (a + b) 0) as [E|N].
  - exists s. split; [split; assumption|]. assert (a = 0) by lra. assert (b = 0) by lra. subst. ring.
  - assert (P : 0 < a + b) by lra. exists ((a * s + b * t) / (a + b)). split; [|field; exact N].
    assert (X : (a + b) * (1 - u53) ^ n <= a * s + b * t).
    { apply (Rmult_le_compat_l a) in A1; [|exact Ha]. apply (Rmult_le_compat_l b) in B1; [|exact Hb]. lra. }
    assert (Y : a * s + b * t <= (a + b) * (1 + u53) ^ n).
    { apply (Rmult_le_compat_l a) in A2; [|exact Ha]. apply (Rmult_le_compat_l b) in B2; [|exact Hb]. lra. }
    assert (Q : (a + b) * ((a * s + b * t) / (a + b)) = a * s + b * t) by (field; exact N).
    split; apply (Rmult_le_reg_l (a + b)); try assumption; rewrite Q; assumption.
Qed.
Lemma fac_one n : fac n 1.
Proof. apply (fac_mono 0); [lia|]. unfold fac. cbn [pow]. lra. Qed.
Lemma fac_sqrt n t : fac n t -> fac n (sqrt t).
Proof.
  intro F. pose proof (fac_pos _ _ F) as P. destruct F as [A B]. destruct (fac_one n) as [C D].
  assert (S0 : 0 < sqrt t) by (apply sqrt_lt_R0; exact P). assert (Q : sqrt t * sqrt t = t) by (apply sqrt_sqrt; lra).
  unfold fac. destruct (Rle_lt_dec (sqrt t) 1); split; nra.
Qed.
Lemma fac4 t : fac 4 t -> Rabs (t - 1) <= 401 / 100 * u53.
Proof.
  intros [A B]. pose proof u53_small as U. cbn [pow] in *. rewrite !Rmult_1_r in *.
  assert (L : 1 - 4 * u53 <= (1 - u53) * ((1 - u53) * ((1 - u53) * (1 - u53)))).
  { assert (1 - 2 * u53 <= (1 - u53) * (1 - u53)) by nra. assert ((1 - 2 * u53) * (1 - 2 * u53) <= ((1 - u53) * (1 - u53)) * ((1 - u53) * (1 - u53))) by (apply Rmult_le_compat; lra). nra. }
  assert (H : (1 + u53) * ((1 + u53) * ((1 + u53) * (1 + u53))) <= 1 + 401 / 100 * u53).
  { assert (u53 <= / 1000000). { unfold u53. lra. }
    assert ((1 + u53) * (1 + u53) <= 1 + 2000002 / 1000000 * u53) by nra.
    assert (((1 + u53) * (1 + u53)) * ((1 + u53) * (1 + u53)) <= (1 + 2000002 / 1000000 * u53) * (1 + 2000002 / 1000000 * u53)) by (apply Rmult_le_compat; nra). nra. }
  apply Rabs_le. lra.
Qed.

Lemma len_norm v : len v = norm v.
Proof. destruct v as [[x y] z]. reflexivity. Qed.

Lemma fnorm_value o v : exists t, fac 4 t /\ fnorm rounded o v = len v * t.
Proof.
  destruct v as [[x y] z]. unfold fnorm, row_product, len. change (root rounded) with (fun a => rnd 53 (sqrt a)). cbv beta.
  change (mul rounded) with (rnd2 Rmult). unfold rnd2. pose proof (Rle_0_sqr x) as X. pose proof (Rle_0_sqr y) as Y. pose proof (Rle_0_sqr z) as Z. unfold Rsqr in *.
  destruct (fac_rnd _ X) as (a & Fa & ->). destruct (fac_rnd _ Y) as (b & Fb & ->). destruct (fac_rnd _ Z) as (c & Fc & ->).
  set (p := x * x) in *. set (q := y * y) in *. set (r := z * z) in *. clearbody p q r.
  assert (S3 : exists t, fac 3 t /\ sum3 rounded o (p * a) (q * b) (r * c) = (p + q + r) * t).
  { assert (G : forall p q r a b c, 0 <= p -> 0 <= q -> 0 <= r -> fac 1 a -> fac 1 b -> fac 1 c ->
      exists t, fac 3 t /\ rnd 53 (rnd 53 (p * a + q * b) + r * c) = (p + q + r) * t).
    { clear. intros p q r a b c P Q R0 Fa Fb Fc. destruct (fac_plus 1 p q a b P Q Fa Fb) as (d & Fd & ->).
      pose proof (fac_pos _ _ Fd). destruct (fac_rnd ((p + q) * d)) as (e & Fe & ->); [apply Rmult_le_pos; lra|].
      rewrite Rmult_assoc. pose proof (fac_mult _ _ _ _ Fd Fe) as Fde.
      destruct (fac_plus 2 (p + q) r (d * e) c) as (f & Ff & ->); try lra; [exact Fde|apply (fac_mono 1); [lia|exact Fc]|].
      pose proof (fac_pos _ _ Ff). destruct (fac_rnd ((p + q + r) * f)) as (g & Fg & ->); [apply Rmult_le_pos; lra|].
      exists (f * g). split; [exact (fac_mult _ _ _ _ Ff Fg)|ring]. }
    destruct o; cbn [sum3]; change (add rounded) with (rnd2 Rplus); unfold rnd2.
    - apply G; assumption.
    - rewrite Rplus_comm. destruct (G q r p b c a) as (t & Ft & E); auto. exists t. split; [exact Ft|]. replace (p + q + r) with (q + r + p) by ring. exact E.
    - destruct (G p r q a c b) as (t & Ft & E); auto. exists t. split; [exact Ft|]. replace (p + q + r) with (p + r + q) by ring. exact E. }
  destruct S3 as (t & Ft & ->). pose proof (fac_pos _ _ Ft). rewrite sqrt_mult_alt by lra.
  destruct (fac_rnd (sqrt (p + q + r) * sqrt t)) as (w & Fw & ->); [apply Rmult_le_pos; apply sqrt_pos|].
  exists (sqrt t * w). split; [exact (fac_mult _ _ _ _ (fac_sqrt _ _ Ft) Fw)|rewrite <- Rmult_assoc; reflexivity].
Qed.

(** * Relative errors *)

Lemma quotient a b d e x y m M : 0 <= a -> 0 <= b <= / 2 -> 0 < M -> relative a x y -> relative b m M ->
  a + b <= d * (1 - b) -> 0 <= d -> d + u53 * (1 + d) <= e -> relative e (div rounded x m) (y / M).
Proof.
  intros Ha Hb HM Hx Hm Hd D0 He. change (div rounded) with (rnd2 Rdiv). unfold rnd2, relative in *.
  rewrite (Rabs_pos_eq M) in Hm by lra. pose proof (Rabs_pos y) as Y.
  assert (Lm : (1 - b) * M <= m) by (unfold Rabs in Hm; destruct (Rcase_abs (m - M)); lra).
  assert (Pm : 0 < m) by (assert (0 < (1 - b) * M) by (apply Rmult_lt_0_compat; lra); lra).
  assert (Q : Rabs (x / m - y / M) <= d * Rabs (y / M)).
  { replace (x / m - y / M) with (((x - y) * M + - (y * (m - M))) / (m * M)) by (field; lra).
    unfold Rdiv. rewrite !Rabs_mult, (Rabs_pos_eq (/ (m * M))), (Rabs_pos_eq (/ M)).
    2: { left. apply Rinv_0_lt_compat, HM. } 2: { left. apply Rinv_0_lt_compat, Rmult_lt_0_compat; assumption. }
    assert (T : Rabs ((x - y) * M + - (y * (m - M))) <= (a + b) * (Rabs y * M)).
    { eapply Rle_trans; [apply Rabs_triang|]. rewrite Rabs_Ropp, !Rabs_mult, (Rabs_pos_eq M) by lra.
      apply (Rmult_le_compat_r M) in Hx; [|lra]. apply (Rmult_le_compat_l (Rabs y)) in Hm; [|exact Y]. lra. }
    apply (Rmult_le_reg_r (m * M)); [apply Rmult_lt_0_compat; assumption|].
    rewrite Rmult_assoc, Rinv_l, Rmult_1_r by (apply Rmult_integral_contrapositive; split; lra).
    replace (d * (Rabs y * / M) * (m * M)) with (d * m * Rabs y) by (field; lra).
    eapply Rle_trans; [exact T|]. assert (YM : 0 <= Rabs y * M) by (apply Rmult_le_pos; lra).
    apply (Rmult_le_compat_r (Rabs y * M)) in Hd; [|exact YM].
    apply (Rmult_le_compat_l (d * Rabs y)) in Lm; [|apply Rmult_le_pos; assumption]. lra. }
  pose proof (rnd_error_abs (x / m)) as E. pose proof u53_small as U.
  assert (B : Rabs (x / m) <= (1 + d) * Rabs (y / M)).
  { replace (x / m) with ((x / m - y / M) + y / M) by ring. eapply Rle_trans; [apply Rabs_triang|]. lra. }
  replace (rnd 53 (x / m) - y / M) with ((rnd 53 (x / m) - x / m) + (x / m - y / M)) by ring.
  eapply Rle_trans; [apply Rabs_triang|]. pose proof (Rabs_pos (y / M)).
  apply (Rmult_le_compat_r u53) in B; [|lra]. apply (Rmult_le_compat_r (Rabs (y / M))) in He; [|assumption]. lra.
Qed.

Lemma relative_sq e x y : 0 <= e <= 1 -> relative e x y -> (1 - e) * (1 - e) * (y * y) <= x * x <= (1 + e) * (1 + e) * (y * y).
Proof.
  intros He H. unfold relative in H. pose proof (Rabs_pos y) as Y.
  assert (L : (1 - e) * Rabs y <= Rabs x).
  { assert (Rabs y <= Rabs (y - x) + Rabs x) by (replace y with ((y - x) + x) at 1 by ring; apply Rabs_triang). rewrite Rabs_minus_sym in H0. lra. }
  assert (R0 : Rabs x <= (1 + e) * Rabs y).
  { replace x with ((x - y) + y) by ring. eapply Rle_trans; [apply Rabs_triang|]. lra. }
  pose proof (abs_sq x) as Qx. pose proof (abs_sq y) as Qy. assert (0 <= (1 - e) * Rabs y) by (apply Rmult_le_pos; lra).
  split.
  - rewrite <- Qx, <- Qy. replace ((1 - e) * (1 - e) * (Rabs y * Rabs y)) with (((1 - e) * Rabs y) * ((1 - e) * Rabs y)) by ring. apply Rmult_le_compat; lra.
  - rewrite <- Qx, <- Qy. replace ((1 + e) * (1 + e) * (Rabs y * Rabs y)) with (((1 + e) * Rabs y) * ((1 + e) * Rabs y)) by ring. apply Rmult_le_compat; try lra; apply Rabs_pos.
Qed.

Lemma len_close e v w : 0 <= e <= 1 -> each2 (relative e) v w -> relative e (len v) (len w).
Proof.
  intros He H. unfold relative. rewrite !len_norm, (Rabs_pos_eq (norm w)) by apply norm_pos.
  assert (S : (1 - e) * (1 - e) * dot w w <= dot v v <= (1 + e) * (1 + e) * dot w w).
  { destruct v as [[v0 v1] v2], w as [[w0 w1] w2]. destruct H as (A & B & C). apply relative_sq in A, B, C; auto. unfold dot. lra. }
  pose proof (norm_pos w) as W. pose proof (norm_pos v) as V. rewrite <- (norm_sq v), <- (norm_sq w) in S.
  apply Rabs_le. split.
  - assert ((1 - e) * norm w <= norm v); [|lra]. apply le_of_sq; [exact V|]. lra.
  - assert (norm v <= (1 + e) * norm w); [|lra]. apply le_of_sq; [apply Rmult_le_pos; lra|]. lra.
Qed.

(** * The steps of the function *)

Lemma len_across axis v : an_axis axis -> len (across axis v) * len (across axis v) + along axis v * along axis v = len v * len v.
Proof.
  intro H. rewrite !len_norm, !norm_sq. destruct v as [[x y] z].
  destruct H as [-> |[-> | ->]]; cbn [across along String.eqb Ascii.eqb Bool.eqb]; unfold dot; ring.
Qed.

Lemma steps os v axis : an_axis axis ->
  let '(o0, o1, _) := os in
  let n : vec := over rounded v (fnorm rounded o0 v) in
  let m : R := fnorm rounded o1 (across axis n) in
  look_down rounded os v axis
  = Ok (if Rle_dec m (rnd 53 (Q2R (1 # 1000000))) then Flip else Turn (A := rounded) (over rounded (across axis n) m) (along axis n)).
Proof.
  destruct os as [[o0 o1] o2]. destruct v as [[x y] z]. intro H. cbv zeta. unfold look_down.
  cbn [over]. set (w := fnorm rounded o0 (x, y, z)).
  assert (Fa : format (div rounded x w)) by apply rnd_format. assert (Fb : format (div rounded y w)) by apply rnd_format.
  assert (Fc : format (div rounded z w)) by apply rnd_format.
  set (a := div rounded x w) in *. set (b := div rounded y w) in *. set (c := div rounded z w) in *. clearbody a b c.
  assert (M1 : forall t, format t -> mul rounded 1 t = t) by (intros t Ft; change (mul rounded 1 t) with (rnd 53 (1 * t)); rewrite Rmult_1_l; apply rnd_id, Ft).
  assert (M0 : forall t, mul rounded 0 t = 0) by (intros t; change (mul rounded 0 t) with (rnd 53 (0 * t)); rewrite Rmult_0_l; apply rnd_0).
  assert (S0 : forall t, format t -> sub rounded t 0 = t) by (intros t Ft; change (sub rounded t 0) with (rnd 53 (t - 0)); rewrite Rminus_0_r; apply rnd_id, Ft).
  assert (S1 : forall t, format t -> sub rounded 0 t = - t).
  { intros t Ft. change (sub rounded 0 t) with (rnd 53 (0 - t)). rewrite Rminus_0_l. apply rnd_id. apply generic_format_opp, Ft. }
  assert (F0 : format 0) by apply generic_format_0.
  assert (A1 : forall t, format t -> add rounded 0 t = t) by (intros t Ft; change (add rounded 0 t) with (rnd 53 (0 + t)); rewrite Rplus_0_l; apply rnd_id, Ft).
  assert (A2 : forall t, format t -> add rounded t 0 = t) by (intros t Ft; change (add rounded t 0) with (rnd 53 (t + 0)); rewrite Rplus_0_r; apply rnd_id, Ft).
  assert (T0 : forall o t, format t -> sum3 rounded o t 0 0 = t) by (intros o t Ft; destruct o; cbn [sum3]; rewrite ?(A2 0 F0), ?(A2 t Ft); auto).
  assert (T1 : forall o t, format t -> sum3 rounded o 0 t 0 = t) by (intros o t Ft; destruct o; cbn [sum3]; rewrite ?(A2 0 F0), ?(A2 t Ft), ?(A1 t Ft), ?(A2 t Ft); auto).
  assert (T2 : forall o t, format t -> sum3 rounded o 0 0 t = t) by (intros o t Ft; destruct o; cbn [sum3]; rewrite ?(A2 0 F0), ?(A1 t Ft), ?(A2 t Ft), ?(A1 t Ft); auto).
  change (less_eq rounded) with (fun x y => if Rle_dec x y then true else false). cbv beta.
  change (of_int rounded 0) with 0. change (of_int rounded 1) with 1.
  destruct H as [-> |[-> | ->]]; cbn [unit3 String.eqb Ascii.eqb Bool.eqb bind across along fcross row_product];
    change (of_int rounded 0) with 0; change (of_int rounded 1) with 1;
    rewrite ?(M1 a Fa), ?(M1 b Fb), ?(M1 c Fc), ?M0, ?(S0 0 F0), ?(S0 a Fa), ?(S0 b Fb), ?(S0 c Fc), ?(S1 a Fa), ?(S1 b Fb), ?(S1 c Fc), ?(T0 _ a Fa), ?(T1 _ b Fb), ?(T2 _ c Fc);
    change (lit rounded (1 # 1000000)) with (rnd 53 (Q2R (1 # 1000000)));
    destruct (Rle_dec _ _); reflexivity.
Qed.

Lemma steps' o0 o1 o2 v axis : an_axis axis -> exists (n : vec) (m : R),
  n = over rounded v (fnorm rounded o0 v) /\ m = fnorm rounded o1 (across axis n) /\
  look_down rounded (o0, o1, o2) v axis
  = Ok (if Rle_dec m (rnd 53 (Q2R (1 # 1000000))) then Flip else Turn (A := rounded) (over rounded (across axis n) m) (along axis n)).
Proof. intro H. do 2 eexists. split; [reflexivity|]. split; [reflexivity|]. exact (steps (o0, o1, o2) v axis H). Qed.

Lemma u_value : 0 < u53 < 1112 / 10 ^ 19.
Proof. unfold u53. split; [apply Rinv_0_lt_compat, pow_lt; lra|]. lra. Qed.

Lemma relative_fac v t o : fac 4 t -> fnorm rounded o v = len v * t -> relative (401 / 100 * u53) (fnorm rounded o v) (len v).
Proof.
  intros F E. change (fnorm rounded o v) with (fnorm rounded o v : R) in *. unfold relative. rewrite E.
  apply fac4 in F. replace (len v * t - len v) with ((t - 1) * len v) by ring.
  rewrite Rabs_mult. apply Rmult_le_compat_r; [apply Rabs_pos|exact F].
Qed.

Lemma relative_0 x : relative 0 x x.
Proof. unfold relative. rewrite Rminus_diag_eq, Rabs_R0 by reflexivity. lra. Qed.

Lemma normed_close o v : 0 < len v -> each2 (relative (6 * u53)) (over rounded v (fnorm rounded o v)) (shrunk v (len v)).
Proof.
  intro P. destruct (fnorm_value o v) as (t & Ft & E). pose proof (relative_fac v t o Ft E) as Rn. clear t Ft E.
  destruct v as [[x y] z]. cbn [over shrunk each2]. pose proof u_value as U.
  assert (G : forall x0, relative (6 * u53) (div rounded x0 (fnorm rounded o (x, y, z))) (x0 / len (x, y, z))).
  { intro x0. apply (quotient 0 (401 / 100 * u53) (402 / 100 * u53) (6 * u53) x0 x0); try lra; try (apply relative_0); try exact Rn.
    - assert (u53 * u53 <= u53 * (/ 10000)) by (apply Rmult_le_compat_l; lra). lra.
    - assert (u53 * u53 <= u53 * (/ 10000)) by (apply Rmult_le_compat_l; lra). lra. }
  repeat split; apply G.
Qed.

Lemma relative_opp e x y : relative e x y -> relative e (- x) (- y).
Proof. unfold relative. intro H. replace (- x - - y) with (- (x - y)) by ring. rewrite !Rabs_Ropp. exact H. Qed.
Lemma relative_00 e : relative e 0 0.
Proof. unfold relative. rewrite Rminus_0_r, Rabs_R0. lra. Qed.

Lemma across_close e axis n w : each2 (relative e) n w -> each2 (relative e) (across axis n) (across axis w).
Proof.
  destruct n as [[a b] c], w as [[x y] z]. intros (A & B & C). unfold across.
  destruct (String.eqb axis "x"); [|destruct (String.eqb axis "y")]; cbn [each2]; repeat match goal with |- _ /\ _ => split end;
    auto using relative_opp, relative_00.
Qed.
Lemma along_close e axis n w : each2 (relative e) n w -> relative e (along axis n) (along axis w).
Proof.
  destruct n as [[a b] c], w as [[x y] z]. intros (A & B & C). unfold along.
  destruct (String.eqb axis "x"); [|destruct (String.eqb axis "y")]; assumption.
Qed.
Lemma across_shrunk axis v n : across axis (shrunk v n) = shrunk (across axis v) n.
Proof.
  destruct v as [[x y] z]. unfold across, shrunk.
  destruct (String.eqb axis "x"); [|destruct (String.eqb axis "y")]; repeat apply (f_equal2 pair); unfold Rdiv; ring.
Qed.
Lemma along_shrunk axis v n : along axis (shrunk v n) = along axis v / n.
Proof. destruct v as [[x y] z]. unfold along, shrunk. destruct (String.eqb axis "x"); [|destruct (String.eqb axis "y")]; reflexivity. Qed.
Lemma len_shrunk v n : 0 < n -> len (shrunk v n) = len v / n.
Proof.
  intro P. destruct v as [[x y] z]. unfold len, shrunk.
  replace (x / n * (x / n) + y / n * (y / n) + z / n * (z / n)) with ((x * x + y * y + z * z) * ((/ n) * (/ n))) by (field; lra).
  assert (0 < / n) by (apply Rinv_0_lt_compat, P). rewrite sqrt_mult_alt by nra. rewrite sqrt_square by lra. reflexivity.
Qed.
Lemma shrunk_shrunk v n m : 0 < n -> m <> 0 -> shrunk (shrunk v n) (m / n) = shrunk v m.
Proof. intros P N. destruct v as [[x y] z]. unfold shrunk. repeat apply (f_equal2 pair); field; lra. Qed.
Lemma len_pos v : 0 <= len v.
Proof. rewrite len_norm. apply norm_pos. Qed.
Lemma sine_1 axis v : an_axis axis -> 0 < len v -> sine axis v * sine axis v + cosine_of axis v * cosine_of axis v = 1.
Proof.
  intros Ax P. unfold sine, cosine_of. replace (len (across axis v) / len v * (len (across axis v) / len v) + along axis v / len v * (along axis v / len v))
    with ((len (across axis v) * len (across axis v) + along axis v * along axis v) / (len v * len v)) by (field; lra).
  rewrite len_across by exact Ax. field. lra.
Qed.

Lemma threshold : relative u53 (rnd 53 (Q2R (1 # 1000000))) (/ 1000000).
Proof.
  unfold relative. pose proof (rnd_error_abs (Q2R (1 # 1000000))) as E. replace (Q2R (1 # 1000000)) with (/ 1000000) in * by (unfold Q2R; cbn; lra). lra.
Qed.

(** * Theorems *)

(** Which of the two matrices it is, and what the second one is made of: the vector around which it turns is within 19
    roundings of the exact one in every coordinate, the cosine within 6; the cosine is inside the interval on which the
    arccosine is defined. *)
Theorem C141_aim : forall os v axis, an_axis axis -> 0 < len v ->
  exists a, look_down rounded os v axis = Ok a /\
  match a with
  | Flip => sine axis v <= / 1000000 * (1 + 14 * u53)
  | Turn k c => / 1000000 * (1 - 14 * u53) <= sine axis v /\ each2 (relative (19 * u53)) k (pivot axis v)
      /\ relative (6 * u53) c (cosine_of axis v) /\ Rabs c <= 1 - 4 / 10 ^ 13
  end.
Proof.
  intros [[o0 o1] o2] v axis Ax P. destruct (steps' o0 o1 o2 v axis Ax) as (n & m & En & Em & St).
  pose proof (normed_close o0 v P) as Nc. rewrite <- En in Nc. clear En.
  pose proof (across_close _ axis _ _ Nc) as Cc. rewrite across_shrunk in Cc.
  pose proof (along_close _ axis _ _ Nc) as Lc. rewrite along_shrunk in Lc.
  pose proof u_value as U. pose proof u53_small as U'. assert (UU : u53 * u53 <= u53 * / 100000) by (apply Rmult_le_compat_l; lra).
  pose proof (len_close (6 * u53) _ _ ltac:(lra) Cc) as Ml. rewrite len_shrunk in Ml by exact P. fold (sine axis v) in Ml.
  pose proof (len_close (6 * u53) _ _ ltac:(lra) Nc) as Nl. rewrite len_shrunk in Nl by exact P.
  replace (len v / len v) with 1 in Nl by (field; lra).
  destruct (fnorm_value o1 (across axis n)) as (t & Ft & E). pose proof (relative_fac (across axis n) t o1 Ft E) as Rm. clear t Ft E.
  rewrite <- Em in Rm. clear Em.
  assert (S0 : 0 <= sine axis v).
  { unfold sine. apply Rmult_le_pos; [apply len_pos|left; apply Rinv_0_lt_compat, P]. }
  pose proof (len_pos (across axis n)) as C0. pose proof (len_pos n) as N0.
  unfold relative in Ml, Nl, Rm. rewrite (Rabs_pos_eq _ S0) in Ml. rewrite (Rabs_pos_eq _ C0) in Rm. rewrite (Rabs_pos_eq 1) in Nl by lra.
  apply Rabs_le_inv in Ml. apply Rabs_le_inv in Nl. apply Rabs_le_inv in Rm.
  pose proof threshold as Th. unfold relative in Th. rewrite (Rabs_pos_eq (/ 1000000)) in Th by lra. apply Rabs_le_inv in Th.
  assert (Mm : (1 - 1002 / 100 * u53) * sine axis v <= m <= (1 + 1002 / 100 * u53) * sine axis v).
  { set (s := sine axis v) in *. set (l := len (across axis n)) in *. clearbody s l. clear - Ml Rm U UU S0 C0.
    assert (A1 : (1 - 6 * u53) * s <= l) by lra. assert (A2 : l <= (1 + 6 * u53) * s) by lra.
    assert (B1 : (1 - 401 / 100 * u53) * l <= m) by lra. assert (B2 : m <= (1 + 401 / 100 * u53) * l) by lra.
    split.
    - eapply Rle_trans; [|exact B1]. apply (Rmult_le_compat_l (1 - 401 / 100 * u53)) in A1; [|lra].
      eapply Rle_trans; [|exact A1]. rewrite <- Rmult_assoc. apply Rmult_le_compat_r; [exact S0|]. nra.
    - eapply Rle_trans; [exact B2|]. apply (Rmult_le_compat_l (1 + 401 / 100 * u53)) in A2; [|lra].
      eapply Rle_trans; [exact A2|]. rewrite <- Rmult_assoc. apply Rmult_le_compat_r; [exact S0|]. nra. }
  eexists. split; [exact St|]. destruct (Rle_dec m (rnd 53 (Q2R (1 # 1000000)))) as [L|L].
  - set (s := sine axis v) in *. clearbody s. assert (X : (1 - 1002 / 100 * u53) * s <= / 1000000 * (1 + u53)) by lra.
    apply Rnot_lt_le. intro Y. apply (Rmult_lt_compat_l (1 - 1002 / 100 * u53)) in Y; [|lra]. nra.
  - apply Rnot_le_lt in L.
    assert (Sl : / 1000000 * (1 - 14 * u53) <= sine axis v).
    { set (s := sine axis v) in *. clearbody s. assert (X : / 1000000 * (1 - u53) <= (1 + 1002 / 100 * u53) * s) by lra.
      apply Rnot_lt_le. intro Y. apply (Rmult_lt_compat_l (1 + 1002 / 100 * u53)) in Y; [|lra]. nra. }
    assert (Sp : 0 < sine axis v) by lra.
    split; [exact Sl|]. split; [|split; [exact Lc|]].
    + assert (Lp : 0 < len (across axis v)).
      { unfold sine in Sp. destruct (Rle_lt_or_eq_dec _ _ (len_pos (across axis v))) as [G|G]; [exact G|]. rewrite <- G in Sp. unfold Rdiv in Sp. lra. }
      unfold pivot. rewrite <- (shrunk_shrunk (across axis v) (len v) (len (across axis v))) by lra. fold (sine axis v).
      set (w := shrunk (across axis v) (len v)) in *. clearbody w. set (c := across axis n) in *. clearbody c.
      assert (Rs : relative (1002 / 100 * u53) m (sine axis v)) by (unfold relative; rewrite (Rabs_pos_eq _ S0); apply Rabs_le; lra).
      assert (G : forall a b, relative (6 * u53) a b -> relative (19 * u53) (div rounded a m) (b / sine axis v)).
      { intros a b R0. apply (quotient (6 * u53) (1002 / 100 * u53) (1603 / 100 * u53) (19 * u53) a b m); try lra; assumption. }
      destruct c as [[c0 c1] c2], w as [[w0 w1] w2]. destruct Cc as (A & B & C). cbn [over shrunk each2].
      repeat match goal with |- _ /\ _ => split end; apply G; assumption.
    + pose proof (len_across axis n Ax) as Q. set (g := along axis n) in *. set (l := len (across axis n)) in *. set (h := len n) in *.
      clearbody g l h. clear - Q Rm Nl L Th U C0 N0 UU.
      assert (Ll : 999 / 10 ^ 9 <= l).
      { apply Rnot_lt_le. intro Y. assert (401 / 100 * u53 * l <= / 1000 * l) by (apply Rmult_le_compat_r; lra). lra. }
      assert (L2 : 998 / 10 ^ 15 <= l * l).
      { apply Rle_trans with (999 / 10 ^ 9 * (999 / 10 ^ 9)); [lra|]. apply Rmult_le_compat; lra. }
      assert (H2 : h * h <= 1 + 14 * u53).
      { apply Rle_trans with ((1 + 6 * u53) * (1 + 6 * u53)); [apply Rmult_le_compat; lra|]. lra. }
      apply le_of_sq; [lra|]. rewrite abs_sq. lra.
Qed.

(** So the arccosine is that of a number. *)
Theorem C141_arccos : forall os v axis k c, an_axis axis -> 0 < len v -> look_down rounded os v axis = Ok (Turn k c) -> -1 < c < 1.
Proof.
  intros os v axis k c Ax P E. destruct (C141_aim os v axis Ax P) as (a & E' & H). rewrite E in E'. injection E' as <-.
  destruct H as (_ & _ & _ & H). apply Rabs_le_inv in H. lra.
Qed.

(** The vector around which it turns has almost length one. *)
Theorem C141_unit : forall os v axis k c, an_axis axis -> 0 < len v -> look_down rounded os v axis = Ok (Turn k c) ->
  Rabs (len k - 1) <= 19 * u53.
Proof.
  intros os v axis k c Ax P E. destruct (C141_aim os v axis Ax P) as (a & E' & H). rewrite E in E'. injection E' as <-.
  destruct H as (S & K & _). pose proof u_value as U. apply len_close in K; [|lra]. unfold relative in K.
  assert (Lp : 0 < len (across axis v)).
  { destruct (Rle_lt_or_eq_dec _ _ (len_pos (across axis v))) as [G|G]; [exact G|]. unfold sine in S. rewrite <- G in S. unfold Rdiv in S.
    assert (0 < / 1000000 * (1 - 14 * u53)) by (apply Rmult_lt_0_compat; lra). lra. }
  unfold pivot in K. rewrite len_shrunk in K by exact Lp. replace (len (across axis v) / len (across axis v)) with 1 in K by (field; lra).
  rewrite (Rabs_pos_eq 1) in K by lra. lra.
Qed.

(** The exact sine of the computed cosine is good to nine digits (and not to the last one: near the axis a rounding of the
    cosine is large for the sine). *)
Theorem C141_sine : forall os v axis k c, an_axis axis -> 0 < len v -> look_down rounded os v axis = Ok (Turn k c) ->
  Rabs (sin (acos c) - sine axis v) <= 2 / 10 ^ 9.
Proof.
  intros os v axis k c Ax P E. destruct (C141_aim os v axis Ax P) as (a & E' & H). rewrite E in E'. injection E' as <-.
  destruct H as (Sl & _ & Cr & Cb). change R in (type of c). pose proof u_value as U. pose proof (sine_1 axis v Ax P) as One.
  apply Rabs_le_inv in Cb. rewrite sin_acos by lra. set (s := sine axis v) in *. set (d := cosine_of axis v) in *. clearbody s d.
  assert (S0 : 999 / 10 ^ 9 <= s) by lra. assert (D1 : Rabs d <= 1) by (apply le_of_sq; [lra|]; rewrite abs_sq; nra).
  pose proof (sqrt_pos (1 - c²)) as Q0. assert (Q : sqrt (1 - c²) * sqrt (1 - c²) = 1 - c * c).
  { unfold Rsqr. apply sqrt_sqrt. nra. }
  set (q := sqrt (1 - c²)) in *. clearbody q.
  assert (X : (q - s) * (q + s) = (d - c) * (d + c)) by lra.
  unfold relative in Cr. assert (C1 : Rabs (c - d) <= 6 * u53) by (pose proof (Rabs_pos d); nra).
  assert (Y : Rabs (q - s) * (q + s) <= 6 * u53 * 2).
  { rewrite <- (Rabs_pos_eq (q + s)) by lra. rewrite <- Rabs_mult, X, Rabs_mult, (Rabs_minus_sym d c).
    apply Rmult_le_compat; try apply Rabs_pos; [exact C1|]. eapply Rle_trans; [apply Rabs_triang|]. assert (Rabs c <= 1) by (apply Rabs_le; lra). lra. }
  apply Rnot_lt_le. intro N. assert (2 / 10 ^ 9 * (999 / 10 ^ 9) <= Rabs (q - s) * (q + s)) by (apply Rmult_le_compat; lra). lra.
Qed.

(** An unknown axis, in any arithmetic. *)
Theorem C141_unknown_axis : forall A os v axis, ~ an_axis axis -> look_down A os v axis = Err ValueError.
Proof.
  intros A [[o0 o1] o2] v axis N. unfold look_down, unit3, an_axis in *.
  destruct (String.eqb_spec axis "x"); [tauto|]. destruct (String.eqb_spec axis "y"); [tauto|]. destruct (String.eqb_spec axis "z"); [tauto|]. reflexivity.
Qed.

(** Without rounding it is the model of C45. *)
Theorem C141_exact : forall os v axis, norm v <> 0 ->
  rotation_matrix_from_vector v axis =
  do df <- direction axis;
  do a <- look_down exact os v axis;
  match a with
  | Flip => Ok (snd df)
  | Turn k c => inverse (madd identity (madd (mscale (sin (acos c)) (skew k)) (mscale (1 - c) (mmul (skew k) (skew k)))))
  end.
Proof.
  intros [[o0 o1] o2] v axis N.
  assert (S3 : forall o u v w, sum3 exact o u v w = u + v + w).
  { intros o u v0 w. change R in u, v0, w. destruct o; cbn [sum3]; change (add exact) with Rplus; match goal with |- ?a = ?b => change (@eq R a b) end; ring. }
  assert (D : forall o (a b : vec), row_product exact o a b = dot a b).
  { intros o [[a0 a1] a2] [[b0 b1] b2]. unfold row_product. rewrite S3. reflexivity. }
  assert (Fn : forall o (a : vec), fnorm exact o a = norm a) by (intros o a; unfold fnorm; rewrite D; reflexivity).
  assert (Ov : forall (a : vec) n, over exact a n = vscale (/ n) a).
  { intros [[a0 a1] a2] n. unfold over, vscale. change (div exact) with Rdiv. unfold Rdiv. rewrite !(Rmult_comm (/ n)). reflexivity. }
  unfold rotation_matrix_from_vector. destruct (Req_EM_T (norm v) 0) as [X|_]; [contradiction|].
  unfold look_down. rewrite Fn, Ov.
  assert (G : forall e f (d : res (vec * mat)) (u : res vec), d = Ok (e, f) -> u = Ok e ->
    (do df <- d; (let (original, flip) := df : vec * mat in
      if Rle_dec (norm (cross original (vscale (/ norm v) v))) (1 / 1000000) then Ok flip
      else inverse (madd identity (madd (mscale (sin (acos (dot original (vscale (/ norm v) v))))
               (skew (vscale (/ norm (cross original (vscale (/ norm v) v))) (cross original (vscale (/ norm v) v)))))
            (mscale (1 - dot original (vscale (/ norm v) v))
               (mmul (skew (vscale (/ norm (cross original (vscale (/ norm v) v))) (cross original (vscale (/ norm v) v))))
                     (skew (vscale (/ norm (cross original (vscale (/ norm v) v))) (cross original (vscale (/ norm v) v))))))))))
    = do df <- d; do a <- (do e <- u;
        if less_eq exact (fnorm exact o1 (fcross exact e (vscale (/ norm v) v))) (lit exact (1 # 1000000)) then Ok Flip
        else Ok (Turn (A := exact) (over exact (fcross exact e (vscale (/ norm v) v)) (fnorm exact o1 (fcross exact e (vscale (/ norm v) v))))
                   (row_product exact o2 e (vscale (/ norm v) v))));
      match a with
      | Flip => Ok (snd df)
      | Turn k c => inverse (madd identity (madd (mscale (sin (acos c)) (skew k)) (mscale (1 - c) (mmul (skew k) (skew k)))))
      end).
  { intros e f d u -> ->. cbn [bind snd]. change (fcross exact e (vscale (/ norm v) v)) with (cross e (vscale (/ norm v) v)). rewrite Fn, Ov, D. change (lit exact (1 # 1000000)) with (Q2R (1 # 1000000)).
    replace (Q2R (1 # 1000000)) with (1 / 1000000) by (unfold Q2R; cbn; lra).
    change (less_eq exact) with R_less_eq. unfold R_less_eq. destruct (Rle_dec _ _); reflexivity. }
  unfold direction, unit3. change (of_int exact 0) with 0. change (of_int exact 1) with 1.
  destruct (String.eqb axis "x"); [eapply G; reflexivity|]. destruct (String.eqb axis "y"); [eapply G; reflexivity|].
  destruct (String.eqb axis "z"); [eapply G; reflexivity|]. reflexivity.
Qed.

(** Lengths do not matter as long as exponents have no limits: vectors times powers of two give the same matrix... *)
Theorem C141_scale : forall os e x y z axis, 
  look_down rounded os (bpow radix2 e * x, bpow radix2 e * y, bpow radix2 e * z) axis = look_down rounded os (x, y, z) axis.
Proof.
  intros [[o0 o1] o2] e x y z axis. unfold look_down.
  assert (E : over rounded (bpow radix2 e * x, bpow radix2 e * y, bpow radix2 e * z) (fnorm rounded o0 (bpow radix2 e * x, bpow radix2 e * y, bpow radix2 e * z))
    = over rounded (x, y, z) (fnorm rounded o0 (x, y, z))); [|rewrite E; reflexivity].
  pose proof (bpow_gt_0 radix2 e) as P. set (b := bpow radix2 e) in *.
  assert (Bb : b * b = bpow radix2 (e + e)) by (unfold b; symmetry; apply bpow_plus).
  assert (Sq : forall t, mul rounded (b * t) (b * t) = bpow radix2 (e + e) * mul rounded t t).
  { intro t. change (mul rounded) with (rnd2 Rmult). unfold rnd2. rewrite <- RoundSumTheorems.rnd_scale, <- Bb. f_equal. ring. }
  assert (Ad : forall s t, add rounded (bpow radix2 (e + e) * s) (bpow radix2 (e + e) * t) = bpow radix2 (e + e) * add rounded s t).
  { intros s t. change (add rounded) with (rnd2 Rplus). unfold rnd2. rewrite <- RoundSumTheorems.rnd_scale. f_equal. ring. }
  assert (Fn : fnorm rounded o0 (b * x, b * y, b * z) = b * fnorm rounded o0 (x, y, z)).
  { unfold fnorm, row_product. rewrite !Sq. replace (sum3 rounded o0 (bpow radix2 (e + e) * mul rounded x x) (bpow radix2 (e + e) * mul rounded y y) (bpow radix2 (e + e) * mul rounded z z))
      with (bpow radix2 (e + e) * sum3 rounded o0 (mul rounded x x) (mul rounded y y) (mul rounded z z)) by (destruct o0; cbn [sum3]; rewrite !Ad; reflexivity).
    change (root rounded) with (fun a => rnd 53 (sqrt a)). cbv beta. rewrite sqrt_mult_alt by apply bpow_ge_0.
    rewrite <- Bb, sqrt_square by lra. apply RoundSumTheorems.rnd_scale. }
  rewrite Fn. unfold over. change (div rounded) with (rnd2 Rdiv). unfold rnd2.
  assert (Q : forall s t, b * s / (b * t) = s / t).
  { intros s t. unfold Rdiv. rewrite Rinv_mult. replace (b * s * (/ b * / t)) with (b * / b * (s * / t)) by ring. rewrite Rinv_r by lra. ring. }
  rewrite !Q. reflexivity.
Qed.

Definition flips {A} (r : res (aim A)) : bool := match r with Ok Flip => true | _ => false end.
Definition turns {A} (r : res (aim A)) (P : num A -> num A -> num A -> num A -> Prop) : Prop :=
  match r with Ok (Turn (k0, k1, k2) c) => P k0 k1 k2 c | _ => False end.

(** ... but exponents have limits: the square of a long vector is infinite, it becomes the zero vector, and the matrix flips
    the axis, whatever the direction of the vector.  The one of length one turns it by a right angle. *)
Theorem C141_long_refuted :
  let os := (First_two, First_two, First_two) in
  turns (look_down ieee os (dbl 1 0, dbl 0 0, dbl 0 0) "z") (fun k0 k1 k2 c =>
    SFeqb k0 (dbl 0 0) = true /\ SFeqb k1 (dbl 1 0) = true /\ SFeqb k2 (dbl 0 0) = true /\ SFeqb c (dbl 0 0) = true)
  /\ flips (look_down ieee os (dbl 1 600, dbl 0 0, dbl 0 0) "z") = true.
Proof. cbv zeta. split; vm_compute; repeat split. Qed.

(** The square of a short vector is zero: all of the matrix is NaN, as for the zero vector; nothing is raised. *)
Theorem C141_short :
  let os := (First_two, First_two, First_two) in
  turns (look_down ieee os (dbl 1 (-600), dbl 1 (-600), dbl 1 (-600)) "z") (fun k0 k1 k2 c => k0 = S754_nan /\ k1 = S754_nan /\ k2 = S754_nan /\ c = S754_nan)
  /\ turns (look_down ieee os (dbl 0 0, dbl 0 0, dbl 0 0) "z") (fun k0 k1 k2 c => k0 = S754_nan /\ k1 = S754_nan /\ k2 = S754_nan /\ c = S754_nan).
Proof. cbv zeta. split; vm_compute; repeat split. Qed.

(** * A case: the vector (3, 0, 4) seen along z. *)
Example C141_case : 0 < len (3, 0, 4) /\ sine "z" (3, 0, 4) = 3 / 5 /\ cosine_of "z" (3, 0, 4) = 4 / 5 /\ pivot "z" (3, 0, 4) = (0, 1, 0) /\
  forall os, exists k c, look_down rounded os (3, 0, 4) "z" = Ok (Turn k c) /\ each2 (relative (19 * u53)) k (0, 1, 0) /\ relative (6 * u53) c (4 / 5).
Proof.
  assert (L : len (3, 0, 4) = 5).
  { unfold len. replace (3 * 3 + 0 * 0 + 4 * 4) with (5 * 5) by ring. apply sqrt_square. lra. }
  assert (La : len (across "z" (3, 0, 4)) = 3).
  { cbn [across String.eqb Ascii.eqb Bool.eqb]. unfold len. replace (- 0 * - 0 + 3 * 3 + 0 * 0) with (3 * 3) by ring. apply sqrt_square. lra. }
  assert (S : sine "z" (3, 0, 4) = 3 / 5) by (unfold sine; rewrite L, La; reflexivity).
  assert (C : cosine_of "z" (3, 0, 4) = 4 / 5) by (unfold cosine_of; rewrite L; reflexivity).
  assert (K : pivot "z" (3, 0, 4) = (0, 1, 0)).
  { unfold pivot. rewrite La. cbn [across String.eqb Ascii.eqb Bool.eqb shrunk]. repeat apply (f_equal2 pair); lra. }
  split; [lra|]. split; [exact S|]. split; [exact C|]. split; [exact K|].
  intro os. destruct (C141_aim os (3, 0, 4) "z") as (a & E & H); [right; right; reflexivity|lra|].
  destruct a as [|k c].
  - exfalso. rewrite S in H. pose proof u_value. lra.
  - destruct H as (_ & A & B & _). rewrite K in A. rewrite C in B. exists k, c. auto.
Qed.

(** The same with doubles. *)
Example C141_float_case :
  turns (look_down ieee (First_two, Last_two, Outer_two) (dbl 3 0, dbl 0 0, dbl 4 0) "z") (fun k0 k1 k2 c =>
    SFeqb k0 (dbl 0 0) = true /\ SFeqb k1 (dbl 1 0) = true /\ SFeqb k2 (dbl 0 0) = true /\ SFeqb c (lit ieee (4 # 5)) = true)
  /\ flips (look_down ieee (First_two, Last_two, Outer_two) (dbl 0 0, dbl 1 (-25), dbl 4 0) "z") = true.
Proof. split; vm_compute; repeat split. Qed.

Print Assumptions C141_aim.
Print Assumptions C141_arccos.
Print Assumptions C141_unit.
Print Assumptions C141_sine.
Print Assumptions C141_unknown_axis.
Print Assumptions C141_exact.
Print Assumptions C141_scale.
Print Assumptions C141_long_refuted.
Print Assumptions C141_short.
Print Assumptions C141_case.
Print Assumptions C141_float_case.
