(** C141, continued: the matrix made of rounded directions. *)
From Coq Require Import String List ZArith QArith Bool Reals Lia Lra Psatz.
From Verif Require Import Base RoundModel RoundFloatModel WrapSpec TurnModel TurnSpec AimModel AimSpec AimTheorems.
From Verif Require Import RotModel RotProofs RotTheorems TurnTheorems.
Open Scope R_scope.

(** Within [e] of a number of at most [b]. *)
Definition nb (e b x y : R) : Prop := Rabs (x - y) <= e /\ Rabs y <= b.
Lemma nb_mul e b x y e' b' x' y' : nb e b x y -> nb e' b' x' y' -> nb (e * b' + e' * b + e * e') (b * b') (x * x') (y * y').
Proof.
  intros [A B] [C D]. pose proof (Rabs_pos (x - y)). pose proof (Rabs_pos (x' - y')). pose proof (Rabs_pos y). pose proof (Rabs_pos y'). split.
  - replace (x * x' - y * y') with ((x - y) * y' + (x' - y') * y + (x - y) * (x' - y')) by ring.
    eapply Rle_trans; [apply Rabs_triang|]. apply Rplus_le_compat; [eapply Rle_trans; [apply Rabs_triang|]; apply Rplus_le_compat|];
      rewrite Rabs_mult; apply Rmult_le_compat; assumption.
  - rewrite Rabs_mult. apply Rmult_le_compat; assumption.
Qed.
Lemma nb_add e b x y e' b' x' y' : nb e b x y -> nb e' b' x' y' -> nb (e + e') (b + b') (x + x') (y + y').
Proof.
  intros [A B] [C D]. split.
  - replace (x + x' - (y + y')) with ((x - y) + (x' - y')) by ring. eapply Rle_trans; [apply Rabs_triang|]. lra.
  - eapply Rle_trans; [apply Rabs_triang|]. lra.
Qed.
Lemma nb_sub e b x y e' b' x' y' : nb e b x y -> nb e' b' x' y' -> nb (e + e') (b + b') (x - x') (y - y').
Proof.
  intros [A B] [C D]. split.
  - replace (x - x' - (y - y')) with ((x - y) - (x' - y')) by ring. unfold Rminus at 1. eapply Rle_trans; [apply Rabs_triang|]. rewrite Rabs_Ropp. lra.
  - unfold Rminus. eapply Rle_trans; [apply Rabs_triang|]. rewrite Rabs_Ropp. lra.
Qed.
Lemma nb_1 : nb 0 1 1 1.
Proof. split; [rewrite Rminus_diag_eq by reflexivity; rewrite Rabs_R0; lra|rewrite Rabs_pos_eq; lra]. Qed.

Definition tiny : R := / 10 ^ 14.
Definition se : R := 2 / 10 ^ 9.
Definition me : R := 21 / 10 ^ 10.

Lemma diag_near k1 k2 c l1 l2 d : nb tiny 1 k1 l1 -> nb tiny 1 k2 l2 -> nb tiny 1 c d ->
  Rabs ((1 - (1 - c) * (k1 * k1 + k2 * k2)) - (1 - (1 - d) * (l1 * l1 + l2 * l2))) <= me.
Proof.
  intros A B C. pose proof (nb_sub _ _ _ _ _ _ _ _ nb_1 (nb_mul _ _ _ _ _ _ _ _ (nb_sub _ _ _ _ _ _ _ _ nb_1 C)
    (nb_add _ _ _ _ _ _ _ _ (nb_mul _ _ _ _ _ _ _ _ A A) (nb_mul _ _ _ _ _ _ _ _ B B)))) as [X _].
  eapply Rle_trans; [exact X|]. unfold tiny, me. lra.
Qed.
Lemma off_near s c k k1 k2 t d l l1 l2 : nb se 1 s t -> nb tiny 1 c d -> nb tiny 1 k l -> nb tiny 1 k1 l1 -> nb tiny 1 k2 l2 ->
  Rabs ((s * k + (1 - c) * (k1 * k2)) - (t * l + (1 - d) * (l1 * l2))) <= me
  /\ Rabs ((- (s * k) + (1 - c) * (k1 * k2)) - (- (t * l) + (1 - d) * (l1 * l2))) <= me.
Proof.
  intros A B C D E.
  pose proof (nb_mul _ _ _ _ _ _ _ _ (nb_sub _ _ _ _ _ _ _ _ nb_1 B) (nb_mul _ _ _ _ _ _ _ _ D E)) as P.
  pose proof (nb_mul _ _ _ _ _ _ _ _ A C) as Q. split.
  - destruct (nb_add _ _ _ _ _ _ _ _ Q P) as [X _]. eapply Rle_trans; [exact X|]. unfold tiny, se, me. lra.
  - destruct (nb_sub _ _ _ _ _ _ _ _ P Q) as [X _].
    replace (- (s * k) + (1 - c) * (k1 * k2) - (- (t * l) + (1 - d) * (l1 * l2))) with ((1 - c) * (k1 * k2) - s * k - ((1 - d) * (l1 * l2) - t * l)) by ring.
    eapply Rle_trans; [exact X|]. unfold tiny, se, me. lra.
Qed.

Lemma rodrigues_near k l s t c d : each2 (nb tiny 1) k l -> nb se 1 s t -> nb tiny 1 c d ->
  mat_near me (rodrigues k s c) (rodrigues l t d).
Proof.
  destruct k as [[k0 k1] k2], l as [[l0 l1] l2]. intros (K0 & K1 & K2) S C.
  unfold rodrigues, identity, skew, mmul, mscale, madd, vadd, vscale, transpose, dot, mat_near, each2.
  pose proof (diag_near k1 k2 c l1 l2 d K1 K2 C) as D0. pose proof (diag_near k0 k2 c l0 l2 d K0 K2 C) as D1. pose proof (diag_near k0 k1 c l0 l1 d K0 K1 C) as D2.
  destruct (off_near s c k2 k0 k1 t d l2 l0 l1 S C K2 K0 K1) as (A1 & A2).
  destruct (off_near s c k1 k0 k2 t d l1 l0 l2 S C K1 K0 K2) as (B1 & B2).
  destruct (off_near s c k0 k1 k2 t d l0 l1 l2 S C K0 K1 K2) as (C1 & C2).
  repeat match goal with |- _ /\ _ => split end.
  - refine (Rle_trans _ _ _ (Req_le _ _ (f_equal Rabs _)) D0). ring.
  - refine (Rle_trans _ _ _ (Req_le _ _ (f_equal Rabs _)) A2). ring.
  - refine (Rle_trans _ _ _ (Req_le _ _ (f_equal Rabs _)) B1). ring.
  - refine (Rle_trans _ _ _ (Req_le _ _ (f_equal Rabs _)) A1). ring.
  - refine (Rle_trans _ _ _ (Req_le _ _ (f_equal Rabs _)) D1). ring.
  - refine (Rle_trans _ _ _ (Req_le _ _ (f_equal Rabs _)) C2). ring.
  - refine (Rle_trans _ _ _ (Req_le _ _ (f_equal Rabs _)) B2). ring.
  - refine (Rle_trans _ _ _ (Req_le _ _ (f_equal Rabs _)) C1). ring.
  - refine (Rle_trans _ _ _ (Req_le _ _ (f_equal Rabs _)) D2). ring.
Qed.

(** * Inverses *)

Definition ie : R := 5 / 10 ^ 8.

Lemma minor_near a b c d a' b' c' d' : nb me 1 a a' -> nb me 1 b b' -> nb me 1 c c' -> nb me 1 d d' ->
  Rabs ((a * b - c * d) - (a' * b' - c' * d')) <= 85 / 10 ^ 10.
Proof.
  intros A B C D. destruct (nb_sub _ _ _ _ _ _ _ _ (nb_mul _ _ _ _ _ _ _ _ A B) (nb_mul _ _ _ _ _ _ _ _ C D)) as [X _].
  eapply Rle_trans; [exact X|]. unfold me. lra.
Qed.
Lemma scaled_near d x y : Rabs (d - 1) <= 4 / 10 ^ 8 -> nb (85 / 10 ^ 10) 1 x y -> Rabs (/ d * x - y) <= ie.
Proof.
  intros D [X Y]. assert (Dl : 1 - 4 / 10 ^ 8 <= d) by (unfold Rabs in D; destruct (Rcase_abs (d - 1)); lra).
  assert (Dp : 0 < d) by lra. apply (Rmult_le_reg_l d); [exact Dp|]. rewrite <- (Rabs_pos_eq d) at 1 by lra. rewrite <- Rabs_mult.
  replace (d * (/ d * x - y)) with ((x - y) + - ((d - 1) * y)) by (field; lra).
  eapply Rle_trans; [apply Rabs_triang|]. rewrite Rabs_Ropp, Rabs_mult.
  assert (Rabs (d - 1) * Rabs y <= 4 / 10 ^ 8 * 1) by (apply Rmult_le_compat; try apply Rabs_pos; assumption).
  assert ((1 - 4 / 10 ^ 8) * ie <= d * ie) by (apply Rmult_le_compat_r; [unfold ie; lra|exact Dl]). unfold ie in *. lra.
Qed.

Lemma entry_le a b c : a * a + b * b + c * c = 1 -> Rabs a <= 1 /\ Rabs b <= 1 /\ Rabs c <= 1.
Proof. intro H. repeat split; (apply le_of_sq; [lra|]); rewrite abs_sq; nra. Qed.

Lemma inverse_near m q : mmul q (transpose q) = identity -> det q = 1 -> mat_near me m q ->
  exists w, inverse m = Ok w /\ mat_near ie w (transpose q).
Proof.
  intros Ho Hd N. destruct (inverse_orthogonal q Ho Hd) as [Hi _]. unfold inverse in Hi. rewrite Hd in Hi.
  destruct (Req_EM_T 1 0) as [X|_]; [lra|].
  destruct m as [[[[a b] c] [[d e] f]] [[g h] i]], q as [[[[a' b'] c'] [[d' e'] f']] [[g' h'] i']].
  destruct N as ((Na & Nb & Nc) & (Nd & Ne & Nf) & (Ng & Nh & Ni)).
  unfold mmul, transpose, identity, dot in Ho. injection Ho as R0 _ _ _ R1 _ _ _ R2.
  apply entry_le in R0, R1, R2. destruct R0 as (Ba & Bb & Bc), R1 as (Bd & Be & Bf), R2 as (Bg & Bh & Bi).
  unfold mscale, vscale, transpose, cross in Hi. rewrite Rinv_1 in Hi.
  injection Hi as E0 E1 E2 E3 E4 E5 E6 E7 E8. rewrite Rmult_1_l in E0, E1, E2, E3, E4, E5, E6, E7, E8.
  pose proof (minor_near e i f h e' i' f' h' (conj Ne Be) (conj Ni Bi) (conj Nf Bf) (conj Nh Bh)) as M0.
  pose proof (minor_near f g d i f' g' d' i' (conj Nf Bf) (conj Ng Bg) (conj Nd Bd) (conj Ni Bi)) as M1.
  pose proof (minor_near d h e g d' h' e' g' (conj Nd Bd) (conj Nh Bh) (conj Ne Be) (conj Ng Bg)) as M2.
  pose proof (minor_near h c i b h' c' i' b' (conj Nh Bh) (conj Nc Bc) (conj Ni Bi) (conj Nb Bb)) as M3.
  pose proof (minor_near i a g c i' a' g' c' (conj Ni Bi) (conj Na Ba) (conj Ng Bg) (conj Nc Bc)) as M4.
  pose proof (minor_near g b h a g' b' h' a' (conj Ng Bg) (conj Nb Bb) (conj Nh Bh) (conj Na Ba)) as M5.
  pose proof (minor_near b f c e b' f' c' e' (conj Nb Bb) (conj Nf Bf) (conj Nc Bc) (conj Ne Be)) as M6.
  pose proof (minor_near c d a f c' d' a' f' (conj Nc Bc) (conj Nd Bd) (conj Na Ba) (conj Nf Bf)) as M7.
  pose proof (minor_near a e b d a' e' b' d' (conj Na Ba) (conj Ne Be) (conj Nb Bb) (conj Nd Bd)) as M8.
  rewrite E0 in M0. rewrite E3 in M1. rewrite E6 in M2. rewrite E1 in M3. rewrite E4 in M4. rewrite E7 in M5. rewrite E2 in M6. rewrite E5 in M7. rewrite E8 in M8.
  set (D := det ((a, b, c), (d, e, f), (g, h, i))).
  assert (Dn : Rabs (D - 1) <= 4 / 10 ^ 8).
  { unfold D. rewrite <- Hd. unfold det, dot, cross. rewrite E0, E3, E6.
    pose proof (nb_mul _ _ _ _ _ _ _ _ (conj Na Ba : nb me 1 a a') (conj M0 Ba : nb _ 1 _ a')) as P0.
    pose proof (nb_mul _ _ _ _ _ _ _ _ (conj Nb Bb : nb me 1 b b') (conj M1 Bb : nb _ 1 _ b')) as P1.
    pose proof (nb_mul _ _ _ _ _ _ _ _ (conj Nc Bc : nb me 1 c c') (conj M2 Bc : nb _ 1 _ c')) as P2.
    destruct (nb_add _ _ _ _ _ _ _ _ (nb_add _ _ _ _ _ _ _ _ P0 P1) P2) as [X _].
    eapply Rle_trans; [exact X|]. unfold me. lra. }
  exists (mscale (/ D) (transpose (cross (d, e, f) (g, h, i), cross (g, h, i) (a, b, c), cross (a, b, c) (d, e, f)))). split.
  { unfold inverse. destruct (Req_EM_T _ 0) as [Z|_]; [|reflexivity].
    exfalso. change (D = 0) in Z. rewrite Z in Dn. unfold Rabs in Dn. destruct (Rcase_abs (0 - 1)); lra. }
  unfold mscale, vscale, transpose, cross, mat_near, each2.
  repeat match goal with |- _ /\ _ => split end; apply scaled_near; try exact Dn; split; assumption.
Qed.

(** * The matrix *)

Lemma relative_nb e x y : 0 <= e -> e <= tiny -> Rabs y <= 1 -> relative e x y -> nb tiny 1 x y.
Proof.
  intros E T Y H. split; [|exact Y]. unfold relative in H. pose proof (Rabs_pos y). eapply Rle_trans; [exact H|].
  apply Rle_trans with (e * 1); [apply Rmult_le_compat_l; assumption|lra].
Qed.

(** The matrix of rounded directions (with exact sine, arccosine and inverse) is within 5e-8 of the exact rotation in every
    entry. *)
Theorem C141_matrix : forall os v axis k c, named axis -> aside axis v -> look_down rounded os v axis = Ok (Turn k c) ->
  exists w q, inverse (madd identity (madd (mscale (sin (acos c)) (skew k)) (mscale (1 - c) (mmul (skew k) (skew k))))) = Ok w
    /\ rotation_matrix_from_vector v axis = Ok q /\ orthogonal q /\ mat_near (5 / 10 ^ 8) w q.
Proof.
  intros os v axis k c Ax As E.
  assert (Hn : norm v <> 0).
  { apply length2_pos. pose proof (perpendicular_le axis v Ax). unfold aside in As. nra. }
  assert (P : 0 < len v) by (rewrite len_norm; pose proof (norm_pos v); lra).
  pose proof (C141_sine os v axis k c Ax P E) as Sn.
  destruct (C141_aim os v axis Ax P) as (a & E' & H). rewrite E in E'. injection E' as <-. clear E.
  destruct H as (Sl & Kr & Cr & Cb). pose proof u_value as U.
  pose proof (sine_1 axis v Ax P) as One.
  assert (S0 : 0 < sine axis v) by (assert (0 < / 1000000 * (1 - 14 * u53)) by (apply Rmult_lt_0_compat; lra); lra).
  assert (Lp : 0 < len (across axis v)).
  { destruct (Rle_lt_or_eq_dec _ _ (len_pos (across axis v))) as [G|G]; [exact G|]. unfold sine in S0. rewrite <- G in S0. unfold Rdiv in S0. lra. }
  set (M := rodrigues (pivot axis v) (sine axis v) (cosine_of axis v)).
  assert (Pk : dot (pivot axis v) (pivot axis v) = 1).
  { rewrite <- norm_sq, <- len_norm. unfold pivot. rewrite len_shrunk by exact Lp. field. lra. }
  assert (Ho : mmul M (transpose M) = identity) by (apply rodrigues_orthogonal; assumption).
  assert (Hd : det M = 1) by (apply rodrigues_det; assumption).
  assert (Near : mat_near me (rodrigues k (sin (acos c)) c) M).
  { apply rodrigues_near.
    - destruct (pivot axis v) as [[p0 p1] p2]. destruct k as [[k0 k1] k2]. destruct Kr as (A & B & C).
      unfold dot in Pk. apply entry_le in Pk. destruct Pk as (Q0 & Q1 & Q2).
      split; [|split]; apply (relative_nb (19 * u53)); try assumption; unfold tiny; lra.
    - split; [exact Sn|]. apply le_of_sq; [lra|]. rewrite abs_sq. nra.
    - apply (relative_nb (6 * u53)); try assumption; try (unfold tiny; lra). apply le_of_sq; [lra|]. rewrite abs_sq. nra. }
  destruct (inverse_near _ _ Ho Hd Near) as (w & Ew & Nw).
  destruct (C45_rotation axis v Ax As) as (q & Eq & Oq & _). exists w, q. split; [exact Ew|]. split; [exact Eq|]. split; [exact Oq|].
  replace q with (transpose M); [exact Nw|].
  destruct (inverse_orthogonal M Ho Hd) as [Hi _]. apply (f_equal (fun r => match r with Ok x => x | Err _ => q end)) in Eq. rewrite <- Eq. clear Eq.
  replace (rotation_matrix_from_vector v axis) with (inverse M); [rewrite Hi; reflexivity|].
  unfold rotation_matrix_from_vector. destruct (Req_EM_T (norm v) 0) as [|_]; [contradiction|].
  destruct (direction_named axis Ax) as [flip ->]. cbn [bind].
  destruct (Rle_dec _ _) as [L|L]; [exfalso; exact (proj1 (modulus_threshold axis v Ax Hn) L As)|].
  assert (Ac : cross (unit_vector axis) (vscale (/ norm v) v) = shrunk (across axis v) (len v)).
  { rewrite len_norm. destruct v as [[x y] z]. destruct Ax as [-> |[-> | ->]]; unfold unit_vector, across, cross, vscale, shrunk, Rdiv; cbn [String.eqb Ascii.eqb Bool.eqb];
      repeat apply (f_equal2 pair); ring. }
  assert (Al : dot (unit_vector axis) (vscale (/ norm v) v) = cosine_of axis v).
  { unfold cosine_of. rewrite len_norm. destruct v as [[x y] z]. destruct Ax as [-> |[-> | ->]]; unfold unit_vector, along, dot, vscale, Rdiv; cbn [String.eqb Ascii.eqb Bool.eqb]; ring. }
  assert (Nc : norm (cross (unit_vector axis) (vscale (/ norm v) v)) = sine axis v).
  { rewrite Ac, <- len_norm. apply len_shrunk, P. }
  rewrite Nc, Ac, Al.
  assert (Sa : sin (acos (cosine_of axis v)) = sine axis v).
  { rewrite sin_acos by nra. unfold Rsqr. replace (1 - cosine_of axis v * cosine_of axis v) with (sine axis v * sine axis v) by lra. apply sqrt_square. lra. }
  assert (Kk : vscale (/ sine axis v) (shrunk (across axis v) (len v)) = pivot axis v).
  { unfold pivot. rewrite <- (shrunk_shrunk (across axis v) (len v) (len (across axis v))) by lra. fold (sine axis v).
    destruct (shrunk (across axis v) (len v)) as [[x y] z]. unfold vscale, shrunk, Rdiv. repeat apply (f_equal2 pair); ring. }
  rewrite Sa, Kk. reflexivity.
Qed.

(** So are coordinates that are rotated with it. *)
Theorem C141_rotated : forall os os' v axis k c center x, named axis -> aside axis v -> look_down rounded os v axis = Ok (Turn k c) ->
  exists w q, inverse (madd identity (madd (mscale (sin (acos c)) (skew k)) (mscale (1 - c) (mmul (skew k) (skew k))))) = Ok w
    /\ rotation_matrix_from_vector v axis = Ok q
    /\ each3 (fun t e o => Rabs (t - e) <= slack (5 / 10 ^ 8) (Rabs o) (far x center)) (turned rounded os' w center x) (rotate q center x) center.
Proof.
  intros os os' v axis k c center x Ax As E. destruct (C141_matrix os v axis k c Ax As E) as (w & q & Ew & Eq & Oq & N).
  exists w, q. split; [exact Ew|]. split; [exact Eq|].
  pose proof (C137_rotation os' w q center x (5 / 10 ^ 8) ltac:(lra) Oq N) as H. exact H.
Qed.

(** (3, 0, 4) is a vector as in these theorems. *)
Example C141_matrix_case : aside "z" (3, 0, 4) /\ forall os, exists k c, look_down rounded os (3, 0, 4) "z" = Ok (Turn k c).
Proof.
  destruct C141_case as (_ & _ & _ & _ & H). split.
  - unfold aside. cbn. lra.
  - intro os. destruct (H os) as (k & c & E & _). exists k, c. exact E.
Qed.

Print Assumptions C141_matrix.
Print Assumptions C141_rotated.
Print Assumptions C141_matrix_case.
