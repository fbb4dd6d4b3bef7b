(** Lemmas for the statements about whole pictures. *)
From Coq Require Import List ZArith Reals Bool Lia Lra Permutation.
From Verif Require Import Base BaseLemmas VisModel VisSpec VisSumProofs VisProofs RotModel HsmlModel HsmlProofs
  FrontModel FrontSpec.
Import ListNotations.
Open Scope R_scope.

(** * Depth *)

Lemma leb_iff : forall a b, leb a b = true <-> a <= b.
Proof. intros. unfold leb. destruct (Rle_dec a b); split; intro; auto; try discriminate; contradiction. Qed.

Lemma IZR_bounds : forall k l : Z, IZR k - 1 < IZR l < IZR k + 1 -> l = k.
Proof.
  intros k l (H1 & H2). assert (A : (k - 1 < l)%Z) by (apply lt_IZR; rewrite minus_IZR; lra).
  assert (B : (l < k + 1)%Z) by (apply lt_IZR; rewrite plus_IZR; lra). lia.
Qed.

Lemma rmod_form : forall x l, x = rmod x l + IZR (floor (x / l)) * l.
Proof. intros. unfold rmod. ring. Qed.

Lemma rmod_shift : forall x l k, 0 < l -> rmod (x + IZR k * l) l = rmod x l.
Proof.
  intros x l k Hl. unfold rmod. replace ((x + IZR k * l) / l) with (x / l + IZR k) by (field; lra).
  rewrite floor_add, plus_IZR. ring.
Qed.

Lemma rmod_small : forall x l, 0 <= x < l -> rmod x l = x.
Proof.
  intros x l H. unfold rmod. rewrite (floor_unique (x / l) 0); [ring|].
  assert (E : x / l * l = x) by (field; lra). split; [|]; nra.
Qed.

Lemma integer_gap : forall (k l : Z) L x y, 0 < L -> 0 <= x < L -> 0 <= y < L ->
  IZR k * L + x < IZR l * L + y + L -> (k <= l + 1)%Z.
Proof.
  intros k l L x y HL Hx Hy H. assert (IZR k < IZR l + 2) by nra.
  assert (k < l + 2)%Z by (apply lt_IZR; rewrite plus_IZR; lra). lia.
Qed.

(** The depth mask of a periodic projection, for depths from minus to plus one box length. *)
Lemma in_depth_periodic : forall L lo hi z, 0 < L -> 0 <= z < L -> 0 < hi - lo <= L ->
  (in_depth true L lo hi z = true <-> image_in L lo hi z).
Proof.
  intros L lo hi z HL Hz Hr. unfold in_depth, image_in.
  pose proof (rmod_range lo L HL) as Rl. pose proof (rmod_range hi L HL) as Rh.
  pose proof (rmod_form lo L) as El. pose proof (rmod_form hi L) as Eh.
  set (a := floor (lo / L)) in *. set (b := floor (hi / L)) in *.
  set (zm := rmod lo L) in *. set (zM := rmod hi L) in *. clearbody a b zm zM.
  assert (Hab : (a <= b <= a + 1)%Z).
  { split; [apply le_IZR | apply le_IZR; rewrite plus_IZR].
    - assert (IZR a < IZR b + 1) by nra.
      assert (a < b + 1)%Z by (apply lt_IZR; rewrite plus_IZR; lra). apply IZR_le; lia.
    - assert (IZR b < IZR a + 2) by nra.
      assert (b < a + 2)%Z by (apply lt_IZR; rewrite plus_IZR; lra). rewrite <- plus_IZR. apply IZR_le; lia. }
  destruct (Rle_dec zM zm) as [C|C].
  - rewrite (proj2 (leb_iff zM zm)) by exact C.
    assert (Hb : b = (a + 1)%Z).
    { assert (~ b = a); [|lia]. intros ->. lra. }
    rewrite Hb, plus_IZR in Eh. rewrite orb_true_iff, !leb_iff. split.
    + intros [H|H]; [exists (a + 1)%Z; rewrite plus_IZR | exists a]; nra.
    + intros (k & K1 & K2). destruct (Rle_dec zm z) as [G|G]; [right; lra|left].
      assert (E : k = (a + 1)%Z); [|subst k; rewrite plus_IZR in *; lra].
      apply IZR_bounds. rewrite plus_IZR. split; nra.
  - destruct (leb zM zm) eqn:E; [apply leb_iff in E; contradiction|]. clear E.
    assert (Hb : b = a).
    { assert (~ b = (a + 1)%Z); [|lia]. intros ->. rewrite plus_IZR in Eh. nra. }
    subst b. rewrite andb_true_iff, !leb_iff. split.
    + intros (H1 & H2). exists a. lra.
    + intros (k & K1 & K2). assert (E : k = a); [|subst k; lra]. apply IZR_bounds. split; nra.
Qed.

Lemma in_depth_backwards : forall L lo hi z, 0 < L -> 0 <= z < L -> - L < hi - lo <= 0 ->
  (in_depth true L lo hi z = true <-> image_in L lo (hi + L) z).
Proof.
  intros L lo hi z HL Hz Hr. rewrite <- (in_depth_periodic L lo (hi + L) z); auto; [|lra].
  unfold in_depth.
  replace (rmod (hi + L) L) with (rmod hi L); [tauto|].
  rewrite <- (rmod_shift hi L 1 HL). f_equal. ring.
Qed.

Lemma image_in_shift : forall L lo hi z j, image_in L lo hi (z + IZR j * L) <-> image_in L lo hi z.
Proof.
  intros. unfold image_in. split; intros (k & K).
  - exists (k + j)%Z. rewrite plus_IZR. lra.
  - exists (k - j)%Z. rewrite minus_IZR. lra.
Qed.

(** * Masks *)

Lemma filter_combine_map : forall A (f : A -> bool) l, map snd (filter fst (combine (map f l) l)) = filter f l.
Proof. induction l as [|x t IH]; cbn [map combine filter fst]; auto. destruct (f x); cbn [map snd]; rewrite IH; reflexivity. Qed.

Lemma pick_map : forall A (f : A -> bool) l, pick (Some (map f l)) l = Ok (filter f l).
Proof. intros. unfold pick. unfold zlen. rewrite map_length, Z.eqb_refl, filter_combine_map. reflexivity. Qed.

Lemma filter_map : forall A B (g : A -> B) (f : B -> bool) l, filter f (map g l) = map g (filter (fun a => f (g a)) l).
Proof. induction l as [|x t IH]; cbn; auto. destruct (f (g x)); cbn; rewrite IH; reflexivity. Qed.

(** * Sums over copies *)

Definition nonzero (x : R) : bool := if Req_EM_T x 0 then false else true.
Lemma sum_nonzero : forall (f : Z -> R) l, sumR (map f l) = sumR (map f (filter (fun a => nonzero (f a)) l)).
Proof.
  induction l as [|x t IH]; cbn [filter]; auto. unfold nonzero at 1.
  destruct (Req_EM_T (f x) 0) as [E|E]; cbn [map]; rewrite ?sumR_cons, IH; rewrite ?E; lra.
Qed.

Lemma sum_support : forall (f : Z -> R) A B, NoDup A -> NoDup B ->
  (forall a, f a <> 0 -> In a A) -> (forall a, f a <> 0 -> In a B) -> sumR (map f A) = sumR (map f B).
Proof.
  intros f A B HA HB SA SB. rewrite (sum_nonzero f A), (sum_nonzero f B). apply sumR_perm, Permutation_map.
  apply NoDup_Permutation; try (apply NoDup_filter; assumption).
  assert (NZ : forall x, nonzero (f x) = true <-> f x <> 0).
  { intro x. unfold nonzero. destruct (Req_EM_T (f x) 0); split; intro; try discriminate; try contradiction; auto. }
  intro x. rewrite !filter_In, !NZ. split; intros (_ & H); auto.
Qed.

Lemma sum_shift : forall (f : Z -> R) k S A, NoDup S -> NoDup A ->
  (forall a, f a <> 0 -> In (a - k)%Z S) -> (forall a, f a <> 0 -> In a A) ->
  sumR (map (fun a => f (a + k)%Z) S) = sumR (map f A).
Proof.
  intros f k S A HS HA S1 S2. rewrite <- (sum_support f (map (fun a => (a + k)%Z) S) A); auto.
  - rewrite map_map. reflexivity.
  - apply FinFun.Injective_map_NoDup; auto. intros x y. lia.
  - intros a Ha. apply in_map_iff. exists (a - k)%Z. split; [lia|auto].
Qed.

Lemma nonzero_sum : forall (f : Z -> R) l, sumR (map f l) <> 0 -> exists a, f a <> 0.
Proof.
  induction l as [|x t IH]; cbn [map]; rewrite ?sumR_nil, ?sumR_cons; intro H; [contradiction|].
  destruct (Req_EM_T (f x) 0) as [E|E]; [|exists x; exact E]. apply IH. intro G. apply H. lra.
Qed.

Lemma sum_shift2 : forall (G : Z -> Z -> R) k l S T A B, NoDup S -> NoDup T -> NoDup A -> NoDup B ->
  (forall a b, G a b <> 0 -> In (a - k)%Z S /\ In (b - l)%Z T /\ In a A /\ In b B) ->
  sumR (map (fun a => sumR (map (fun b => G (a + k)%Z (b + l)%Z) T)) S)
  = sumR (map (fun a => sumR (map (fun b => G a b) B)) A).
Proof.
  intros G k l S T A B HS HT HA HB Sup.
  transitivity (sumR (map (fun a => sumR (map (fun b => G (a + k)%Z b) B)) S)).
  - apply sumR_ext. intros a _. apply (sum_shift (G (a + k)%Z)); auto; intros b Hb; apply (Sup (a + k)%Z b Hb).
  - apply (sum_shift (fun a => sumR (map (fun b => G a b) B))); auto; intros a Ha;
      destruct (nonzero_sum _ _ Ha) as (b & Hb); apply (Sup a b Hb).
Qed.

Lemma sum_shift3 : forall (G : Z -> Z -> Z -> R) k l m S T U A B C,
  NoDup S -> NoDup T -> NoDup U -> NoDup A -> NoDup B -> NoDup C ->
  (forall a b c, G a b c <> 0 ->
     In (a - k)%Z S /\ In (b - l)%Z T /\ In (c - m)%Z U /\ In a A /\ In b B /\ In c C) ->
  sumR (map (fun a => sumR (map (fun b => sumR (map (fun c => G (a + k)%Z (b + l)%Z (c + m)%Z) U)) T)) S)
  = sumR (map (fun a => sumR (map (fun b => sumR (map (fun c => G a b c) C)) B)) A).
Proof.
  intros G k l m S T U A B C HS HT HU HA HB HC Sup.
  transitivity (sumR (map (fun a => sumR (map (fun b => sumR (map (fun c => G (a + k)%Z b c) C)) B)) S)).
  - apply sumR_ext. intros a _. apply (sum_shift2 (G (a + k)%Z)); auto. intros b c H.
    destruct (Sup _ _ _ H) as (_ & H2 & H3 & _ & H5 & H6). auto.
  - apply (sum_shift (fun a => sumR (map (fun b => sumR (map (fun c => G a b c) C)) B))); auto; intros a Ha;
      destruct (nonzero_sum _ _ Ha) as (b & Hb); destruct (nonzero_sum _ _ Hb) as (c & Hc); apply (Sup a b c Hc).
Qed.

(** * One axis of a periodic picture *)

(** Enough copies exist. *)
Lemma enough_exists : forall bx by_ bz, 0 <= bx -> 0 <= by_ -> 0 <= bz ->
  exists N, enough bx N /\ enough by_ N /\ enough bz N.
Proof.
  assert (One : forall b, 0 <= b -> exists N, (1 <= N)%Z /\ forall N', (N <= N')%Z -> enough b N').
  { intros b Hb. destruct (Req_EM_T b 0) as [E|E]; [exists 1%Z; split; [lia|left; exact E]|].
    exists (Z.max 1 (ceil (1 / b))). split; [lia|]. intros N' H. right. split; [lia|].
    pose proof (ceil_spec (1 / b)) as C. assert (IZR (ceil (1 / b)) <= IZR N') by (apply IZR_le; lia).
    assert (1 / b * b = 1) by (field; lra). nra. }
  intros bx by_ bz Hx Hy Hz. destruct (One bx Hx) as (N1 & _ & E1). destruct (One by_ Hy) as (N2 & _ & E2).
  destruct (One bz Hz) as (N3 & _ & E3). exists (Z.max N1 (Z.max N2 N3)).
  split; [apply E1|split; [apply E2|apply E3]]; lia.
Qed.

Lemma all_copies_nodup : forall b N, NoDup (all_copies b N).
Proof.
  intros. unfold all_copies. destruct (Req_EM_T b 0); [repeat constructor; auto|apply NoDup_zrange].
Qed.

(** An interval of length [M] widened by [w] is met only by the first [N] copies. *)
Lemma copies_reach : forall L M w u N k, 0 < M -> 0 < L -> enough (L / M) N -> w <= L -> 0 <= u < L ->
  - w <= u + IZR k * L < M + w -> In k (all_copies (L / M) N).
Proof.
  intros L M w u N k HM HL He Hw Hu Hr. assert (E : L / M * M = L) by (field; lra).
  assert (Hb : 0 < L / M) by (apply Rdiv_lt_0_compat; lra).
  unfold all_copies. destruct (Req_EM_T (L / M) 0) as [Z|Z]; [lra|].
  destruct He as [He|(He1 & He2)]; [contradiction|]. apply In_zrange.
  assert (M <= IZR N * L). { apply (Rmult_le_compat_r M) in He2; [|lra]. nra. }
  apply IZR_le in He1. split.
  - assert (- IZR N - 1 < IZR k).
    { destruct (Rle_dec (IZR k) (- IZR N - 1)); [|lra]. exfalso. nra. }
    assert (- N - 1 < k)%Z by (apply lt_IZR; rewrite minus_IZR, opp_IZR; lra). lia.
  - apply lt_IZR. rewrite plus_IZR. destruct (Rle_dec (IZR N + 1) (IZR k)); [|lra]. exfalso. nra.
Qed.

(** The normalised coordinate: [M] times it is the coordinate from [lo] up to whole boxes. *)
Lemma normed_axis : forall L M lo x, 0 < M -> 0 < L -> exists k,
  0 <= rmod ((rmod x L - lo) / M) (L / M) * M < L /\
  0 <= rmod ((rmod x L - lo) / M) (L / M) < L / M /\
  forall a, rmod ((rmod x L - lo) / M) (L / M) + IZR a * (L / M) = (x + IZR (a + k) * L - lo) / M.
Proof.
  intros L M lo x HM HL. assert (Hb : 0 < L / M) by (apply Rdiv_lt_0_compat; lra).
  pose proof (rmod_range ((rmod x L - lo) / M) (L / M) Hb) as Rg.
  destruct (rmod_image ((rmod x L - lo) / M) (L / M)) as (k1 & E1).
  destruct (rmod_image x L) as (k2 & E2). exists (k1 + k2)%Z. split; [|split; [exact Rg|]].
  - assert (E : L / M * M = L) by (field; lra). nra.
  - intro a. rewrite E1, E2, !plus_IZR. field. lra.
Qed.

(** * Pixels in the coordinates of the dataset *)

Lemma within_pixel : forall n M lo x i, 0 < M -> (1 <= n)%Z ->
  in_pixelb n i ((x - lo) / M) = within_b (lo + IZR i * (M / IZR n)) (M / IZR n) x.
Proof.
  intros n M lo x i HM Hn. pose proof (n_pos n Hn) as Np.
  assert (Q : forall t, (t <= IZR n * ((x - lo) / M) <-> lo + t * (M / IZR n) <= x)).
  { intro t. assert (E : IZR n * ((x - lo) / M) * (M / IZR n) = x - lo) by (field; lra).
    assert (P : 0 < M / IZR n) by (apply Rdiv_lt_0_compat; lra). split; intro H.
    - apply (Rmult_le_compat_r (M / IZR n)) in H; lra.
    - apply (Rmult_le_reg_r (M / IZR n)); lra. }
  unfold in_pixelb, within_b.
  destruct (Rle_dec (IZR i) (IZR n * ((x - lo) / M))) as [H|H];
  destruct (Rle_dec (lo + IZR i * (M / IZR n)) x) as [H'|H']; auto.
  2: { apply Q in H. contradiction. } 2: { apply Q in H'. contradiction. }
  pose proof (Q (IZR i + 1)) as Q1.
  destruct (Rlt_dec (IZR n * ((x - lo) / M)) (IZR i + 1)) as [G|G];
  destruct (Rlt_dec x (lo + IZR i * (M / IZR n) + M / IZR n)) as [G'|G']; auto; exfalso.
  - apply G'. assert (~ lo + (IZR i + 1) * (M / IZR n) <= x) by (rewrite <- Q1; lra). lra.
  - apply G. assert (~ IZR i + 1 <= IZR n * ((x - lo) / M)) by (rewrite Q1; lra). lra.
Qed.

Lemma wendland_scale : forall r H M, 0 < M -> 0 < H -> wendland (r / M) (H / M) = wendland r H.
Proof.
  intros r H M HM HH. unfold wendland.
  replace (r / M / (H / M)) with (r / H) by (field; lra).
  assert (E1 : r / M * M = r) by (field; lra). assert (E2 : H / M * M = H) by (field; lra).
  destruct (Rlt_dec (r / M) (H / M)) as [A|A], (Rlt_dec r H) as [B|B]; auto; exfalso.
  - apply B. rewrite <- E1, <- E2. apply Rmult_lt_compat_r; lra.
  - apply A. apply (Rmult_lt_reg_r M); lra.
Qed.

Lemma W2_scale : forall r H M, 0 < M -> 0 < H -> W2 (r / M) (H / M) = M * M * W2 r H.
Proof. intros r H M HM HH. unfold W2. rewrite wendland_scale by auto. field. lra. Qed.
Lemma W3_scale : forall r H M, 0 < M -> 0 < H -> W3 (r / M) (H / M) = M * M * M * W3 r H.
Proof. intros r H M HM HH. unfold W3. rewrite wendland_scale by auto. field. lra. Qed.

Lemma sqrt_scale : forall s M, 0 < M -> 0 <= s -> sqrt (s / (M * M)) = sqrt s / M.
Proof.
  intros s M HM Hs. rewrite sqrt_div by nra. rewrite sqrt_square by lra. reflexivity.
Qed.

Lemma square_nonneg : forall x, 0 <= x * x.
Proof. intro x. exact (Rle_0_sqr x). Qed.

Lemma dist2_scale : forall x y u v M, 0 < M -> dist2 (x / M) (y / M) (u / M) (v / M) = dist2 x y u v / M.
Proof.
  intros. unfold dist2. set (s := (x - u) * (x - u) + (y - v) * (y - v)).
  rewrite <- (sqrt_scale s); auto; [f_equal; unfold s; field; lra|].
  unfold s. repeat apply Rplus_le_le_0_compat; apply square_nonneg.
Qed.
Lemma dist3_scale : forall x y z u v w M, 0 < M ->
  dist3 (x / M) (y / M) (z / M) (u / M) (v / M) (w / M) = dist3 x y z u v w / M.
Proof.
  intros. unfold dist3. set (s := (x - u) * (x - u) + (y - v) * (y - v) + (z - w) * (z - w)).
  rewrite <- (sqrt_scale s); auto; [f_equal; unfold s; field; lra|].
  unfold s. repeat apply Rplus_le_le_0_compat; apply square_nonneg.
Qed.
Lemma dist2_shift : forall x y u v a b, dist2 (x + a) (y + b) (u + a) (v + b) = dist2 x y u v.
Proof. intros. unfold dist2. f_equal. ring. Qed.
Lemma dist3_shift : forall x y z u v w a b c, dist3 (x + a) (y + b) (z + c) (u + a) (v + b) (w + c) = dist3 x y z u v w.
Proof. intros. unfold dist3. f_equal. ring. Qed.

Lemma centre_phys : forall n M lo i, 0 < M -> (1 <= n)%Z ->
  centre n i = (lo + IZR i * (M / IZR n) + M / IZR n / 2 - lo) / M.
Proof. intros n M lo i HM Hn. pose proof (n_pos n Hn). unfold centre. field. lra. Qed.

Lemma deposit2_scale : forall n M lo lo' p x y i j, 0 < M -> (1 <= n)%Z -> 0 <= p_h p ->
  forall px py pz,
  deposit2 n (mkpart px py pz (p_m p) (p_h p / M)) ((x - lo) / M) ((y - lo') / M) i j
  = M * M * share2 (M / IZR n) p x y (lo + IZR i * (M / IZR n)) (lo' + IZR j * (M / IZR n)).
Proof.
  intros n M lo lo' p x y i j HM Hn Hh px py pz. pose proof (n_pos n Hn) as Np.
  unfold deposit2, share2. rewrite !within_pixel by auto.
  assert (Ew : width2 (mkpart px py pz (p_m p) (p_h p / M)) = width2 p / M).
  { unfold width2. cbn [p_h]. field. lra. }
  rewrite Ew. cbn [p_m].
  assert (Ed : M / IZR n * IZR n = M) by (field; lra).
  assert (Ew' : width2 p / M * IZR n * (M / IZR n) = width2 p) by (field; lra).
  assert (P : 0 < M / IZR n) by (apply Rdiv_lt_0_compat; lra).
  destruct (Rlt_dec (width2 p / M * IZR n) 1) as [A|A], (Rlt_dec (width2 p) (M / IZR n)) as [B|B].
  - destruct (within_b _ _ x && within_b _ _ y); [field; lra|ring].
  - exfalso. apply B. apply (Rmult_lt_compat_r (M / IZR n)) in A; lra.
  - exfalso. apply A. apply (Rmult_lt_reg_r (M / IZR n)); lra.
  - rewrite (centre_phys n M lo i), (centre_phys n M lo' j) by auto.
    rewrite dist2_scale by auto. rewrite W2_scale by lra. unfold Rminus. rewrite dist2_shift. ring.
Qed.

(** Where it is not zero. *)
Lemma wendland_zero : forall r H, wendland r H <> 0 -> r < H.
Proof. intros r H. unfold wendland. destruct (Rlt_dec r H); auto. intro; lra. Qed.

Lemma sqrt_bound : forall a s w, 0 <= s -> sqrt (a * a + s) < w -> - w < a < w.
Proof.
  intros a s w Hs H. assert (Hw : Rabs a < w).
  { apply (Rle_lt_trans _ (sqrt (a * a + s))); auto. rewrite <- sqrt_Rsqr_abs. apply sqrt_le_1_alt. unfold Rsqr. lra. }
  apply Rabs_def2 in Hw. lra.
Qed.

Lemma share2_reach : forall n M lo lo' p x y i j, 0 < M -> (1 <= n)%Z -> 0 <= p_h p ->
  (0 <= i < n)%Z -> (0 <= j < n)%Z ->
  share2 (M / IZR n) p x y (lo + IZR i * (M / IZR n)) (lo' + IZR j * (M / IZR n)) <> 0 ->
  (- width2 p <= x - lo < M + width2 p) /\ (- width2 p <= y - lo' < M + width2 p).
Proof.
  intros n M lo lo' p x y i j HM Hn Hh Hi Hj. pose proof (n_pos n Hn) as Np.
  assert (P : 0 < M / IZR n) by (apply Rdiv_lt_0_compat; lra).
  assert (Ed : IZR n * (M / IZR n) = M) by (field; lra).
  assert (Hw : 0 <= width2 p) by (unfold width2; nra).
  assert (Bd : forall k, (0 <= k < n)%Z -> 0 <= IZR k * (M / IZR n) /\ IZR k * (M / IZR n) + M / IZR n <= M).
  { intros k (K1 & K2). apply IZR_le in K1. apply IZR_succ_le in K2. split; nra. }
  pose proof (Bd i Hi) as Bi. pose proof (Bd j Hj) as Bj. unfold share2.
  destruct (Rlt_dec (width2 p) (M / IZR n)) as [A|A].
  - unfold within_b.
    destruct (Rle_dec _ x); [destruct (Rlt_dec x _); [destruct (Rle_dec _ y); [destruct (Rlt_dec y _)|]|]|];
      cbn [andb]; intro H; try lra.
  - intro H. assert (Hd : dist2 (lo + IZR i * (M / IZR n) + M / IZR n / 2) (lo' + IZR j * (M / IZR n) + M / IZR n / 2) x y < width2 p).
    { apply wendland_zero. intro E. apply H. unfold W2. rewrite E. ring. }
    unfold dist2 in Hd. pose proof Hd as Hd'. rewrite Rplus_comm in Hd'.
    apply sqrt_bound in Hd; [|apply square_nonneg]. apply sqrt_bound in Hd'; [|apply square_nonneg]. lra.
Qed.

(** * Particles of a picture *)

Lemma moved_fields : forall p c, p_x (moved p c) = at_x c /\ p_y (moved p c) = at_y c /\ p_z (moved p c) = at_z c /\
  p_m (moved p c) = p_m p /\ p_h (moved p c) = p_h p.
Proof. intros p ((x & y) & z). repeat split. Qed.

Lemma all_copies_0 : forall N, all_copies 0 N = [0%Z].
Proof. intro N. unfold all_copies. destruct (Req_EM_T 0 0); auto. lra. Qed.

Lemma over2_one : forall f, over2 [0%Z] [0%Z] f = f 0 0.
Proof. intro f. unfold over2. cbn [map]. rewrite !sumR_cons, !sumR_nil. lra. Qed.
Lemma over3_one : forall f, over3 [0%Z] [0%Z] [0%Z] f = f 0 0 0.
Proof. intro f. unfold over3. cbn [map]. rewrite !sumR_cons, !sumR_nil. lra. Qed.

(** The position a picture starts from, and the one after wrapping. *)
Definition put (periodic : bool) (box : vec) (rotation : option (mat * vec)) (p : part) : part :=
  moved p (if periodic then rem_point box (seen rotation p) else seen rotation p).

Lemma moved_self : forall p, moved p (position p) = p.
Proof. intros []. reflexivity. Qed.

Lemma placed_put : forall periodic box rotation ps, (periodic = true -> rotation = None) ->
  placed periodic box rotation ps
  = Ok (map (put periodic box rotation) ps, if periodic then map (put periodic box rotation) ps else ps).
Proof.
  intros periodic box rotation ps H. unfold placed, put. destruct rotation as [(matrix & center)|], periodic.
  - discriminate (H eq_refl).
  - reflexivity.
  - reflexivity.
  - cbn [seen]. rewrite (map_ext _ (fun p => p)) by apply moved_self. rewrite map_id. reflexivity.
Qed.

(** One axis. *)
Definition coord (periodic : bool) (L x : R) : R := if periodic then rmod x L else x.
Definition pbox (periodic : bool) (L M : R) : R := if periodic then L / M else 0.
Definition ncoord (periodic : bool) (L M lo x : R) : R :=
  rem_if periodic ((coord periodic L x - lo) / M) (pbox periodic L M).

Lemma coord_wrapped : forall periodic L M lo x, 0 < M -> (periodic = true -> 0 < L) ->
  wrapped (pbox periodic L M) (ncoord periodic L M lo x).
Proof.
  intros [] L M lo x HM HL; unfold wrapped, pbox, ncoord; [right|left; reflexivity].
  destruct (normed_axis L M lo x HM (HL eq_refl)) as (k & _ & H & _). cbn. split; [apply H|apply Rlt_le, H].
Qed.

Lemma pbox_nonneg : forall periodic L M, 0 < M -> (periodic = true -> 0 < L) -> 0 <= pbox periodic L M.
Proof. intros [] L M HM HL; unfold pbox; [apply Rlt_le, Rdiv_lt_0_compat; auto|lra]. Qed.

Lemma pbox_fits : forall periodic L M w, 0 < M -> (periodic = true -> w <= L) -> fits (pbox periodic L M) (w / M).
Proof.
  intros [] L M w HM HL; unfold fits, pbox; [right|left; reflexivity].
  apply Rmult_le_compat_r; [apply Rlt_le, Rinv_0_lt_compat; lra|auto].
Qed.

Lemma axis_copies : forall L M lo w x N, 0 < M -> 0 < L -> w <= L -> enough (L / M) N -> exists k,
  (forall a, ncoord true L M lo x + IZR a * (L / M) = (x + IZR (a + k) * L - lo) / M) /\
  (forall a, - w <= x + IZR a * L - lo < M + w -> In (a - k)%Z (all_copies (L / M) N)).
Proof.
  intros L M lo w x N HM HL Hw He. destruct (normed_axis L M lo x HM HL) as (k & U & _ & E).
  exists k. split; [exact E|]. intros a Ha. apply (copies_reach L M w _ N (a - k) HM HL He Hw U).
  specialize (E (a - k)%Z). replace (a - k + k)%Z with a in E by lia.
  assert (Q : rmod ((rmod x L - lo) / M) (L / M) * M + IZR (a - k) * L = x + IZR a * L - lo).
  { transitivity ((rmod ((rmod x L - lo) / M) (L / M) + IZR (a - k) * (L / M)) * M); [field; lra|].
    rewrite E. field. lra. }
  rewrite Q. exact Ha.
Qed.

Lemma picture2 : forall periodic Lx Ly M lo lo' w x y N A B (D G : R -> R -> R), 0 < M ->
  (periodic = true -> 0 < Lx /\ 0 < Ly /\ w <= Lx /\ w <= Ly) ->
  enough (pbox periodic Lx M) N -> enough (pbox periodic Ly M) N ->
  covers periodic Lx lo (lo + M) w x A -> covers periodic Ly lo' (lo' + M) w y B ->
  (forall u v, D ((u - lo) / M) ((v - lo') / M) = G u v) ->
  (forall u v, G u v <> 0 -> (- w <= u - lo < M + w) /\ (- w <= v - lo' < M + w)) ->
  sumR (map (fun a => sumR (map (fun b =>
    D (ncoord periodic Lx M lo x + IZR a * pbox periodic Lx M) (ncoord periodic Ly M lo' y + IZR b * pbox periodic Ly M))
    (all_copies (pbox periodic Ly M) N))) (all_copies (pbox periodic Lx M) N))
  = over2 A B (fun a b => G (x + a * Lx) (y + b * Ly)).
Proof.
  intros periodic Lx Ly M lo lo' w x y N A B D G HM HL Ex Ey CA CB DG Sup. destruct periodic.
  - destruct (HL eq_refl) as (Hx & Hy & Wx & Wy). destruct CA as (NA & CA). destruct CB as (NB & CB).
    destruct (axis_copies Lx M lo w x N HM Hx Wx Ex) as (k & E1 & S1).
    destruct (axis_copies Ly M lo' w y N HM Hy Wy Ey) as (l & E2 & S2).
    unfold over2. rewrite <- (sum_shift2 (fun a b => G (x + IZR a * Lx) (y + IZR b * Ly)) k l
      (all_copies (Lx / M) N) (all_copies (Ly / M) N) A B); auto using all_copies_nodup.
    + apply sumR_ext. intros a _. apply sumR_ext. intros b _. unfold pbox. rewrite E1, E2. apply DG.
    + intros a b H. destruct (Sup _ _ H) as (P1 & P2).
      repeat split; [apply S1; lra|apply S2; lra|apply CA; lra|apply CB; lra].
  - unfold covers in CA, CB. subst A B. unfold pbox. rewrite !all_copies_0, over2_one. cbn [map].
    rewrite !sumR_cons, !sumR_nil. rewrite <- DG. unfold ncoord, coord, rem_if.
    rewrite !Rplus_0_r, !Rmult_0_r, !Rmult_0_l, !Rplus_0_r. reflexivity.
Qed.

Lemma picture3 : forall periodic Lx Ly Lz M lo lo' lo'' w x y z N A B C (D G : R -> R -> R -> R), 0 < M ->
  (periodic = true -> 0 < Lx /\ 0 < Ly /\ 0 < Lz /\ w <= Lx /\ w <= Ly /\ w <= Lz) ->
  enough (pbox periodic Lx M) N -> enough (pbox periodic Ly M) N -> enough (pbox periodic Lz M) N ->
  covers periodic Lx lo (lo + M) w x A -> covers periodic Ly lo' (lo' + M) w y B ->
  covers periodic Lz lo'' (lo'' + M) w z C ->
  (forall u v t, D ((u - lo) / M) ((v - lo') / M) ((t - lo'') / M) = G u v t) ->
  (forall u v t, G u v t <> 0 ->
     (- w <= u - lo < M + w) /\ (- w <= v - lo' < M + w) /\ (- w <= t - lo'' < M + w)) ->
  sumR (map (fun a => sumR (map (fun b => sumR (map (fun c =>
    D (ncoord periodic Lx M lo x + IZR a * pbox periodic Lx M) (ncoord periodic Ly M lo' y + IZR b * pbox periodic Ly M)
      (ncoord periodic Lz M lo'' z + IZR c * pbox periodic Lz M))
    (all_copies (pbox periodic Lz M) N))) (all_copies (pbox periodic Ly M) N))) (all_copies (pbox periodic Lx M) N))
  = over3 A B C (fun a b c => G (x + a * Lx) (y + b * Ly) (z + c * Lz)).
Proof.
  intros periodic Lx Ly Lz M lo lo' lo'' w x y z N A B C D G HM HL Ex Ey Ez CA CB CC DG Sup. destruct periodic.
  - destruct (HL eq_refl) as (Hx & Hy & Hz & Wx & Wy & Wz).
    destruct CA as (NA & CA). destruct CB as (NB & CB). destruct CC as (NC & CC).
    destruct (axis_copies Lx M lo w x N HM Hx Wx Ex) as (k & E1 & S1).
    destruct (axis_copies Ly M lo' w y N HM Hy Wy Ey) as (l & E2 & S2).
    destruct (axis_copies Lz M lo'' w z N HM Hz Wz Ez) as (m & E3 & S3).
    unfold over3. rewrite <- (sum_shift3 (fun a b c => G (x + IZR a * Lx) (y + IZR b * Ly) (z + IZR c * Lz)) k l m
      (all_copies (Lx / M) N) (all_copies (Ly / M) N) (all_copies (Lz / M) N) A B C); auto using all_copies_nodup.
    + apply sumR_ext. intros a _. apply sumR_ext. intros b _. apply sumR_ext. intros c _.
      unfold pbox. rewrite E1, E2, E3. apply DG.
    + intros a b c H. destruct (Sup _ _ _ H) as (P1 & P2 & P3).
      repeat split; [apply S1; lra|apply S2; lra|apply S3; lra|apply CA; lra|apply CB; lra|apply CC; lra].
  - unfold covers in CA, CB, CC. subst A B C. unfold pbox. rewrite !all_copies_0, over3_one. cbn [map].
    rewrite !sumR_cons, !sumR_nil. rewrite <- DG. unfold ncoord, coord, rem_if.
    rewrite !Rplus_0_r, !Rmult_0_r, !Rmult_0_l, !Rplus_0_r. reflexivity.
Qed.

Lemma upper_phys : forall n M lo w x i, 0 < M -> (1 <= n)%Z ->
  above n (w / M) ((x - lo) / M) i = upper (M / IZR n) w (lo + IZR i * (M / IZR n)) x.
Proof.
  intros n M lo w x i HM Hn. pose proof (n_pos n Hn). unfold above, upper.
  replace ((x - (lo + IZR i * (M / IZR n))) / (M / IZR n)) with (IZR n * ((x - lo) / M) + IZR (- i)).
  2: { rewrite opp_IZR. field. lra. }
  rewrite floor_add. replace (w / (M / IZR n)) with (w / M * IZR n) by (field; lra).
  destruct (Z.eqb_spec i (floor (IZR n * ((x - lo) / M)) + floor (1 + w / M * IZR n))),
    (Z.eqb_spec (floor (IZR n * ((x - lo) / M)) + - i + floor (1 + w / M * IZR n)) 0); auto; lia.
Qed.

Lemma width3_scale : forall p M px py pz, 0 < M -> width3 (mkpart px py pz (p_m p) (p_h p / M)) = width3 p / M.
Proof. intros. unfold width3. cbn [p_h]. field. lra. Qed.

Lemma slice_scale : forall n M lo lo' p x y z t i j, 0 < M -> (1 <= n)%Z -> 0 < p_h p ->
  forall px py pz, let q := mkpart px py pz (p_m p) (p_h p / M) in
  (if above n (width3 q) ((x - lo) / M) i || above n (width3 q) ((y - lo') / M) j then 0
   else p_m q * W3 (dist3 (centre n i) (centre n j) (t / M) ((x - lo) / M) ((y - lo') / M) (z / M)) (width3 q))
  = M * M * M * share_slice (M / IZR n) t p x y z (lo + IZR i * (M / IZR n)) (lo' + IZR j * (M / IZR n)).
Proof.
  intros n M lo lo' p x y z t i j HM Hn Hh px py pz q. unfold q. rewrite width3_scale by auto. cbn [p_m].
  rewrite !upper_phys by auto. unfold share_slice. destruct (upper _ _ _ x || upper _ _ _ y); [ring|].
  rewrite (centre_phys n M lo i), (centre_phys n M lo' j) by auto.
  rewrite dist3_scale by auto. rewrite W3_scale by (auto; unfold width3; lra).
  rewrite <- (dist3_shift _ _ t x y z (- lo) (- lo') 0). unfold Rminus. rewrite !Rplus_0_r. ring.
Qed.

Lemma within_reach : forall lo d x, within_b lo d x = true -> lo <= x < lo + d.
Proof.
  intros lo d x. unfold within_b. destruct (Rle_dec lo x); [destruct (Rlt_dec x (lo + d))|]; intro; try discriminate; lra.
Qed.

Lemma pixel_bounds : forall n M k, 0 < M -> (1 <= n)%Z -> (0 <= k < n)%Z ->
  0 <= IZR k * (M / IZR n) /\ IZR k * (M / IZR n) + M / IZR n <= M /\ 0 < M / IZR n.
Proof.
  intros n M k HM Hn (K1 & K2). pose proof (n_pos n Hn). apply IZR_le in K1. apply IZR_succ_le in K2.
  assert (P : 0 < M / IZR n) by (apply Rdiv_lt_0_compat; lra).
  assert (Ed : IZR n * (M / IZR n) = M) by (field; lra). repeat split; auto; nra.
Qed.

Lemma dist3_reach : forall a b c x y z w, dist3 a b c x y z < w ->
  (- w < a - x < w) /\ (- w < b - y < w) /\ (- w < c - z < w).
Proof.
  intros a b c x y z w H. unfold dist3 in H. split; [|split].
  - rewrite Rplus_assoc in H. apply sqrt_bound in H; auto. apply Rplus_le_le_0_compat; apply square_nonneg.
  - rewrite (Rplus_comm ((a - x) * (a - x))), Rplus_assoc in H. apply sqrt_bound in H; auto.
    apply Rplus_le_le_0_compat; apply square_nonneg.
  - rewrite Rplus_comm in H. apply sqrt_bound in H; auto. apply Rplus_le_le_0_compat; apply square_nonneg.
Qed.

Lemma share_slice_reach : forall n M lo lo' t p x y z i j, 0 < M -> (1 <= n)%Z -> 0 <= p_h p ->
  (0 <= i < n)%Z -> (0 <= j < n)%Z ->
  share_slice (M / IZR n) t p x y z (lo + IZR i * (M / IZR n)) (lo' + IZR j * (M / IZR n)) <> 0 ->
  (- width3 p <= x - lo < M + width3 p) /\ (- width3 p <= y - lo' < M + width3 p) /\
  (- width3 p < z - t < width3 p).
Proof.
  intros n M lo lo' t p x y z i j HM Hn Hh Hi Hj. unfold share_slice.
  destruct (upper _ _ _ x || upper _ _ _ y); [intro; lra|]. intro H.
  pose proof (pixel_bounds n M i HM Hn Hi). pose proof (pixel_bounds n M j HM Hn Hj).
  assert (D : dist3 (lo + IZR i * (M / IZR n) + M / IZR n / 2) (lo' + IZR j * (M / IZR n) + M / IZR n / 2) t x y z < width3 p).
  { apply wendland_zero. intro E. apply H. unfold W3. rewrite E. ring. }
  apply dist3_reach in D. lra.
Qed.

Lemma voxel_reach : forall n M lo lo' lo'' p x y z i j k, 0 < M -> (1 <= n)%Z -> 0 <= p_h p ->
  (0 <= i < n)%Z -> (0 <= j < n)%Z -> (0 <= k < n)%Z ->
  share_voxel (M / IZR n) p x y z (lo + IZR i * (M / IZR n)) (lo' + IZR j * (M / IZR n)) (lo'' + IZR k * (M / IZR n)) <> 0 ->
  (- width3 p <= x - lo < M + width3 p) /\ (- width3 p <= y - lo' < M + width3 p) /\
  (- width3 p <= z - lo'' < M + width3 p).
Proof.
  intros n M lo lo' lo'' p x y z i j k HM Hn Hh Hi Hj Hk. unfold share_voxel.
  pose proof (pixel_bounds n M i HM Hn Hi). pose proof (pixel_bounds n M j HM Hn Hj). pose proof (pixel_bounds n M k HM Hn Hk).
  assert (0 <= width3 p) by (unfold width3; lra).
  destruct (Rlt_dec (width3 p) (M / IZR n / 2)) as [A|A].
  - destruct (within_b _ _ x && within_b _ _ y && within_b _ _ z) eqn:E; [|intro; lra]. intros _.
    apply andb_true_iff in E. destruct E as (E & E3). apply andb_true_iff in E. destruct E as (E1 & E2).
    apply within_reach in E1, E2, E3. lra.
  - destruct (upper _ _ _ x || upper _ _ _ y || upper _ _ _ z); [intro; lra|]. intro G.
    assert (D : dist3 (lo + IZR i * (M / IZR n) + M / IZR n / 2) (lo' + IZR j * (M / IZR n) + M / IZR n / 2)
                      (lo'' + IZR k * (M / IZR n) + M / IZR n / 2) x y z < width3 p).
    { apply wendland_zero. intro E. apply G. unfold W3. rewrite E. ring. }
    apply dist3_reach in D. lra.
Qed.

(** The slice: along z the copies have to come near the height [t] only, which is moved by
    whole boxes as well. *)
Lemma picture_slice : forall periodic Lx Ly Lz M lo lo' w x y z t N A B C
    (D G : R -> R -> R -> R -> R), 0 < M ->
  (periodic = true -> 0 < Lx /\ 0 < Ly /\ 0 < Lz /\ w <= Lx /\ w <= Ly /\ w <= Lz) ->
  enough (pbox periodic Lx M) N -> enough (pbox periodic Ly M) N -> enough (pbox periodic Lz M) N ->
  covers periodic Lx lo (lo + M) w x A -> covers periodic Ly lo' (lo' + M) w y B ->
  covers periodic Lz t t w z C ->
  (forall u v s h, D ((u - lo) / M) ((v - lo') / M) (s / M) (h / M) = G u v s h) ->
  (forall u v s h g, G u v (s + g) (h + g) = G u v s h) ->
  (forall u v s h, G u v s h <> 0 ->
     (- w <= u - lo < M + w) /\ (- w <= v - lo' < M + w) /\ (- w < s - h < w)) ->
  sumR (map (fun a => sumR (map (fun b => sumR (map (fun c =>
    D (ncoord periodic Lx M lo x + IZR a * pbox periodic Lx M) (ncoord periodic Ly M lo' y + IZR b * pbox periodic Ly M)
      (rem_if periodic (coord periodic Lz z / M) (pbox periodic Lz M) + IZR c * pbox periodic Lz M)
      (rem_if periodic (t / M) (pbox periodic Lz M)))
    (all_copies (pbox periodic Lz M) N))) (all_copies (pbox periodic Ly M) N))) (all_copies (pbox periodic Lx M) N))
  = over3 A B C (fun a b c => G (x + a * Lx) (y + b * Ly) (z + c * Lz) t).
Proof.
  intros periodic Lx Ly Lz M lo lo' w x y z t N A B C D G HM HL Ex Ey Ez CA CB CC DG Inv Sup. destruct periodic.
  - destruct (HL eq_refl) as (Hx & Hy & Hz & Wx & Wy & Wz).
    destruct CA as (NA & CA). destruct CB as (NB & CB). destruct CC as (NC & CC).
    destruct (axis_copies Lx M lo w x N HM Hx Wx Ex) as (k & E1 & S1).
    destruct (axis_copies Ly M lo' w y N HM Hy Wy Ey) as (l & E2 & S2).
    unfold rem_if, coord, pbox in *.
    destruct (normed_axis Lz M 0 z HM Hz) as (m & U & _ & E3). rewrite Rminus_0_r in U, E3.
    destruct (rmod_image (t / M) (Lz / M)) as (j & Ej).
    pose proof (rmod_range (t / M) (Lz / M) (Rdiv_lt_0_compat _ _ Hz HM)) as Rj.
    set (tw := rmod (t / M) (Lz / M)) in *. set (zw := rmod (rmod z Lz / M) (Lz / M)) in *.
    assert (Et : tw = (t + IZR j * Lz) / M) by (rewrite Ej; field; lra).
    assert (Ez1 : forall c, zw + IZR c * (Lz / M) = (z + IZR (c + (m - j)) * Lz + IZR j * Lz) / M).
    { intro c. rewrite E3. rewrite !plus_IZR, minus_IZR. field. lra. }
    unfold over3. rewrite <- (sum_shift3 (fun a b c => G (x + IZR a * Lx) (y + IZR b * Ly) (z + IZR c * Lz) t) k l (m - j)
      (all_copies (Lx / M) N) (all_copies (Ly / M) N) (all_copies (Lz / M) N) A B C); auto using all_copies_nodup.
    + apply sumR_ext. intros a _. apply sumR_ext. intros b _. apply sumR_ext. intros c _.
      rewrite E1, E2, Ez1, Et, DG. apply Inv.
    + intros a b c H. destruct (Sup _ _ _ _ H) as (P1 & P2 & P3).
      repeat split; [apply S1; lra|apply S2; lra| |apply CA; lra|apply CB; lra|apply CC; lra].
      unfold all_copies. assert (Hb : 0 < Lz / M) by (apply Rdiv_lt_0_compat; lra).
      destruct (Req_EM_T (Lz / M) 0); [lra|]. destruct Ez as [Ez|(N1 & _)]; [contradiction|].
      apply In_zrange. specialize (Ez1 (c - (m - j))%Z).
      replace (c - (m - j) + (m - j))%Z with c in Ez1 by lia.
      assert (Q : zw * M + IZR (c - (m - j)) * Lz = z + IZR c * Lz + IZR j * Lz).
      { transitivity ((zw + IZR (c - (m - j)) * (Lz / M)) * M); [field; lra|]. rewrite Ez1. field. lra. }
      assert (Qt : tw * M = t + IZR j * Lz) by (rewrite Et; field; lra).
      assert (Rt : 0 <= tw * M < Lz).
      { assert (E : Lz / M * M = Lz) by (field; lra). nra. }
      set (d := (c - (m - j))%Z) in *. clearbody d.
      assert (-2 < IZR d) by nra. assert (IZR d < 2) by nra.
      assert (-2 < d)%Z by (apply lt_IZR; lra). assert (d < 2)%Z by (apply lt_IZR; lra). lia.
  - unfold covers in CA, CB, CC. subst A B C. unfold pbox. rewrite !all_copies_0, over3_one. cbn [map].
    rewrite !sumR_cons, !sumR_nil. rewrite <- DG. unfold ncoord, coord, rem_if.
    rewrite !Rplus_0_r, !Rmult_0_r, !Rmult_0_l, !Rplus_0_r. reflexivity.
Qed.
