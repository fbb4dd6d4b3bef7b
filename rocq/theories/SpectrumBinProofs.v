(** Lemmas about binned modes. *)
From Coq Require Import List ZArith Reals Bool Lra Lia Psatz.
From Verif Require Import Base BaseLemmas VisModel VisSpec VisSumProofs SpectrumModel SpectrumSpec SpectrumProofs.
From Verif Require FuncModel FuncSpec FuncMoreProofs.
Import ListNotations.
Open Scope R_scope.

(** * Frequencies *)

Lemma fftfreq_signed : forall n i, (0 <= i < n)%Z ->
  exists m, is_frequency n i m /\ (if (i <=? (n - 1) / 2)%Z then IZR i else IZR (i - n)) = IZR m.
Proof.
  intros n i H. pose proof (Z.mul_div_le (n - 1) 2 ltac:(lia)) as A.
  pose proof (Z.mul_succ_div_gt (n - 1) 2 ltac:(lia)) as B.
  destruct (Z.leb_spec i ((n - 1) / 2)) as [L|L].
  - exists i. split; [|reflexivity]. split; [exists 0%Z; lia|lia].
  - exists (i - n)%Z. split; [|reflexivity]. split; [exists (-1)%Z; lia|lia].
Qed.

Lemma kfreq_signed : forall n dk i, (0 <= i < n)%Z -> dk <> 0 ->
  exists m, is_frequency n i m /\ kfreq n dk i = IZR m * dk.
Proof.
  intros n dk i H D. destruct (fftfreq_signed n i H) as (m & Fm & E). exists m. split; [exact Fm|].
  unfold kfreq, fftfreq. rewrite E. field. split; [exact D|]. apply not_0_IZR. lia.
Qed.

Lemma frequency_unique : forall n i a b, (1 <= n)%Z -> is_frequency n i a -> is_frequency n i b -> a = b.
Proof.
  intros n i a b Hn [(q & ->) A] [(r & ->) B].
  assert (q = r) by nia. subst. reflexivity.
Qed.

Lemma knrm_wavenumber : forall n dk c, in3 n c -> 0 < dk -> is_wavenumber n dk c (knrm n dk c).
Proof.
  intros n dk c (i & j & l & -> & Hi & Hj & Hl) D. unfold knrm.
  destruct (kfreq_signed n dk i Hi ltac:(lra)) as (a & Fa & ->).
  destruct (kfreq_signed n dk j Hj ltac:(lra)) as (b & Fb & ->).
  destruct (kfreq_signed n dk l Hl ltac:(lra)) as (d & Fd & ->).
  exists i, j, l, a, b, d. repeat (split; [first [reflexivity|assumption]|]).
  rewrite !plus_IZR, !mult_IZR.
  replace (IZR b * dk * (IZR b * dk) + IZR a * dk * (IZR a * dk) + IZR d * dk * (IZR d * dk))
    with (dk * dk * (IZR a * IZR a + IZR b * IZR b + IZR d * IZR d)) by ring.
  rewrite sqrt_mult_alt by nra. rewrite sqrt_square by lra. reflexivity.
Qed.

(** * Binning *)

Lemma counted_list : forall (A : Type) (a b : A -> R) c l,
  FuncModel.counted [map a l] (map b l) [c] = sumR (map (fun x => if FuncModel.in_cell c (a x) then b x else 0) l).
Proof.
  intros A a b c l. induction l as [|x t IH]; [reflexivity|]. cbn [map].
  rewrite FuncMoreProofs.counted_cons, IH, sumR_cons. reflexivity.
Qed.

Lemma histogram_list : forall (A : Type) (a b : A -> R) e (l : list A),
  histogram (map a l) e (map b l)
  = map (fun c => sumR (map (fun x => if FuncModel.in_cell c (a x) then b x else 0) l)) (FuncModel.cells e).
Proof.
  intros A a b e l. unfold histogram, FuncModel.histv. rewrite FuncMoreProofs.grid1, map_map.
  apply map_ext. intro c. apply counted_list.
Qed.

(** Sum of [b] over the modes whose [a] lies in the bin [c]. *)
Definition binned (n : Z) (a b : image) (c : R * R * bool) : R :=
  S3 n (fun x => if FuncModel.in_cell c (a x) then b x else 0).

Lemma histogram_S3 : forall n a b e,
  histogram (map a (cells n)) e (map b (cells n)) = map (binned n a b) (FuncModel.cells e).
Proof. intros. apply histogram_list. Qed.

Lemma combine_maps : forall (A : Type) (f g h : A -> R) l,
  combine (map f l) (combine (map g l) (map h l)) = map (fun x => (f x, (g x, h x))) l.
Proof. intros A f g h l. induction l as [|x t IH]; [reflexivity|]. cbn [map combine]. rewrite IH. reflexivity. Qed.

Definition edges_used (n : Z) (bx : R) (folding : Z) (bins : option (list R)) : list R :=
  match bins with Some b => b | None => default_bins n (2 * PI / (bx / powerRZ 2 folding)) end.
Definition shot (bx by_ bz : R) (norm : option R) : R :=
  match norm with Some m => bx * by_ * bz / m | None => bx * by_ * bz * 0 end.
Definition partner (f : image) (cross : option image) : image := match cross with Some g => g | None => f end.

Definition one_bin (n : Z) (f g : image) (bx by_ bz : R) (folding : Z) (norm : option R)
    (c : R * R * bool) : binval :=
  let fold := powerRZ 2 folding in
  let norms := knrm n (2 * PI / (bx / fold)) in
  let cnt := binned n norms (fun _ => 1) c in
  let a := if Req_EM_T cnt 0 then 0 else binned n norms (amplitude n f g (bx / fold)) c in
  mkbinval (binned n norms norms c / zero_to_one cnt)
           (a * (fold * fold * fold) / zero_to_one cnt - shot bx by_ bz norm) cnt.

Lemma spectrum_form : forall n f bx by_ bz folding cross bins norm,
  deposition_to_power_spectrum (cube_of n f) (bx, by_, bz) folding (option_map (cube_of n) cross) bins norm
  = Ok (map (one_bin n f (partner f cross) bx by_ bz folding norm)
            (FuncModel.cells (edges_used n bx folding bins))).
Proof.
  intros n f bx by_ bz folding cross bins norm. unfold deposition_to_power_spectrum, cube_of. cbn [d_shape d_vals].
  rewrite Z.eqb_refl. cbn [andb negb].
  assert (E : match option_map (fun f0 => mkdepo [n; n; n] f0) cross with
              | Some c => if list_eq_dec Z.eq_dec [n; n; n] (d_shape c) then false else true
              | None => false end = false).
  { destruct cross as [g|]; [|reflexivity]. cbn [option_map d_shape]. destruct (list_eq_dec _ _ _); congruence. }
  rewrite E. rewrite !histogram_S3, combine_maps, map_map.
  f_equal. unfold edges_used. apply map_ext. intro c. unfold one_bin, partner.
  destruct cross; reflexivity.
Qed.

Lemma one_bin_ext : forall n f g f' g' bx by_ bz folding norm c,
  (forall k, in3 n k -> amplitude n f g (bx / powerRZ 2 folding) k = amplitude n f' g' (bx / powerRZ 2 folding) k) ->
  one_bin n f g bx by_ bz folding norm c = one_bin n f' g' bx by_ bz folding norm c.
Proof.
  intros n f g f' g' bx by_ bz folding norm c H. unfold one_bin.
  assert (E : binned n (knrm n (2 * PI / (bx / powerRZ 2 folding))) (amplitude n f g (bx / powerRZ 2 folding)) c
            = binned n (knrm n (2 * PI / (bx / powerRZ 2 folding))) (amplitude n f' g' (bx / powerRZ 2 folding)) c).
  { apply S3_ext. intros k Hk. rewrite (H k Hk). reflexivity. }
  rewrite E. reflexivity.
Qed.

Lemma spectrum_ext : forall n f f' bx by_ bz folding cross cross' bins norm,
  (forall k, in3 n k -> amplitude n f (partner f cross) (bx / powerRZ 2 folding) k
                        = amplitude n f' (partner f' cross') (bx / powerRZ 2 folding) k) ->
  deposition_to_power_spectrum (cube_of n f) (bx, by_, bz) folding (option_map (cube_of n) cross) bins norm
  = deposition_to_power_spectrum (cube_of n f') (bx, by_, bz) folding (option_map (cube_of n) cross') bins norm.
Proof.
  intros. rewrite !spectrum_form. f_equal. apply map_ext. intro c. apply one_bin_ext. assumption.
Qed.

(** * Exchanging axes *)

Lemma dot_comm : forall k x, dot k x = dot x k.
Proof. induction k as [|a k IH]; intros [|b x]; try reflexivity. cbn [dot]. rewrite IH. ring. Qed.

Lemma binned_swap12 : forall n a b c, (forall x, in3 n x -> swap12 a x = a x) ->
  binned n a (swap12 b) c = binned n a b c.
Proof.
  intros n a b c H. unfold binned. rewrite <- (S3_swap12 n (fun x => if FuncModel.in_cell c (a x) then b x else 0)).
  apply S3_ext. intros x Hx. rewrite <- (H x Hx) at 1. destruct Hx as (i & j & k & -> & _). reflexivity.
Qed.
Lemma binned_swap23 : forall n a b c, (forall x, in3 n x -> swap23 a x = a x) ->
  binned n a (swap23 b) c = binned n a b c.
Proof.
  intros n a b c H. unfold binned. rewrite <- (S3_swap23 n (fun x => if FuncModel.in_cell c (a x) then b x else 0)).
  apply S3_ext. intros x Hx. rewrite <- (H x Hx) at 1. destruct Hx as (i & j & k & -> & _). reflexivity.
Qed.
Lemma knrm_swap : forall n dk x, in3 n x -> swap12 (knrm n dk) x = knrm n dk x /\ swap23 (knrm n dk) x = knrm n dk x.
Proof.
  intros n dk x (i & j & k & -> & _). unfold swap12, swap23, knrm. split; f_equal; ring.
Qed.

Lemma F_swap12 : forall n f k, in3 n k ->
  Fc n (swap12 f) k = swap12 (Fc n f) k /\ Fs n (swap12 f) k = swap12 (Fs n f) k.
Proof.
  intros n f k (a & b & d & -> & _). unfold Fc, Fs, swap12 at 2 4.
  rewrite <- (S3_swap12 n (fun x => f x * cos (turn n (dot [b; a; d] x)))),
          <- (S3_swap12 n (fun x => f x * sin (turn n (dot [b; a; d] x)))).
  split; apply S3_ext; intros x (i & j & l & -> & _); unfold swap12; do 3 f_equal; cbn [dot]; ring.
Qed.
Lemma F_swap23 : forall n f k, in3 n k ->
  Fc n (swap23 f) k = swap23 (Fc n f) k /\ Fs n (swap23 f) k = swap23 (Fs n f) k.
Proof.
  intros n f k (a & b & d & -> & _). unfold Fc, Fs, swap23 at 2 4.
  rewrite <- (S3_swap23 n (fun x => f x * cos (turn n (dot [a; d; b] x)))),
          <- (S3_swap23 n (fun x => f x * sin (turn n (dot [a; d; b] x)))).
  split; apply S3_ext; intros x (i & j & l & -> & _); unfold swap23; do 3 f_equal; cbn [dot]; ring.
Qed.

Lemma overdensity_swap : forall n f c, in3 n c ->
  overdensity n (swap12 f) c / N3 n = swap12 (fun c => overdensity n f c / N3 n) c
  /\ overdensity n (swap23 f) c / N3 n = swap23 (fun c => overdensity n f c / N3 n) c.
Proof.
  intros n f c (i & j & k & -> & _). unfold overdensity. rewrite !np_mean_S3, S3_swap12, S3_swap23. split; reflexivity.
Qed.

Lemma amplitude_swap : forall n f g L k, in3 n k ->
  amplitude n (swap12 f) (swap12 g) L k = swap12 (amplitude n f g L) k
  /\ amplitude n (swap23 f) (swap23 g) L k = swap23 (amplitude n f g L) k.
Proof.
  intros n f g L k Hk. split.
  - assert (E : forall h c, in3 n c -> overdensity n (swap12 h) c / N3 n = swap12 (fun c => overdensity n h c / N3 n) c)
      by (intros; apply overdensity_swap; assumption).
    rewrite amplitude_cs. cbn beta zeta.
    rewrite (proj1 (F_ext _ _ _ k (E f))), (proj2 (F_ext _ _ _ k (E f))),
            (proj1 (F_ext _ _ _ k (E g))), (proj2 (F_ext _ _ _ k (E g))).
    rewrite !(proj1 (F_swap12 _ _ _ Hk)), !(proj2 (F_swap12 _ _ _ Hk)).
    destruct Hk as (a & b & d & -> & _). unfold swap12. rewrite amplitude_cs. reflexivity.
  - assert (E : forall h c, in3 n c -> overdensity n (swap23 h) c / N3 n = swap23 (fun c => overdensity n h c / N3 n) c)
      by (intros; apply overdensity_swap; assumption).
    rewrite amplitude_cs. cbn beta zeta.
    rewrite (proj1 (F_ext _ _ _ k (E f))), (proj2 (F_ext _ _ _ k (E f))),
            (proj1 (F_ext _ _ _ k (E g))), (proj2 (F_ext _ _ _ k (E g))).
    rewrite !(proj1 (F_swap23 _ _ _ Hk)), !(proj2 (F_swap23 _ _ _ Hk)).
    destruct Hk as (a & b & d & -> & _). unfold swap23. rewrite amplitude_cs. reflexivity.
Qed.

Lemma binned_ext : forall n a b b' c, (forall x, in3 n x -> b x = b' x) -> binned n a b c = binned n a b' c.
Proof. intros n a b b' c H. apply S3_ext. intros x Hx. rewrite (H x Hx). reflexivity. Qed.

Lemma spectrum_swap : forall n f bx by_ bz folding cross bins norm sw, sw = swap12 \/ sw = swap23 ->
  deposition_to_power_spectrum (cube_of n (sw f)) (bx, by_, bz) folding
    (option_map (fun g => cube_of n (sw g)) cross) bins norm
  = deposition_to_power_spectrum (cube_of n f) (bx, by_, bz) folding (option_map (cube_of n) cross) bins norm.
Proof.
  intros n f bx by_ bz folding cross bins norm sw S.
  replace (option_map (fun g => cube_of n (sw g)) cross) with (option_map (cube_of n) (option_map sw cross))
    by (destruct cross; reflexivity).
  rewrite !spectrum_form. f_equal. apply map_ext. intro c. unfold one_bin.
  assert (P : partner (sw f) (option_map sw cross) = sw (partner f cross)) by (destruct cross; reflexivity).
  rewrite P. set (nn := knrm n _).
  assert (E : binned n nn (amplitude n (sw f) (sw (partner f cross)) (bx / powerRZ 2 folding)) c
            = binned n nn (amplitude n f (partner f cross) (bx / powerRZ 2 folding)) c).
  { destruct S as [-> | ->].
    - rewrite <- (binned_swap12 n nn (amplitude n f (partner f cross) (bx / powerRZ 2 folding)) c
                 (fun x Hx => proj1 (knrm_swap n _ x Hx))).
      apply binned_ext. intros x Hx. apply amplitude_swap. exact Hx.
    - rewrite <- (binned_swap23 n nn (amplitude n f (partner f cross) (bx / powerRZ 2 folding)) c
                 (fun x Hx => proj2 (knrm_swap n _ x Hx))).
      apply binned_ext. intros x Hx. apply amplitude_swap. exact Hx. }
  rewrite E. reflexivity.
Qed.

(** * The mean wavenumber of a bin *)

Lemma S3_le : forall n f g, (forall c, in3 n c -> f c <= g c) -> S3 n f <= S3 n g.
Proof. intros n f g H. apply sumR_le. intros c Hc. apply H. apply in_cells. exact Hc. Qed.

Lemma binned_nonneg : forall n a b c, (forall x, in3 n x -> 0 <= b x) -> 0 <= binned n a b c.
Proof.
  intros n a b c H. apply sumR_nonneg. intros x Hx. apply in_cells in Hx. specialize (H x Hx).
  destruct (FuncModel.in_cell c (a x)); lra.
Qed.

Lemma in_cell_between : forall lo hi l x, FuncModel.in_cell (lo, hi, l) x = true -> lo <= x <= hi.
Proof.
  intros lo hi l x H. unfold FuncModel.in_cell in H. apply andb_true_iff in H. destruct H as [A B].
  apply FuncMoreProofs.Rleb_true in A. destruct l.
  - apply FuncMoreProofs.Rleb_true in B. lra.
  - apply FuncMoreProofs.Rltb_true in B. lra.
Qed.

Lemma binned_between : forall n a lo hi l,
  lo * binned n a (fun _ => 1) (lo, hi, l) <= binned n a a (lo, hi, l) <= hi * binned n a (fun _ => 1) (lo, hi, l).
Proof.
  intros n a lo hi l. unfold binned. rewrite <- !S3_scal. split; apply S3_le; intros x _;
    destruct (FuncModel.in_cell (lo, hi, l) (a x)) eqn:E; try lra; apply in_cell_between in E; lra.
Qed.
