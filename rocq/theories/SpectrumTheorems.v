(** Power spectra: C70, C71, C72. *)
From Coq Require Import List ZArith Reals Bool Lra Lia Psatz Sorted Permutation.
From Verif Require Import Base BaseLemmas SortModel VisModel VisSpec VisSumProofs HsmlModel PowerModel PowerTheorems
  SpectrumModel SpectrumSpec SpectrumProofs SpectrumBinProofs SpectrumFoldProofs.
From Verif Require CosmoModel CosmoSpec FuncModel FuncSpec FuncMoreProofs SortProofs.
Import ListNotations.
Open Scope R_scope.

(** * C70: one deposition *)

(** C70: only cubes are accepted, and only pairs of the same shape. *)
Theorem C70_shapes : forall d box folding cross bins norm,
  ((forall n, d_shape d <> [n; n; n]) ->
     deposition_to_power_spectrum d box folding cross bins norm = Err ValueError)
  /\ (forall n c, d_shape d = [n; n; n] -> cross = Some c -> d_shape c <> [n; n; n] ->
     deposition_to_power_spectrum d box folding cross bins norm = Err AssertionErr).
Proof.
  intros d [[bx by_] bz] folding cross bins norm. unfold deposition_to_power_spectrum. split.
  - intro H. destruct (d_shape d) as [|a [|b [|c [|? ?]]]]; try reflexivity.
    destruct (Z.eqb_spec a b); [|reflexivity]. destruct (Z.eqb_spec b c); [|reflexivity]. subst.
    exfalso. apply (H c). reflexivity.
  - intros n c -> -> H. rewrite Z.eqb_refl. cbn [andb negb].
    destruct (list_eq_dec Z.eq_dec [n; n; n] (d_shape c)); [congruence|reflexivity].
Qed.

Lemma in_flat_map_disjoint : forall (A B : Type) (f : A -> list B) l,
  NoDup l -> (forall a, In a l -> NoDup (f a)) ->
  (forall a b x, In x (f a) -> In x (f b) -> a = b) -> NoDup (flat_map f l).
Proof.
  intros A B f l N F D. induction N as [|a l Na N IH]; [constructor|]. cbn [flat_map].
  assert (F' : forall a, In a l -> NoDup (f a)) by (intros; apply F; right; assumption). specialize (IH F').
  assert (NF : NoDup (f a)) by (apply F; left; reflexivity).
  assert (X : forall x, In x (f a) -> ~ In x (flat_map f l)).
  { intros x Hx H. apply in_flat_map in H. destruct H as (b & Hb & Hxb).
    assert (a = b) by (apply (D a b x); assumption). subst. contradiction. }
  induction NF as [|x t Nx NF IH']; [exact IH|]. cbn [app]. constructor.
  - rewrite in_app_iff. intros [H|H]; [contradiction|]. apply (X x); [left; reflexivity|exact H].
  - apply IH'. intros y Hy. apply X. right. exact Hy.
Qed.

Lemma NoDup_cells : forall n, NoDup (cells n).
Proof.
  intro n. unfold cells. apply in_flat_map_disjoint; [apply NoDup_zrange| |].
  - intros i _. apply in_flat_map_disjoint; [apply NoDup_zrange| |].
    + intros j _. apply FinFun.Injective_map_NoDup; [|apply NoDup_zrange]. intros a b E. congruence.
    + intros j j' x H H'. apply in_map_iff in H, H'. destruct H as (k & <- & _). destruct H' as (k' & E & _). congruence.
  - intros i i' x H H'. apply in_flat_map in H, H'. destruct H as (j & _ & H). destruct H' as (j' & _ & H').
    apply in_map_iff in H, H'. destruct H as (k & <- & _). destruct H' as (k' & E & _). congruence.
Qed.

Lemma binned_total : forall n a b e j, (S j < length e)%nat ->
  FuncSpec.bin_total e j (map a (cells n)) (map b (cells n)) (binned n a b (nth j (FuncModel.cells e) (0, 0, true))).
Proof.
  intros n a b e j J.
  pose proof (FuncMoreProofs.counts_in_bins e j (map a (cells n)) (map b (cells n)) ltac:(rewrite !map_length; reflexivity) J) as B.
  fold (histogram (map a (cells n)) e (map b (cells n))) in B. rewrite histogram_S3 in B.
  rewrite (nth_indep _ 0 (binned n a b (0, 0, true))) in B by (rewrite map_length, FuncMoreProofs.cells_length; lia).
  rewrite (map_nth (binned n a b)) in B. exact B.
Qed.

Lemma no_modes : forall n a b c, binned n a (fun _ => 1) c = 0 -> binned n a b c = 0.
Proof.
  intros n a b c H. unfold binned in *.
  assert (E : forall x, in3 n x -> FuncModel.in_cell c (a x) = false).
  { intros x Hx. destruct (FuncModel.in_cell c (a x)) eqn:Q; [|reflexivity]. exfalso.
    pose proof (S3_le n (fun y => if list_eq_dec Z.eq_dec x y then (fun _ => 1) y else 0)
                  (fun x => if FuncModel.in_cell c (a x) then 1 else 0)) as L.
    cbn beta in L. rewrite (S3_pick n x (fun _ => 1) Hx), H in L.
    assert (1 <= 0); [|lra]. apply L. intros y _. destruct (list_eq_dec Z.eq_dec x y) as [<-|];
      [rewrite Q; lra|destruct (FuncModel.in_cell c (a y)); lra]. }
  rewrite (S3_ext n _ (fun _ => 0 * 0)); [rewrite S3_scal; ring|]. intros x Hx. rewrite (E x Hx). ring.
Qed.

(** What the shot noise is. *)
Definition noise (bx by_ bz : R) (norm : option R) : R :=
  match norm with Some m => bx * by_ * bz / m | None => 0 end.
Lemma shot_noise : forall bx by_ bz norm, shot bx by_ bz norm = noise bx by_ bz norm.
Proof. intros. unfold shot, noise. destruct norm; ring. Qed.

(** Bin [j] for edges [e] holds value [v]: the number of modes with wavenumber in the bin, their
    mean wavenumber and their mean power times the volume, less the noise. *)
Definition bin_of_modes (n : Z) (unit volume nois : R) (power : cell -> R) (e : list R) (j : nat) (v : binval) : Prop :=
  exists (modes : list cell) (W : cell -> R) (sk sp : R),
    NoDup modes /\ (forall c, In c modes <-> in_bounds (cube n) c = true)
    /\ (forall c, In c modes -> is_wavenumber n unit c (W c))
    /\ FuncSpec.bin_total e j (map W modes) (map (fun _ => 1) modes) (bv_count v)
    /\ FuncSpec.bin_total e j (map W modes) (map W modes) sk
    /\ FuncSpec.bin_total e j (map W modes) (map power modes) sp
    /\ (bv_count v <> 0 -> bv_k v = sk / bv_count v /\ bv_power v = volume * (sp / bv_count v) - nois)
    /\ (bv_count v = 0 -> bv_k v = 0 /\ bv_power v = - nois).

Lemma bin_modes : forall n f cross bx by_ bz folding bins norm vals e (power : cell -> R),
  (1 <= n)%Z -> 0 < bx ->
  (forall k, in3 n k -> forall j, (S j < length e)%nat -> FuncSpec.in_bin e j (knrm n (2 * PI / (bx / powerRZ 2 folding)) k) ->
     amplitude n f (partner f cross) (bx / powerRZ 2 folding) k = (bx / powerRZ 2 folding) ^ 3 * power k) ->
  e = edges_used n bx folding bins ->
  deposition_to_power_spectrum (cube_of n f) (bx, by_, bz) folding (option_map (cube_of n) cross) bins norm = Ok vals ->
  length vals = (length e - 1)%nat
  /\ forall j, (j < length vals)%nat ->
       bin_of_modes n (2 * PI * powerRZ 2 folding / bx) (bx * bx * bx) (noise bx by_ bz norm) power e j (nth j vals dbv).
Proof.
  intros n f cross bx by_ bz folding bins norm vals e power Hn Hx Hp He H.
  rewrite spectrum_form, <- He in H. injection H as <-.
  rewrite map_length, FuncMoreProofs.cells_length. split; [reflexivity|]. intros j J.
  assert (J' : (S j < length e)%nat) by lia.
  pose proof (power_pos folding) as Pf. set (fo := powerRZ 2 folding) in *.
  assert (U : 2 * PI / (bx / fo) = 2 * PI * fo / bx) by (field; lra).
  set (unit := 2 * PI * fo / bx) in *.
  assert (U0 : 0 < unit).
  { unfold unit. pose proof PI_RGT_0. apply Rmult_lt_0_compat; [nra|apply Rinv_0_lt_compat; lra]. }
  rewrite (nth_indep _ dbv (one_bin n f (partner f cross) bx by_ bz folding norm (0, 0, true)))
    by (rewrite map_length, FuncMoreProofs.cells_length; lia).
  rewrite (map_nth (one_bin n f (partner f cross) bx by_ bz folding norm)).
  set (c := nth j (FuncModel.cells e) (0, 0, true)).
  exists (cells n), (knrm n unit), (binned n (knrm n unit) (knrm n unit) c), (binned n (knrm n unit) power c).
  split; [apply NoDup_cells|]. split.
  { intro k. rewrite in_cells. split; [apply in3_bounds|apply bounds_in3]. }
  split. { intros k Hk. apply in_cells in Hk. apply knrm_wavenumber; assumption. }
  unfold one_bin. fold fo. rewrite U. cbn [bv_count bv_k bv_power].
  split; [apply binned_total; exact J'|]. split; [apply binned_total; exact J'|].
  split; [apply binned_total; exact J'|].
  set (cnt := binned n (knrm n unit) (fun _ => 1) c). unfold zero_to_one. rewrite shot_noise.
  assert (A : binned n (knrm n unit) (amplitude n f (partner f cross) (bx / fo)) c
              = (bx / fo) ^ 3 * binned n (knrm n unit) power c).
  { unfold binned. rewrite <- S3_scal. apply S3_ext. intros k Hk.
    destruct (FuncModel.in_cell c (knrm n unit k)) eqn:Q; [|ring]. apply (Hp k Hk j J'). rewrite U.
    apply (proj1 (FuncMoreProofs.in_cell_bin e j _)). unfold c in Q. rewrite (FuncMoreProofs.cells_nth e j _ J') in Q. exact Q. }
  rewrite A. destruct (Req_EM_T cnt 0) as [Z|Z].
  - split; [contradiction|]. intros _. rewrite (no_modes n (knrm n unit) (knrm n unit) c Z). split; [lra|].
    unfold Rdiv. ring.
  - split; [|contradiction]. intros _. split; [reflexivity|]. field. split; lra.
Qed.

(** C70: a bin holds the number, the mean wavenumber and the mean power of the modes whose
    wavenumbers lie in it: the Fourier transform of the correlation of the relative deviations,
    times the volume of a cube with the first side of the box. *)
Theorem C70_bins : forall n f cross bx by_ bz folding bins norm vals,
  (1 <= n)%Z -> 0 < bx -> total3 n f <> 0 -> total3 n (partner f cross) <> 0 ->
  deposition_to_power_spectrum (cube_of n f) (bx, by_, bz) folding (option_map (cube_of n) cross) (Some bins) norm = Ok vals ->
  length vals = (length bins - 1)%nat
  /\ forall j, (j < length vals)%nat ->
       bin_of_modes n (2 * PI * powerRZ 2 folding / bx) (bx * bx * bx) (noise bx by_ bz norm)
         (mode_power n f (partner f cross)) bins j (nth j vals dbv).
Proof.
  intros n f cross bx by_ bz folding bins norm vals Hn Hx Hf Hg H. pose proof (N3_pos n Hn) as P.
  apply (bin_modes n f cross bx by_ bz folding (Some bins) norm vals bins); try assumption; [|reflexivity].
  intros k _ _ _ _. apply amplitude_power; [exact Hn| |]; rewrite np_mean_S3, S3_total;
    apply Rmult_integral_contrapositive_currified; try assumption; apply Rinv_neq_0_compat; lra.
Qed.

(** C70: without edges the bins are [j + 1/2] to [j + 3/2] times the smallest wavenumber, up to
    half the number of cells. *)
Theorem C70_default_edges : forall n f cross bx by_ bz folding norm,
  (1 <= n)%Z -> 0 < bx ->
  exists e, length e = Z.to_nat (n / 2 + 1)
    /\ (forall j, (j < length e)%nat -> nth j e 0 = (INR j + / 2) * (2 * PI * powerRZ 2 folding / bx))
    /\ deposition_to_power_spectrum (cube_of n f) (bx, by_, bz) folding cross None norm
       = deposition_to_power_spectrum (cube_of n f) (bx, by_, bz) folding cross (Some e) norm.
Proof.
  intros n f cross bx by_ bz folding norm Hn Hx. pose proof (power_pos folding) as Pf.
  exists (default_bins n (2 * PI / (bx / powerRZ 2 folding))).
  assert (L : length (default_bins n (2 * PI / (bx / powerRZ 2 folding))) = Z.to_nat (n / 2 + 1)).
  { unfold default_bins. rewrite map_length, zrange_length. f_equal. lia. }
  split; [exact L|]. split; [|reflexivity]. intros j J. rewrite L in J. unfold default_bins.
  rewrite (nth_indep _ 0 ((fun j => (/ 2 + IZR j) * (2 * PI / (bx / powerRZ 2 folding))) 0%Z))
    by (rewrite map_length, zrange_length, Z.sub_0_r; exact J).
  rewrite (map_nth (fun j => (/ 2 + IZR j) * (2 * PI / (bx / powerRZ 2 folding)))).
  unfold zrange. rewrite Z.sub_0_r.
  rewrite (nth_indep _ 0%Z (0 + Z.of_nat 0)%Z) by (rewrite map_length, seq_length; exact J).
  rewrite (map_nth (fun i => (0 + Z.of_nat i)%Z)), seq_nth by exact J. rewrite Z.add_0_l, Nat.add_0_l, <- INR_IZR_INZ.
  field. lra.
Qed.

(** C70: an even distribution has no power. *)
Theorem C70_uniform : forall n v g bx by_ bz folding bins norm vals,
  (1 <= n)%Z -> v <> 0 ->
  deposition_to_power_spectrum (cube_of n (fun _ => v)) (bx, by_, bz) folding (option_map (cube_of n) g) bins norm = Ok vals ->
  Forall (fun b => bv_power b = - noise bx by_ bz norm) vals.
Proof.
  intros n v g bx by_ bz folding bins norm vals Hn Hv H. rewrite spectrum_form in H. injection H as <-.
  apply Forall_forall. intros b Hb. apply in_map_iff in Hb. destruct Hb as (c & <- & _).
  unfold one_bin. cbn [bv_power]. rewrite shot_noise.
  set (A := binned n _ (amplitude _ _ _ _) c).
  assert (A = 0) as ->.
  { unfold A, binned. rewrite (S3_ext n _ (fun _ => 0 * 0)); [rewrite S3_scal; ring|]. intros k Hk.
    rewrite (amplitude_uniform n (fun _ => v) (partner (fun _ => v) g) (bx / powerRZ 2 folding) k v Hn (fun _ _ => eq_refl) Hv).
    destruct (FuncModel.in_cell c _); ring. }
  destruct (Req_EM_T _ 0); unfold Rdiv; ring.
Qed.

(** C70: multiplying all masses by a number changes nothing. *)
Theorem C70_scale : forall n f cross a b bx by_ bz folding bins norm,
  (1 <= n)%Z -> a <> 0 -> b <> 0 -> total3 n f <> 0 -> total3 n (partner f cross) <> 0 ->
  deposition_to_power_spectrum (cube_of n (fun c => a * f c)) (bx, by_, bz) folding
    (option_map (fun g => cube_of n (fun c => b * g c)) cross) bins norm
  = deposition_to_power_spectrum (cube_of n f) (bx, by_, bz) folding (option_map (cube_of n) cross) bins norm.
Proof.
  intros n f cross a b bx by_ bz folding bins norm Hn Ha Hb Hf Hg. pose proof (N3_pos n Hn) as P.
  assert (M : forall h, total3 n h <> 0 -> np_mean n h <> 0).
  { intros h Hh. rewrite np_mean_S3, S3_total. apply Rmult_integral_contrapositive_currified; [exact Hh|].
    apply Rinv_neq_0_compat. lra. }
  replace (option_map (fun g => cube_of n (fun c => b * g c)) cross)
    with (option_map (cube_of n) (option_map (fun g c => b * g c) cross)) by (destruct cross; reflexivity).
  apply spectrum_ext. intros k Hk. apply amplitude_ext; intros c Hc.
  - apply overdensity_scale; auto.
  - destruct cross as [g|]; cbn [option_map partner] in *; apply overdensity_scale; auto.
Qed.

(** C70: moving everything along the periodic grid changes nothing. *)
Theorem C70_shift : forall n f cross a b c bx by_ bz folding bins norm, (1 <= n)%Z ->
  let m := moved_grid n [a; b; c] in
  deposition_to_power_spectrum (cube_of n (m f)) (bx, by_, bz) folding
    (option_map (fun g => cube_of n (m g)) cross) bins norm
  = deposition_to_power_spectrum (cube_of n f) (bx, by_, bz) folding (option_map (cube_of n) cross) bins norm.
Proof.
  intros n f cross a b c bx by_ bz folding bins norm Hn m.
  replace (option_map (fun g => cube_of n (m g)) cross) with (option_map (cube_of n) (option_map m cross))
    by (destruct cross; reflexivity).
  apply spectrum_ext. intros k Hk.
  replace (partner (m f) (option_map m cross)) with (m (partner f cross)) by (destruct cross; reflexivity).
  apply amplitude_moved; assumption.
Qed.

(** C70: the two depositions of a cross spectrum play the same part, and so do the axes. *)
Theorem C70_symmetric : forall n f g bx by_ bz folding bins norm,
  deposition_to_power_spectrum (cube_of n f) (bx, by_, bz) folding (Some (cube_of n g)) bins norm
  = deposition_to_power_spectrum (cube_of n g) (bx, by_, bz) folding (Some (cube_of n f)) bins norm
  /\ deposition_to_power_spectrum (cube_of n f) (bx, by_, bz) folding (Some (cube_of n f)) bins norm
  = deposition_to_power_spectrum (cube_of n f) (bx, by_, bz) folding None bins norm.
Proof.
  intros n f g bx by_ bz folding bins norm. split.
  - apply (spectrum_ext n f g bx by_ bz folding (Some g) (Some f)). intros k _. apply amplitude_sym.
  - apply (spectrum_ext n f f bx by_ bz folding (Some f) None). intros k _. reflexivity.
Qed.
Theorem C70_axes : forall n f cross bx by_ bz folding bins norm sw, sw = swap12 \/ sw = swap23 ->
  deposition_to_power_spectrum (cube_of n (sw f)) (bx, by_, bz) folding
    (option_map (fun g => cube_of n (sw g)) cross) bins norm
  = deposition_to_power_spectrum (cube_of n f) (bx, by_, bz) folding (option_map (cube_of n) cross) bins norm.
Proof. intros. apply spectrum_swap. assumption. Qed.

(** C70: the power of one field is not negative, before the noise is taken off; a filled bin's
    wavenumber lies between its edges. *)
Theorem C70_ranges : forall n f cross bx by_ bz folding e norm vals j,
  (1 <= n)%Z -> 0 < bx ->
  deposition_to_power_spectrum (cube_of n f) (bx, by_, bz) folding (option_map (cube_of n) cross) (Some e) norm = Ok vals ->
  (j < length vals)%nat ->
  let v := nth j vals dbv in
  0 <= bv_count v /\ (bv_count v <> 0 -> nth j e 0 <= bv_k v <= nth (S j) e 0)
  /\ (cross = None -> - noise bx by_ bz norm <= bv_power v).
Proof.
  intros n f cross bx by_ bz folding e norm vals j Hn Hx H J. rewrite spectrum_form in H. injection H as <-.
  rewrite map_length, FuncMoreProofs.cells_length in J. cbn [edges_used] in *. assert (J' : (S j < length e)%nat) by lia.
  rewrite (nth_indep _ dbv (one_bin n f (partner f cross) bx by_ bz folding norm (0, 0, true)))
    by (rewrite map_length, FuncMoreProofs.cells_length; lia).
  rewrite (map_nth (one_bin n f (partner f cross) bx by_ bz folding norm)).
  rewrite (FuncMoreProofs.cells_nth e j _ J').
  set (lo := nth j e 0). set (hi := nth (S j) e 0). set (l := Nat.eqb _ _).
  pose proof (power_pos folding) as Pf. set (fo := powerRZ 2 folding) in *.
  unfold one_bin. fold fo. cbn [bv_count bv_k bv_power]. set (W := knrm n _).
  set (cnt := binned n W (fun _ => 1) (lo, hi, l)).
  assert (C0 : 0 <= cnt) by (apply binned_nonneg; intros; lra).
  split; [exact C0|]. split.
  - intro N. unfold zero_to_one. destruct (Req_EM_T cnt 0) as [|_]; [contradiction|].
    pose proof (binned_between n W lo hi l) as B. fold cnt in B.
    assert (I : 0 < / cnt) by (apply Rinv_0_lt_compat; lra).
    set (s := binned n W W (lo, hi, l)) in *. unfold Rdiv.
    split; apply (Rmult_le_reg_r cnt); try lra; rewrite Rmult_assoc, Rinv_l by lra; lra.
  - intros ->. cbn [partner]. rewrite shot_noise. set (A := binned n W (amplitude n f f (bx / fo)) (lo, hi, l)).
    assert (A0 : 0 <= A).
    { apply binned_nonneg. intros. apply amplitude_nonneg. apply Rlt_le, Rdiv_lt_0_compat; lra. }
    unfold zero_to_one. destruct (Req_EM_T cnt 0) as [Z|Z]; [unfold Rdiv; lra|].
    assert (I : 0 < / cnt) by (apply Rinv_0_lt_compat; lra).
    assert (0 <= A * (fo * fo * fo) / cnt); [|lra]. unfold Rdiv.
    apply Rmult_le_pos; [apply Rmult_le_pos; [exact A0|]|lra]. apply Rlt_le. repeat apply Rmult_lt_0_compat; lra.
Qed.

(** * Every mode is counted once *)

Lemma one_cell_sum : forall e x, StronglySorted Rlt e -> (2 <= length e)%nat -> nth 0 e 0 <= x <= nth (length e - 1) e 0 ->
  forall w, sumR (map (fun c => if FuncModel.in_cell c x then w else 0) (FuncModel.cells e)) = w.
Proof.
  induction e as [|a e IH]; intros x S L B w; [cbn [length] in L; lia|]. destruct e as [|b t]; [cbn [length] in L; lia|].
  change (FuncModel.cells (a :: b :: t)) with ((a, b, match t with [] => true | _ => false end) :: FuncModel.cells (b :: t)).
  cbn [map]. rewrite sumR_cons. inversion S as [|? ? S' A]; subst. pose proof (Forall_inv A) as Hab. cbn [nth] in B.
  destruct t as [|c t].
  - cbn [length Nat.sub nth] in B. change (FuncModel.cells [b]) with (@nil (R * R * bool)). cbn [map]. rewrite sumR_nil.
    unfold FuncModel.in_cell. rewrite (proj2 (FuncMoreProofs.Rleb_true a x)) by lra.
    rewrite (proj2 (FuncMoreProofs.Rleb_true x b)) by lra. cbn [andb]. ring.
  - destruct (Rlt_dec x b) as [X|X].
    + unfold FuncModel.in_cell at 1. rewrite (proj2 (FuncMoreProofs.Rleb_true a x)) by lra.
      rewrite (proj2 (FuncMoreProofs.Rltb_true x b)) by lra. cbn [andb].
      rewrite (sumR_zero _ _ (FuncModel.cells (b :: c :: t))); [ring|]. intros [[lo hi] l] H.
      destruct (FuncModel.in_cell (lo, hi, l) x) eqn:E; [|reflexivity]. exfalso.
      apply in_cell_between in E. apply (In_nth _ _ (0, 0, true)) in H. destruct H as (j & J & H).
      rewrite FuncMoreProofs.cells_length in J. rewrite FuncMoreProofs.cells_nth in H by (cbn [length] in *; lia).
      injection H as H1 H2 H3. assert (b <= lo); [|lra]. subst lo. destruct j as [|j]; [cbn [nth]; lra|].
      inversion S' as [|? ? S'' A']; subst. rewrite Forall_forall in A'. apply Rlt_le.
      assert (J' : (j < length (c :: t))%nat) by (cbn [length] in *; lia).
      exact (A' (nth j (c :: t) 0) (nth_In (c :: t) 0 J')).
    + assert (FuncModel.in_cell (a, b, false) x = false) as ->.
      { destruct (FuncModel.in_cell (a, b, false) x) eqn:E; [|reflexivity]. unfold FuncModel.in_cell in E.
        apply andb_true_iff in E. destruct E as [_ E]. apply FuncMoreProofs.Rltb_true in E. lra. }
      rewrite IH; [ring|exact S'|cbn [length]; lia|].
      split; [cbn [nth]; lra|]. replace (length (b :: c :: t) - 1)%nat with (Datatypes.S (length t)) by (cbn [length]; lia).
      replace (length (a :: b :: c :: t) - 1)%nat with (Datatypes.S (Datatypes.S (length t))) in B by (cbn [length]; lia).
      cbn [nth] in *. lra.
Qed.

Lemma binned_all : forall n a b e, StronglySorted Rlt e -> (2 <= length e)%nat ->
  (forall x, in3 n x -> nth 0 e 0 <= a x <= nth (length e - 1) e 0) ->
  sumR (map (binned n a b) (FuncModel.cells e)) = S3 n b.
Proof.
  intros n a b e S L H. unfold binned, S3 at 1. rewrite sumR_swap. apply S3_ext. intros x Hx.
  apply one_cell_sum; auto.
Qed.

(** C70: together, all modes give the mean product of the deviations (Parseval's theorem). *)
Theorem C70_parseval : forall n f cross bx by_ bz folding e norm vals,
  (1 <= n)%Z -> 0 < bx -> total3 n f <> 0 -> total3 n (partner f cross) <> 0 ->
  StronglySorted Rlt e -> (2 <= length e)%nat ->
  (forall c k, in_bounds (cube n) c = true -> is_wavenumber n (2 * PI * powerRZ 2 folding / bx) c k ->
     nth 0 e 0 <= k <= nth (length e - 1) e 0) ->
  deposition_to_power_spectrum (cube_of n f) (bx, by_, bz) folding (option_map (cube_of n) cross) (Some e) norm = Ok vals ->
  sumR (map bv_count vals) = IZR n ^ 3
  /\ sumR (map (fun v => bv_count v * (bv_power v + noise bx by_ bz norm)) vals)
     = bx * bx * bx * (total3 n (fun c => deviation n f c * deviation n (partner f cross) c) / IZR n ^ 3).
Proof.
  intros n f cross bx by_ bz folding e norm vals Hn Hx Hf Hg Se Le Ce H. rewrite spectrum_form in H. injection H as <-.
  cbn [edges_used]. pose proof (power_pos folding) as Pf. set (fo := powerRZ 2 folding) in *.
  pose proof (N3_pos n Hn) as PN.
  assert (U : 2 * PI / (bx / fo) = 2 * PI * fo / bx) by (field; lra).
  assert (U0 : 0 < 2 * PI * fo / bx).
  { pose proof PI_RGT_0. apply Rmult_lt_0_compat; [nra|apply Rinv_0_lt_compat; lra]. }
  assert (C : forall x, in3 n x -> nth 0 e 0 <= knrm n (2 * PI / (bx / fo)) x <= nth (length e - 1) e 0).
  { intros x Hx'. apply (Ce x); [apply in3_bounds; exact Hx'|]. rewrite U. apply knrm_wavenumber; assumption. }
  assert (M : forall h, total3 n h <> 0 -> np_mean n h <> 0).
  { intros h Hh. rewrite np_mean_S3, S3_total. apply Rmult_integral_contrapositive_currified; [exact Hh|].
    apply Rinv_neq_0_compat. lra. }
  rewrite !map_map. unfold one_bin. fold fo. cbn [bv_count bv_power]. set (W := knrm n _) in *. split.
  - change (fun x => binned n W (fun _ => 1) x) with (binned n W (fun _ => 1)).
    rewrite binned_all by assumption. rewrite S3_const by lia. ring.
  - rewrite (sumR_ext _ _ (fun c => fo * fo * fo * binned n W (amplitude n f (partner f cross) (bx / fo)) c)).
    + rewrite sumR_scal, binned_all by assumption. rewrite total_amplitude by exact Hn. rewrite <- S3_total.
      rewrite (S3_ext n (fun x => overdensity n f x * overdensity n (partner f cross) x)
                 (fun c => deviation n f c * deviation n (partner f cross) c)).
      * replace (IZR n ^ 3) with (N3 n) by (unfold N3; ring). field. split; lra.
      * intros c Hc. rewrite !overdensity_deviation by auto. reflexivity.
    + intros c _. set (cnt := binned n W (fun _ => 1) c). rewrite shot_noise. unfold zero_to_one.
      destruct (Req_EM_T cnt 0) as [Z|Z].
      * rewrite Z, (no_modes n W _ c Z). ring.
      * field. exact Z.
Qed.

(** C70 (refuted for boxes that are not cubes): the second and third side of the box are used
    for the noise only, so modes along them get wavenumbers of the first. *)
Theorem C70_box_refuted : forall d bx by_ bz by' bz' folding cross bins,
  deposition_to_power_spectrum d (bx, by_, bz) folding cross bins None
  = deposition_to_power_spectrum d (bx, by', bz') folding cross bins None.
Proof.
  intros. unfold deposition_to_power_spectrum.
  destruct (d_shape d) as [|a [|b [|c [|? ?]]]]; try reflexivity. destruct (negb _); [reflexivity|].
  destruct (match cross with Some _ => _ | None => _ end); [reflexivity|]. do 2 f_equal.
  replace (bx * by_ * bz * 0) with 0 by ring. replace (bx * by' * bz' * 0) with 0 by ring. reflexivity.
Qed.

(** * C71: folded depositions of particles *)

(** C71: the power of a mode other than the mean is that of the particles, moved to their cells. *)
Theorem C71_particles : forall d d' n folding bx by_ bz img img' k,
  (1 <= n)%Z -> 0 < bx -> 0 < by_ -> 0 < bz -> box d = (bx, by_, bz) -> box d' = (bx, by_, bz) ->
  total_mass (particles d) <> 0 -> total_mass (particles d') <> 0 ->
  render_to_deposit d n folding = Ok img -> render_to_deposit d' n folding = Ok img' ->
  in_bounds (cube n) k = true -> k <> [0; 0; 0]%Z ->
  let cell_of := grid_cell n (bx / powerRZ 2 folding) (by_ / powerRZ 2 folding) (bz / powerRZ 2 folding) in
  mode_power n img img' k
  = wave_cos n cell_of (particles d) k * wave_cos n cell_of (particles d') k
    + wave_sin n cell_of (particles d) k * wave_sin n cell_of (particles d') k.
Proof.
  intros d d' n folding bx by_ bz img img' k Hn Hx Hy Hz Hb Hb' Hm Hm' E E' Hk Nk cell_of.
  assert (Acc : forall d i, render_to_deposit d n folding = Ok i -> accepted d).
  { intros x i X. unfold render_to_deposit in X. unfold accepted.
    destruct (positions_comoving x); cbn [andb negb] in X;
      [destruct (compatible_comoving x); [|discriminate X]|destruct (compatible_physical x); [|discriminate X]];
      cbn [negb] in X; (destruct (Z.eqb_spec (box_units x) (position_units x)); [split; [reflexivity|assumption]|discriminate X]). }
  destruct (render_values d n folding bx by_ bz Hn Hb Hx Hy Hz (Acc _ _ E)) as (i1 & K & E1 & HK & V).
  destruct (render_values d' n folding bx by_ bz Hn Hb' Hx Hy Hz (Acc _ _ E')) as (i2 & K' & E2 & HK' & V').
  rewrite E in E1. injection E1 as <-. rewrite E' in E2. injection E2 as <-.
  fold cell_of in V, V'. apply bounds_in3 in Hk.
  assert (Hc : forall ps p, In p ps -> in3 n (cell_of p)) by (intros; apply bounds_in3, grid_cell_bounds; exact Hn).
  destruct (F_deposit n img K cell_of (particles d) k Hn HK (Hc _) V Hm Hk Nk) as [<- <-].
  destruct (F_deposit n img' K' cell_of (particles d') k Hn HK' (Hc _) V' Hm' Hk Nk) as [<- <-].
  pose proof (N3_pos n Hn) as PN.
  assert (M : forall i K ps, K <> 0 -> total_mass ps <> 0 -> (forall c, i c = mass_in c cell_of ps * K) -> np_mean n i <> 0).
  { intros i L ps HL Hps Vi. rewrite np_mean_S3.
    rewrite (S3_ext n i (fun c => mass_in c cell_of ps * L * (fun _ => 1) c)) by (intros; rewrite Vi; ring).
    rewrite (deposit_sum n cell_of ps L (fun _ => 1) (Hc ps)).
    apply Rmult_integral_contrapositive_currified; [|apply Rinv_neq_0_compat; lra].
    apply Rmult_integral_contrapositive_currified; [exact HL|]. unfold total_mass in Hps.
    rewrite (sumR_ext _ _ p_m) by (intros; ring). exact Hps. }
  transitivity (amplitude n img img' 1 k).
  - rewrite amplitude_power by eauto. ring.
  - rewrite amplitude_cs. ring.
Qed.

(** C71: the modes of a grid folded [folding] times are those of a grid with as many times more
    cells, every [2 ^ folding]-th of them: same power, same wavenumber. *)
Theorem C71_folding : forall d d' n folding bx by_ bz img img' fine fine' k0 k1 k2,
  (1 <= n)%Z -> (0 <= folding)%Z -> 0 < bx -> 0 < by_ -> 0 < bz -> box d = (bx, by_, bz) -> box d' = (bx, by_, bz) ->
  total_mass (particles d) <> 0 -> total_mass (particles d') <> 0 ->
  let f := (2 ^ folding)%Z in
  render_to_deposit d n folding = Ok img -> render_to_deposit d' n folding = Ok img' ->
  render_to_deposit d (f * n) 0 = Ok fine -> render_to_deposit d' (f * n) 0 = Ok fine' ->
  (0 <= k0 < n)%Z -> (0 <= k1 < n)%Z -> (0 <= k2 < n)%Z -> [k0; k1; k2] <> [0; 0; 0]%Z ->
  let k := [k0; k1; k2] in
  let k' := [f * k0; f * k1; f * k2]%Z in
  mode_power n img img' k = mode_power (f * n) fine fine' k'
  /\ forall w, is_wavenumber n (2 * PI * powerRZ 2 folding / bx) k w -> is_wavenumber (f * n) (2 * PI / bx) k' w.
Proof.
  intros d d' n folding bx by_ bz img img' fine fine' k0 k1 k2 Hn Hf Hx Hy Hz Hb Hb' Hm Hm' f E E' F F' H0 H1 H2 Nk k k'.
  assert (Pf : (1 <= f)%Z) by (unfold f; pose proof (Z.pow_pos_nonneg 2 folding); lia).
  assert (P0 : 0 < IZR f) by (apply (IZR_lt 0); lia).
  assert (Q : powerRZ 2 folding = IZR f) by (apply pow2_IZR; exact Hf).
  split.
  - rewrite (C71_particles d d' n folding bx by_ bz img img' k); try assumption;
      [|apply in3_bounds; exists k0, k1, k2; repeat split; lia].
    rewrite (C71_particles d d' (f * n) 0 bx by_ bz fine fine' k'); try assumption; try nia.
    + rewrite Q. change (powerRZ 2 0) with 1. replace (bx / 1) with bx by field. replace (by_ / 1) with by_ by field.
      replace (bz / 1) with bz by field. cbn zeta. unfold k, k'.
      pose proof (fold_waves n f bx by_ bz (particles d) k0 k1 k2 Hn Pf Hx Hy Hz) as [-> ->].
      pose proof (fold_waves n f bx by_ bz (particles d') k0 k1 k2 Hn Pf Hx Hy Hz) as [-> ->]. reflexivity.
    + apply in3_bounds. exists (f * k0)%Z, (f * k1)%Z, (f * k2)%Z. repeat split; nia.
    + intro X. apply Nk. injection X as X0 X1 X2. repeat f_equal; nia.
  - intros w (i & j & l & a & b & c & K & Fa & Fb & Fc & ->). injection K as <- <- <-.
    exists (f * k0)%Z, (f * k1)%Z, (f * k2)%Z, (f * a)%Z, (f * b)%Z, (f * c)%Z. split; [reflexivity|].
    split; [apply fold_frequency; assumption|]. split; [apply fold_frequency; assumption|].
    split; [apply fold_frequency; assumption|].
    replace (f * a * (f * a) + f * b * (f * b) + f * c * (f * c))%Z with (f * f * (a * a + b * b + c * c))%Z by ring.
    rewrite mult_IZR, (mult_IZR f f), sqrt_mult_alt by nra. rewrite sqrt_square by lra. rewrite Q. field. lra.
Qed.

(** C71: so the spectrum of a folded grid has in its bins the mean power of modes of the finer
    grid, if no bin holds wavenumber 0. *)
Theorem C71_bins : forall d d' n folding bx by_ bz img img' fine fine' bins norm vals,
  (1 <= n)%Z -> (0 <= folding)%Z -> 0 < bx -> 0 < by_ -> 0 < bz -> box d = (bx, by_, bz) -> box d' = (bx, by_, bz) ->
  total_mass (particles d) <> 0 -> total_mass (particles d') <> 0 ->
  let f := (2 ^ folding)%Z in
  render_to_deposit d n folding = Ok img -> render_to_deposit d' n folding = Ok img' ->
  render_to_deposit d (f * n) 0 = Ok fine -> render_to_deposit d' (f * n) 0 = Ok fine' ->
  (forall j, (S j < length bins)%nat -> ~ FuncSpec.in_bin bins j 0) ->
  deposition_to_power_spectrum (cube_of n img) (bx, by_, bz) folding (Some (cube_of n img')) (Some bins) norm = Ok vals ->
  length vals = (length bins - 1)%nat
  /\ forall j, (j < length vals)%nat ->
       bin_of_modes n (2 * PI * powerRZ 2 folding / bx) (bx * bx * bx) (noise bx by_ bz norm)
         (fun k => mode_power (f * n) fine fine' (map (Z.mul f) k)) bins j (nth j vals dbv).
Proof.
  intros d d' n folding bx by_ bz img img' fine fine' bins norm vals Hn Hf Hx Hy Hz Hb Hb' Hm Hm' f E E' F F' NZ H.
  apply (bin_modes n img (Some img') bx by_ bz folding (Some bins) norm vals bins); try assumption; [|reflexivity].
  intros k Hk j J B. cbn [partner].
  assert (Nk : k <> [0; 0; 0]%Z).
  { intros ->. apply (NZ j J). replace 0 with (knrm n (2 * PI / (bx / powerRZ 2 folding)) [0; 0; 0]%Z); [exact B|].
    pose proof (power_pos folding). pose proof PI_RGT_0.
    assert (D : 0 < 2 * PI / (bx / powerRZ 2 folding)).
    { apply Rmult_lt_0_compat; [lra|]. apply Rinv_0_lt_compat, Rdiv_lt_0_compat; lra. }
    destruct (knrm_wavenumber n _ [0; 0; 0]%Z Hk D) as (a & b & c & x & y & z & A & Fx & Fy & Fz & ->).
    injection A as <- <- <-.
    assert (Z0 : is_frequency n 0 0) by (split; [exists 0%Z; lia|lia]).
    rewrite (frequency_unique n 0 x 0 Hn Fx Z0), (frequency_unique n 0 y 0 Hn Fy Z0), (frequency_unique n 0 z 0 Hn Fz Z0).
    replace (0 * 0 + 0 * 0 + 0 * 0)%Z with 0%Z by reflexivity. rewrite sqrt_0. ring. }
  pose proof Hk as (k0 & k1 & k2 & -> & H0 & H1 & H2). cbn [map]. unfold f.
  rewrite <- (proj1 (C71_folding d d' n folding bx by_ bz img img' fine fine' k0 k1 k2 Hn Hf Hx Hy Hz Hb Hb' Hm Hm'
                       E E' F F' H0 H1 H2 Nk)).
  assert (M : forall d i, box d = (bx, by_, bz) -> total_mass (particles d) <> 0 -> render_to_deposit d n folding = Ok i -> np_mean n i <> 0).
  { intros x i Bx Mx X. pose proof (power_pos folding) as Pf.
    unfold render_to_deposit in X. rewrite Bx in X. destruct (_ && _); [discriminate X|]. destruct (_ && _); [discriminate X|].
    destruct (negb _); [discriminate X|].
    destruct (deposit n (powerRZ 2 folding) bx by_ bz (particles x)) as [g|] eqn:G; [|discriminate X]. cbn [bind] in X.
    injection X as <-. pose proof (C44_total n (powerRZ 2 folding) bx by_ bz (particles x) g Hn Pf Hx Hy Hz G) as T.
    rewrite np_mean_S3, S3_scal_r, S3_total, T. pose proof (N3_pos n Hn). assert (1 <= IZR n) by (apply (IZR_le 1); lia).
    apply Rmult_integral_contrapositive_currified; [|apply Rinv_neq_0_compat; lra].
    apply Rmult_integral_contrapositive_currified.
    - apply Rmult_integral_contrapositive_currified; [exact Mx|]. apply Rgt_not_eq. apply Rmult_lt_0_compat; apply pow_lt; lra.
    - apply Rgt_not_eq. apply Rinv_0_lt_compat. repeat apply Rmult_lt_0_compat; lra. }
  apply amplitude_power; [exact Hn|apply (M d)|apply (M d')]; assumption.
Qed.

(** * C72: several foldings together *)

(** Edges of the bins: equal steps or equal ratios from the smaller to the larger end. *)
Definition bin_edges (number : Z) (k1 k2 : R) (logarithmic : bool) (e : list R) : Prop :=
  length e = Z.to_nat (number + 1)
  /\ forall j, (j < length e)%nat ->
       nth j e 0 = if logarithmic then Rmin k1 k2 * Rpower (Rmax k1 k2 / Rmin k1 k2) (INR j / IZR number)
                   else Rmin k1 k2 + INR j * (Rmax k1 k2 - Rmin k1 k2) / IZR number.

Lemma nth_map_zrange : forall (g : Z -> R) m j, (j < Z.to_nat m)%nat -> nth j (map g (zrange 0 m)) 0 = g (Z.of_nat j).
Proof.
  intros g m j J. rewrite (nth_indep _ 0 (g 0%Z)) by (rewrite map_length, zrange_length, Z.sub_0_r; exact J).
  rewrite (map_nth g). f_equal. unfold zrange. rewrite Z.sub_0_r.
  rewrite (nth_indep _ 0%Z (0 + Z.of_nat 0)%Z) by (rewrite map_length, seq_length; exact J).
  rewrite (map_nth (fun i => (0 + Z.of_nat i)%Z)), seq_nth by exact J. reflexivity.
Qed.

Lemma centres_nth : forall e j, (S j < length e)%nat ->
  length (centres e) = (length e - 1)%nat /\ nth j (centres e) 0 = (nth j e 0 + nth (S j) e 0) / 2.
Proof.
  unfold centres. induction e as [|a e IH]; intros j J; [cbn [length] in J; lia|].
  destruct e as [|b t]; [cbn [length] in J; lia|].
  change (removelast (a :: b :: t)) with (a :: removelast (b :: t)). cbn [tl CosmoModel.map2].
  destruct t as [|c t].
  - cbn [CosmoModel.map2 removelast length nth]. destruct j; [split; [lia|cbn [nth]; field]|cbn [length] in J; lia].
  - cbn [tl] in IH. destruct (IH 0%nat ltac:(cbn [length]; lia)) as [L _].
    split; [cbn [length] in *; rewrite L; lia|]. destruct j as [|j]; [cbn [nth]; field|].
    destruct (IH j ltac:(cbn [length] in *; lia)) as [_ E].
    change (nth (S j) (/ 2 * (b + a) :: CosmoModel.map2 (fun a b => / 2 * (a + b)) (c :: t) (removelast (b :: c :: t))) 0)
      with (nth j (CosmoModel.map2 (fun a b => / 2 * (a + b)) (c :: t) (removelast (b :: c :: t))) 0).
    rewrite E. reflexivity.
Qed.

(** The deposition of a folding. *)
Definition depo_of (l : list (Z * depo)) (f : Z) (d : depo) : Prop := In (f, d) l.
Definition cross_of (cross : option (list (Z * depo))) (f : Z) (c : option depo) : Prop :=
  match cross, c with
  | None, None => True
  | Some l, Some x => In (f, x) l
  | _, _ => False
  end.

Lemma find_depo_in : forall l f d, find_depo l f = Ok d -> In (f, d) l.
Proof.
  intros l f d H. unfold find_depo in H. destruct (find _ l) as [[g e]|] eqn:E; [|discriminate H]. injection H as <-.
  apply find_some in E. destruct E as [I E]. cbn [fst] in E. apply Z.eqb_eq in E. subst. exact I.
Qed.

Lemma zmax_in : forall l x, In (zmax x l) (x :: l) /\ Forall (fun y => (y <= zmax x l)%Z) (x :: l).
Proof.
  induction l as [|y t IH]; intro x; cbn [zmax].
  - split; [left; reflexivity|]. constructor; [lia|constructor].
  - destruct (IH y) as [I F]. split.
    + destruct (Z.max_spec x (zmax y t)) as [[_ ->]|[_ ->]]; [right; exact I|left; reflexivity].
    + constructor; [lia|]. eapply Forall_impl; [|exact F]. cbn beta. intros. lia.
Qed.
Lemma zmin_in : forall l x, In (zmin x l) (x :: l) /\ Forall (fun y => (zmin x l <= y)%Z) (x :: l).
Proof.
  induction l as [|y t IH]; intro x; cbn [zmin].
  - split; [left; reflexivity|]. constructor; [lia|constructor].
  - destruct (IH y) as [I F]. split.
    + destruct (Z.min_spec x (zmin y t)) as [[_ ->]|[_ ->]]; [left; reflexivity|right; exact I].
    + constructor; [lia|]. eapply Forall_impl; [|exact F]. cbn beta. intros. lia.
Qed.

(** C72: of the foldings with a usable value the one with most modes gives power, wavenumber and
    tracker of a bin, the lowest of them if several have as many; if there is none the power is
    0 and the wavenumber the centre of the bin. *)
Theorem C72_choice : forall deps box number cross k1 k2 logarithmic minimal fraction norm sch e out,
  NoDup (map fst deps) -> (1 <= number)%Z ->
  folded_spectrum deps box number cross (Some (k1, k2)) logarithmic minimal fraction norm sch = Ok (e, out) ->
  bin_edges number k1 k2 logarithmic e /\ length out = Z.to_nat number
  /\ exists (vals : Z -> list binval) (cells_of : Z -> Z) (first final : Z),
       In first (map fst deps) /\ In final (map fst deps)
       /\ Forall (fun f => (first <= f <= final)%Z) (map fst deps)
       /\ (forall f d, In (f, d) deps -> d_shape d = [cells_of f; cells_of f; cells_of f]
             /\ exists c, cross_of cross f c /\ deposition_to_power_spectrum d box f c (Some e) norm = Ok (vals f))
       /\ forall j, (j < length out)%nat ->
            let v := fun f => nth j (vals f) dbv in
            let candidate := fun f => In f (map fst deps) /\ 0 < bv_count (v f)
                                      /\ usable minimal fraction first final f (cells_of f) box (vals f) (v f) in
            ((forall f, ~ candidate f) /\ nth j out dob = mkoutbin 0 ((nth j e 0 + nth (S j) e 0) / 2) 1 0)
            \/ exists f, candidate f /\ nth j out dob = from_folding f (v f)
                 /\ forall g, candidate g -> bv_count (v g) < bv_count (v f)
                                            \/ (bv_count (v g) = bv_count (v f) /\ (f <= g)%Z).
Proof.
  intros deps box number cross k1 k2 logarithmic minimal fraction norm sch e out N Hnum H.
  unfold folded_spectrum in H. destruct (match cross with Some _ => _ | None => _ end); [discriminate H|].
  destruct (logarithmic && _); [discriminate H|].
  set (bins := if logarithmic then _ else _) in H.
  destruct (map fst deps) as [|f0 fs] eqn:K; [discriminate H|]. rewrite <- K in *.
  destruct (fold_loop _ _ _ _ _ _ _ _ _ _ _ _) as [out'|] eqn:L; [|discriminate H]. cbn [bind] in H.
  injection H as E1 E2. subst e out'.
  assert (BE : bin_edges number k1 k2 logarithmic bins).
  { unfold bin_edges, bins, geomspace, linspace.
    split; [destruct logarithmic; rewrite map_length, zrange_length; f_equal; lia|]. intros j J.
    destruct logarithmic; rewrite map_length, zrange_length, Z.sub_0_r in J; rewrite nth_map_zrange by exact J;
      rewrite <- INR_IZR_INZ; [reflexivity|]. field. apply not_0_IZR. lia. }
  destruct BE as [BL BE'].
  assert (LO : length (map (fun k => mkoutbin 0 k 1 0) (centres bins)) = Z.to_nat number).
  { rewrite map_length. rewrite (proj1 (centres_nth bins 0 ltac:(lia))), BL. lia. }
  apply fold_loop_rounds in L. destruct L as (_ & rounds & KR & FR & ->).
  pose proof (SortProofs.np_sort_perm (map fst deps)) as PE. pose proof (SortProofs.np_sort_sorted (map fst deps)) as SS.
  assert (NR : NoDup (map fst rounds)).
  { rewrite KR. apply (Permutation_NoDup (Permutation_sym PE)). exact N. }
  rewrite <- KR in PE, SS.
  assert (IK : forall f, In f (map fst rounds) <-> In f (map fst deps)).
  { intro f. split; apply Permutation_in; [exact PE|apply Permutation_sym; exact PE]. }
  set (look := fun f => match find (fun t : Z * (list binval * list bool) => (fst t =? f)%Z) rounds with
                        | Some t => snd t | None => ([], []) end).
  assert (LK : forall t, In t rounds -> look (fst t) = snd t).
  { intros t Ht. unfold look. clear - Ht NR. induction rounds as [|s r IH]; [destruct Ht|]. cbn [find].
    inversion NR as [|? ? Ns NR']; subst. destruct Ht as [->|Ht]; [rewrite Z.eqb_refl; reflexivity|].
    destruct (Z.eqb_spec (fst s) (fst t)) as [X|X]; [|apply IH; assumption]. exfalso. apply Ns. rewrite X. apply in_map. exact Ht. }
  set (side := fun f => match find_depo deps f with Ok d => hd 0%Z (d_shape d) | Err _ => 0%Z end).
  set (first := zmin f0 fs) in *. set (final := zmax f0 fs) in *.
  assert (RS : forall t, In t rounds -> exists d c, find_depo deps (fst t) = Ok d /\ cross_of cross (fst t) c
      /\ d_shape d = [side (fst t); side (fst t); side (fst t)]
      /\ deposition_to_power_spectrum d box (fst t) c (Some bins) norm = Ok (fst (snd t))
      /\ exists u, snd (snd t) = map u (fst (snd t))
         /\ forall v, In v (fst (snd t)) -> (u v = true <-> usable minimal fraction first final (fst t) (side (fst t)) box (fst (snd t)) v)).
  { intros [f [vals use]] Ht. rewrite Forall_forall in FR. specialize (FR _ Ht). cbn [fst snd] in *. unfold round in FR.
    destruct (find_depo deps f) as [d|] eqn:D; [|discriminate FR]. cbn [bind] in FR.
    destruct (match cross with None => Ok None | Some l => do x <- find_depo l f; Ok (Some x) end) as [c|] eqn:C;
      [|discriminate FR]. cbn [bind] in FR.
    destruct (deposition_to_power_spectrum d box f c (Some bins) norm) as [vals'|] eqn:V; [|discriminate FR]. cbn [bind] in FR.
    destruct (use_bins _ _ _ _ _ _ _ _) as [use'|] eqn:U; [|discriminate FR]. cbn [bind] in FR. injection FR as <- <-.
    assert (SH : d_shape d = [side f; side f; side f]).
    { unfold side. rewrite D. pose proof (proj1 (C70_shapes d box f c (Some bins) norm)) as X.
      destruct (list_eq_dec Z.eq_dec (d_shape d) [hd 0%Z (d_shape d); hd 0%Z (d_shape d); hd 0%Z (d_shape d)]) as [Y|Y]; [exact Y|].
      exfalso. rewrite V in X. assert (Ok vals' = Err ValueError); [|discriminate].
      apply X. intros n Z. apply Y. rewrite Z. reflexivity. }
    exists d, c. split; [reflexivity|]. split.
    { unfold cross_of. destruct cross as [l|]; [|injection C as <-; exact I].
      destruct (find_depo l f) as [x|] eqn:X; [|discriminate C]. injection C as <-. apply find_depo_in. exact X. }
    split; [exact SH|]. split; [exact V|].
    rewrite SH in U. cbn [hd fold_right] in U. rewrite !Z.min_id in U.
    apply use_bins_spec in U. exact U. }
  assert (FL : Forall (fun t : Z * (list binval * list bool) => length (fst (snd t)) = Z.to_nat number
                                      /\ length (snd (snd t)) = Z.to_nat number) rounds).
  { apply Forall_forall. intros t Ht. destruct (RS t Ht) as (d & c & _ & _ & _ & V & u & -> & _).
    apply spectrum_length in V. rewrite map_length, V, FuncMoreProofs.cells_length, BL. lia. }
  split; [split; assumption|]. split.
  { destruct (rounds_nth rounds _ (Z.to_nat number) 0%nat LO FL ltac:(lia)) as [X _]. exact X. }
  exists (fun f => fst (look f)), side, first, final.
  destruct (zmin_in fs f0) as [I1 F1]. destruct (zmax_in fs f0) as [I2 F2].
  split; [rewrite K; exact I1|]. split; [rewrite K; exact I2|]. split.
  { rewrite K, Forall_forall in *. intros f Hf. specialize (F1 f Hf). specialize (F2 f Hf). cbn beta in *. fold first in F1. fold final in F2. lia. }
  assert (RK : forall f, In f (map fst deps) -> exists t, In t rounds /\ fst t = f).
  { intros f Hf. apply IK in Hf. apply in_map_iff in Hf. destruct Hf as (t & E & Ht). exists t. split; assumption. }
  split.
  { intros f d Hd. destruct (RK f) as (t & Ht & <-); [apply (in_map fst) in Hd; exact Hd|].
    destruct (RS t Ht) as (d' & c & D & C & SH & V & _).
    assert (d' = d) as ->.
    { apply find_depo_in in D. clear - D Hd N. induction deps as [|[g x] l IH]; [destruct Hd|].
      cbn [map fst] in N. inversion N as [|? ? Na N']; subst.
      destruct Hd as [Hd|Hd]; destruct D as [D|D].
      - congruence.
      - exfalso. apply Na. apply in_map_iff. exists (fst t, d'). split; [cbn [fst]; congruence|exact D].
      - exfalso. apply Na. apply in_map_iff. exists (fst t, d). split; [cbn [fst]; congruence|exact Hd].
      - apply IH; assumption. }
    split; [exact SH|]. exists c. split; [exact C|]. rewrite (LK t Ht). exact V. }
  intros j J v candidate.
  destruct (rounds_nth rounds _ (Z.to_nat number) 0%nat LO FL ltac:(lia)) as [LR _]. rewrite LR in J.
  destruct (rounds_nth rounds _ (Z.to_nat number) j LO FL J) as [_ ->].
  assert (INIT : nth j (map (fun k => mkoutbin 0 k 1 0) (centres bins)) dob
                 = mkoutbin 0 ((nth j bins 0 + nth (S j) bins 0) / 2) 1 0).
  { rewrite map_length in LO.
    rewrite (nth_indep _ dob ((fun k => mkoutbin 0 k 1 0) 0)) by (rewrite map_length; lia).
    rewrite (map_nth (fun k => mkoutbin 0 k 1 0)), (proj2 (centres_nth bins j ltac:(lia))). reflexivity. }
  rewrite INIT.
  assert (US : forall t, In t rounds ->
     (nth j (snd (snd t)) false = true <->
      usable minimal fraction first final (fst t) (side (fst t)) box (fst (look (fst t))) (v (fst t)))).
  { intros t Ht. rewrite Forall_forall in FL. destruct (FL t Ht) as [FL1 FL2].
    unfold v. rewrite (LK t Ht). destruct (RS t Ht) as (_ & _ & _ & _ & _ & _ & u & EU & U).
    rewrite EU, (nth_indep _ false (u dbv)) by (rewrite map_length; lia). rewrite (map_nth u). apply U. apply nth_In. lia. }
  assert (CD : forall t, In t rounds ->
     (candidate (fst t) <-> nth j (snd (snd t)) false = true /\ 0 < bv_count (nth j (fst (snd t)) dbv))).
  { intros t Ht. rewrite (US t Ht). unfold candidate.
    assert (v (fst t) = nth j (fst (snd t)) dbv) as <- by (unfold v; rewrite (LK t Ht); reflexivity).
    split; [intros (_ & A & B); split; assumption|intros (A & B); repeat split; try assumption].
    apply IK. apply in_map. exact Ht. }
  pose proof (most_modes _ fst (fun t : Z * (list binval * list bool) => nth j (fst (snd t)) dbv)
                (fun t => nth j (snd (snd t)) false) rounds (mkoutbin 0 ((nth j bins 0 + nth (S j) bins 0) / 2) 1 0)
                (sorted_of_map _ fst rounds (strictly _ SS NR))) as M.
  cbn zeta beta in M. cbn [ob_count] in M.
  destruct M as [(EM & MM)|(t & It & Ut & Ct & EM & MM)].
  - left. split; [|exact EM]. intros f Cf. destruct (RK f (proj1 Cf)) as (t & Ht & <-). apply (CD t Ht) in Cf.
    destruct Cf as [A B]. specialize (MM t Ht A). lra.
  - right. exists (fst t). split; [apply (CD t It); split; assumption|].
    assert (VT : forall s, In s rounds -> v (fst s) = nth j (fst (snd s)) dbv)
      by (intros s Hs; unfold v; rewrite (LK s Hs); reflexivity).
    split; [rewrite (VT t It); exact EM|]. intros g Cg. destruct (RK g (proj1 Cg)) as (s & Hs & <-).
    rewrite (VT t It), (VT s Hs). apply (CD s Hs) in Cg. destruct (MM s Hs (proj1 Cg)) as [A B].
    destruct (Rle_lt_or_eq_dec _ _ A) as [Y|Y]; [left; exact Y|right; split; [exact Y|apply B; exact Y]].
Qed.

(** C72: what is refused. *)
Theorem C72_errors : forall deps box number cross range logarithmic minimal fraction norm sch,
  let run := folded_spectrum deps box number cross range logarithmic minimal fraction norm sch in
  (forall l, cross = Some l -> ~ (forall f, In f (map fst deps) <-> In f (map fst l)) -> run = Err ValueError)
  /\ (cross = None -> range = None -> run = Err NotImplementedErr)
  /\ (deps = [] -> cross = None -> range <> None -> run = Err ValueError)
  /\ (sch <> Simple -> forall r, run <> Ok r).
Proof.
  intros deps box number cross range logarithmic minimal fraction norm sch run. unfold run, folded_spectrum. repeat split.
  - intros l -> H. destruct (same_keys (map fst deps) (map fst l)) eqn:E; [|reflexivity]. exfalso. apply H.
    unfold same_keys in E. apply andb_true_iff in E. destruct E as [A B]. rewrite forallb_forall in A, B.
    intro f. split; intro F; [specialize (A f F)|specialize (B f F)]; cbn beta in *;
      [apply existsb_exists in A; destruct A as (x & I & X)|apply existsb_exists in B; destruct B as (x & I & X)];
      apply Z.eqb_eq in X; subst; exact I.
  - intros -> ->. reflexivity.
  - intros -> -> H. destruct range as [[k1 k2]|]; [|contradiction]. cbn [map]. destruct (logarithmic && _); reflexivity.
  - intros H r X. destruct (match cross with Some _ => _ | None => _ end); [discriminate X|].
    destruct range as [[k1 k2]|]; [|discriminate X]. destruct (logarithmic && _); [discriminate X|].
    destruct (map fst deps) as [|f fs] eqn:K; [discriminate X|]. rewrite <- K in X.
    destruct (fold_loop _ _ _ _ _ _ _ _ _ _ _ _) as [o|] eqn:L; [|discriminate X].
    apply fold_loop_rounds in L. destruct L as ([L|L] & _); [|contradiction].
    pose proof (SortProofs.np_sort_perm (map fst deps)) as P. rewrite L, K in P. apply Permutation_nil in P. discriminate P.
Qed.

(** C72: when the bins of one folding cannot be chosen: no least number of modes after the first folding, or a
    fraction asked of no bin at all. *)
Theorem C72_use_errors : forall minimal fraction first final f n box vals e,
  use_bins minimal fraction first final f n box vals = Err e <->
  (f <> first /\ minimal = None /\ e = TypeError)
  \/ ((f = first \/ minimal <> None) /\ f <> final /\ fraction <> None
      /\ (forall v, In v vals -> ~ enough minimal first f v) /\ e = ValueError).
Proof.
  intros minimal fraction first final f n [[bx by_] bz] vals e. unfold use_bins.
  destruct (if (f =? first)%Z then Ok 0 else _) as [least|x] eqn:L; cbn [bind].
  - assert (NF : f = first \/ minimal <> None).
    { destruct (Z.eqb_spec f first) as [E|E]; [left; exact E|]. right. intros ->. discriminate L. }
    pose proof (fun v => least_enough _ _ _ _ v L) as LE.
    destruct (Z.eqb_spec f final) as [E|E].
    + split; [discriminate|]. intros [(A & B & _)|(_ & A & _)]; [destruct NF|]; contradiction.
    + destruct fraction as [q|]; cbn [bind].
      * rewrite filter_combine.
        assert (U : forall v, In v (filter (fun v => Rltb least (bv_count v)) vals) <-> In v vals /\ enough minimal first f v).
        { intro v. rewrite filter_In, Rltb_iff, LE. reflexivity. }
        destruct (filter (fun v => Rltb least (bv_count v)) vals) as [|w ws]; cbn [map np_max bind]; split; intro H.
        -- right. split; [exact NF|]. split; [exact E|]. split; [discriminate|]. split; [|injection H as <-; reflexivity].
           intros v I N. apply (proj2 (U v)). split; assumption.
        -- destruct H as [(A & B & _)|(_ & _ & _ & _ & ->)]; [destruct NF; contradiction|reflexivity].
        -- discriminate H.
        -- exfalso. destruct H as [(A & B & _)|(_ & _ & _ & B & _)]; [destruct NF; contradiction|].
           destruct (proj1 (U w) (or_introl eq_refl)) as [I N]. exact (B w I N).
      * split; [discriminate|]. intros [(A & B & _)|(_ & _ & A & _)]; [destruct NF|]; contradiction.
  - destruct (Z.eqb_spec f first) as [E|E]; [discriminate L|]. destruct minimal as [m|]; [discriminate L|]. injection L as <-.
    split; [intro H; injection H as <-; auto|]. intros [(_ & _ & ->)|([A|A] & _)]; [reflexivity|contradiction|contradiction].
Qed.

(** C72: with several foldings a least number of modes has to be given. *)
Theorem C72_minimal_needed : forall deps box number cross k1 k2 logarithmic fraction norm sch f g,
  In f (map fst deps) -> In g (map fst deps) -> f <> g -> (1 <= number)%Z -> NoDup (map fst deps) ->
  forall r, folded_spectrum deps box number cross (Some (k1, k2)) logarithmic None fraction norm sch <> Ok r.
Proof.
  intros deps box number cross k1 k2 logarithmic fraction norm sch f g If Ig D Hn N r X.
  unfold folded_spectrum in X. destruct (match cross with Some _ => _ | None => _ end); [discriminate X|].
  destruct (logarithmic && _); [discriminate X|]. destruct (map fst deps) as [|f0 fs] eqn:K; [discriminate X|].
  rewrite <- K in *. destruct (fold_loop _ _ _ _ _ _ _ _ _ _ _ _) as [o|] eqn:L; [|discriminate X].
  apply fold_loop_rounds in L. destruct L as (_ & rounds & KR & FR & _).
  assert (B : forall h, In h (map fst deps) -> h = zmin f0 fs).
  { intros h Ih. assert (Ih' : In h (map fst rounds)).
    { rewrite KR. apply (Permutation_in _ (Permutation_sym (SortProofs.np_sort_perm _))). exact Ih. }
    apply in_map_iff in Ih'. destruct Ih' as (t & <- & It). rewrite Forall_forall in FR. specialize (FR t It). cbn beta in FR.
    unfold round in FR. destruct (find_depo _ _); [|discriminate FR]. cbn [bind] in FR.
    destruct (match cross with None => _ | Some _ => _ end); [|discriminate FR]. cbn [bind] in FR.
    destruct (deposition_to_power_spectrum _ _ _ _ _ _); [|discriminate FR]. cbn [bind] in FR.
    unfold use_bins in FR. destruct (Z.eqb_spec (fst t) (zmin f0 fs)) as [Y|Y]; [exact Y|]. cbn [bind] in FR. discriminate FR. }
  apply D. rewrite (B f If), (B g Ig). reflexivity.
Qed.

(** C72 (refuted: the label of the result): the numbers are volumes, as those for a single
    deposition; for a comoving box their label is the inverse one, and the physical values differ
    by the sixth power of the scale factor. *)
Theorem C72_label_refuted : forall a b1 b2 b3 numbers,
  let bx := CosmoModel.mkarr [b1; b2; b3] (Some (CosmoModel.cf_create a 1)) (Some true) true CosmoModel.CNone in
  exists x y, single_label bx numbers = Ok x /\ folded_label bx numbers = Ok y
    /\ CosmoModel.avals x = numbers /\ CosmoModel.avals y = numbers
    /\ CosmoSpec.phys x = map (fun v => Rpower a 6 * v) (CosmoSpec.phys y).
Proof.
  intros a b1 b2 b3 numbers bx. eexists. eexists. split; [reflexivity|]. split; [reflexivity|]. split; [reflexivity|].
  split; [reflexivity|]. unfold CosmoSpec.phys. cbn. rewrite map_map. apply map_ext. intro v.
  rewrite <- Rmult_assoc, <- Rpower_plus. do 2 f_equal. ring.
Qed.

(** C72: a logarithmic range of wavenumbers must not begin or end with zero, whatever else is given. *)
Theorem C72_zero_wavenumber : forall deps box number cross k1 k2 minimal fraction norm sch, k1 = 0 \/ k2 = 0 ->
  folded_spectrum deps box number cross (Some (k1, k2)) true minimal fraction norm sch = Err ValueError.
Proof.
  intros deps box number cross k1 k2 minimal fraction norm sch Z. unfold folded_spectrum.
  destruct (match cross with Some _ => _ | None => _ end); [reflexivity|]. cbn [andb].
  destruct (Req_EM_T (Rmin k1 k2 * Rmax k1 k2) 0) as [E|E]; [reflexivity|]. exfalso. apply E.
  unfold Rmin, Rmax. destruct (Rle_dec k1 k2); destruct Z; subst; ring.
Qed.

(** C72: the array of the result has the label of the volume to the power -1 and the frame of the
    box, and says it may be converted even where the box says it may not; a box without a label is
    an error. *)
Theorem C72_label : forall v c cm vt cp numbers,
  let run := folded_label (CosmoModel.mkarr v c cm vt cp) numbers in
  match c with
  | None => run = Err TypeError
  | Some c => exists c', run = Ok (CosmoModel.mkarr numbers (Some c') cm true CosmoModel.CNone)
      /\ CosmoModel.cscale c' = CosmoModel.cscale c
      /\ CosmoModel.cexpr c' = match CosmoModel.cexpr c with Some e => Some (- (e * INR (length v))) | None => None end
  end.
Proof.
  intros v c cm vt cp numbers run. unfold run, folded_label, CosmoModel.prodop, CosmoModel.prepare.
  cbn [map filter CosmoModel.op_cm CosmoModel.op_vt CosmoModel.op_comp CosmoModel.acm fst snd].
  destruct cm as [[|]|], c as [c|]; try reflexivity; cbn -[INR]; eexists; (split; [reflexivity|]);
    unfold CosmoModel.cf_pow; destruct (CosmoModel.cexpr c); cbn -[INR]; split; try reflexivity; f_equal; ring.
Qed.

(** * Examples *)

(** Two slabs, one with three times the mass of the other: relative deviations of one half, all
    power in one mode. *)
Definition slabs : image := fun c => match c with [i; _; _] => if (i =? 0)%Z then 3 else 1 | _ => 0 end.

Example slabs_total : total3 2 slabs = 16.
Proof. unfold total3. change (zrange 0 2) with [0; 1]%Z. cbn [map slabs Z.eqb]. rewrite !sumR_cons, !sumR_nil. ring. Qed.

Example slabs_power : mode_power 2 slabs slabs [1; 0; 0]%Z = / 4 /\ mode_power 2 slabs slabs [0; 1; 0]%Z = 0.
Proof.
  assert (M : np_mean 2 slabs = 2).
  { rewrite np_mean_S3, S3_total, slabs_total. unfold N3. field. }
  assert (P : forall k, mode_power 2 slabs slabs k = amplitude 2 slabs slabs 1 k).
  { intro k. rewrite amplitude_power by (lia || (rewrite M; lra)). ring. }
  assert (T0 : forall n, turn n 0 = 0) by (intro; unfold turn, Rdiv; ring).
  assert (T1 : turn 2 1 = PI) by (unfold turn; field).
  rewrite !P. clear P. rewrite !amplitude_cs. unfold Fc, Fs, N3. rewrite !S3_total. unfold total3.
  change (zrange 0 2) with [0; 1]%Z. cbn [map]. unfold overdensity. rewrite !M. cbn [slabs Z.eqb dot Z.mul Z.add Pos.mul].
  rewrite !T0, !T1, cos_0, sin_0, cos_PI, sin_PI. rewrite !sumR_cons, !sumR_nil. split; field.
Qed.

Example slabs_spectrum : exists vals,
  deposition_to_power_spectrum (cube_of 2 slabs) (1, 1, 1) 0 None (Some [1; 8; 20]) None = Ok vals
  /\ length vals = 2%nat.
Proof.
  eexists. split; [apply (spectrum_form 2 slabs 1 1 1 0 None (Some [1; 8; 20]) None)|]. reflexivity.
Qed.

(** All wavenumbers of two cells lie below 20. *)
Example slabs_covered : forall c k, in_bounds (cube 2) c = true -> is_wavenumber 2 (2 * PI * powerRZ 2 0 / 1) c k ->
  nth 0 [-1; 8; 20] 0 <= k <= nth 2 [-1; 8; 20] 0.
Proof.
  intros c k _ (i & j & l & a & b & d & -> & [_ A] & [_ B] & [_ D] & ->). cbn [nth].
  change (powerRZ 2 0) with 1. replace (2 * PI * 1 / 1) with (2 * PI) by field.
  assert (Q : (0 <= a * a + b * b + d * d <= 3)%Z) by nia.
  pose proof PI_RGT_0. pose proof PI_4.
  assert (S0 : 0 <= sqrt (IZR (a * a + b * b + d * d))) by apply sqrt_pos.
  assert (S1 : sqrt (IZR (a * a + b * b + d * d)) <= 2).
  { rewrite <- (sqrt_square 2) by lra. apply sqrt_le_1_alt. replace (2 * 2) with (IZR 4) by (simpl; ring). apply IZR_le. lia. }
  split; [nra|]. nra.
Qed.

(** Two foldings. *)
Example two_foldings : exists r,
  folded_spectrum [(1, cube_of 2 slabs); (0, cube_of 2 slabs)]%Z (1, 1, 1) 4 None (Some (30, 2)) false (Some 1) None None Simple
  = Ok r.
Proof.
  unfold folded_spectrum. cbn [map fst andb].
  change (np_sort [1; 0]%Z) with [0; 1]%Z. change (zmin 1 [0]%Z) with 0%Z. change (zmax 1 [0]%Z) with 1%Z.
  cbn [fold_loop]. cbn [find_depo find fst snd Z.eqb bind].
  assert (F : forall f, exists v, deposition_to_power_spectrum (cube_of 2 slabs) (1, 1, 1) f None
                (Some (linspace (Rmin 30 2) (Rmax 30 2) 4)) None = Ok v).
  { intro f. eexists. apply (spectrum_form 2 slabs 1 1 1 f None (Some (linspace (Rmin 30 2) (Rmax 30 2) 4)) None). }
  destruct (F 0%Z) as (v0 & ->). cbn [bind]. unfold find_depo. cbn [find fst snd Z.eqb Pos.eqb bind].
  destruct (F 1%Z) as (v1 & ->). cbn [bind]. unfold use_bins. cbn [Z.eqb Pos.eqb bind]. eexists. reflexivity.
Qed.

(** A cutoff without any filled bin fails. *)
Example no_bins_cutoff : forall vals, Forall (fun v => bv_count v = 0) vals ->
  use_bins (Some 0) (Some (/ 2)) 0 1 0 2 (1, 1, 1) vals = Err ValueError.
Proof.
  intros vals H. unfold use_bins. cbn [Z.eqb bind]. rewrite filter_combine.
  assert (filter (fun v => Rltb 0 (bv_count v)) vals = []) as ->.
  { induction H as [|v t E H IH]; [reflexivity|]. cbn [filter]. rewrite E.
    assert (Rltb 0 0 = false) as -> by (unfold Rltb; destruct (Rlt_dec 0 0); [lra|reflexivity]). exact IH. }
  reflexivity.
Qed.

(** At redshift 1 the physical power of a folded spectrum is 64 times too large. *)
Example label_factor : Rpower (/ 2) 6 = / 64.
Proof.
  replace 6 with (INR 6) by (simpl; ring). rewrite Rpower_pow by lra. field.
Qed.

(** Particles to deposit: C71's hypotheses. *)
Example deposit_particles : exists img fine,
  let d := mkinput true true true 0 0 (1, 1, 1)
             [mkpart (/ 8) (/ 8) (/ 8) 1 0; mkpart (5 / 8) (/ 8) (/ 8) 3 0] in
  render_to_deposit d 2 1 = Ok img /\ render_to_deposit d (2 ^ 1 * 2) 0 = Ok fine /\ total_mass (particles d) = 4.
Proof.
  set (d := mkinput _ _ _ _ _ _ _).
  assert (A : accepted d) by (split; reflexivity).
  destruct (render_values d 2 1 1 1 1 ltac:(lia) eq_refl ltac:(lra) ltac:(lra) ltac:(lra) A) as (img & _ & E & _).
  destruct (render_values d 4 0 1 1 1 ltac:(lia) eq_refl ltac:(lra) ltac:(lra) ltac:(lra) A) as (fine & _ & F & _).
  exists img, fine. split; [exact E|]. split; [exact F|]. unfold total_mass. cbn [d particles map p_m].
  rewrite !sumR_cons, sumR_nil. ring.
Qed.

Print Assumptions C70_shapes.
Print Assumptions C70_bins.
Print Assumptions C70_default_edges.
Print Assumptions C70_uniform.
Print Assumptions C70_scale.
Print Assumptions C70_shift.
Print Assumptions C70_symmetric.
Print Assumptions C70_axes.
Print Assumptions C70_ranges.
Print Assumptions C70_parseval.
Print Assumptions C70_box_refuted.
Print Assumptions C71_particles.
Print Assumptions C71_folding.
Print Assumptions C71_bins.
Print Assumptions C72_choice.
Print Assumptions C72_errors.
Print Assumptions C72_use_errors.
Print Assumptions C72_minimal_needed.
Print Assumptions C72_label_refuted.
Print Assumptions C72_zero_wavenumber.
Print Assumptions C72_label.
