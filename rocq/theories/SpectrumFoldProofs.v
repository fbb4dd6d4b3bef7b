(** Lemmas about the sum over all modes and about foldings. *)
From Coq Require Import List ZArith Reals Bool Lra Lia Psatz Sorted Permutation.
From Verif Require Import Base BaseLemmas SortModel VisModel VisSpec VisSumProofs HsmlModel PowerModel PowerTheorems
  SpectrumModel SpectrumSpec SpectrumProofs SpectrumBinProofs.
From Verif Require FuncModel FuncMoreProofs SortProofs.
Import ListNotations.
Open Scope R_scope.

Lemma in3_bounds : forall n c, in3 n c -> in_bounds (cube n) c = true.
Proof.
  intros n c (i & j & k & -> & Hi & Hj & Hk). unfold cube. cbn [in_bounds].
  rewrite !(proj2 (Z.leb_le _ _)), !(proj2 (Z.ltb_lt _ _)) by lia. reflexivity.
Qed.
Lemma bounds_in3 : forall n c, in_bounds (cube n) c = true -> in3 n c.
Proof.
  intros n c H. unfold cube in H. destruct c as [|i [|j [|k [|? ?]]]]; cbn [in_bounds] in H;
    try (rewrite ?andb_false_r in H; discriminate H).
  rewrite !andb_true_iff in H. destruct H as ((A1 & A2) & (B1 & B2) & (C1 & C2) & _).
  apply Z.leb_le in A1, B1, C1. apply Z.ltb_lt in A2, B2, C2. exists i, j, k. repeat split; lia.
Qed.

Lemma S3_pick : forall n x v, in3 n x ->
  S3 n (fun c => if list_eq_dec Z.eq_dec x c then v c else 0) = v x.
Proof.
  intros n x v H. transitivity (S3 n (fun c => if list_eq_dec Z.eq_dec x c then v x else 0)).
  - apply S3_ext. intros c _. destruct (list_eq_dec Z.eq_dec x c) as [<-|]; reflexivity.
  - rewrite S3_total. apply pick3. apply in3_bounds. exact H.
Qed.

(** * All modes together *)

Lemma divides_small : forall n a b, (0 <= a < n)%Z -> (0 <= b < n)%Z -> (n | a - b)%Z -> a = b.
Proof. intros n a b Ha Hb (q & E). assert (q = 0)%Z by nia. lia. Qed.

Lemma all_modes : forall n x y, (1 <= n)%Z -> in3 n x -> in3 n y ->
  S3 n (fun k => cos (turn n (dot k x - dot k y))) = if list_eq_dec Z.eq_dec x y then N3 n else 0.
Proof.
  intros n x y Hn (i & j & l & -> & Hi & Hj & Hl) (i' & j' & l' & -> & Hi' & Hj' & Hl').
  rewrite (S3_ext n _ (fun k => cos (turn n (dot k [i - i'; j - j'; l - l']%Z)))).
  2:{ intros k (a & b & d & -> & _). do 2 f_equal. cbn [dot]. ring. }
  rewrite (proj1 (phases_sum n _ _ _ Hn)).
  destruct (E_values n (i - i') Hn) as (_ & A1 & A2). destruct (E_values n (j - j') Hn) as (_ & B1 & B2).
  destruct (E_values n (l - l') Hn) as (_ & C1 & C2).
  destruct (list_eq_dec Z.eq_dec [i; j; l] [i'; j'; l']) as [E|E].
  - injection E as -> -> ->. rewrite A1, B1, C1 by (exists 0%Z; lia). reflexivity.
  - destruct (Z.eq_dec i i') as [Ei|Ei].
    + destruct (Z.eq_dec j j') as [Ej|Ej].
      * destruct (Z.eq_dec l l') as [El|El]; [congruence|].
        rewrite C2; [ring|]. intro D. apply El. apply (divides_small n); assumption.
      * rewrite B2; [ring|]. intro D. apply Ej. apply (divides_small n); assumption.
    + rewrite A2; [ring|]. intro D. apply Ei. apply (divides_small n); assumption.
Qed.

Lemma parseval : forall n f g, (1 <= n)%Z ->
  S3 n (fun k => Fc n f k * Fc n g k + Fs n f k * Fs n g k) = N3 n * S3 n (fun x => f x * g x).
Proof.
  intros n f g Hn.
  rewrite (S3_ext n _ (fun k => S3 n (fun x => S3 n (fun y => f x * g y * cos (turn n (dot k x - dot k y)))))).
  2:{ intros k _. apply correlation. exact Hn. }
  rewrite S3_swap, <- S3_scal. apply S3_ext. intros x Hx.
  rewrite S3_swap.
  rewrite (S3_ext n _ (fun y => if list_eq_dec Z.eq_dec x y then (fun y => f x * g y * N3 n) y else 0)).
  - rewrite (S3_pick n x _ Hx). ring.
  - intros y Hy. rewrite S3_scal, all_modes by assumption. destruct (list_eq_dec _ _ _); ring.
Qed.

Lemma total_amplitude : forall n f g L, (1 <= n)%Z ->
  S3 n (amplitude n f g L) = L ^ 3 * (S3 n (fun x => overdensity n f x * overdensity n g x) / N3 n).
Proof.
  intros n f g L Hn. pose proof (N3_pos n Hn).
  rewrite (S3_ext n _ (fun k => (Fc n (fun c => overdensity n f c / N3 n) k * Fc n (fun c => overdensity n g c / N3 n) k
     + Fs n (fun c => overdensity n f c / N3 n) k * Fs n (fun c => overdensity n g c / N3 n) k) * (L * L * L))).
  2:{ intros k _. rewrite amplitude_cs. reflexivity. }
  rewrite S3_scal_r, parseval by exact Hn.
  rewrite (S3_ext n (fun x => overdensity n f x / N3 n * (overdensity n g x / N3 n))
             (fun x => overdensity n f x * overdensity n g x * (/ N3 n * / N3 n))).
  2:{ intros. field. lra. }
  rewrite S3_scal_r. field. lra.
Qed.

(** * Modes other than the mean *)

Lemma not_mean_sum : forall n k, (1 <= n)%Z -> in3 n k -> k <> [0; 0; 0]%Z ->
  S3 n (fun x => cos (turn n (dot k x))) = 0 /\ S3 n (fun x => sin (turn n (dot k x))) = 0.
Proof.
  intros n k Hn Hk Nk. pose proof Hk as (a & b & d & -> & Ha & Hb & Hd).
  destruct (phases_sum n a b d Hn) as [C S]. cbn zeta in C, S. split.
  - rewrite (S3_ext n _ (fun x => cos (turn n (dot x [a; b; d])))) by (intros; rewrite dot_comm; reflexivity).
    rewrite C.
    destruct (E_values n a Hn) as (_ & _ & A2). destruct (E_values n b Hn) as (_ & _ & B2).
    destruct (E_values n d Hn) as (_ & _ & C2).
    assert (D : forall z, (0 <= z < n)%Z -> z <> 0%Z -> ~ (n | z)%Z).
    { intros z Hz Nz Dz. apply Nz. apply (divides_small n); [exact Hz|lia|]. rewrite Z.sub_0_r. exact Dz. }
    destruct (Z.eq_dec a 0) as [->|Ea]; [|rewrite A2 by (apply D; assumption); ring].
    destruct (Z.eq_dec b 0) as [->|Eb]; [|rewrite B2 by (apply D; assumption); ring].
    destruct (Z.eq_dec d 0) as [->|Ed]; [congruence|rewrite C2 by (apply D; assumption); ring].
  - rewrite (S3_ext n _ (fun x => sin (turn n (dot x [a; b; d])))) by (intros; rewrite dot_comm; reflexivity).
    exact S.
Qed.

Lemma F_contrast : forall n f k, (1 <= n)%Z -> in3 n k -> k <> [0; 0; 0]%Z -> S3 n f <> 0 ->
  Fc n (fun c => overdensity n f c / N3 n) k = Fc n f k / S3 n f
  /\ Fs n (fun c => overdensity n f c / N3 n) k = Fs n f k / S3 n f.
Proof.
  intros n f k Hn Hk Nk Hf. pose proof (N3_pos n Hn) as P. destruct (not_mean_sum n k Hn Hk Nk) as [C S].
  assert (E : forall c, overdensity n f c / N3 n = f c * / S3 n f + (- / N3 n)).
  { intro c. unfold overdensity. rewrite np_mean_S3. field. split; lra. }
  unfold Fc, Fs. split.
  - rewrite (S3_ext n _ (fun x => / S3 n f * (f x * cos (turn n (dot k x))) + - / N3 n * cos (turn n (dot k x)))).
    + rewrite S3_plus, !S3_scal, C. unfold Rdiv. ring.
    + intros x _. rewrite E. ring.
  - rewrite (S3_ext n _ (fun x => / S3 n f * (f x * sin (turn n (dot k x))) + - / N3 n * sin (turn n (dot k x)))).
    + rewrite S3_plus, !S3_scal, S. unfold Rdiv. ring.
    + intros x _. rewrite E. ring.
Qed.

(** * Depositions of particles *)

Lemma deposit_sum : forall n (cell_of : part -> cell) ps K (w : cell -> R),
  (forall p, In p ps -> in3 n (cell_of p)) ->
  S3 n (fun c => mass_in c cell_of ps * K * w c) = K * sumR (map (fun p => p_m p * w (cell_of p)) ps).
Proof.
  intros n cell_of ps K w H. unfold mass_in. induction ps as [|p t IH].
  - cbn [map]. rewrite !sumR_nil. rewrite (S3_ext n _ (fun _ => 0 * 0)); [rewrite S3_scal; ring|intros; ring].
  - cbn [map]. rewrite sumR_cons, Rmult_plus_distr_l, <- IH by (intros q Hq; apply H; right; exact Hq).
    rewrite <- (S3_pick n (cell_of p) (fun c => p_m p * w c)) by (apply H; left; reflexivity).
    rewrite <- S3_scal, <- S3_plus. apply S3_ext. intros c _. rewrite sumR_cons.
    destruct (list_eq_dec Z.eq_dec (cell_of p) c); ring.
Qed.

Definition accepted (d : deposit_input) : Prop :=
  (if positions_comoving d then compatible_comoving d else compatible_physical d) = true
  /\ box_units d = position_units d.

Lemma render_values : forall d n folding bx by_ bz,
  (1 <= n)%Z -> box d = (bx, by_, bz) -> 0 < bx -> 0 < by_ -> 0 < bz -> accepted d ->
  exists img K, render_to_deposit d n folding = Ok img /\ K <> 0
    /\ forall c, img c = mass_in c (grid_cell n (bx / powerRZ 2 folding) (by_ / powerRZ 2 folding) (bz / powerRZ 2 folding))
                                 (particles d) * K.
Proof.
  intros d n folding bx by_ bz Hn Hb Hx Hy Hz [Hc Hu]. unfold render_to_deposit.
  assert (positions_comoving d && negb (compatible_comoving d) = false) as ->.
  { destruct (positions_comoving d); [rewrite Hc|]; reflexivity. }
  assert (negb (positions_comoving d) && negb (compatible_physical d) = false) as ->.
  { destruct (positions_comoving d); [|rewrite Hc]; reflexivity. }
  rewrite Hu, Z.eqb_refl, Hb. cbn [negb].
  destruct (C44_values n (powerRZ 2 folding) bx by_ bz (particles d) Hn (power_pos _) Hx Hy Hz) as (img & E & V).
  rewrite E. cbn [bind]. eexists. exists (IZR n ^ 3 * powerRZ 2 folding ^ 3 * / (bx * by_ * bz)).
  split; [reflexivity|]. pose proof (power_pos folding). assert (1 <= IZR n) by (apply (IZR_le 1); lia).
  split.
  - apply Rgt_not_eq. repeat apply Rmult_lt_0_compat; try apply pow_lt; try lra.
    apply Rinv_0_lt_compat. repeat apply Rmult_lt_0_compat; lra.
  - intro c. rewrite V. ring.
Qed.

Lemma F_deposit : forall n img K cell_of ps k,
  (1 <= n)%Z -> K <> 0 -> (forall p, In p ps -> in3 n (cell_of p)) ->
  (forall c, img c = mass_in c cell_of ps * K) -> total_mass ps <> 0 -> in3 n k -> k <> [0; 0; 0]%Z ->
  Fc n (fun c => overdensity n img c / N3 n) k = wave_cos n cell_of ps k
  /\ Fs n (fun c => overdensity n img c / N3 n) k = wave_sin n cell_of ps k.
Proof.
  intros n img K cell_of ps k Hn HK Hc V Hm Hk Nk.
  assert (T : S3 n img = K * total_mass ps).
  { rewrite (S3_ext n img (fun c => mass_in c cell_of ps * K * (fun _ => 1) c)) by (intros; rewrite V; ring).
    rewrite (deposit_sum n cell_of ps K (fun _ => 1) Hc). f_equal. unfold total_mass. apply sumR_ext. intros; ring. }
  assert (T0 : S3 n img <> 0) by (rewrite T; apply Rmult_integral_contrapositive_currified; assumption).
  destruct (F_contrast n img k Hn Hk Nk T0) as [-> ->].
  unfold wave_cos, wave_sin. rewrite T. unfold total_mass in *.
  assert (C : Fc n img k = K * sumR (map (fun p => p_m p * cos (2 * PI * IZR (inner k (cell_of p)) / IZR n)) ps)).
  { unfold Fc. rewrite <- (deposit_sum n cell_of ps K (fun c => cos (2 * PI * IZR (inner k c) / IZR n)) Hc).
    apply S3_ext. intros c _. rewrite V, dot_inner. reflexivity. }
  assert (S : Fs n img k = K * sumR (map (fun p => p_m p * sin (2 * PI * IZR (inner k (cell_of p)) / IZR n)) ps)).
  { unfold Fs. rewrite <- (deposit_sum n cell_of ps K (fun c => sin (2 * PI * IZR (inner k c) / IZR n)) Hc).
    apply S3_ext. intros c _. rewrite V, dot_inner. reflexivity. }
  rewrite C, S. split; field; split; assumption.
Qed.

(** * Folding *)

Lemma fold_waves : forall n f bx by_ bz ps k0 k1 k2,
  (1 <= n)%Z -> (1 <= f)%Z -> 0 < bx -> 0 < by_ -> 0 < bz ->
  let coarse := grid_cell n (bx / IZR f) (by_ / IZR f) (bz / IZR f) in
  let fine := grid_cell (f * n) bx by_ bz in
  wave_cos n coarse ps [k0; k1; k2] = wave_cos (f * n) fine ps [f * k0; f * k1; f * k2]%Z
  /\ wave_sin n coarse ps [k0; k1; k2] = wave_sin (f * n) fine ps [f * k0; f * k1; f * k2]%Z.
Proof.
  intros n f bx by_ bz ps k0 k1 k2 Hn Hf Hx Hy Hz coarse fine.
  assert (Hf0 : 0 < IZR f) by (apply (IZR_lt 0); lia).
  assert (G : forall b x, 0 < b -> grid_index n (b / IZR f) x = (grid_index (f * n) b x mod n)%Z).
  { intros b x Hb. rewrite <- deposit_index_grid by assumption. apply C44_folding; assumption. }
  assert (E : forall p, exists q, (dot [k0; k1; k2] (coarse p) = dot [k0; k1; k2] (fine p) + q * n)%Z).
  { intro p. unfold coarse, fine, grid_cell. rewrite !G by assumption. cbn [dot].
    exists (- (k0 * (grid_index (f * n) bx (p_x p) / n) + k1 * (grid_index (f * n) by_ (p_y p) / n)
               + k2 * (grid_index (f * n) bz (p_z p) / n)))%Z.
    rewrite !Z.mod_eq by lia. ring. }
  assert (D : forall p, dot [f * k0; f * k1; f * k2]%Z (fine p) = (f * dot [k0; k1; k2] (fine p))%Z).
  { intro p. unfold fine, grid_cell. cbn [dot]. ring. }
  unfold wave_cos, wave_sin. split; f_equal; apply sumR_ext; intros p _; f_equal; destruct (E p) as (q & Q); rewrite <- !dot_inner, D;
    fold (turn n (dot [k0; k1; k2] (coarse p))); fold (turn (f * n) (f * dot [k0; k1; k2] (fine p)));
    rewrite turn_refine by assumption.
  - apply (cos_turn_mod n _ _ q Hn Q).
  - apply (sin_turn_mod n _ _ q Hn Q).
Qed.

Lemma pow2_IZR : forall f, (0 <= f)%Z -> powerRZ 2 f = IZR (2 ^ f).
Proof.
  intros f H. destruct f as [|p|p]; [reflexivity| |lia]. cbn [powerRZ].
  rewrite <- (positive_nat_Z p), <- pow_IZR. reflexivity.
Qed.

Lemma fold_frequency : forall n f i m, (1 <= n)%Z -> (1 <= f)%Z -> is_frequency n i m ->
  is_frequency (f * n) (f * i) (f * m).
Proof.
  intros n f i m Hn Hf [(q & ->) B]. split; [exists q; ring|nia].
Qed.

Lemma fold_kfreq : forall n f dk i, (1 <= n)%Z -> (1 <= f)%Z -> 0 < dk -> (0 <= i < n)%Z ->
  kfreq (f * n) dk (f * i) = kfreq n (IZR f * dk) i.
Proof.
  intros n f dk i Hn Hf Hd Hi. assert (Hf0 : 0 < IZR f) by (apply (IZR_lt 0); lia).
  destruct (kfreq_signed n (IZR f * dk) i Hi) as (m & Fm & ->); [apply Rgt_not_eq; nra|].
  destruct (kfreq_signed (f * n) dk (f * i) ltac:(nia)) as (m' & Fm' & ->); [lra|].
  assert (m' = f * m)%Z as ->.
  { apply (frequency_unique (f * n) (f * i)); [nia|exact Fm'|apply fold_frequency; assumption]. }
  rewrite mult_IZR. ring.
Qed.

(** * Combining foldings *)

Lemma Rltb_iff : forall x y, Rltb x y = true <-> x < y.
Proof. intros. unfold Rltb. destruct (Rlt_dec x y); split; intro; try congruence; try contradiction; assumption. Qed.

Lemma rmax_spec : forall l x, In (rmax x l) (x :: l) /\ Forall (fun y => y <= rmax x l) (x :: l).
Proof.
  induction l as [|y t IH]; intro x; cbn [rmax].
  - split; [left; reflexivity|]. constructor; [lra|constructor].
  - destruct (IH y) as [I F]. split.
    + unfold Rmax. destruct (Rle_dec x (rmax y t)); [right; exact I|left; reflexivity].
    + constructor; [apply Rmax_l|]. rewrite Forall_forall in *. intros z Hz. specialize (F z Hz). cbn beta in F.
      pose proof (Rmax_r x (rmax y t)). lra.
Qed.

Lemma np_max_spec : forall l m, np_max l = Ok m -> In m l /\ Forall (fun y => y <= m) l.
Proof. intros [|x t] m H; [discriminate H|]. injection H as <-. apply rmax_spec. Qed.

Lemma combine_map_r : forall (A B C : Type) (f : A -> B) (g : A * B -> C) l,
  map g (combine l (map f l)) = map (fun x => g (x, f x)) l.
Proof. intros A B C f g l. induction l as [|x t IH]; [reflexivity|]. cbn [map combine]. rewrite IH. reflexivity. Qed.
Lemma filter_combine : forall (A : Type) (f : A -> bool) l, map fst (filter snd (combine l (map f l))) = filter f l.
Proof.
  intros A f l. induction l as [|x t IH]; [reflexivity|]. cbn [map combine filter snd]. destruct (f x); cbn [map fst]; rewrite IH; reflexivity.
Qed.

Lemma least_enough : forall minimal first f least v,
  (if (f =? first)%Z then Ok 0 else match minimal with None => Err TypeError | Some m => Ok m end) = Ok least ->
  (least < bv_count v <-> enough minimal first f v).
Proof.
  intros minimal first f least v H. unfold enough. destruct (Z.eqb_spec f first) as [E|E].
  - injection H as <-. split; [intro; left; split; assumption|intros [[_ A]|[A _]]; [assumption|contradiction]].
  - destruct minimal as [m|]; [|discriminate H]. injection H as <-. split.
    + intro. right. split; [exact E|]. exists m. split; [reflexivity|assumption].
    + intros [[A _]|[_ (m' & A & B)]]; [contradiction|]. injection A as <-. exact B.
Qed.

Lemma use_bins_spec : forall minimal fraction first final f n box vals use,
  use_bins minimal fraction first final f n box vals = Ok use ->
  exists u, use = map u vals
    /\ forall v, In v vals -> (u v = true <-> usable minimal fraction first final f n box vals v).
Proof.
  intros minimal fraction first final f n [[bx by_] bz] vals use H. unfold use_bins in H.
  destruct (if (f =? first)%Z then Ok 0 else _) as [least|] eqn:L; [|discriminate H]. cbn [bind] in H.
  pose proof (fun v => least_enough _ _ _ _ v L) as LE.
  set (u0 := fun v => Rltb least (bv_count v)) in *.
  assert (U0 : forall v, u0 v = true <-> enough minimal first f v).
  { intro v. unfold u0. rewrite Rltb_iff. apply LE. }
  destruct (Z.eqb_spec f final) as [E|E].
  - injection H as <-. exists u0. split; [reflexivity|]. intros v _. unfold usable. rewrite U0. split.
    + intro A. split; [exact A|]. intro X. contradiction.
    + intros [A _]. exact A.
  - set (limit := powerRZ 2 f * IZR n / Rmin bx (Rmin by_ bz)) in *.
    destruct fraction as [q|].
    + rewrite filter_combine in H. destruct (np_max (map bv_k (filter u0 vals))) as [m|] eqn:M; [|discriminate H].
      cbn [bind] in H. injection H as <-. apply np_max_spec in M. destruct M as [I F].
      apply in_map_iff in I. destruct I as (w & Ew & Iw). apply filter_In in Iw. destruct Iw as [Iw Uw].
      assert (F' : forall x, In x vals -> enough minimal first f x -> bv_k x <= bv_k w).
      { intros x Ix Ux. rewrite Ew. rewrite Forall_forall in F. apply F. apply in_map. apply filter_In.
        split; [exact Ix|apply U0; exact Ux]. }
      rewrite combine_map_r. eexists. split; [reflexivity|]. intros v Iv. cbn [fst snd].
      rewrite andb_true_iff, Rltb_iff, U0. unfold usable. fold limit. split.
      * intros [A B]. split; [exact A|]. intros _.
        pose proof (Rmin_l (q * m) (q * limit)). pose proof (Rmin_r (q * m) (q * limit)).
        split; [lra|]. exists w. split; [exact Iw|]. split; [apply U0; exact Uw|]. split; [rewrite Ew; lra|exact F'].
      * intros [A B]. split; [exact A|]. destruct (B E) as (B1 & w' & Iw' & Ew' & B2 & B3).
        assert (bv_k w' = m) by (apply Rle_antisym; [rewrite <- Ew; apply F'; assumption
                                 |rewrite <- Ew; apply B3; [exact Iw|apply U0; exact Uw]]).
        apply Rmin_glb_lt; [rewrite <- H; exact B2|exact B1].
    + cbn [bind] in H. injection H as <-. rewrite combine_map_r. eexists. split; [reflexivity|]. intros v Iv. cbn [fst snd].
      rewrite andb_true_iff, Rltb_iff, U0. unfold usable. fold limit. split.
      * intros [A B]. split; [exact A|]. intros _. exact B.
      * intros [A B]. split; [exact A|]. apply B. exact E.
Qed.

(** One round of the loop. *)
Definition round (deps : list (Z * depo)) (cross : option (list (Z * depo)))
    (box : R * R * R) (bins : list R) (minimal fraction norm : option R) (first final f : Z)
    : res (list binval * list bool) :=
  do d <- find_depo deps f;
  do c <- match cross with
          | None => Ok None
          | Some l => do x <- find_depo l f; Ok (Some x)
          end;
  do vals <- deposition_to_power_spectrum d box f c (Some bins) norm;
  do use <- use_bins minimal fraction first final f (fold_right Z.min (hd 0%Z (d_shape d)) (d_shape d)) box vals;
  Ok (vals, use).

Definition merge (out : list outbin) (t : Z * (list binval * list bool)) : list outbin :=
  map (fun x : outbin * (binval * bool) => prefer (fst t) (fst x) (fst (snd x)) (snd (snd x)))
      (combine out (combine (fst (snd t)) (snd (snd t)))).

Lemma fold_loop_rounds : forall deps cross box bins minimal fraction norm sch first final fs out out',
  fold_loop deps cross box bins minimal fraction norm sch first final fs out = Ok out' ->
  (fs = [] \/ sch = Simple) /\
  exists rounds, map fst rounds = fs
    /\ Forall (fun t => round deps cross box bins minimal fraction norm first final (fst t) = Ok (snd t)) rounds
    /\ out' = fold_left merge rounds out.
Proof.
  intros deps cross box bins minimal fraction norm sch first final fs. induction fs as [|f rest IH]; intros out out' H.
  - injection H as <-. split; [left; reflexivity|]. exists []. repeat split. constructor.
  - cbn [fold_loop] in H.
    destruct (find_depo deps f) as [d|] eqn:D; [|discriminate H]. cbn [bind] in H.
    destruct (match cross with None => Ok None | Some l => do x <- find_depo l f; Ok (Some x) end) as [c|] eqn:C;
      [|discriminate H]. cbn [bind] in H.
    destruct (deposition_to_power_spectrum d box f c (Some bins) norm) as [vals|] eqn:V; [|discriminate H]. cbn [bind] in H.
    destruct (use_bins _ _ _ _ _ _ _ _) as [use|] eqn:U; [|discriminate H]. cbn [bind] in H.
    destruct sch; try discriminate H. apply IH in H. destruct H as (_ & rounds & E & F & ->).
    split; [right; reflexivity|]. exists ((f, (vals, use)) :: rounds). split; [cbn [map fst]; rewrite E; reflexivity|].
    split; [|reflexivity]. constructor; [|exact F]. unfold round. cbn [fst snd]. rewrite D. cbn [bind]. rewrite C. cbn [bind].
    rewrite V. cbn [bind]. rewrite U. reflexivity.
Qed.

Lemma spectrum_length : forall d box f c bins norm vals,
  deposition_to_power_spectrum d box f c (Some bins) norm = Ok vals -> length vals = length (FuncModel.cells bins).
Proof.
  intros d [[bx by_] bz] f c bins norm vals H. unfold deposition_to_power_spectrum in H.
  destruct (d_shape d) as [|n0 [|n1 [|n2 [|? ?]]]]; try discriminate H.
  destruct (negb _); [discriminate H|]. destruct (match c with Some _ => _ | None => _ end); [discriminate H|].
  injection H as <-. rewrite !histogram_S3, combine_maps, !map_length. reflexivity.
Qed.

Definition dob : outbin := mkoutbin 0 0 0 0.
Definition dbv : binval := mkbinval 0 0 0.

Lemma merge_nth : forall out t m j, length out = m -> length (fst (snd t)) = m -> length (snd (snd t)) = m -> (j < m)%nat ->
  length (merge out t) = m
  /\ nth j (merge out t) dob = prefer (fst t) (nth j out dob) (nth j (fst (snd t)) dbv) (nth j (snd (snd t)) false).
Proof.
  intros out [f [vals use]] m j Lo Lv Lu J. cbn [fst snd] in *. unfold merge. cbn [fst snd].
  assert (L1 : length (combine vals use) = m) by (rewrite combine_length, Lv, Lu; lia).
  split; [rewrite map_length, combine_length, Lo, L1; lia|].
  rewrite (nth_indep _ dob ((fun x : outbin * (binval * bool) => prefer f (fst x) (fst (snd x)) (snd (snd x))) (dob, (dbv, false))))
    by (rewrite map_length, combine_length, Lo, L1; lia).
  rewrite (map_nth (fun x : outbin * (binval * bool) => prefer f (fst x) (fst (snd x)) (snd (snd x)))).
  rewrite combine_nth by congruence. cbn [fst snd]. rewrite combine_nth by congruence. reflexivity.
Qed.

Lemma rounds_nth : forall rounds out m j, length out = m ->
  Forall (fun t : Z * (list binval * list bool) => length (fst (snd t)) = m /\ length (snd (snd t)) = m) rounds -> (j < m)%nat ->
  length (fold_left merge rounds out) = m
  /\ nth j (fold_left merge rounds out) dob
     = fold_left (fun b t => prefer (fst t) b (nth j (fst (snd t)) dbv) (nth j (snd (snd t)) false)) rounds (nth j out dob).
Proof.
  induction rounds as [|t r IH]; intros out m j Lo F J; [split; [exact Lo|reflexivity]|].
  pose proof (Forall_inv F) as [Lv Lu]. pose proof (Forall_inv_tail F) as F'. destruct (merge_nth out t m j Lo Lv Lu J) as [L E].
  cbn [fold_left]. rewrite <- E. apply IH; assumption.
Qed.

(** The bin with most modes wins. *)
Lemma most_modes : forall (T : Type) (key : T -> Z) (val : T -> binval) (use : T -> bool) l b,
  StronglySorted (fun s t => (key s < key t)%Z) l ->
  let r := fold_left (fun b t => prefer (key t) b (val t) (use t)) l b in
  (r = b /\ forall t, In t l -> use t = true -> bv_count (val t) <= ob_count b)
  \/ (exists t, In t l /\ use t = true /\ ob_count b < bv_count (val t) /\ r = from_folding (key t) (val t)
      /\ forall s, In s l -> use s = true ->
           bv_count (val s) <= bv_count (val t) /\ (bv_count (val s) = bv_count (val t) -> (key t <= key s)%Z)).
Proof.
  intros T key val use l. induction l as [|t l IH]; intros b S.
  - left. split; [reflexivity|]. intros t [].
  - inversion S as [|? ? S' A]; subst. rewrite Forall_forall in A. cbn [fold_left].
    assert (X : prefer (key t) b (val t) (use t)
                = if Rltb (ob_count b) (bv_count (val t)) && use t then from_folding (key t) (val t) else b) by reflexivity.
    rewrite X. clear X. destruct (Rltb (ob_count b) (bv_count (val t)) && use t) eqn:P.
    + apply andb_true_iff in P. destruct P as [P1 P2]. apply Rltb_iff in P1.
      destruct (IH (from_folding (key t) (val t)) S') as [(E & M)|(s & I & U & C & E & M)].
      * right. exists t. split; [left; reflexivity|]. split; [exact P2|]. split; [exact P1|]. split; [exact E|].
        intros s [<-|Is] Us; [split; [lra|intro; lia]|]. split; [apply M; assumption|]. intro. specialize (A s Is). lia.
      * right. cbn [from_folding ob_count] in C. exists s. split; [right; exact I|]. split; [exact U|]. split; [lra|].
        split; [exact E|]. intros s' [<-|Is'] Us'; [split; [lra|intro; lra]|apply M; assumption].
    + apply andb_false_iff in P.
      assert (P' : use t = true -> bv_count (val t) <= ob_count b).
      { intro X. destruct P as [P|P]; [|congruence]. apply Rnot_lt_le. intro Y. apply Rltb_iff in Y. congruence. }
      destruct (IH b S') as [(E & M)|(s & I & U & C & E & M)].
      * left. split; [exact E|]. intros s [<-|Is] Us; [apply P'; exact Us|apply M; assumption].
      * right. exists s. split; [right; exact I|]. split; [exact U|]. split; [exact C|]. split; [exact E|].
        intros s' [<-|Is'] Us'; [specialize (P' Us'); split; [lra|intro; lra]|apply M; assumption].
Qed.

Lemma strictly : forall l, StronglySorted Z.le l -> NoDup l -> StronglySorted Z.lt l.
Proof.
  induction l as [|a l IH]; intros S N; [constructor|]. inversion S as [|? ? S' A]; subst. inversion N as [|? ? Na N']; subst.
  constructor; [apply IH; assumption|]. rewrite Forall_forall in *. intros x Hx. specialize (A x Hx).
  assert (a <> x) by congruence. lia.
Qed.
Lemma sorted_of_map : forall (T : Type) (key : T -> Z) l,
  StronglySorted Z.lt (map key l) -> StronglySorted (fun s t => (key s < key t)%Z) l.
Proof.
  intros T key l. induction l as [|t l IH]; intro S; [constructor|]. inversion S as [|? ? S' A]; subst.
  constructor; [apply IH; exact S'|]. rewrite Forall_forall in *. intros x Hx. apply A. apply in_map. exact Hx.
Qed.
