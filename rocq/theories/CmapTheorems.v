(** Colour maps: C47, C60, C85. *)
From Coq Require Import List ZArith Reals Bool Lra Lia Psatz.
From Verif Require Import Base BaseLemmas VisModel VisSumProofs CmapModel.
Import ListNotations.
Open Scope R_scope.

(** * Specification *)

(** The entry of an axis of [n] entries that a value belongs to: values below 0 count as 0,
    values above 1 as 1, and in between the entry is the last one not after the value. *)
Definition belongs (n : Z) (v : R) (i : Z) : Prop :=
  (v <= 0 -> i = 0%Z) /\ (1 <= v -> i = (n - 1)%Z)
  /\ (0 <= v <= 1 -> IZR i <= IZR (n - 1) * v < IZR i + 1).

(** The colour of a point of the plane: the mean of the colours, weighted by one minus the
    distance to their points.  [colors] lists one component of each colour. *)
Definition nearness (x y : R) (point : R * R) : R :=
  Rmax (1 - sqrt ((x - fst point) ^ 2 + (y - snd point) ^ 2)) 0.
Definition total_nearness (x y : R) (points : list (R * R)) : R := sumR (map (nearness x y) points).
Definition mean_component (x y : R) (colors : list R) (points : list (R * R)) : R :=
  sumR (map (fun cp => fst cp * nearness x y (snd cp)) (combine colors points))
  / total_nearness x y points.

(** A colour with its alpha: missing components are 0, a missing alpha is 1. *)
Inductive completed : list R -> colour -> Prop :=
| completed_0 : completed [] [0; 0; 0; 1]
| completed_1 : forall r, completed [r] [r; 0; 0; 1]
| completed_2 : forall r g, completed [r; g] [r; g; 0; 1]
| completed_3 : forall r g b, completed [r; g; b] [r; g; b; 1]
| completed_4 : forall r g b a, completed [r; g; b; a] [r; g; b; a].

(** The point [k] of [n] on the axis from 0 to 1. *)
Definition place (n k : Z) : R := IZR k / IZR (n - 1).

(** * C47 *)

Lemma clamp_range : forall v, 0 <= clamp v <= 1.
Proof.
  intro v. unfold clamp, Rmin, Rmax.
  destruct (Rle_dec v 0), (Rle_dec _ 1); lra.
Qed.

Lemma position_belongs : forall n v,
  (1 <= n)%Z -> (0 <= position_of n v < n)%Z /\ belongs n v (position_of n v).
Proof.
  intros n v Hn. unfold position_of.
  pose proof (clamp_range v) as Hc.
  assert (H0 : 0 <= IZR (n - 1)) by (apply (IZR_le 0); lia).
  assert (Hp : 0 <= IZR (n - 1) * clamp v) by nra.
  assert (Hq : IZR (n - 1) * clamp v <= IZR (n - 1)) by nra.
  rewrite trunc_floor by exact Hp.
  pose proof (floor_spec (IZR (n - 1) * clamp v)) as Hf.
  set (i := floor _) in *.
  assert (Hi : (0 <= i)%Z) by (apply floor_le; exact Hp).
  assert (Hi' : (i <= n - 1)%Z) by (apply le_IZR; lra).
  split; [lia|]. repeat split.
  - intro Hv. assert (E : clamp v = 0).
    { unfold clamp. rewrite Rmax_right by exact Hv. apply Rmin_left. lra. }
    unfold i. rewrite E, Rmult_0_r. apply floor_unique. lra.
  - intro Hv. assert (E : clamp v = 1).
    { unfold clamp. rewrite Rmax_left by lra. apply Rmin_right. lra. }
    unfold i. rewrite E, Rmult_1_r. apply floor_unique. lra.
  - assert (E : clamp v = v).
    { unfold clamp. rewrite Rmax_left by lra. apply Rmin_left. lra. }
    rewrite E in Hf. lra.
  - assert (E : clamp v = v).
    { unfold clamp. rewrite Rmax_left by lra. apply Rmin_left. lra. }
    rewrite E in Hf. lra.
Qed.

Lemma belongs_unique : forall n v i j, belongs n v i -> belongs n v j -> i = j.
Proof.
  intros n v i j (I0 & I1 & I) (J0 & J1 & J).
  destruct (Rle_dec v 0) as [H|H]; [rewrite I0, J0 by exact H; reflexivity|].
  destruct (Rle_dec 1 v) as [H'|H']; [rewrite I1, J1 by exact H'; reflexivity|].
  assert (R : 0 <= v <= 1) by lra. specialize (I R). specialize (J R).
  rewrite <- (floor_unique _ i I). apply floor_unique. exact J.
Qed.

Lemma read_ok : forall g i j, (0 <= i < rows g)%Z -> (0 <= j < columns g)%Z -> read g i j = Ok (entry g i j).
Proof.
  intros g i j Hi Hj. unfold read.
  destruct (Z.leb_spec 0 i); [|lia]. destruct (Z.ltb_spec i (rows g)); [|lia].
  destruct (Z.leb_spec 0 j); [|lia]. destruct (Z.ltb_spec j (columns g)); [|lia]. reflexivity.
Qed.

Lemma all_ok_total : forall (A B : Type) (f : A -> res B) l,
  (forall x, In x l -> exists y, f x = Ok y) ->
  exists r, all_ok (map f l) = Ok r /\ length r = length l
            /\ forall k x y, nth_error l k = Some x -> f x = Ok y -> nth_error r k = Some y.
Proof.
  intros A B f l; induction l as [|x t IH]; intro H.
  - exists []. split; [reflexivity|]. split; [reflexivity|]. intros [|k] ? ? E; discriminate.
  - destruct (H x (or_introl eq_refl)) as [y Ey].
    destruct IH as (r & Er & Lr & Nr); [intros z Hz; apply H; right; exact Hz|].
    exists (y :: r). cbn [map all_ok]. rewrite Ey, Er. split; [reflexivity|].
    split; [cbn [length]; rewrite Lr; reflexivity|].
    intros [|k] x' y' E E'; cbn [nth_error] in *.
    + injection E as <-. rewrite Ey in E'. injection E' as ->. reflexivity.
    + exact (Nr k x' y' E E').
Qed.

(** C47: every pair of values is mapped to an entry of the grid, the one the two values
    belong to, and all reads are in bounds. *)
Theorem C47_lookup : forall first second g,
  (1 <= rows g)%Z -> (1 <= columns g)%Z -> (length first <= length second)%nat ->
  exists out, apply_color_map first second g = Ok out
    /\ length out = length first
    /\ forall k u v, nth_error first k = Some u -> nth_error second k = Some v ->
         exists i j, (0 <= i < rows g)%Z /\ (0 <= j < columns g)%Z
                     /\ belongs (rows g) u i /\ belongs (columns g) v j
                     /\ nth_error out k = Some (entry g i j).
Proof.
  intros first second g Hr Hc Hl. unfold apply_color_map.
  destruct (Z.ltb_spec (rows g) 1); [lia|].
  match goal with |- context [map ?h (seq 0 _)] => set (f := h) end.
  assert (F : forall k u v, nth_error first k = Some u -> nth_error second k = Some v ->
              f k = Ok (entry g (position_of (rows g) u) (position_of (columns g) v))).
  { intros k u v Eu Ev. unfold f. rewrite Eu, Ev. apply read_ok; apply position_belongs; assumption. }
  destruct (all_ok_total _ _ f (seq 0 (length first))) as (out & E & L & N).
  { intros k Hk. apply in_seq in Hk.
    destruct (nth_error first k) as [u|] eqn:Eu; [|apply nth_error_None in Eu; lia].
    destruct (nth_error second k) as [v|] eqn:Ev; [|apply nth_error_None in Ev; lia].
    eexists. apply (F k u v Eu Ev). }
  exists out. split; [exact E|]. split; [rewrite L; apply seq_length|].
  intros k u v Eu Ev.
  exists (position_of (rows g) u), (position_of (columns g) v).
  destruct (position_belongs (rows g) u Hr) as [B1 B2].
  destruct (position_belongs (columns g) v Hc) as [B3 B4].
  repeat split; try assumption; try lia; try apply B2; try apply B4; try assumption.
  apply (N k k); [|apply F; assumption].
  assert (Hk : (k < length first)%nat) by (apply nth_error_Some; rewrite Eu; discriminate).
  rewrite (nth_error_nth' (seq 0 (length first)) 0%nat) by (rewrite seq_length; exact Hk).
  rewrite seq_nth by exact Hk. reflexivity.
Qed.

(** C47: a value on the grid belongs to its own entry, and values outside [0, 1] to the
    first or the last. *)
Theorem C47_own_entry : forall n i,
  (2 <= n)%Z -> (0 <= i < n)%Z ->
  position_of n (IZR i / IZR (n - 1)) = i
  /\ (forall v, v <= 0 -> position_of n v = 0%Z)
  /\ (forall v, 1 <= v -> position_of n v = (n - 1)%Z).
Proof.
  intros n i Hn Hi.
  split; [|split; intros v Hv; apply (position_belongs n v ltac:(lia)); exact Hv].
  destruct (position_belongs n (IZR i / IZR (n - 1)) ltac:(lia)) as [_ (_ & _ & B)].
  assert (H1 : 1 <= IZR (n - 1)) by (apply (IZR_le 1); lia).
  assert (H2 : 0 <= IZR i) by (apply (IZR_le 0); lia).
  assert (H3 : IZR i <= IZR (n - 1)) by (apply IZR_le; lia).
  assert (E : IZR (n - 1) * (IZR i / IZR (n - 1)) = IZR i) by (field; lra).
  assert (R : 0 <= IZR i / IZR (n - 1) <= 1).
  { split; [apply Rmult_le_pos; [lra|left; apply Rinv_0_lt_compat; lra]|].
    apply (Rmult_le_reg_l (IZR (n - 1))); [lra|]. rewrite E. lra. }
  specialize (B R). rewrite E in B.
  rewrite <- (floor_unique _ _ B). apply floor_unique. lra.
Qed.

(** Larger values never belong to an earlier entry. *)
Theorem C47_monotone : forall n u v,
  (1 <= n)%Z -> u <= v -> (position_of n u <= position_of n v)%Z.
Proof.
  intros n u v Hn H. unfold position_of.
  assert (H0 : 0 <= IZR (n - 1)) by (apply (IZR_le 0); lia).
  pose proof (clamp_range u). pose proof (clamp_range v).
  assert (C : clamp u <= clamp v).
  { unfold clamp, Rmin, Rmax. destruct (Rle_dec u 0), (Rle_dec v 0);
      repeat match goal with |- context [Rle_dec ?a ?b] => destruct (Rle_dec a b) end; lra. }
  rewrite !trunc_floor by nra. apply floor_le.
  pose proof (floor_spec (IZR (n - 1) * clamp u)). nra.
Qed.

(** With fewer second values than first values the code reads past the end. *)
Theorem C47_too_few_refuted : forall first second g,
  (length second < length first)%nat -> apply_color_map first second g = Err UndefinedRead.
Proof.
  intros first second g H. unfold apply_color_map. destruct (rows g <? 1)%Z eqn:Er; [reflexivity|].
  match goal with |- context [map ?h (seq 0 _)] => set (f := h) end.
  assert (F : forall k, (exists c, f k = Ok c) \/ f k = Err UndefinedRead).
  { intro k. unfold f. destruct (nth_error first k); [|right; reflexivity].
    destruct (nth_error second k); [|right; reflexivity].
    unfold read. destruct (_ && _); [left; eexists; reflexivity|right; reflexivity]. }
  assert (B : f (length second) = Err UndefinedRead).
  { unfold f. destruct (nth_error first (length second)); [|reflexivity].
    assert (nth_error second (length second) = None) as -> by (apply nth_error_None; lia). reflexivity. }
  assert (I : In (length second) (seq 0 (length first))) by (apply in_seq; lia).
  revert I. generalize (seq 0 (length first)). intro l; induction l as [|k t IH]; intro I; [destruct I|].
  cbn [map all_ok]. destruct (F k) as [[c Ec]|Ec]; rewrite Ec; [|reflexivity].
  destruct I as [->|I]; [rewrite B in Ec; discriminate|]. rewrite (IH I). reflexivity.
Qed.

(** A call accepts a Python list for the horizontal values but not for the vertical ones. *)
Theorem C47_vertical_list_refuted : forall g h v vs,
  call g h (Floats (v :: vs)) = Err TypeError.
Proof. intros g h v vs. unfold call. destruct h; reflexivity. Qed.

(** * C60: colour maps made of coloured points *)

Lemma add_colour_nth : forall a b k, length a = length b ->
  nth k (add_colour a b) 0 = nth k a 0 + nth k b 0.
Proof.
  induction a as [|x a IH]; intros [|y b] k H; try discriminate; cbn [add_colour].
  - destruct k; cbn [nth]; ring.
  - destruct k; cbn [nth]; [reflexivity|]. apply IH. injection H as H. exact H.
Qed.
Lemma add_colour_length : forall a b, length a = length b -> length (add_colour a b) = length a.
Proof.
  induction a as [|x a IH]; intros [|y b] H; try discriminate; [reflexivity|].
  cbn [add_colour length]. rewrite IH; [reflexivity|]. injection H as H. exact H.
Qed.
Lemma scale_colour_nth : forall w a k, nth k (scale_colour w a) 0 = w * nth k a 0.
Proof.
  intros w a; induction a as [|x a IH]; intros [|k]; cbn [scale_colour map nth]; try ring; apply IH.
Qed.

Definition component (k : nat) (points : list (colour * (R * R))) : list R :=
  map (fun p => nth k (fst p) 0) points.

Lemma weight_nearness : forall size x y p,
  weight size x y p = nearness (tick size y) (tick size x) p.
Proof.
  intros. unfold weight, nearness. do 3 f_equal. ring.
Qed.

Lemma segmented_fold : forall size x y points acc ws k,
  length acc = 4%nat -> (forall p, In p points -> length (fst p) = 4%nat) ->
  let step := fun acc point =>
    (add_colour (fst acc) (scale_colour (weight size x y (snd point)) (fst point)),
     snd acc + weight size x y (snd point)) in
  let r := fold_left step points (acc, ws) in
  length (fst r) = 4%nat
  /\ nth k (fst r) 0
     = nth k acc 0 + sumR (map (fun p => nth k (fst p) 0 * nearness (tick size y) (tick size x) (snd p)) points)
  /\ snd r = ws + sumR (map (fun p => nearness (tick size y) (tick size x) (snd p)) points).
Proof.
  intros size x y points; induction points as [|p t IH]; intros acc ws k Ha Hp.
  - cbn [fold_left map fst snd]. unfold sumR. cbn [fold_right]. repeat split; [exact Ha|ring|ring].
  - cbv zeta in *. cbn [fold_left fst snd].
    assert (Hq : length (fst p) = 4%nat) by (apply Hp; left; reflexivity).
    assert (Hs : length (scale_colour (weight size x y (snd p)) (fst p)) = 4%nat).
    { unfold scale_colour. rewrite map_length. exact Hq. }
    destruct (IH (add_colour acc (scale_colour (weight size x y (snd p)) (fst p)))
                 (ws + weight size x y (snd p)) k) as (L & N & W).
    + rewrite add_colour_length by congruence. exact Ha.
    + intros q Hq'. apply Hp. right. exact Hq'.
    + split; [exact L|]. split.
      * refine (eq_trans N _). rewrite add_colour_nth, scale_colour_nth by congruence.
        rewrite weight_nearness. cbn [map]. unfold sumR. cbn [fold_right]. ring.
      * refine (eq_trans W _). rewrite weight_nearness. cbn [map]. unfold sumR. cbn [fold_right]. ring.
Qed.

Lemma combine_components : forall k x y (rgba : list colour) coordinates,
  map (fun p => nth k (fst p) 0 * nearness x y (snd p)) (combine rgba coordinates)
  = map (fun cp => fst cp * nearness x y (snd cp)) (combine (map (fun c => nth k c 0) rgba) coordinates).
Proof.
  intros k x y rgba; induction rgba as [|c t IH]; intros [|p coordinates]; try reflexivity.
  cbn [combine map fst snd]. f_equal. apply IH.
Qed.

Lemma combine_snd : forall (A B : Type) (f : B -> R) (a : list A) (b : list B),
  length a = length b -> map (fun p => f (snd p)) (combine a b) = map f b.
Proof.
  intros A B f a; induction a as [|x a IH]; intros [|y b] H; try discriminate; [reflexivity|].
  cbn [combine map snd]. f_equal. apply IH. injection H as H. exact H.
Qed.

Lemma ensure_rgba_iff : forall c r, ensure_rgba c = Ok r <-> completed c r.
Proof.
  intros c r. split.
  - intro H. destruct c as [|x [|y [|z [|w [|v c]]]]]; try (injection H as <-; constructor).
    unfold ensure_rgba, zlen in H. destruct (Z.ltb_spec 4 (Z.of_nat (length (x :: y :: z :: w :: v :: c)))); [discriminate|].
    cbn [length] in *. lia.
  - intro H. destruct H; reflexivity.
Qed.

Lemma completed_length : forall c r, completed c r -> length r = 4%nat.
Proof. intros c r H. destruct H; reflexivity. Qed.

Lemma all_completed : forall colors rgba, all_ok (map ensure_rgba colors) = Ok rgba <-> Forall2 completed colors rgba.
Proof.
  intros colors rgba. rewrite all_ok_spec. revert rgba. induction colors as [|c t IH]; intro rgba.
  - split; [|intro H; inversion H; reflexivity]. intro H. destruct rgba; [constructor|discriminate].
  - split.
    + intro H. destruct rgba as [|r rgba]; [discriminate|]. injection H as H1 H2. constructor; [apply ensure_rgba_iff; exact H1|].
      apply IH. exact H2.
    + intro H. inversion H as [|? r ? rgba' H1 H2]; subst. cbn [map]. apply ensure_rgba_iff in H1. apply IH in H2. rewrite H1, H2. reflexivity.
Qed.

Lemma tick_range : forall size, (2 <= size)%Z -> 0 <= IZR (size - 1) /\ IZR (size - 1) <> 0.
Proof. intros. assert (1 <= IZR (size - 1)) by (apply (IZR_le 1); lia). lra. Qed.

(** C60: the map is applied with its axes exchanged.  For values on the grid, the colour
    returned for (first, second) is the mean colour (divided by 1.0001) at the point of the
    plane whose horizontal coordinate is the second value and vertical one the first. *)
Theorem C60_axes_exchanged : forall size colors coordinates rgba a b,
  (2 <= size)%Z -> (0 <= a < size)%Z -> (0 <= b < size)%Z ->
  length colors = length coordinates -> Forall2 completed colors rgba ->
  exists g c,
    segmented_grid size colors coordinates = Ok g
    /\ call g (Array [1%Z] [place size a]) (Array [1%Z] [place size b]) = Ok ([1; 4]%Z, [c])
    /\ length c = 4%nat
    /\ (total_nearness (place size b) (place size a) coordinates <> 0 ->
        forall k, nth k c 0 = mean_component (place size b) (place size a)
                                (map (fun r => nth k r 0) rgba) coordinates / (10001 / 10000)).
Proof.
  intros size colors coordinates rgba a b Hs Ha Hb Hl Hf. pose proof (proj2 (all_completed colors rgba) Hf) as Hr.
  change (place size) with (tick size).
  unfold segmented_grid. rewrite Hr. cbn [bind].
  exists (mkgrid size size (segmented_entry size (combine rgba coordinates))).
  unfold call, apply_color_map. cbn [bind rows columns length seq map nth_error all_ok].
  destruct (Z.ltb_spec size 1); [lia|].
  assert (Pa : position_of size (tick size a) = a) by exact (proj1 (C47_own_entry size a Hs Ha)).
  assert (Pb : position_of size (tick size b) = b) by exact (proj1 (C47_own_entry size b Hs Hb)).
  rewrite Pa, Pb.
  rewrite read_ok by (cbn [rows columns]; assumption). cbn [all_ok bind app entry].
  eexists. split; [reflexivity|]. split; [reflexivity|].
  unfold segmented_entry.
  assert (Hlen : length rgba = length coordinates).
  { rewrite <- Hl. clear - Hf. induction Hf; cbn [length]; congruence. }
  assert (H4 : forall p, In p (combine rgba coordinates) -> length (fst p) = 4%nat).
  { intros [c q] Hp. apply in_combine_l in Hp. cbn [fst]. clear - Hf Hp.
    induction Hf as [|c' r' t' t H1 H2 IH]; [destruct Hp|]. destruct Hp as [<-|Hp]; [apply (completed_length _ _ H1)|apply IH; exact Hp]. }
  assert (F := fun k => segmented_fold size a b (combine rgba coordinates) [0; 0; 0; 0] 0 k eq_refl H4).
  cbv zeta in F.
  set (r := fold_left _ _ _) in *. destruct r as [total ws]. cbn [fst snd] in F.
  split.
  - unfold scale_colour. rewrite map_length. apply (F 0%nat).
  - intros Hw k. destruct (F k) as (_ & N & W). rewrite scale_colour_nth, N, W.
    rewrite combine_components.
    unfold colour in *.
    rewrite (combine_snd (list R) (R * R) (nearness (tick size b) (tick size a)) rgba coordinates Hlen).
    unfold mean_component. fold (total_nearness (tick size b) (tick size a) coordinates).
    assert (nth k [0; 0; 0; 0] 0 = 0) as ->.
    { destruct k as [|[|[|[|k]]]]; try reflexivity. destruct k; reflexivity. }
    field. exact Hw.
Qed.

(** In particular a map with red at the horizontal end and blue at the vertical end gives
    blue for the horizontal value 1 and the vertical value 0. *)
Theorem C60_bower_refuted : forall size,
  (2 <= size)%Z ->
  exists g c, segmented_grid size [[1; 0; 0]; [0; 0; 1]] [(1, 0); (0, 1)] = Ok g
            /\ call g (Array [1%Z] [1]) (Array [1%Z] [0]) = Ok ([1; 4]%Z, [c])
            /\ nth 0 c 0 = 0 /\ nth 2 c 0 = 10000 / 10001.
Proof.
  intros size Hs.
  assert (Hf : Forall2 completed [[1; 0; 0]; [0; 0; 1]] [[1; 0; 0; 1]; [0; 0; 1; 1]]) by (repeat constructor).
  destruct (C60_axes_exchanged size [[1; 0; 0]; [0; 0; 1]] [(1, 0); (0, 1)]
              [[1; 0; 0; 1]; [0; 0; 1; 1]] (size - 1) 0 Hs ltac:(lia) ltac:(lia) eq_refl Hf)
    as (g & c & Hg & E & L & V). change (place size) with (tick size) in *.
  assert (T1 : tick size (size - 1) = 1).
  { unfold tick. field. apply (tick_range size Hs). }
  assert (T0 : tick size 0 = 0).
  { unfold tick. field. apply (tick_range size Hs). }
  rewrite T1, T0 in *.
  assert (N1 : nearness 0 1 (1, 0) = 0).
  { unfold nearness. cbn [fst snd]. apply Rmax_right.
    replace ((0 - 1) ^ 2 + (1 - 0) ^ 2) with 2 by ring.
    assert (1 < sqrt 2); [|lra]. rewrite <- sqrt_1 at 1. apply sqrt_lt_1; lra. }
  assert (N2 : nearness 0 1 (0, 1) = 1).
  { unfold nearness. cbn [fst snd]. replace ((0 - 0) ^ 2 + (1 - 1) ^ 2) with 0 by ring.
    rewrite sqrt_0. rewrite Rmax_left; lra. }
  assert (W : total_nearness 0 1 [(1, 0); (0, 1)] = 1).
  { unfold total_nearness, sumR. cbn [map fold_right]. rewrite N1, N2. ring. }
  exists g, c. split; [exact Hg|]. split; [exact E|].
  rewrite W in V. specialize (V ltac:(lra)).
  split; rewrite V; unfold mean_component; rewrite W; cbn [map combine fst snd nth];
    unfold sumR; cbn [fold_right]; rewrite N1, N2; field.
Qed.

(** Colour components stay within [0, 1] wherever some colour has weight. *)
Theorem C60_components_in_range : forall x y colors points,
  length colors = length points ->
  (forall c, In c colors -> 0 <= c <= 1) -> 0 < total_nearness x y points ->
  0 <= mean_component x y colors points / (10001 / 10000) <= 10000 / 10001.
Proof.
  intros x y colors points Hl Hc Hw.
  assert (B : 0 <= sumR (map (fun cp => fst cp * nearness x y (snd cp)) (combine colors points))
              <= total_nearness x y points).
  { clear Hw. revert points Hl. induction colors as [|c t IH]; intros [|p ps] Hl; try discriminate.
    - unfold total_nearness, sumR. cbn [map combine fold_right]. lra.
    - cbn [combine map fst snd]. unfold total_nearness in *. unfold sumR in *. cbn [map fold_right].
      assert (0 <= nearness x y p) by apply Rmax_r.
      assert (0 <= c <= 1) by (apply Hc; left; reflexivity).
      injection Hl as Hl. specialize (IH (fun c' H' => Hc c' (or_intror H')) ps Hl).
      nra. }
  unfold mean_component.
  set (s := sumR _) in *. set (w := total_nearness x y points) in *. clearbody s w.
  assert (0 <= s / w <= 1).
  { split; [apply Rmult_le_pos; [lra|left; apply Rinv_0_lt_compat; lra]|].
    apply (Rmult_le_reg_r w); [lra|]. unfold Rdiv. rewrite Rmult_assoc, Rinv_l by lra. lra. }
  lra.
Qed.

(** Colours with more than four components are refused. *)
Theorem C60_refused : forall size colors coordinates c, In c colors -> (4 < length c)%nat ->
  exists e, segmented_grid size colors coordinates = Err e.
Proof.
  intros size colors coordinates c I L. destruct (segmented_grid size colors coordinates) as [g|e] eqn:E; [|eauto]. exfalso.
  unfold segmented_grid in E. destruct (all_ok (map ensure_rgba colors)) as [rgba|] eqn:R; [|discriminate].
  apply all_completed in R. clear - I L R. induction R as [|x r t t' H1 H2 IH]; [destruct I|].
  destruct I as [->|I]; [|apply IH; exact I]. destruct H1; cbn [length] in L; lia.
Qed.

(** * C85: other colour maps *)

Lemma hsv_fold : forall size x y (points : list (list R * R * (R * R))) acc al ws,
  length acc = 3%nat -> (forall p, In p points -> length (fst (fst p)) = 3%nat) ->
  let step := fun acc point =>
    (add_colour (fst (fst acc)) (scale_colour (weight size x y (snd point)) (fst (fst point))),
     snd (fst acc) + weight size x y (snd point) * snd (fst point), snd acc + weight size x y (snd point)) in
  let r := fold_left step points (acc, al, ws) in
  length (fst (fst r)) = 3%nat
  /\ (forall k, nth k (fst (fst r)) 0
     = nth k acc 0 + sumR (map (fun p => nth k (fst (fst p)) 0 * nearness (tick size y) (tick size x) (snd p)) points))
  /\ snd (fst r) = al + sumR (map (fun p => snd (fst p) * nearness (tick size y) (tick size x) (snd p)) points)
  /\ snd r = ws + sumR (map (fun p => nearness (tick size y) (tick size x) (snd p)) points).
Proof.
  intros size x y points; induction points as [|p t IH]; intros acc al ws Ha Hp.
  - cbn [fold_left map fst snd]. unfold sumR. cbn [fold_right]. repeat split; [exact Ha|intro; ring|ring|ring].
  - cbv zeta in *. cbn [fold_left fst snd].
    assert (Hq : length (fst (fst p)) = 3%nat) by (apply Hp; left; reflexivity).
    assert (Hs : length (scale_colour (weight size x y (snd p)) (fst (fst p))) = 3%nat).
    { unfold scale_colour. rewrite map_length. exact Hq. }
    destruct (IH (add_colour acc (scale_colour (weight size x y (snd p)) (fst (fst p))))
                 (al + weight size x y (snd p) * snd (fst p)) (ws + weight size x y (snd p))) as (L & N & A & W).
    + rewrite add_colour_length by congruence. exact Ha.
    + intros q Hq'. apply Hp. right. exact Hq'.
    + split; [exact L|]. split; [|split].
      * intro k. refine (eq_trans (N k) _). rewrite add_colour_nth, scale_colour_nth by congruence.
        rewrite weight_nearness. cbn [map]. unfold sumR. cbn [fold_right]. ring.
      * refine (eq_trans A _). rewrite weight_nearness. cbn [map]. unfold sumR. cbn [fold_right]. ring.
      * refine (eq_trans W _). rewrite weight_nearness. cbn [map]. unfold sumR. cbn [fold_right]. ring.
Qed.

(** Components of colours: hue, saturation and value. *)
Definition mean_hsv (x y : R) (hsv : list (list R)) (points : list (R * R)) : list R :=
  map (fun k => mean_component x y (map (fun c => nth k c 0) hsv) points / (10001 / 10000)) [0; 1; 2]%nat.

(** The maps in HSV space: hue, saturation and value are averaged (and divided by 1.0001) as numbers, alpha
    as well; axes are exchanged as in C60. *)
Theorem C85_hsv : forall to_hsv to_rgb size colors coordinates rgba a b,
  (2 <= size)%Z -> (0 <= a < size)%Z -> (0 <= b < size)%Z ->
  length colors = length coordinates -> Forall2 completed colors rgba ->
  (forall c, length c = 3%nat -> length (to_hsv c) = 3%nat) ->
  exists g c,
    hsv_grid to_hsv to_rgb size colors coordinates = Ok g
    /\ call g (Array [1%Z] [place size a]) (Array [1%Z] [place size b]) = Ok ([1; 4]%Z, [c])
    /\ (total_nearness (place size b) (place size a) coordinates <> 0 ->
        c = to_rgb (mean_hsv (place size b) (place size a) (map (fun c => to_hsv [nth 0 c 0; nth 1 c 0; nth 2 c 0]) rgba) coordinates)
            ++ [mean_component (place size b) (place size a) (map (fun c => nth 3 c 0) rgba) coordinates / (10001 / 10000)]).
Proof.
  intros to_hsv to_rgb size colors coordinates rgba a b Hs Ha Hb Hl Hf H3. pose proof (proj2 (all_completed colors rgba) Hf) as Hr.
  change (place size) with (tick size).
  unfold hsv_grid. rewrite Hr. cbn [bind]. 
  exists (mkgrid size size (hsv_entry to_rgb size (combine (map (fun c => (to_hsv (firstn 3 c), nth 3 c 0)) rgba) coordinates))).
  unfold call, apply_color_map. cbn [bind rows columns length seq map nth_error all_ok].
  destruct (Z.ltb_spec size 1); [lia|].
  assert (Pa : position_of size (tick size a) = a) by exact (proj1 (C47_own_entry size a Hs Ha)).
  assert (Pb : position_of size (tick size b) = b) by exact (proj1 (C47_own_entry size b Hs Hb)).
  rewrite Pa, Pb.
  rewrite read_ok by (cbn [rows columns]; assumption). cbn [all_ok bind app entry].
  eexists. split; [reflexivity|]. split; [reflexivity|]. intro Hw.
  assert (Hlen : length rgba = length coordinates).
  { rewrite <- Hl. clear - Hf. induction Hf; cbn [length]; congruence. }
  assert (Hc : forall c, In c rgba -> exists r g bl al, c = [r; g; bl; al]).
  { clear - Hf. intros c I. induction Hf as [|x r t t' K1 K2 IH]; [destruct I|]. destruct I as [<-|I]; [|auto]. destruct K1; eauto. }
  assert (Hm : map (fun c => (to_hsv (firstn 3 c), nth 3 c 0)) rgba = map (fun c => (to_hsv [nth 0 c 0; nth 1 c 0; nth 2 c 0], nth 3 c 0)) rgba).
  { apply map_ext_in. intros c I. destruct (Hc c I) as (r & g & bl & al & ->). reflexivity. }
  rewrite Hm. clear Hm.
  assert (Hd : forall l, In l (map (fun c => (to_hsv [nth 0 c 0; nth 1 c 0; nth 2 c 0], nth 3 c 0)) rgba) -> length (fst l) = 3%nat).
  { intros l I. apply in_map_iff in I. destruct I as (c & <- & _). cbn [fst]. apply H3. reflexivity. }
  set (pts := map (fun c => (to_hsv [nth 0 c 0; nth 1 c 0; nth 2 c 0], nth 3 c 0)) rgba) in *.
  unfold hsv_entry.
  assert (F := hsv_fold size a b (combine pts coordinates) [0; 0; 0] 0 0 eq_refl).
  cbv zeta in F. specialize (F (fun p I => Hd (fst p) (in_combine_l pts coordinates (fst p) (snd p)
     (eq_ind _ (fun q => In q (combine pts coordinates)) I _ (surjective_pairing p))))).
  set (r := fold_left _ _ _) in *. destruct r as [[total al] ws]. cbn [fst snd] in F. destruct F as (L & N & A & W).
  assert (Lp : length pts = length coordinates) by (unfold pts; rewrite map_length; exact Hlen).
  assert (Wt : ws = total_nearness (tick size b) (tick size a) coordinates).
  { rewrite W, Rplus_0_l. unfold total_nearness. f_equal.
    apply (combine_snd _ _ (nearness (tick size b) (tick size a)) pts coordinates Lp). }
  assert (Sh : forall k (f : list R * R -> R) (h : colour -> R), (forall c, f (to_hsv [nth 0 c 0; nth 1 c 0; nth 2 c 0], nth 3 c 0) = h c) ->
     sumR (map (fun p => f (fst p) * nearness (tick size b) (tick size a) (snd p)) (combine pts coordinates)) * (k : R)
     = sumR (map (fun cp => fst cp * nearness (tick size b) (tick size a) (snd cp)) (combine (map h rgba) coordinates)) * k).
  { intros k f h E. f_equal. f_equal. unfold pts. clear - E. revert coordinates.
    induction rgba as [|c t IH]; intros [|q cs]; try reflexivity. cbn [map combine fst snd]. rewrite E. f_equal. apply IH. }
  f_equal.
  - f_equal. unfold mean_hsv. cbn [map].
    destruct total as [|t0 [|t1 [|t2 [|]]]]; try discriminate. unfold scale_colour. cbn [map].
    assert (G : forall k t, nth k [t0; t1; t2] 0 = t -> (k < 3)%nat ->
       / (ws * (10001 / 10000)) * t = mean_component (tick size b) (tick size a)
          (map (fun c => nth k c 0) (map (fun c => to_hsv [nth 0 c 0; nth 1 c 0; nth 2 c 0]) rgba)) coordinates / (10001 / 10000)).
    { intros k t E Hk. rewrite <- E, (N k). assert (nth k [0; 0; 0] 0 = 0) as -> by (destruct k as [|[|[|k']]]; try reflexivity; lia).
      rewrite Rplus_0_l. unfold mean_component. rewrite Wt, map_map. 
      pose proof (Sh 1 (fun p => nth k (fst p) 0) (fun c => nth k (to_hsv [nth 0 c 0; nth 1 c 0; nth 2 c 0]) 0) (fun c => eq_refl)) as S.
      cbv beta in S. rewrite !Rmult_1_r in S. rewrite S.
      match goal with |- _ * ?u = ?w / _ / _ => change w with u end. field. exact Hw. }
    rewrite (G 0%nat t0 eq_refl ltac:(lia)), (G 1%nat t1 eq_refl ltac:(lia)), (G 2%nat t2 eq_refl ltac:(lia)). reflexivity.
  - f_equal. rewrite A, Rplus_0_l. unfold mean_component. rewrite Wt.
    pose proof (Sh 1 (fun p => snd p) (fun c => nth 3 c 0) (fun c => eq_refl)) as S. cbv beta in S. rewrite !Rmult_1_r in S. rewrite S. match goal with |- _ * ?u = ?w / _ / _ => change w with u end. field. exact Hw.
Qed.

(** Hues are averaged as numbers: halfway between hue 0 and hue 5/6 (red and purple) the hue is that of
    5/12 (green), whatever matplotlib's functions do elsewhere. *)
Theorem C85_hue_refuted : forall to_hsv to_rgb size,
  (2 <= size)%Z -> (forall c, length c = 3%nat -> length (to_hsv c) = 3%nat) ->
  to_hsv [1; 0; 0] = [0; 1; 1] -> to_hsv [1; 0; 1] = [5 / 6; 1; 1] ->
  exists g c, hsv_grid to_hsv to_rgb size [[1; 0; 0]; [1; 0; 1]] [(0, 0); (0, 0)] = Ok g
    /\ call g (Array [1%Z] [0]) (Array [1%Z] [0]) = Ok ([1; 4]%Z, [c])
    /\ c = to_rgb [5 / 12 / (10001 / 10000); 1 / (10001 / 10000); 1 / (10001 / 10000)] ++ [1 / (10001 / 10000)].
Proof.
  intros to_hsv to_rgb size Hs H3 R1 R2.
  assert (Hf : Forall2 completed [[1; 0; 0]; [1; 0; 1]] [[1; 0; 0; 1]; [1; 0; 1; 1]]) by (repeat constructor).
  destruct (C85_hsv to_hsv to_rgb size [[1; 0; 0]; [1; 0; 1]] [(0, 0); (0, 0)] [[1; 0; 0; 1]; [1; 0; 1; 1]] 0 0 Hs ltac:(lia) ltac:(lia) eq_refl Hf H3) as (g & c & Hg & E & V).
  assert (T0 : place size 0 = 0). { unfold place. field. apply (tick_range size Hs). }
  rewrite T0 in *. exists g, c. split; [exact Hg|]. split; [exact E|].
  assert (N : nearness 0 0 (0, 0) = 1).
  { unfold nearness. cbn [fst snd]. replace ((0 - 0) ^ 2 + (0 - 0) ^ 2) with 0 by ring. rewrite sqrt_0. rewrite Rmax_left; lra. }
  assert (W : total_nearness 0 0 [(0, 0); (0, 0)] = 2).
  { unfold total_nearness, sumR. cbn [map fold_right]. rewrite N. ring. }
  rewrite W in V. rewrite (V ltac:(lra)). unfold mean_hsv, mean_component. rewrite W. cbn [map nth combine fst snd].
  unfold colour in *. cbn [map nth combine fst snd]. rewrite R1, R2. cbn [map nth combine fst snd]. unfold sumR. cbn [fold_right]. rewrite N.
  replace ((0 * 1 + (5 / 6 * 1 + 0)) / 2) with (5 / 12) by field. replace ((1 * 1 + (1 * 1 + 0)) / 2) with 1 by field. reflexivity.
Qed.

(** Images: the first value chooses the row (from the top) and the second one the column. *)
Theorem C85_image : forall height width pixels u v, (1 <= height)%Z -> (1 <= width)%Z ->
  exists i j, belongs height u i /\ belongs width v j /\ (0 <= i < height)%Z /\ (0 <= j < width)%Z
  /\ call (image_grid height width pixels) (Array [1%Z] [u]) (Array [1%Z] [v])
     = Ok ([1; 4]%Z, [map (fun p => p / 255) (pixels i j)]).
Proof.
  intros height width pixels u v Hh Hw.
  destruct (C47_lookup [u] [v] (image_grid height width pixels) Hh Hw (le_n 1)) as (out & E & L & N).
  destruct (N 0%nat u v eq_refl eq_refl) as (i & j & Hi & Hj & B1 & B2 & Ho). cbn [rows columns image_grid] in Hi, Hj, B1, B2, Ho.
  exists i, j. split; [exact B1|]. split; [exact B2|]. split; [exact Hi|]. split; [exact Hj|].
  unfold call. cbn [bind]. 
  rewrite E. cbn [bind app]. destruct out as [|c [|]]; try discriminate. injection Ho as ->. reflexivity.
Qed.

(** The grid is made once: after a call that made it, changed colours and coordinates have no effect. *)
Theorem C85_cached : forall make st h v l st' rs g,
  (forall x xs, v <> Floats (x :: xs)) -> cm_cached st = None -> make (cm_colors st) (cm_coordinates st) = Ok g ->
  cmap_run make st (Apply h v :: l) = (st', rs) ->
  rs = call g h v :: flat_map (fun o => match o with Apply h' v' => [call g h' v'] | _ => [] end) l.
Proof.
  intros make st h v l st' rs g Hv Hn Hm H. cbn [cmap_run cmap_step] in H.
  assert (K : forall l st st' rs, cm_cached st = Some g -> cmap_run make st l = (st', rs) ->
     rs = flat_map (fun o => match o with Apply h' v' => [call g h' v'] | _ => [] end) l).
  { clear. intros l; induction l as [|o t IH]; intros st st' rs C H.
    - injection H as <- <-. reflexivity.
    - cbn [cmap_run] in H. destruct o as [c|c|h v]; cbn [cmap_step] in H.
      + destruct (cmap_run make _ t) as [s2 r2] eqn:E. injection H as <- <-. apply IH in E; [|exact C]. exact E.
      + destruct (cmap_run make _ t) as [s2 r2] eqn:E. injection H as <- <-. apply IH in E; [|exact C]. exact E.
      + assert (D : (match v with
             | Floats (_ :: _) => (st, Some (Err TypeError))
             | _ => match (match cm_cached st with Some g => Ok g | None => make (cm_colors st) (cm_coordinates st) end) with
                    | Err e => (st, Some (Err e))
                    | Ok g => (mkcmap (cm_colors st) (cm_coordinates st) (Some g), Some (call g h v)) end
             end) = (match v with Floats (_ :: _) => st | _ => mkcmap (cm_colors st) (cm_coordinates st) (Some g) end, Some (call g h v))).
        { rewrite C. destruct v as [s w|[|x w]]; [reflexivity|reflexivity|]. rewrite C47_vertical_list_refuted. reflexivity. }
        rewrite D in H. clear D. destruct (cmap_run make _ t) as [s2 r2] eqn:E. injection H as <- <-.
        apply IH in E; [|destruct v as [s w|[|x w]]; [reflexivity|reflexivity|exact C]]. cbn [flat_map app]. rewrite <- E. reflexivity. }
  rewrite Hn, Hm in H.
  assert (D : forall (A : Type) (p q : A), match v with Floats (_ :: _) => p | _ => q end = q).
  { intros A p q. destruct v as [s w|[|x w]]; [reflexivity|reflexivity|]. exfalso. apply (Hv x w). reflexivity. }
  rewrite D in H. destruct (cmap_run make _ l) as [s2 r2] eqn:E. injection H as <- <-.
  f_equal. refine (K l _ _ _ _ E). reflexivity.
Qed.

(** Before that, they have. *)
Theorem C85_not_cached : forall make st c h v, cm_cached st = None -> (forall x xs, v <> Floats (x :: xs)) ->
  snd (cmap_run make st [SetColors c; Apply h v])
  = [match make c (cm_coordinates st) with Ok g => call g h v | Err e => Err e end].
Proof.
  intros make st c h v Hn Hv. cbn [cmap_run cmap_step cm_cached cm_colors cm_coordinates]. rewrite Hn.
  destruct v as [s w|[|x w]]; try (destruct (make c (cm_coordinates st)); reflexivity). exfalso. apply (Hv x w). reflexivity.
Qed.

(** * Concrete cases *)

Example lookup_case : (length [1 / 2; 2; -1]%R <= length [0; 1; 1 / 3]%R)%nat
                      /\ belongs 3 (1 / 2) 1 /\ belongs 3 2 2.
Proof.
  cbn [length]. unfold belongs. change (3 - 1)%Z with 2%Z.
  repeat split; intros; try lia; try (exfalso; lra); lra.
Qed.

Example points_case : Forall2 completed [[1; 0; 0]; []] [[1; 0; 0; 1]; [0; 0; 0; 1]].
Proof. repeat constructor. Qed.

(** A conversion with the two hues of C85_hue_refuted that keeps lengths. *)
Example hsv_case : let to_hsv := fun c => match c with [r; g; b] => [5 / 6 * b; r; r] | _ => c end in
  (forall c, length c = 3%nat -> length (to_hsv c) = 3%nat)
  /\ to_hsv [1; 0; 0] = [0; 1; 1] /\ to_hsv [1; 0; 1] = [5 / 6; 1; 1].
Proof.
  cbv zeta. repeat split; [|rewrite Rmult_0_r; reflexivity|rewrite Rmult_1_r; reflexivity].
  intros [|r [|g [|b [|]]]] H; try discriminate; reflexivity.
Qed.

(** The grid of the first colour is kept although the colours change. *)
Example cached_case :
  let make := fun (colors : list (list R)) (_ : list (R * R)) => Ok (mkgrid 1 1 (fun _ _ => hd [] colors)) in
  let g := mkgrid 1 1 (fun _ _ => [1]) in
  cmap_run make (mkcmap [[1]] [] None) [Apply (Floats []) (Array [0%Z] []); SetColors [[2]]]
  = (mkcmap [[2]] [] (Some g), [call g (Floats []) (Array [0%Z] [])]).
Proof. reflexivity. Qed.

Print Assumptions C47_lookup.
Print Assumptions C47_own_entry.
Print Assumptions C47_monotone.
Print Assumptions C47_too_few_refuted.
Print Assumptions C47_vertical_list_refuted.
Print Assumptions C60_axes_exchanged.
Print Assumptions C60_bower_refuted.
Print Assumptions C60_components_in_range.
Print Assumptions C60_refused.
Print Assumptions C85_hsv.
Print Assumptions C85_hue_refuted.
Print Assumptions C85_image.
Print Assumptions C85_cached.
Print Assumptions C85_not_cached.
