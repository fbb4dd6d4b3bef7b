From Coq Require Import List ZArith Bool Reals Lia Lra FinFun Sorted.
From Verif Require Import Base AxesModel AxesSpec.
Import ListNotations.
Open Scope R_scope.
Set Default Goal Selector "!".

(** * Lists *)
Lemma Forall2_length : forall B C (P : B -> C -> Prop) l m, Forall2 P l m -> length l = length m.
Proof. intros B C P l m H. induction H; cbn [length]; congruence. Qed.
Lemma remove_mid : forall B (x : list B) y z, remove (length x) (x ++ y :: z) = x ++ z.
Proof. induction x as [|h x IH]; intros; cbn [length remove app]; [reflexivity|now rewrite IH]. Qed.
Lemma put_mid : forall B (x : list B) y z, put_at (length x) y (x ++ z) = x ++ y :: z.
Proof.
  induction x as [|h x IH]; intros; cbn [length put_at app]; [reflexivity|]. now rewrite IH.
Qed.
Lemma split_at : forall B (l : list B) i, (i <= length l)%nat -> exists x z, l = x ++ z /\ length x = i.
Proof.
  intros B l i H. exists (firstn i l), (skipn i l). rewrite firstn_skipn, firstn_length. split; [reflexivity|lia].
Qed.
Lemma split_in : forall B (l : list B) i, (i < length l)%nat -> exists x y z, l = x ++ y :: z /\ length x = i.
Proof.
  intros B l i H. destruct (split_at _ l i) as (x & z & E & L); [lia|]. destruct z as [|y z].
  - rewrite app_nil_r in E. subst. lia.
  - eauto.
Qed.

(** * Sums *)
Lemma sum_to_ext : forall n f g, (forall i, (i < n)%nat -> f i = g i) -> sum_to n f = sum_to n g.
Proof.
  induction n as [|n IH]; intros f g H; cbn [sum_to]; [reflexivity|].
  rewrite (IH f g), (H n); [reflexivity|lia|]. intros; apply H; lia.
Qed.
Lemma sum_to_plus : forall n f g, sum_to n (fun i => f i + g i) = sum_to n f + sum_to n g.
Proof. induction n as [|n IH]; intros; cbn [sum_to]; [lra|rewrite IH; lra]. Qed.
Lemma sum_to_0 : forall n f, (forall i, (i < n)%nat -> f i = 0) -> sum_to n f = 0.
Proof.
  induction n as [|n IH]; intros f H; cbn [sum_to]; [reflexivity|]. rewrite IH, H; [lra|lia|].
  intros; apply H; lia.
Qed.
Lemma sum_to_one : forall n f k, (k < n)%nat -> (forall i, (i < n)%nat -> i <> k -> f i = 0) -> sum_to n f = f k.
Proof.
  induction n as [|n IH]; intros f k L H; [lia|]. cbn [sum_to]. destruct (Nat.eq_dec k n) as [->|D].
  - rewrite sum_to_0; [lra|]. intros; apply H; lia.
  - rewrite (IH f k), (H n); [lra|lia|lia|lia|]. intros; apply H; lia.
Qed.
Lemma total_none : forall {B} (P : B -> bool) (f : B -> R) l, (forall j, In j l -> P j = false) ->
  total (map f (filter P l)) = 0.
Proof.
  induction l as [|j l IH]; intros H; cbn [filter map total fold_right]; [reflexivity|].
  rewrite (H j) by now left. apply IH. intros; apply H; now right.
Qed.
(** Sums over classes. *)
Lemma total_classes : forall {B} n (P : nat -> B -> bool) (Q : B -> bool) (f : B -> R) l,
  (forall j, In j l -> Q j = false -> forall k, (k < n)%nat -> P k j = false) ->
  (forall j, In j l -> Q j = true -> exists k, (k < n)%nat /\ forall i, (i < n)%nat -> P i j = true <-> i = k) ->
  sum_to n (fun k => total (map f (filter (P k) l))) = total (map f (filter Q l)).
Proof.
  induction l as [|j l IH]; intros H0 H1.
  - cbn. apply sum_to_0. reflexivity.
  - specialize (IH (fun j' I => H0 j' (or_intror I)) (fun j' I => H1 j' (or_intror I))).
    assert (E : forall R0 : B -> bool, total (map f (filter R0 (j :: l))) =
                (if R0 j then f j else 0) + total (map f (filter R0 l))).
    { intro R0. cbn [filter]. destruct (R0 j); cbn [map total fold_right]; unfold total; lra. }
    rewrite E. rewrite (sum_to_ext n _ (fun k => (if P k j then f j else 0) + total (map f (filter (P k) l))))
      by (intros; apply E).
    rewrite sum_to_plus, IH. f_equal. destruct (Q j) eqn:Ej.
    + destruct (H1 j (or_introl eq_refl) Ej) as (k & K & U). rewrite (sum_to_one n _ k K).
      * destruct (U k K) as [_ U2]. rewrite (U2 eq_refl). reflexivity.
      * intros i I N. destruct (P i j) eqn:Ep; [|reflexivity]. exfalso. apply N. now apply U.
    + apply sum_to_0. intros i I. now rewrite (H0 j (or_introl eq_refl) Ej i I).
Qed.

(** * Indices *)
Lemma in_indices : forall sh j, In j (indices sh) <-> Forall2 (fun i n => (i < n)%nat) j sh.
Proof.
  induction sh as [|n sh IH]; intros j; cbn [indices].
  - split; [intros [<-|[]]; constructor|]. intros F. inversion F. now left.
  - rewrite in_flat_map. split.
    + intros (i & I & M). apply in_seq in I. apply in_map_iff in M. destruct M as (t & <- & T).
      constructor; [lia|]. now apply IH.
    + intros F. inversion F as [|i n' t sh' I T]; subst. exists i. split; [apply in_seq; lia|].
      apply in_map. now apply IH.
Qed.
Lemma nodup_indices : forall sh, NoDup (indices sh).
Proof.
  induction sh as [|n sh IH]; cbn [indices]; [repeat constructor; intros []|].
  assert (G : forall l, NoDup l -> NoDup (flat_map (fun i => map (cons i) (indices sh)) l)).
  { induction l as [|i l IHl]; intros N; cbn [flat_map]; [constructor|]. inversion N as [|? ? N1 N2]; subst.
    assert (D : forall a b : list (list nat), NoDup a -> NoDup b -> (forall x, In x a -> ~ In x b) -> NoDup (a ++ b)).
    { induction a as [|y a IHa]; intros b A B D; cbn [app]; [exact B|]. inversion A; subst. constructor.
      - rewrite in_app_iff. intros [?|?]; [tauto|]. apply (D y); [now left|assumption].
      - apply IHa; [assumption|assumption|]. intros x X. apply D. now right. }
    apply D; [|now apply IHl|].
    - apply Injective_map_NoDup; [|exact IH]. intros x y E. now injection E.
    - intros x X Y. apply in_map_iff in X. destruct X as (t & <- & _). apply in_flat_map in Y.
      destruct Y as (k & K & M). apply in_map_iff in M. destruct M as (t' & E & _). injection E as -> _. tauto. }
  apply G. apply seq_NoDup.
Qed.
Lemma indices_length : forall sh j, In j (indices sh) -> length j = length sh.
Proof. intros sh j H. apply in_indices in H. now apply Forall2_length in H. Qed.
Lemma along_all : forall j, along (seq 0 (length j)) j = j.
Proof.
  intros j. unfold along. induction j as [|h j IH]; [reflexivity|]. cbn [length seq map nth]. f_equal.
  rewrite <- seq_shift, map_map. exact IH.
Qed.
Lemma along_app : forall a b j, along (a ++ b) j = along a j ++ along b j.
Proof. intros. apply map_app. Qed.
Lemma along_length : forall a j, length (along a j) = length a.
Proof. intros. apply map_length. Qed.

(** [filter] with one member. *)
Lemma total_one : forall {B} (P : B -> bool) (f : B -> R) l k, NoDup l -> In k l ->
  (forall j, In j l -> P j = true <-> j = k) -> total (map f (filter P l)) = f k.
Proof.
  induction l as [|j l IH]; intros k N I U; [destruct I|]. inversion N as [|? ? N1 N2]; subst.
  cbn [filter]. destruct (P j) eqn:Ej.
  - apply U in Ej; [|now left]. subst j. cbn [map total fold_right]. change (fold_right Rplus 0) with total.
    rewrite total_none; [lra|]. intros j J. destruct (P j) eqn:Ej; [|reflexivity]. exfalso.
    apply U in Ej; [|now right]. subst j. tauto.
  - apply IH; [assumption| |].
    + destruct I as [->|I]; [|exact I]. exfalso. destruct (U k (or_introl eq_refl)) as [_ U2].
      rewrite (U2 eq_refl) in Ej. discriminate.
    + intros i J. apply U. now right.
Qed.
Lemma summed_all : forall A (x : nd A) idx, In idx (indices (shape x)) ->
  summed x (seq 0 (length (shape x))) idx = at_ x idx.
Proof.
  intros A x idx I. unfold summed. apply total_one; [apply nodup_indices|exact I|].
  intros j J. rewrite <- (indices_length _ _ J), along_all. destruct (list_eq_dec Nat.eq_dec j idx); split; congruence.
Qed.


Lemma agrees_refl : forall A (x : nd A), agrees x x (seq 0 (length (shape x))).
Proof.
  intros A x. split; [reflexivity|]. split; [now rewrite along_all|]. intros idx I. now rewrite summed_all.
Qed.

Lemma valid_mid : forall sh l r idx p q (m : nat) n, idx = p ++ q -> length p = length l ->
  Forall2 (fun i n0 => (i < n0)%nat) idx (along (l ++ r) sh) -> (m < n)%nat ->
  Forall2 (fun i n0 => (i < n0)%nat) (p ++ m :: q) (along l sh ++ n :: along r sh).
Proof.
  intros sh l r idx p q m n -> L F M. rewrite along_app in F.
  assert (LL : length p = length (along l sh)) by now rewrite along_length.
  clear L. revert LL F. generalize (along l sh) as u. induction p as [|h p IH]; intros [|k u] LL F; try discriminate.
  - constructor; assumption.
  - cbn [app] in *. inversion F; subst. constructor; [assumption|]. apply IH; [now injection LL|assumption].
Qed.

(** One more sum. *)
Definition summing {A} (y : nd A) (p : nat) : nd A :=
  mknd (own y) (remove p (shape y))
       (fun idx => sum_to (nth p (shape y) O) (fun m => at_ y (put_at p m idx))).
Lemma agrees_step : forall A (x y : nd A) before axis after,
  agrees x y (before ++ axis :: after) -> (axis < length (shape x))%nat ->
  agrees x (summing y (length before)) (before ++ after).
Proof.
  intros A x y before axis after (O1 & S1 & V1) LA.
  assert (LB : length before = length (along before (shape x))) by now rewrite along_length.
  assert (SH : shape y = along before (shape x) ++ nth axis (shape x) O :: along after (shape x)).
  { rewrite S1, along_app. reflexivity. }
  split; [exact O1|]. cbn [summing shape at_].
  assert (S2 : remove (length before) (shape y) = along (before ++ after) (shape x)).
  { rewrite SH, LB, remove_mid, along_app. reflexivity. }
  split; [exact S2|]. intros idx I. rewrite S2 in I. apply in_indices in I.
  assert (LI : length idx = (length before + length after)%nat).
  { apply Forall2_length in I. rewrite I, along_length, app_length. reflexivity. }
  destruct (split_at _ idx (length before)) as (p & q & EI & LP); [lia|].
  assert (N : nth (length before) (shape y) O = nth axis (shape x) O).
  { rewrite SH, LB, app_nth2, Nat.sub_diag by lia. reflexivity. }
  rewrite N.
  rewrite (sum_to_ext _ _ (fun m => summed x (before ++ axis :: after) (p ++ m :: q))).
  2:{ intros m M. rewrite <- LP, EI, put_mid. apply V1. apply in_indices. rewrite SH.
      exact (valid_mid (shape x) before after idx p q m _ EI LP I M). }
  unfold summed. apply total_classes.
  - intros j J Q k K. destruct (list_eq_dec Nat.eq_dec (along (before ++ after) j) idx) as [|NE]; [discriminate Q|].
    destruct (list_eq_dec Nat.eq_dec (along (before ++ axis :: after) j) (p ++ k :: q)) as [E|]; [|reflexivity].
    exfalso. apply NE. rewrite along_app in *. cbn [along map] in E. fold (along after j) in E.
    assert (X : remove (length before) (along before j ++ nth axis j O :: along after j)
                = remove (length before) (p ++ k :: q)) by now rewrite E.
    rewrite <- LP in X at 2. rewrite remove_mid in X.
    replace (length before) with (length (along before j)) in X by apply along_length.
    rewrite remove_mid in X. now rewrite X.
  - intros j J Q. destruct (list_eq_dec Nat.eq_dec (along (before ++ after) j) idx) as [E|]; [|discriminate Q].
    exists (nth axis j O). split.
    + apply in_indices in J. clear - J LA. revert axis LA. induction J as [|i n j sh I J IH]; intros axis LA; [cbn in LA; lia|].
      destruct axis as [|axis]; cbn [nth]; [exact I|]. apply IH. cbn in LA. lia.
    + intros i I'. rewrite along_app in E. rewrite EI in E.
      assert (EE : along before j = p /\ along after j = q).
      { assert (L' : length (along before j) = length p) by (rewrite along_length; lia).
        revert L' E. generalize (along before j) as u. clear. induction p as [|h p IH]; intros [|k u] L E; try discriminate; cbn [app] in *; [auto|].
        injection E as -> E. injection L as L. destruct (IH u L E) as [-> ->]. auto. }
      destruct EE as [E1 E2]. rewrite along_app. cbn [along map]. fold (along after j). rewrite E1, E2.
      destruct (list_eq_dec Nat.eq_dec (p ++ nth axis j O :: q) (p ++ i :: q)) as [F|F].
      * split; [intros _|reflexivity]. apply app_inv_head in F. now injection F.
      * split; [discriminate|]. intros ->. now destruct F.
Qed.

Lemma left_below : forall n axes left, left_after n axes left -> Forall (fun i => (i < n)%nat) left /\ (length left <= n)%nat.
Proof.
  intros n axes left H. induction H as [|axes i b x a H IH E|axes i H IH E].
  - split; [|rewrite seq_length; lia]. apply Forall_forall. intros i I. apply in_seq in I. lia.
  - destruct IH as [F L]. rewrite app_length in *. cbn [length] in L. split; [|lia].
    apply Forall_app in F. destruct F as [F1 F2]. inversion F2; subst. apply Forall_app. now split.
  - exact IH.
Qed.

(** The sum over an axis, by cases. *)
Inductive sums_axis {A} (x : nd A) (i : Z) : res (nd A) -> Prop :=
| sa_scalar : shape x = [] -> (i = 0 \/ i = -1)%Z -> sums_axis x i (Ok x)
| sa_sum : forall k, (i = Z.of_nat k \/ i = Z.of_nat k - zlen (shape x))%Z -> (k < length (shape x))%nat ->
    sums_axis x i (Ok (summing x k))
| sa_err : (forall k, (k < length (shape x))%nat -> i <> Z.of_nat k /\ i <> (Z.of_nat k - zlen (shape x))%Z) ->
    (shape x = [] -> i <> 0 /\ i <> -1)%Z -> sums_axis x i (Err IndexError).
Lemma np_sum_sums : forall A (x : nd A) i, sums_axis x i (np_sum x i).
Proof.
  intros A x i. unfold np_sum, ndim.
  destruct ((zlen (shape x) =? 0)%Z && ((i =? 0)%Z || (i =? -1)%Z)) eqn:E0.
  - apply andb_true_iff in E0. destruct E0 as [Z0 I0]. apply Z.eqb_eq in Z0. apply sa_scalar.
    + destruct (shape x); [reflexivity|discriminate Z0].
    + apply orb_true_iff in I0. rewrite !Z.eqb_eq in I0. exact I0.
  - cbn zeta. set (j := (if i <? 0 then zlen (shape x) + i else i)%Z).
    destruct ((j <? 0)%Z || (zlen (shape x) <=? j)%Z) eqn:Ej.
    + apply sa_err.
      * intros k K. unfold j, zlen in *. apply orb_true_iff in Ej. rewrite Z.ltb_lt, Z.leb_le in Ej.
        destruct (i <? 0)%Z eqn:Ei; [apply Z.ltb_lt in Ei|apply Z.ltb_ge in Ei]; lia.
      * intros S0. rewrite S0 in E0. cbn [zlen length Z.of_nat] in E0. rewrite Z.eqb_refl in E0. cbn [andb] in E0.
        apply orb_false_iff in E0. rewrite !Z.eqb_neq in E0. exact E0.
    + apply orb_false_iff in Ej. rewrite Z.ltb_ge, Z.leb_gt in Ej.
      apply (sa_sum x i (Z.to_nat j)); unfold j, zlen in *;
        destruct (i <? 0)%Z eqn:Ei; [apply Z.ltb_lt in Ei|apply Z.ltb_ge in Ei| |]; lia.
Qed.

(** * All sums *)

Lemma left_prefix : forall n axes i left, left_after n (axes ++ [i]) left -> exists l, left_after n axes l.
Proof.
  intros n axes i left H. inversion H as [E|a j b x af H' J E|a j H' J E]; subst.
  - destruct axes; discriminate.
  - apply app_inj_tail in E. destruct E as [-> _]. eauto.
  - apply app_inj_tail in E. destruct E as [-> _]. eauto.
Qed.
Lemma left_prefixes : forall n more axes left, left_after n (axes ++ more) left -> exists l, left_after n axes l.
Proof.
  intros n more. induction more as [|i more IH] using rev_ind; intros axes left H.
  - rewrite app_nil_r in H. eauto.
  - rewrite app_assoc in H. destruct (left_prefix _ _ _ _ H) as (l & L). eauto.
Qed.
Lemma left_length : forall n axes left, left_after n axes left -> length left = (n - length axes)%nat.
Proof.
  intros n axes left H. induction H as [|axes i b x a H IH E|axes i H IH E].
  - rewrite seq_length. cbn [length]. lia.
  - rewrite !app_length in *. cbn [length] in *. lia.
  - rewrite app_length. cbn [length] in *. lia.
Qed.
Lemma app_len_inj : forall B (a b c d : list B), length a = length c -> a ++ b = c ++ d -> a = c /\ b = d.
Proof.
  induction a as [|x a IH]; intros b [|y c] d L E; try discriminate; cbn [app] in E; [auto|].
  injection E as -> E. injection L as L. destruct (IH b c d L E) as [-> ->]. auto.
Qed.
Lemma left_unique : forall n axes l1, left_after n axes l1 -> forall l2, left_after n axes l2 -> l1 = l2.
Proof.
  intros n axes l1 H. induction H as [|axes i b x a H IH E|axes i H IH E]; intros l2 H2.
  - inversion H2 as [E2|axes' i' b' x' a' H2' J E2|axes' i' H2' J E2]; [reflexivity| |]; destruct axes'; discriminate.
  - inversion H2 as [E2|axes' i' b' x' a' H2' J E2|axes' i' H2' J E2]; [destruct axes; discriminate| |].
    + apply app_inj_tail in E2. destruct E2 as [-> ->]. specialize (IH _ H2').
      assert (L : length b = length b').
      { apply (f_equal (@length nat)) in IH. rewrite !app_length in IH. cbn [length] in IH. lia. }
      destruct (app_len_inj _ _ _ _ _ L IH) as [-> F]. injection F as _ ->. reflexivity.
    + apply app_inj_tail in E2. destruct E2 as [-> ->]. specialize (IH _ H2'). destruct b; discriminate.
  - inversion H2 as [E2|axes' i' b' x' a' H2' J E2|axes' i' H2' J E2]; [destruct axes; discriminate| |reflexivity].
    apply app_inj_tail in E2. destruct E2 as [-> ->]. specialize (IH _ H2'). destruct b'; discriminate.
Qed.

Lemma sum_outcome : forall A (x y : nd A) done left i, left_after (length (shape x)) done left -> agrees x y left ->
  outcome x (done ++ [i]) (np_sum y i).
Proof.
  intros A x y done left i L G. pose proof (np_sum_sums A y i) as S. destruct G as (O1 & S1 & V1).
  assert (LY : length (shape y) = length left) by (rewrite S1; apply along_length).
  inversion S as [S0 I0 E|k I0 K E|N0 N1 E].
  - cbn [outcome]. assert (left = []) as -> by (destruct left; [reflexivity|rewrite S0 in LY; discriminate]).
    exists []. split; [now apply la_scalar|]. repeat split; assumption.
  - cbn [outcome]. destruct (split_in _ left k) as (b & axis & a & -> & LB); [lia|]. exists (b ++ a). split.
    + apply (la_next _ done i b axis a L). rewrite LB. unfold zlen in I0.
      rewrite LY, app_length in I0. cbn [length] in I0. lia.
    + rewrite <- LB. apply (agrees_step A x y b axis a); [repeat split; assumption|].
      destruct (left_below _ _ _ L) as [F _]. apply Forall_app in F. destruct F as [_ F]. now inversion F.
  - cbn [outcome]. split; [reflexivity|]. intros l' L'.
    inversion L' as [E2|axes' i' b' x' a' H2' J E2|axes' i' H2' J E2]; [destruct done; discriminate| |].
    + apply app_inj_tail in E2. destruct E2 as [-> ->].
      pose proof (left_unique _ _ _ L _ H2') as ->. rewrite app_length in LY. cbn [length] in LY.
      destruct (N0 (length b')) as [Q1 Q2]; [lia|]. unfold zlen in Q2. rewrite LY in Q2. lia.
    + apply app_inj_tail in E2. destruct E2 as [-> ->].
      pose proof (left_unique _ _ _ L _ H2') as ->. destruct N1; [now destruct (shape y)|]. lia.
Qed.

Lemma over_list_sums : forall A axes (x y : nd A) done left, united x ->
  left_after (length (shape x)) done left -> agrees x y left -> axes <> [] ->
  outcome x (done ++ axes) (over_list np_sum y axes).
Proof.
  intros A axes. induction axes as [|i rest IH]; intros x y done left U L G NE; [congruence|].
  assert (UY : own y <> Numpy) by (destruct G as [-> _]; exact U).
  pose proof (sum_outcome A x y done left i L G) as S. cbn [over_list].
  assert (R : outcome x (done ++ i :: rest)
     (do r <- np_sum y i; match rest with [] => Ok r | _ => over_list np_sum r rest end)).
  { destruct (np_sum y i) as [r|e]; cbn [bind outcome] in *.
    - destruct S as (l' & L' & G'). destruct rest as [|i' rest']; [cbn [outcome]; eauto|].
      replace (done ++ i :: i' :: rest') with ((done ++ [i]) ++ i' :: rest') by now rewrite <- app_assoc.
      apply (IH x r _ l' U L' G'). discriminate.
    - destruct S as [-> N]. split; [reflexivity|]. intros l' L'.
      replace (done ++ i :: rest) with ((done ++ [i]) ++ rest) in L' by now rewrite <- app_assoc.
      apply left_prefixes in L'. destruct L' as (l2 & L2). exact (N l2 L2). }
  destruct (own y); [exact R|exact R|congruence].
Qed.

Lemma apply_sums : forall A (x : nd A) axes, united x -> axes <> [] ->
  outcome x axes (apply_over_axes np_sum x (Many axes)).
Proof.
  intros A x axes U NE. pose proof (over_list_sums A axes x x [] _ U (la_none _) (agrees_refl A x) NE) as H.
  cbn [app] in H. unfold apply_over_axes. unfold united in U. destruct (own x); [exact H|exact H|congruence].
Qed.

(** * Axes in decreasing order *)
Lemma kept_nil : forall n, kept n [] = seq 0 n.
Proof.
  intros n. unfold kept. induction (seq 0 n) as [|i l IH]; [reflexivity|]. cbn [filter in_dec]. now rewrite IH.
Qed.
Lemma filter_same : forall B (P Q : B -> bool) l, (forall x, In x l -> P x = Q x) -> filter P l = filter Q l.
Proof. intros. now apply filter_ext_in. Qed.
Lemma filter_all : forall B (P : B -> bool) l, (forall x, In x l -> P x = true) -> filter P l = l.
Proof.
  induction l as [|x l IH]; intros H; [reflexivity|]. cbn [filter]. rewrite H by now left. f_equal. apply IH.
  intros; apply H; now right.
Qed.
Lemma decreasing_left : forall n axes, (forall i, In i axes -> (i < n)%nat) -> StronglySorted gt axes ->
  left_after n (map Z.of_nat axes) (kept n axes).
Proof.
  intros n axes. induction axes as [|i axes IH] using rev_ind; intros B SS.
  - rewrite kept_nil. apply la_none.
  - assert (BI : (i < n)%nat) by (apply B, in_app_iff; right; now left).
    assert (SA : StronglySorted gt axes /\ forall j, In j axes -> (j > i)%nat).
    { clear - SS. induction axes as [|j axes IH]; [split; [constructor|intros ? []]|]. cbn [app] in SS. inversion SS as [|? ? S1 F]; subst.
      destruct (IH S1) as [S2 G]. apply Forall_app in F. destruct F as [F1 F2]. inversion F2; subst. split.
      - now constructor.
      - intros k [<-|K]; [assumption|now apply G]. }
    destruct SA as [S1 G].
    assert (L : left_after n (map Z.of_nat axes) (kept n axes)).
    { apply IH; [|exact S1]. intros j J. apply B, in_app_iff. now left. }
    assert (E : kept n axes = seq 0 i ++ i :: filter (fun j => if in_dec Nat.eq_dec j axes then false else true) (seq (S i) (n - S i))).
    { unfold kept. replace n with (i + S (n - S i))%nat at 1 by lia. rewrite seq_app, filter_app. cbn [seq Nat.add filter].
      rewrite (filter_all _ _ (seq 0 i)).
      - destruct (in_dec Nat.eq_dec i axes) as [I|_]; [|reflexivity]. apply G in I. lia.
      - intros j J. apply in_seq in J. destruct (in_dec Nat.eq_dec j axes) as [I|_]; [|reflexivity]. apply G in I. lia. }
    assert (E2 : kept n (axes ++ [i]) = seq 0 i ++ filter (fun j => if in_dec Nat.eq_dec j axes then false else true) (seq (S i) (n - S i))).
    { unfold kept. replace n with (i + S (n - S i))%nat at 1 by lia. rewrite seq_app, filter_app. cbn [seq Nat.add filter].
      rewrite (filter_all _ _ (seq 0 i)).
      - f_equal. destruct (in_dec Nat.eq_dec i (axes ++ [i])) as [_|N]; [|exfalso; apply N, in_app_iff; right; now left].
        apply filter_same. intros j J. apply in_seq in J.
        destruct (in_dec Nat.eq_dec j (axes ++ [i])) as [I|N]; destruct (in_dec Nat.eq_dec j axes) as [I'|N']; try reflexivity.
        + exfalso. apply in_app_iff in I. destruct I as [I|[I|[]]]; [tauto|lia].
        + exfalso. apply N, in_app_iff. now left.
      - intros j J. apply in_seq in J. destruct (in_dec Nat.eq_dec j (axes ++ [i])) as [I|_]; [|reflexivity].
        apply in_app_iff in I. destruct I as [I|[I|[]]]; [apply G in I; lia|lia]. }
    rewrite E2, map_app. cbn [map]. rewrite E in L. apply (la_next _ _ _ (seq 0 i) i _ L).
    left. now rewrite seq_length.
Qed.

(** * numpy's own function *)

Lemma nth_flat : forall n axes sh i, (i < n)%nat ->
  nth i (flat n axes sh) O = if in_dec Nat.eq_dec i axes then 1%nat else nth i sh O.
Proof.
  intros n axes sh i I. unfold flat.
  set (g := fun i0 => if in_dec Nat.eq_dec i0 axes then 1%nat else nth i0 sh O).
  rewrite (nth_indep (map g (seq 0 n)) O (g O)) by (rewrite map_length, seq_length; exact I).
  rewrite (map_nth g), seq_nth by exact I. reflexivity.
Qed.
Lemma flat_length : forall n axes sh, length (flat n axes sh) = n.
Proof. intros. unfold flat. now rewrite map_length, seq_length. Qed.
Lemma along_eq : forall l j k, along l j = along l k <-> forall i, In i l -> nth i j O = nth i k O.
Proof.
  intros l j k. unfold along. split.
  - induction l as [|h l IH]; intros E i I; [destruct I|]. cbn [map] in E. injection E as E1 E2.
    destruct I as [<-|I]; [exact E1|]. now apply IH.
  - intros H. apply map_ext_in. exact H.
Qed.
Lemma in_kept : forall n axes i, In i (kept n axes) <-> (i < n)%nat /\ ~ In i axes.
Proof.
  intros n axes i. unfold kept. rewrite filter_In, in_seq. destruct (in_dec Nat.eq_dec i axes) as [I|N].
  - split; [intros [_ X]; discriminate X|tauto].
  - split; [intros [X _]; split; [lia|exact N]|intros [X _]; split; [lia|reflexivity]].
Qed.
Lemma nth_upd_same : forall B (l : list B) k b d, (k < length l)%nat -> nth k (upd k b l) d = b.
Proof. induction l as [|h l IH]; intros [|k] b d L; cbn in *; try lia; [reflexivity|apply IH; lia]. Qed.
Lemma nth_upd_other : forall B (l : list B) k i b d, i <> k -> nth i (upd k b l) d = nth i l d.
Proof.
  induction l as [|h l IH]; intros [|k] [|i] b d N; cbn; try reflexivity; try congruence. apply IH. congruence.
Qed.
Lemma upd_length : forall B (l : list B) k b, length (upd k b l) = length l.
Proof. induction l as [|h l IH]; intros [|k] b; cbn; try reflexivity. now rewrite IH. Qed.
Lemma put_remove : forall B (l : list B) k b, (k < length l)%nat -> put_at k b (remove k l) = upd k b l.
Proof. induction l as [|h l IH]; intros [|k] b L; cbn in *; try lia; [reflexivity|]. rewrite IH; [reflexivity|lia]. Qed.
Lemma remove_length : forall B (l : list B) k, (k < length l)%nat -> length (remove k l) = pred (length l).
Proof.
  induction l as [|h l IH]; intros [|k] L; cbn in *; try lia. rewrite IH by lia. destruct l; cbn in *; lia.
Qed.

Lemma kept_step : forall A (x y : nd A) axes k, kept_sums x y axes -> (k < length (shape x))%nat ->
  kept_sums x (expand k (summing y k)) (axes ++ [k]).
Proof.
  intros A x y axes k (O1 & S1 & V1) K. unfold kept_sums. set (n := length (shape x)) in *.
  assert (LY : length (shape y) = n) by (rewrite S1; unfold flat; now rewrite map_length, seq_length).
  assert (NY : forall i, (i < n)%nat -> nth i (shape y) O = if in_dec Nat.eq_dec i axes then 1%nat else nth i (shape x) O).
  { intros i I. rewrite S1. now apply nth_flat. }
  split; [exact O1|]. cbn [expand summing shape at_].
  assert (S2 : put_at k 1%nat (remove k (shape y)) = flat n (axes ++ [k]) (shape x)).
  { rewrite put_remove by lia. apply (nth_ext _ _ O O).
    - now rewrite upd_length, LY, flat_length.
    - intros i I. rewrite upd_length, LY in I. rewrite nth_flat by exact I. destruct (Nat.eq_dec i k) as [->|NE].
      + rewrite nth_upd_same by lia. destruct (in_dec Nat.eq_dec k (axes ++ [k])) as [_|N]; [reflexivity|].
        exfalso. apply N, in_app_iff. right. now left.
      + rewrite nth_upd_other, NY by assumption.
        destruct (in_dec Nat.eq_dec i axes) as [I1|N1]; destruct (in_dec Nat.eq_dec i (axes ++ [k])) as [I2|N2]; try reflexivity.
        * exfalso. apply N2, in_app_iff. now left.
        * exfalso. apply in_app_iff in I2. destruct I2 as [I2|[I2|[]]]; [tauto|congruence]. }
  split; [exact S2|]. intros idx I. rewrite S2 in I. apply in_indices in I.
  assert (LI : length idx = n).
  { apply Forall2_length in I. rewrite I. apply flat_length. }
  assert (VI : forall i, (i < n)%nat -> (nth i idx O < if in_dec Nat.eq_dec i (axes ++ [k]) then 1%nat else nth i (shape x) O)%nat).
  { intros i Hi. assert (X : (nth i idx O < nth i (flat n (axes ++ [k]) (shape x)) O)%nat).
    { assert (LL : (i < length idx)%nat) by lia. clear - I LL. revert i LL. induction I as [|a b l l' H F IH]; intros [|i] LL; cbn in *; try lia. apply IH. lia. }
    rewrite nth_flat in X by exact Hi. exact X. }
  rewrite (sum_to_ext _ _ (fun m => summed x (kept n axes) (along (kept n axes) (upd k m idx)))).
  2:{ intros m M. rewrite put_remove by lia. apply V1. apply in_indices. rewrite S1.
      assert (F : forall l l', length l = length l' -> (forall i, (i < length l)%nat -> (nth i l O < nth i l' O)%nat) -> Forall2 (fun i n0 => (i < n0)%nat) l l').
      { induction l as [|h l IH]; intros [|h' l'] L H; try discriminate; constructor.
        - apply (H O). cbn. lia.
        - apply IH; [now injection L|]. intros i Hi. apply (H (S i)). cbn. lia. }
      apply F.
      - rewrite upd_length, LI. unfold flat. now rewrite map_length, seq_length.
      - intros i Hi. rewrite upd_length, LI in Hi. rewrite <- S1, NY by exact Hi. destruct (Nat.eq_dec i k) as [->|NE].
        + rewrite nth_upd_same by lia. rewrite NY in M by lia. exact M.
        + rewrite nth_upd_other by exact NE. specialize (VI i Hi).
          destruct (in_dec Nat.eq_dec i axes) as [I1|N1]; destruct (in_dec Nat.eq_dec i (axes ++ [k])) as [I2|N2]; try exact VI.
          * exfalso. apply N2, in_app_iff. now left.
          * exfalso. apply in_app_iff in I2. destruct I2 as [I2|[I2|[]]]; [tauto|congruence]. }
  rewrite NY by exact K. destruct (in_dec Nat.eq_dec k axes) as [KA|KA].
  - cbn [sum_to]. rewrite Rplus_0_l.
    assert (EK : kept n (axes ++ [k]) = kept n axes).
    { apply filter_same. intros j _. destruct (in_dec Nat.eq_dec j (axes ++ [k])) as [I1|N1]; destruct (in_dec Nat.eq_dec j axes) as [I2|N2]; try reflexivity.
      - exfalso. apply in_app_iff in I1. destruct I1 as [I1|[I1|[]]]; [tauto|congruence].
      - exfalso. apply N1, in_app_iff. now left. }
    rewrite EK. f_equal. apply along_eq. intros i Hi. apply in_kept in Hi. apply nth_upd_other. intros ->. tauto.
  - unfold summed. apply total_classes.
    + intros j J Q m M.
      destruct (list_eq_dec Nat.eq_dec (along (kept n (axes ++ [k])) j) (along (kept n (axes ++ [k])) idx)) as [|NE]; [discriminate Q|].
      destruct (list_eq_dec Nat.eq_dec (along (kept n axes) j) (along (kept n axes) (upd k m idx))) as [E|]; [|reflexivity].
      exfalso. apply NE. apply along_eq. intros i Hi. apply in_kept in Hi. destruct Hi as [Hi N].
      assert (NK : i <> k) by (intros ->; apply N, in_app_iff; right; now left).
      rewrite (proj1 (along_eq _ _ _) E i); [now apply nth_upd_other|]. apply in_kept. split; [exact Hi|].
      intros Hc. apply N, in_app_iff. now left.
    + intros j J Q.
      destruct (list_eq_dec Nat.eq_dec (along (kept n (axes ++ [k])) j) (along (kept n (axes ++ [k])) idx)) as [E|]; [|discriminate Q].
      exists (nth k j O). split.
      * apply in_indices in J. unfold n in K. clear - J K. revert k K. induction J as [|i m j sh I J IH]; intros k K; [cbn in K; lia|].
        destruct k as [|k]; cbn [nth]; [exact I|]. apply IH. cbn in K. lia.
      * intros m M. destruct (list_eq_dec Nat.eq_dec (along (kept n axes) j) (along (kept n axes) (upd k m idx))) as [F|F].
        -- split; [intros _|reflexivity]. assert (HK : In k (kept n axes)) by (apply in_kept; tauto).
           pose proof (proj1 (along_eq _ _ _) F k HK) as X. rewrite nth_upd_same in X by lia. congruence.
        -- split; [discriminate|]. intros ->. exfalso. apply F. apply along_eq. intros i Hi. apply in_kept in Hi.
           destruct (Nat.eq_dec i k) as [->|NK]; [now rewrite nth_upd_same by lia|]. rewrite nth_upd_other by exact NK.
           apply (proj1 (along_eq _ _ _) E). apply in_kept. split; [tauto|]. intros Hc. apply in_app_iff in Hc.
           destruct Hc as [Hc|[Hc|[]]]; [tauto|congruence].
Qed.


Lemma numpy_loop_sums : forall A axes ks (x y : nd A) done, Forall2 (meant (length (shape x))) axes ks ->
  kept_sums x y done ->
  exists r, numpy_loop np_sum (zlen (shape x)) axes y = Ok r /\ kept_sums x r (done ++ ks).
Proof.
  intros A axes. induction axes as [|i axes IH]; intros ks x y done F G.
  - inversion F; subst. exists y. rewrite app_nil_r. split; [reflexivity|exact G].
  - inversion F as [|? k ? ks' (K & M) F']; subst.
    assert (LY : length (shape y) = length (shape x)).
    { destruct G as (_ & -> & _). unfold flat. now rewrite map_length, seq_length. }
    assert (J : (if i <? 0 then zlen (shape x) + i else i)%Z = Z.of_nat k).
    { unfold zlen. destruct (i <? 0)%Z eqn:E; [apply Z.ltb_lt in E|apply Z.ltb_ge in E]; lia. }
    cbn [numpy_loop]. rewrite J.
    assert (SU : np_sum y (Z.of_nat k) = Ok (summing y k)).
    { unfold np_sum, ndim, zlen. rewrite LY.
      replace (Z.of_nat (length (shape x)) =? 0)%Z with false by (symmetry; apply Z.eqb_neq; lia). cbn [andb].
      replace (Z.of_nat k <? 0)%Z with false by (symmetry; apply Z.ltb_ge; lia). cbn zeta.
      replace (Z.of_nat k <? 0)%Z with false by (symmetry; apply Z.ltb_ge; lia).
      replace (Z.of_nat (length (shape x)) <=? Z.of_nat k)%Z with false by (symmetry; apply Z.leb_gt; lia).
      cbn [orb]. rewrite Nat2Z.id. reflexivity. }
    rewrite SU. cbn [bind]. unfold ndim, zlen. cbn [summing shape]. rewrite remove_length by lia.
    replace (Z.of_nat (pred (length (shape y))) =? Z.of_nat (length (shape y)))%Z with false by (symmetry; apply Z.eqb_neq; lia).
    replace (Z.of_nat k <? 0)%Z with false by (symmetry; apply Z.ltb_ge; lia).
    replace (Z.of_nat (pred (length (shape y))) <? Z.of_nat k)%Z with false by (symmetry; apply Z.ltb_ge; lia).
    cbn [orb]. rewrite Nat2Z.id. cbn zeta. cbn [expand summing shape]. rewrite put_remove by lia. rewrite upd_length, Z.eqb_refl.
    pose proof (kept_step A x y done k G K) as G2. cbn [expand summing shape] in G2.
    destruct (IH ks' x _ (done ++ [k]) F' G2) as (r & E & G3). exists r.
    rewrite <- app_assoc in G3. split; [|exact G3]. unfold zlen in E. rewrite <- E. f_equal.
Qed.
Lemma kept_sums_refl : forall A (x : nd A), kept_sums x x [].
Proof.
  intros A x. split; [reflexivity|]. split.
  - unfold flat. change (fun i => if in_dec Nat.eq_dec i [] then 1%nat else nth i (shape x) O) with (fun i => nth i (shape x) O).
    symmetry. exact (along_all (shape x)).
  - intros idx I. rewrite kept_nil. rewrite <- (indices_length _ _ I) at 2. rewrite along_all. now rewrite summed_all.
Qed.
