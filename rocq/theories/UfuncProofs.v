(** Proofs about the labels of ufuncs. *)
From Coq Require Import String List ZArith Bool Reals Lra Lia.
From Verif Require Import Base BaseLemmas CosmoModel CosmoSpec CosmoExactSpec CosmoProofs CosmoTheorems CosmoExactTheorems FuncModel FuncSpec FuncProofs UfuncModel UfuncSpec.
Import ListNotations.
Open Scope R_scope.
Local Open Scope string_scope.

Lemma uop_label : forall a, op_cf (uop_of a) = label_in a.
Proof. intros []; reflexivity. Qed.
Lemma uop_values : forall a, op_vals (uop_of a) = values_in a.
Proof. intros []; reflexivity. Qed.
Lemma uop_labels : forall l, map op_cf (map uop_of l) = map label_in l.
Proof. intros l. rewrite map_map. apply map_ext, uop_label. Qed.

(** * The table *)
Lemma entry_sound : forall u h, In u (names_of h) -> entry u = Ok h.
Proof.
  intros u h H. destruct h; cbn [names_of In] in H;
    repeat (destruct H as [<-|H]; [reflexivity|]); contradiction.
Qed.

Lemma entry_cases : forall u, (exists h, entry u = Ok h /\ In u (names_of h)) \/ (entry u = Err KeyError /\ forall h, ~ In u (names_of h)).
Proof.
  intros u. destruct (entry u) as [h|e] eqn:E.
  - left. exists h. split; [reflexivity|]. unfold entry in E.
    destruct (find (fun p => String.eqb (fst p) u) registry) as [p|] eqn:F; [|discriminate].
    injection E as <-. apply find_some in F. destruct F as [F1 F2]. apply String.eqb_eq in F2. subst u.
    cbn [registry In] in F1.
    repeat (destruct F1 as [<-|F1]; [cbn [fst snd names_of In]; tauto|]). contradiction.
  - right. split.
    + unfold entry in E. destruct (find _ registry); congruence.
    + intros h H. rewrite (entry_sound u h H) in E. discriminate.
Qed.

(** * Kept labels *)
Lemma cf_eq_alike : forall c d, (cf_eq c d = true /\ alike c d) \/ (cf_eq c d = false /\ ~ alike c d).
Proof.
  intros c d. destruct (cf_eq c d) eqn:E; [left|right]; (split; [reflexivity|]).
  - apply C30_equality_exact; exact E.
  - intro A. apply C30_equality_exact in A. congruence.
Qed.

Lemma from_some : forall c t w,
  (forall d, In (Some d) t -> alike c d) ->
  w_preserve_from (Some c, w) t = Ok (Some c, (w ++ repeat c (blanks t))%list).
Proof.
  intros c t. induction t as [|[d|] t IH]; intros w H; cbn [w_preserve_from fst snd w_preserve2].
  - cbn. rewrite app_nil_r. reflexivity.
  - destruct (cf_eq_alike c d) as [[E _]|[_ N]]; [|exfalso; apply N, H; left; reflexivity].
    rewrite E. cbn [negb bind fst snd]. rewrite app_nil_r. rewrite IH; [reflexivity|].
    intros e I. apply H. right; exact I.
  - cbn [bind fst snd]. rewrite IH by (intros e I; apply H; right; exact I).
    unfold blanks. cbn [filter length repeat]. rewrite <- app_assoc. reflexivity.
Qed.
Lemma from_some_bad : forall c t w d,
  In (Some d) t -> ~ alike c d -> w_preserve_from (Some c, w) t = Err ValueError.
Proof.
  intros c t. induction t as [|[e|] t IH]; intros w d I N; cbn [w_preserve_from fst snd w_preserve2].
  - destruct I.
  - destruct (cf_eq_alike c e) as [[E A]|[E _]]; rewrite E; cbn [negb bind]; [|reflexivity].
    destruct I as [I|I]; [injection I as <-; contradiction|]. apply (IH _ d I N).
  - destruct I as [I|I]; [discriminate|]. cbn [bind]. apply (IH _ d I N).
Qed.
Lemma from_none : forall n c t w,
  w_preserve_from (None, w) (repeat None n ++ Some c :: t) = w_preserve_from (Some c, (w ++ [c])%list) t.
Proof.
  induction n as [|n IH]; intros c t w; cbn [repeat app w_preserve_from fst snd w_preserve2 bind]; [reflexivity|].
  rewrite app_nil_r. apply IH.
Qed.
Lemma from_none_all : forall n w, w_preserve_from (None, w) (repeat None n) = Ok (None, w).
Proof.
  induction n as [|n IH]; intros w; cbn [repeat w_preserve_from fst snd w_preserve2 bind]; [reflexivity|].
  rewrite app_nil_r. apply IH.
Qed.
Lemma kept_sound : forall l r, kept l r -> w_preserve l = r.
Proof.
  intros l r [n|n c t H|n c t d I N]; unfold w_preserve.
  - cbn [repeat]. apply from_none_all.
  - destruct n as [|n]; cbn [repeat app].
    + rewrite from_some by exact H. reflexivity.
    + rewrite from_none, from_some by exact H. cbn [app]. replace (Nat.min (S n) 1) with 1%nat by lia. reflexivity.
  - destruct n as [|n]; cbn [repeat app].
    + apply (from_some_bad _ _ _ d I N).
    + rewrite from_none. apply (from_some_bad _ _ _ d I N).
Qed.
Lemma labels_split : forall l : list (option cf), l = repeat None (length l) \/ exists n c t, l = (repeat None n ++ Some c :: t)%list.
Proof.
  induction l as [|[c|] t IH]; [left; reflexivity| |].
  - right. exists 0%nat, c, t. reflexivity.
  - destruct IH as [IH|(n & c & s & ->)].
    + left. cbn [length repeat]. rewrite <- IH. reflexivity.
    + right. exists (S n), c, s. reflexivity.
Qed.
Lemma alike_dec_list : forall c t, (forall d, In (Some d) t -> alike c d) \/ (exists d, In (Some d) t /\ ~ alike c d).
Proof.
  intros c t. induction t as [|[e|] t IH].
  - left. intros d [].
  - destruct (cf_eq_alike c e) as [[_ A]|[_ N]].
    + destruct IH as [H|(d & I & N)].
      * left. intros d [I|I]; [injection I as <-; exact A|apply H; exact I].
      * right. exists d. split; [right; exact I|exact N].
    + right. exists e. split; [left; reflexivity|exact N].
  - destruct IH as [H|(d & I & N)].
    + left. intros d [I|I]; [discriminate|apply H; exact I].
    + right. exists d. split; [right; exact I|exact N].
Qed.
Lemma kept_total : forall l, l <> [] -> exists r, kept l r.
Proof.
  intros l H. destruct (labels_split l) as [E|(n & c & t & ->)].
  - destruct l as [|x t]; [congruence|]. rewrite E. cbn [length]. eexists. apply kp_none.
  - destruct (alike_dec_list c t) as [A|(d & I & N)].
    + eexists. apply kp_some; exact A.
    + eexists. eapply kp_differ; eassumption.
Qed.

(** * Dropped labels *)
Lemma dropped_sound : forall (P : Prop) b x y r, (b = true <-> P) -> dropped P x y r -> w_without2 x y b = r.
Proof.
  intros P b x y r B H. destruct H as [|c N|c N|c S|c S|c d A|c d N]; cbn [w_without2]; try reflexivity.
  - destruct b; [exfalso; apply N, B; reflexivity|reflexivity].
  - destruct b; [exfalso; apply N, B; reflexivity|reflexivity].
  - apply B in S. rewrite S. reflexivity.
  - apply B in S. rewrite S. reflexivity.
  - apply C30_equality_exact in A. rewrite A. reflexivity.
  - destruct (cf_eq_alike c d) as [[_ A]|[E _]]; [contradiction|]. rewrite E. reflexivity.
Qed.
Lemma dropped_total : forall (P : Prop) b x y, (b = true <-> P) -> exists r, dropped P x y r.
Proof.
  intros P b [c|] [d|] B.
  - destruct (cf_eq_alike c d) as [[_ A]|[_ N]]; eexists; [apply dr_alike|apply dr_differ]; assumption.
  - destruct b; eexists; [apply dr_left_silent, B; reflexivity|apply dr_left; intro Q; apply B in Q; discriminate].
  - destruct b; eexists; [apply dr_right_silent, B; reflexivity|apply dr_right; intro Q; apply B in Q; discriminate].
  - eexists. apply dr_none.
Qed.

Lemma zeros : forall v, forallb (Reqb 0) v = true <-> forall x, In x v -> x = 0.
Proof.
  intros v. rewrite forallb_forall. split; intros H x I.
  - symmetry. apply Reqb_true, H, I.
  - apply Reqb_true. symmetry. apply H, I.
Qed.
Lemma is_zero_ok : forall a, ~ a_list a -> exists b, is_zero a = Ok b /\ (b = true <-> all_zero a).
Proof.
  intros [x|v| |v] N; cbn [is_zero].
  - eexists; split; [reflexivity|]. rewrite zeros. unfold all_zero. cbn [values_in].
    split; [intro H; split; [discriminate|exact H]|tauto].
  - eexists; split; [reflexivity|]. rewrite zeros. unfold all_zero. cbn [values_in].
    split; [intro H; split; [discriminate|exact H]|tauto].
  - exists false. split; [reflexivity|]. split; [discriminate|]. intros [H _]. congruence.
  - exfalso. apply N. exists v. reflexivity.
Qed.
Lemma is_zero_list : forall a, a_list a -> is_zero a = Err AttributeError.
Proof. intros a (v & ->). reflexivity. Qed.
Lemma a_list_dec : forall a, a_list a \/ ~ a_list a.
Proof.
  intros [x|v| |v]; [right|right|right|left; exists v; reflexivity]; intros (w & E); discriminate.
Qed.

(** * Every rule *)
Lemma quiet_no_warning : forall r, quiet r = no_warning r.
Proof. intros [c|e]; reflexivity. Qed.
Lemma half : / 2 = 1 / 2. Proof. lra. Qed.
Lemma third : / 3 = 1 / 3. Proof. lra. Qed.
Lemma power_exact : forall p c d r, h_power c d p = r <-> power_label p c d r.
Proof. intros p c d r. apply (proj1 (C29_power_table c d p r)). Qed.

Lemma said_sound : forall h i r, said h i r -> run_handler h (map label_in i) i = r.
Proof.
  intros h i r H.
  destruct H as [h i N|i r K|x|x y r L|x y r L|x y p r V L|x y V|x r L|x r L|x r L|x r L|x|x y r L|x
                |x y r D|x y z r D|x y L|x y r Lx Ly D|x y Ex Ey|x y c Ex Ey|x y c Ex Ey|x y c d Ex Ey A|x y c d Ex Ey A].
  - destruct i as [|a [|b [|c [|d i]]]]; destruct h; cbn [takes length] in N; cbn [map run_handler w_preserve]; try reflexivity;
      try (exfalso; apply N; lia); try (exfalso; apply N; auto; fail).
  - apply kept_sound. exact K.
  - reflexivity.
  - cbn [map run_handler]. apply C29_label_table in L. subst r. unfold h_multiply, reduce. cbn [reduce_from].
    rewrite quiet_no_warning. reflexivity.
  - cbn [map run_handler]. apply C29_label_table in L. subst r. rewrite quiet_no_warning. reflexivity.
  - cbn [map run_handler]. rewrite uop_values, V, quiet_no_warning. apply power_exact in L. rewrite L. reflexivity.
  - cbn [map run_handler]. rewrite uop_values. destruct (values_in y) as [|a [|b l]]; [reflexivity|exfalso; apply V; reflexivity|reflexivity].
  - cbn [map run_handler]. unfold h_sqrt. rewrite half, quiet_no_warning. apply power_exact in L. rewrite L. reflexivity.
  - cbn [map run_handler]. unfold h_square. rewrite quiet_no_warning. apply power_exact in L. rewrite L. reflexivity.
  - cbn [map run_handler]. unfold h_cbrt. rewrite third, quiet_no_warning. apply power_exact in L. rewrite L. reflexivity.
  - cbn [map run_handler]. unfold h_reciprocal. rewrite quiet_no_warning. apply power_exact in L. rewrite L. reflexivity.
  - reflexivity.
  - cbn [map run_handler]. apply C29_label_table in L. subst r. rewrite quiet_no_warning. reflexivity.
  - reflexivity.
  - cbn [map run_handler]. refine (dropped_sound False false _ _ _ _ D). split; [discriminate|tauto].
  - cbn [map run_handler]. refine (dropped_sound (label_in z <> None) _ _ _ _ _ D).
    destruct (label_in z); split; try discriminate; try reflexivity; congruence.
  - cbn [map run_handler]. destruct (a_list_dec x) as [Lx|Nx].
    + rewrite (is_zero_list x Lx). reflexivity.
    + destruct (is_zero_ok x Nx) as (b & E & _). rewrite E. cbn [bind].
      destruct L as [L|L]; [contradiction|]. rewrite (is_zero_list y L). reflexivity.
  - cbn [map run_handler]. destruct (is_zero_ok x Lx) as (b & E & B). destruct (is_zero_ok y Ly) as (b' & E' & B').
    rewrite E, E'. cbn [bind]. refine (dropped_sound _ _ _ _ _ _ D). rewrite orb_true_iff, B, B'. reflexivity.
  - cbn [map run_handler]. rewrite Ex, Ey. reflexivity.
  - cbn [map run_handler]. rewrite Ex, Ey. reflexivity.
  - cbn [map run_handler]. rewrite Ex, Ey. reflexivity.
  - cbn [map run_handler]. rewrite Ex, Ey. cbn [w_arctan2]. apply C30_equality_exact in A. rewrite A. reflexivity.
  - cbn [map run_handler]. rewrite Ex, Ey. cbn [w_arctan2].
    destruct (cf_eq_alike c d) as [[_ A']|[E _]]; [contradiction|]. rewrite E. reflexivity.
Qed.

Lemma bh_total : forall o c d, exists r, label_of o c d r.
Proof. intros o c d. exists (bhandler o c d). apply C29_label_table. reflexivity. Qed.
Lemma pw_total : forall p c d, exists r, power_label p c d r.
Proof. intros p c d. exists (h_power c d p). apply power_exact. reflexivity. Qed.

Lemma said_total : forall h i, (h = HMultiply -> (length i <= 2)%nat) -> exists r, said h i r.
Proof.
  intros h i M.
  assert (T : ~ takes h (length i) -> exists r, said h i r) by (intro N; eexists; apply sd_number; exact N).
  destruct h.
  - destruct i as [|x i]; [apply T; cbn; lia|].
    destruct (kept_total (map label_in (x :: i))) as (r & K); [discriminate|]. exists r. apply sd_kept. exact K.
  - destruct i as [|x [|y [|z i]]].
    + apply T; cbn; lia.
    + eexists. apply sd_one.
    + destruct (bh_total Bmul (label_in x) (label_in y)) as (r & L). eexists. apply sd_product. exact L.
    + specialize (M eq_refl). cbn in M. lia.
  - destruct i as [|x [|y [|z i]]]; try (apply T; cbn; lia).
    destruct (bh_total Bdiv (label_in x) (label_in y)) as (r & L). eexists. apply sd_quotient. exact L.
  - destruct i as [|x [|y [|z i]]]; try (apply T; cbn; lia).
    destruct (values_in y) as [|p [|q l]] eqn:V.
    + eexists. apply sd_powers. rewrite V. cbn. lia.
    + destruct (pw_total p (label_in x) (label_in y)) as (r & L). eexists. eapply sd_power; eassumption.
    + eexists. apply sd_powers. rewrite V. cbn. lia.
  - destruct i as [|x [|y i]]; try (apply T; cbn; lia).
    destruct (pw_total (1 / 2) (label_in x) None) as (r & L). eexists. apply sd_sqrt. exact L.
  - destruct i as [|x [|y i]]; try (apply T; cbn; lia).
    destruct (pw_total 2 (label_in x) None) as (r & L). eexists. apply sd_square. exact L.
  - destruct i as [|x [|y i]]; try (apply T; cbn; lia).
    destruct (pw_total (1 / 3) (label_in x) None) as (r & L). eexists. apply sd_cbrt. exact L.
  - destruct i as [|x [|y i]]; try (apply T; cbn; lia).
    destruct (pw_total (- 1) (label_in x) None) as (r & L). eexists. apply sd_recip. exact L.
  - destruct i as [|x [|y [|z i]]]; try (apply T; cbn; lia).
    + eexists. apply sd_pass1.
    + destruct (bh_total Bmax (label_in x) (label_in y)) as (r & L). eexists. apply sd_pass2. exact L.
  - destruct i as [|x [|y [|z [|w i]]]]; try (apply T; cbn; lia).
    + eexists. apply sd_drop1.
    + destruct (dropped_total False false (label_in x) (label_in y)) as (r & D); [split; [discriminate|tauto]|].
      exists r. apply sd_drop2. exact D.
    + destruct (dropped_total (label_in z <> None) (match label_in z with Some _ => true | None => false end) (label_in x) (label_in y)) as (r & D).
      { destruct (label_in z); split; try discriminate; try reflexivity; congruence. }
      exists r. apply sd_drop3. exact D.
  - destruct i as [|x [|y [|z i]]]; try (apply T; cbn; lia).
    destruct (a_list_dec x) as [Lx|Nx]; [eexists; apply sd_compare_list; left; exact Lx|].
    destruct (a_list_dec y) as [Ly|Ny]; [eexists; apply sd_compare_list; right; exact Ly|].
    destruct (is_zero_ok x Nx) as (b & _ & B). destruct (is_zero_ok y Ny) as (b' & _ & B').
    destruct (dropped_total (all_zero x \/ all_zero y) (b || b') (label_in x) (label_in y)) as (r & D).
    { rewrite orb_true_iff, B, B'. reflexivity. }
    exists r. apply sd_compare; assumption.
  - destruct i as [|x [|y [|z i]]]; try (apply T; cbn; lia).
    destruct (label_in x) as [c|] eqn:Ex, (label_in y) as [d|] eqn:Ey.
    + destruct (cf_eq_alike c d) as [[_ A]|[_ A]]; eexists; [eapply sd_arctan2|eapply sd_arctan2_differ]; eassumption.
    + eexists. apply (sd_arctan2_left x y c); assumption.
    + eexists. apply (sd_arctan2_right x y d); assumption.
    + eexists. apply sd_arctan2_none; assumption.
Qed.

(** * Reductions *)
Lemma counted_sound : forall shape ax r, counted shape ax r -> reduced_number shape ax = r.
Proof.
  intros shape ax r H. destruct H as [ax [->| ->]|i n H|i n L H|z H|l]; cbn [reduced_number]; try reflexivity; unfold extent; cbv zeta.
  - replace (Z.of_nat i <? 0)%Z with false by (symmetry; apply Z.ltb_ge; lia). rewrite Nat2Z.id, H.
    replace (Z.of_nat i <? 0)%Z with false by (symmetry; apply Z.ltb_ge; lia). reflexivity.
  - replace (- Z.of_nat i - 1 <? 0)%Z with true by (symmetry; apply Z.ltb_lt; lia).
    replace (- Z.of_nat i - 1 + Z.of_nat (length shape))%Z with (Z.of_nat (length shape - 1 - i)) by lia.
    replace (Z.of_nat (length shape - 1 - i) <? 0)%Z with false by (symmetry; apply Z.ltb_ge; lia).
    rewrite Nat2Z.id, H. reflexivity.
  - destruct H as [H|H].
    + replace (z <? 0)%Z with true by (symmetry; apply Z.ltb_lt; lia).
      replace (z + Z.of_nat (length shape) <? 0)%Z with true by (symmetry; apply Z.ltb_lt; lia). reflexivity.
    + replace (z <? 0)%Z with false by (symmetry; apply Z.ltb_ge; lia).
      replace (z <? 0)%Z with false by (symmetry; apply Z.ltb_ge; lia).
      replace (nth_error shape (Z.to_nat z)) with (@None Z); [reflexivity|]. symmetry. apply nth_error_None. lia.
Qed.
Lemma counted_total : forall shape ax, exists r, counted shape ax r.
Proof.
  intros shape [| |z|l].
  - eexists. apply ct_all. auto.
  - eexists. apply ct_all. auto.
  - destruct (Z_lt_ge_dec z (- Z.of_nat (length shape))) as [L|L]; [eexists; apply ct_range; lia|].
    destruct (Z_lt_ge_dec z (Z.of_nat (length shape))) as [U|U]; [|eexists; apply ct_range; lia].
    destruct (Z_lt_ge_dec z 0) as [N|N].
    + destruct (nth_error shape (length shape - 1 - Z.to_nat (- z - 1))) as [n|] eqn:E.
      * replace z with (- Z.of_nat (Z.to_nat (- z - 1)) - 1)%Z by lia. eexists. eapply ct_back; [lia|exact E].
      * apply nth_error_None in E. lia.
    + destruct (nth_error shape (Z.to_nat z)) as [n|] eqn:E.
      * replace z with (Z.of_nat (Z.to_nat z)) by lia. eexists. eapply ct_front; exact E.
      * apply nth_error_None in E. lia.
  - eexists. apply ct_tuple.
Qed.

Lemma existsb_names : forall u l, existsb (String.eqb u) l = true <-> In u l.
Proof.
  intros u l. rewrite existsb_exists. split.
  - intros (x & I & E). apply String.eqb_eq in E. subst x. exact I.
  - intro I. exists u. split; [exact I|apply String.eqb_refl].
Qed.
Lemma existsb_names_false : forall u l, existsb (String.eqb u) l = false <-> ~ In u l.
Proof.
  intros u l. rewrite <- existsb_names. destruct (existsb (String.eqb u) l); split; congruence.
Qed.

Lemma labelled_sound : forall u m i r, labelled u m i r -> label_for u m (map label_in i) i = r.
Proof.
  intros u m i r H.
  destruct H as [u h i r N S|u m i N I|u i N|u shape ax|shape ax x i n r C L|shape ax x i n r C L|u shape ax x i e I C
                |u shape ax x i I|u h shape ax x i r N I S]; unfold label_for; cbv zeta.
  - rewrite (entry_sound u h N). cbn [bind]. apply said_sound; exact S.
  - assert (E : entry u = Err KeyError) by (destruct (entry_cases u) as [(h & _ & K)|[E _]]; [exfalso; exact (N h K)|exact E]).
    rewrite E. cbn [bind]. destruct m as [|shape ax]; [reflexivity|].
    destruct i as [|x i]; [congruence|]. cbn [map].
    destruct (existsb (String.eqb u) ["multiply"; "divide"]) eqn:B.
    { apply existsb_names in B. destruct B as [<-|[<-|[]]]; exfalso; [apply (N HMultiply)|apply (N HDivide)]; cbn; auto. }
    destruct (existsb (String.eqb u) ["logical_and"; "logical_or"; "logical_xor"; "logical_not"]) eqn:B'; [|reflexivity].
    apply existsb_names in B'. destruct B' as [<-|[<-|[<-|[<-|[]]]]]; exfalso;
      [apply (N HCompare)|apply (N HCompare)|apply (N HCompare)|apply (N HWithout)]; cbn; tauto.
  - assert (E : entry u = Err KeyError) by (destruct (entry_cases u) as [(h & _ & K)|[E _]]; [exfalso; exact (N h K)|exact E]).
    rewrite E. reflexivity.
  - reflexivity.
  - cbn [map]. change (existsb (String.eqb "multiply") ["multiply"; "divide"]) with true. cbv iota.
    rewrite (counted_sound _ _ _ C). cbn [bind]. change (power_map "multiply" n) with n.
    rewrite quiet_no_warning. apply power_exact in L. rewrite L. reflexivity.
  - cbn [map]. change (existsb (String.eqb "divide") ["multiply"; "divide"]) with true. cbv iota.
    rewrite (counted_sound _ _ _ C). cbn [bind]. change (power_map "divide" n) with (2 - n)%Z.
    rewrite quiet_no_warning. apply power_exact in L. rewrite L. reflexivity.
  - cbn [map]. apply existsb_names in I. rewrite I. rewrite (counted_sound _ _ _ C). reflexivity.
  - cbn [map]. assert (B : existsb (String.eqb u) ["multiply"; "divide"] = false).
    { destruct I as [<-|[<-|[<-|[<-|[]]]]]; reflexivity. }
    rewrite B. apply existsb_names in I. rewrite I. reflexivity.
  - cbn [map]. assert (B : existsb (String.eqb u) ["multiply"; "divide"] = false).
    { apply existsb_names_false. intro Q. apply N. cbn [In] in *. tauto. }
    assert (B' : existsb (String.eqb u) ["logical_and"; "logical_or"; "logical_xor"; "logical_not"] = false).
    { apply existsb_names_false. intro Q. apply N. cbn [In] in *. tauto. }
    rewrite B, B', (entry_sound u h I). cbn [bind]. apply (said_sound h (x :: i) r S).
Qed.

Lemma labelled_total : forall u m i, (length i <= 2)%nat -> exists r, labelled u m i r.
Proof.
  intros u m i L. destruct (entry_cases u) as [(h & _ & N)|[_ N]].
  - destruct (said_total h i (fun _ => L)) as (r & S). destruct m as [|shape ax].
    + exists r. eapply lb_call; eassumption.
    + destruct i as [|x i]; [eexists; apply lb_empty|].
      destruct (existsb (String.eqb u) ["multiply"; "divide"]) eqn:B.
      * apply existsb_names in B. destruct (counted_total shape ax) as ([n|e] & C).
        -- destruct B as [<-|[<-|[]]].
           ++ destruct (pw_total (IZR n) (label_in x) None) as (q & P). eexists. eapply lb_multiply; eassumption.
           ++ destruct (pw_total (IZR (2 - n)) (label_in x) None) as (q & P). eexists. eapply lb_divide; eassumption.
        -- exists (Err e). apply lb_axis; assumption.
      * destruct (existsb (String.eqb u) ["logical_and"; "logical_or"; "logical_xor"; "logical_not"]) eqn:B'.
        -- apply existsb_names in B'. eexists. apply lb_logical. exact B'.
        -- apply existsb_names_false in B, B'. exists r. eapply lb_reduce; [|exact N|exact S].
           intro Q. cbn [In] in *. tauto.
  - destruct m as [|shape ax]; [eexists; apply lb_unknown_call; exact N|].
    destruct i as [|x i]; [eexists; apply lb_empty|]. eexists. apply lb_unknown; [exact N|discriminate].
Qed.
