From Coq Require Import List Bool Arith Lia.
From Verif Require Import Base HandleModel.
Import ListNotations.

Definition all_open (w : world) : Prop := Forall (fun b => b = true) (w_uses w).

(** Nothing happened to the handles; objects may have been added. *)
Definition same (w w' : world) : Prop :=
  w_open w' = w_open w /\ w_user w' = w_user w /\ w_fail w' = w_fail w
  /\ exists new, w_objs w' = w_objs w ++ new.

Lemma same_refl : forall w, same w w.
Proof. intro w. repeat split; auto. exists []. rewrite app_nil_r. reflexivity. Qed.

Lemma same_trans : forall a b c, same a b -> same b c -> same a c.
Proof.
  intros a b c (A1 & A2 & A3 & n & A4) (B1 & B2 & B3 & m & B4).
  repeat split; try congruence. exists (n ++ m). rewrite B4, A4, app_assoc. reflexivity.
Qed.

Lemma same_open : forall w w' h, same w w' -> is_open w' h = is_open w h.
Proof. intros w w' h (H & _). unfold is_open. rewrite H. reflexivity. Qed.

Lemma same_obj : forall w w' o p, same w w' -> nth_error (w_objs w) o = Some p ->
  nth_error (w_objs w') o = Some p.
Proof.
  intros w w' o p (_ & _ & _ & n & H) Ho. rewrite H, nth_error_app1; auto.
  apply nth_error_Some. congruence.
Qed.

Definition keeps (I : world -> Prop) {A} (m : M A) : Prop := forall w, I w -> I (fst (m w)).

Lemma keeps_bind : forall I A B (m : M A) (f : A -> M B),
  keeps I m -> (forall a, keeps I (f a)) -> keeps I (mbind m f).
Proof.
  intros I A B m f Hm Hf w H. unfold mbind. specialize (Hm w H). destruct (m w) as [w1 [a|e]]; cbn in *; auto.
  apply Hf. exact Hm.
Qed.

Lemma keeps_ret : forall I A (a : A), keeps I (ret a).
Proof. intros I A a w H. exact H. Qed.

Lemma keeps_repeatM : forall I l, Forall (keeps I) l -> keeps I (repeatM l).
Proof.
  intros I l H. induction H as [|m t Hm Ht IH]; [apply keeps_ret|]. cbn [repeatM].
  apply keeps_bind; auto.
Qed.

Lemma bind_assoc : forall A B C (m : M A) (f : A -> M B) (g : B -> M C) w,
  mbind (mbind m f) g w = mbind m (fun a => mbind (f a) g) w.
Proof. intros. unfold mbind. destruct (m w) as [w1 [a|e]]; reflexivity. Qed.

Lemma bind_ext : forall A B (m : M A) (f g : A -> M B) w,
  (forall a w1, f a w1 = g a w1) -> mbind m f w = mbind m g w.
Proof. intros. unfold mbind. destruct (m w) as [w1 [a|e]]; auto. Qed.

(** Code that, given an open handle, leaves all handles alone. *)
Definition frozen (h : nat) {A} (m : M A) : Prop :=
  forall w, is_open w h = true -> all_open w -> same w (fst (m w)) /\ all_open (fst (m w)).

Lemma frozen_ret : forall h A (a : A), frozen h (ret a).
Proof. intros h A a w _ H. split; [apply same_refl|exact H]. Qed.

Lemma frozen_bind : forall h A B (m : M A) (f : A -> M B),
  frozen h m -> (forall a, frozen h (f a)) -> frozen h (mbind m f).
Proof.
  intros h A B m f Hm Hf w Ho Ha. unfold mbind. destruct (Hm w Ho Ha) as (H1 & H2).
  destruct (m w) as [w1 [a|e]]; cbn in *; [|auto].
  destruct (Hf a w1) as (H3 & H4); auto; [rewrite (same_open _ _ _ H1); auto|].
  split; auto. eapply same_trans; eauto.
Qed.

Lemma frozen_access : forall h, frozen h (access h).
Proof.
  intros h w Ho Ha. unfold access. rewrite Ho. cbn [negb].
  assert (S : forall t, same w (mkworld (w_open w) (w_user w) (w_objs w) (true :: w_uses w) t (w_fail w))).
  { intro t. repeat split; auto. exists []. cbn. rewrite app_nil_r. reflexivity. }
  destruct (fault w); cbn [fst]; (split; [apply S | constructor; auto]).
Qed.

Lemma frozen_new : forall h x, frozen h (new_prov x).
Proof.
  intros h x w Ho Ha. cbn. split; [|exact Ha]. repeat split; auto. eexists. reflexivity.
Qed.

Lemma frozen_repeatM : forall h l, Forall (frozen h) l -> frozen h (repeatM l).
Proof.
  intros h l H. induction H as [|m t Hm Ht IH]; [apply frozen_ret|]. cbn [repeatM].
  apply frozen_bind; auto.
Qed.

(** Invariants of the body of a constructor for object [o] whose handle is, once open, [hh]. *)
Definition stable (o hh : nat) (I : world -> Prop) : Prop :=
  (forall w, I w -> all_open w)
  /\ (forall w, I w -> I (fst (get_handle o w))
        /\ match snd (get_handle o w) with
           | Ok h => h = hh /\ is_open (fst (get_handle o w)) hh = true
           | Err _ => True end)
  /\ (forall w w', I w -> is_open w hh = true -> same w w' -> all_open w' -> I w').

Lemma stable_with : forall o hh I A (m : nat -> M A), stable o hh I -> frozen hh (m hh) ->
  keeps I (mbind (get_handle o) m).
Proof.
  intros o hh I A m (S1 & S2 & S3) Hf w H. unfold mbind. destruct (S2 w H) as (H1 & H2).
  destruct (get_handle o w) as [w1 [h|e]]; cbn in *; [|auto].
  destruct H2 as (-> & Ho). destruct (Hf w1 Ho (S1 _ H1)) as (F1 & F2).
  eapply S3; eauto.
Qed.

Lemma stable_use : forall o hh I, stable o hh I -> keeps I (use o).
Proof. intros o hh I H. unfold use. apply (stable_with o hh); auto. apply frozen_access. Qed.

Lemma keeps_catch : forall I m, keeps I m -> keeps I (catch_key m).
Proof. intros I m H w Hw. unfold catch_key. specialize (H w Hw). destruct (m w) as [w1 [a|[]]]; auto. Qed.

Lemma stable_uses : forall o hh I l, stable o hh I -> keeps I (uses l o).
Proof.
  intros o hh I l H. induction l as [|c t IH]; [apply keeps_ret|]. cbn [uses].
  apply keeps_bind; auto. unfold use_key. destruct c; [apply keeps_catch|]; eapply stable_use; eauto.
Qed.

(** A constructor that was handed an open handle. *)
Definition inv_lent (o h : nat) (w0 w : world) : Prop :=
  same w0 w /\ all_open w /\ nth_error (w_objs w) o = Some (mkprov (Some h) false).

Lemma stable_lent : forall o h w0, is_open w0 h = true -> stable o h (inv_lent o h w0).
Proof.
  intros o h w0 H0. split; [|split].
  - intros w (_ & H & _). exact H.
  - intros w (H1 & H2 & H3). unfold get_handle. rewrite H3. cbn [p_handle truthy].
    rewrite (same_open _ _ _ H1), H0. cbn [fst snd]. split; [repeat split; auto; apply H1|].
    split; auto. rewrite (same_open _ _ _ H1). auto.
  - intros w w' (H1 & H2 & H3) Ho Hs Ha. split; [eapply same_trans; eauto|]. split; auto.
    eapply same_obj; eauto.
Qed.

(** A constructor that opens its own. *)
Definition keep_objs (n : nat) (w0 w : world) : Prop :=
  forall i, i < n -> nth_error (w_objs w) i = nth_error (w_objs w0) i.

Definition inv_own (o : nat) (h : option nat) (w0 w : world) : Prop :=
  all_open w /\ w_fail w = w_fail w0 /\ keep_objs o w0 w
  /\ ((w_open w = w_open w0 /\ w_user w = w_user w0 /\ nth_error (w_objs w) o = Some (mkprov h true)
       /\ truthy w0 h = false)
      \/ (w_open w = w_open w0 ++ [true] /\ w_user w = w_user w0 ++ [false]
          /\ nth_error (w_objs w) o = Some (mkprov (Some (length (w_open w0))) true))).

Lemma nth_snoc : forall A (l : list A) x d, nth (length l) (l ++ [x]) d = x.
Proof. intros. rewrite app_nth2, Nat.sub_diag; [reflexivity|lia]. Qed.

Lemma upd_same_nth : forall A (l : list A) n x y, nth_error l n = Some y -> nth_error (upd n x l) n = Some x.
Proof. induction l as [|a t IH]; intros [|n] x y H; cbn in *; try discriminate; eauto. Qed.

Lemma upd_other : forall A (l : list A) n m x, n <> m -> nth_error (upd n x l) m = nth_error l m.
Proof. induction l as [|a t IH]; intros [|n] [|m] x H; cbn; try reflexivity; [contradiction|]. apply IH. lia. Qed.

Lemma upd_false : forall l h, nth h l false = false -> upd h false l = l.
Proof. induction l as [|a t IH]; intros [|h] H; cbn in *; [reflexivity|reflexivity|subst; reflexivity|]. rewrite IH; auto. Qed.

Lemma upd_last : forall A (l : list A) x y, upd (length l) y (l ++ [x]) = l ++ [y].
Proof. induction l as [|a t IH]; intros; cbn; [reflexivity|]. rewrite IH. reflexivity. Qed.

Lemma stable_own : forall o h w0, o <= length (w_objs w0) ->
  stable o (length (w_open w0)) (inv_own o h w0).
Proof.
  intros o h w0 Hl. split; [|split].
  - intros w (H & _). exact H.
  - intros w (H1 & Hf & H2 & [(A1 & A2 & A3 & A4)|(B1 & B2 & B3)]).
    + unfold get_handle. rewrite A3. cbn [p_handle p_manager].
      assert (Et : truthy w h = false).
      { unfold truthy, is_open in *. destruct h; auto. rewrite A1. exact A4. }
      rewrite Et. cbn [negb]. unfold h5open. destruct (fault w) as [e|].
      * cbn [fst snd]. split; [|exact I]. split; [exact H1|]. split; [exact Hf|]. split; [exact H2|]. left. auto.
      * cbn [fst snd]. split.
        { split; [exact H1|]. split; [exact Hf|]. split.
          - intros i Hi. cbn [w_objs set_prov]. rewrite upd_other by lia. apply H2. exact Hi.
          - right. cbn [w_open w_user w_objs set_prov]. rewrite A1, A2. repeat split; auto.
            eapply upd_same_nth; eauto. }
        { cbn [w_open]. rewrite A1. split; [reflexivity|]. unfold is_open. cbn [w_open set_prov].
          apply nth_snoc. }
    + unfold get_handle. rewrite B3. cbn [p_handle truthy].
      assert (Eo : is_open w (length (w_open w0)) = true) by (unfold is_open; rewrite B1; apply nth_snoc).
      rewrite Eo. cbn [fst snd]. split; [|auto]. split; [exact H1|]. split; [exact Hf|]. split; [exact H2|]. right. auto.
  - intros w w' (H1 & Hf & H2 & H3) Ho Hs Ha. 
    pose proof Hs as Hs0. destruct Hs as (S1 & S2 & S3 & new & S4).
    split; [exact Ha|]. split; [congruence|]. split.
    + intros i Hi. rewrite <- (H2 i Hi). rewrite S4.
      destruct H3 as [(_ & _ & N & _)|(_ & _ & N)].
      * rewrite nth_error_app1; [reflexivity|]. assert (o < length (w_objs w)) by (apply nth_error_Some; congruence). lia.
      * rewrite nth_error_app1; [reflexivity|]. assert (o < length (w_objs w)) by (apply nth_error_Some; congruence). lia.
    + destruct H3 as [(A1 & A2 & A3 & A4)|(B1 & B2 & B3)].
      * left. rewrite S1, S2. repeat split; auto. eapply same_obj; eauto.
      * right. rewrite S1, S2. repeat split; auto. eapply same_obj; eauto.
Qed.

(** * What a call may do to the handles *)

Definition is_err {A} (r : res A) : Prop := exists e, r = Err e.

Record effect (w w' : world) (new : list bool) : Prop := mkeffect {
  e_open : w_open w' = w_open w ++ new;
  e_user : w_user w' = w_user w ++ map (fun _ => false) new;
  e_fail : w_fail w' = w_fail w;
  e_uses : all_open w';
  e_objs : keep_objs (length (w_objs w)) w w'
}.

Lemma same_effect : forall w w', same w w' -> all_open w' -> effect w w' [].
Proof.
  intros w w' (A & B & C & n & D) H. constructor; rewrite ?app_nil_r; auto.
  intros i Hi. rewrite D, nth_error_app1 by auto. reflexivity.
Qed.

(** A constructor: object, body, close. *)
Definition ctor (h : option nat) (body : nat -> M unit) : M nat :=
  let! o := new_prov h in let! _ := body o in let! _ := close_if_manager o in ret o.

Lemma ctor_frozen : forall h body,
  (forall o I, stable o h I -> keeps I (body o)) -> frozen h (ctor (Some h) body).
Proof.
  intros h body Hb w Ho Ha. destruct (ctor (Some h) body w) as [w' r] eqn:H. cbn [fst].
  unfold ctor in H. unfold mbind at 1 in H. unfold new_prov in H. cbn [truthy] in H.
  rewrite Ho in H. cbn [negb] in H.
  set (w1 := mkworld _ _ _ _ _ _) in H. set (o := length (w_objs w)) in *.
  assert (S1 : same w w1). { repeat split; auto. eexists; reflexivity. }
  assert (O1 : is_open w1 h = true) by (rewrite (same_open _ _ _ S1); auto).
  assert (N1 : nth_error (w_objs w1) o = Some (mkprov (Some h) false)).
  { unfold w1, o. cbn [w_objs]. rewrite nth_error_app2, Nat.sub_diag by lia. reflexivity. }
  assert (J1 : inv_lent o h w1 w1) by (repeat split; auto; exists []; rewrite app_nil_r; reflexivity).
  specialize (Hb o _ (stable_lent o h w1 O1) w1 J1). unfold mbind at 1 in H.
  destruct (body o w1) as [w2 [u|e]]; cbn [fst] in *.
  - destruct Hb as (A & B & C). unfold mbind, close_if_manager in H. rewrite C in H. cbn in H.
    inversion H; subst. split; [eapply same_trans; eauto|exact B].
  - destruct Hb as (A & B & C). inversion H; subst. split; [eapply same_trans; eauto|exact B].
Qed.

Lemma ctor_open : forall h body w w' r,
  truthy w h = false ->
  (forall o I, stable o (length (w_open w)) I -> keeps I (body o)) ->
  all_open w -> ctor h body w = (w', r) ->
  exists new, effect w w' new /\ (new = [] \/ new = [false] \/ (new = [true] /\ is_err r)).
Proof.
  intros h body w w' r Ht Hb Ha H. unfold ctor in H. unfold mbind at 1 in H. unfold new_prov in H.
  rewrite Ht in H. cbn [negb] in H.
  set (w1 := mkworld _ _ _ _ _ _) in H. set (o := length (w_objs w)) in *.
  assert (N1 : nth_error (w_objs w1) o = Some (mkprov h true)).
  { unfold w1, o. cbn [w_objs]. rewrite nth_error_app2, Nat.sub_diag by lia. reflexivity. }
  assert (J1 : inv_own o h w1 w1).
  { split; [exact Ha|]. split; [reflexivity|]. split; [intros i _; reflexivity|]. left. auto. }
  assert (Kobj : forall w2, keep_objs o w1 w2 -> keep_objs o w w2).
  { intros w2 K i Hi. rewrite (K i Hi). unfold w1. cbn [w_objs]. rewrite nth_error_app1 by auto. reflexivity. }
  assert (Hol : o <= length (w_objs w1)) by (unfold w1, o; cbn [w_objs]; rewrite app_length; lia).
  specialize (Hb o _ (stable_own o h w1 Hol) w1 J1).
  unfold mbind at 1 in H. destruct (body o w1) as [w2 [u|e]]; cbn [fst] in *.
  - destruct Hb as (U & F & K & D). unfold mbind, close_if_manager in H.
    destruct D as [(A1 & A2 & A3 & A4)|(B1 & B2 & B3)].
    + rewrite A3 in H. cbn [p_manager p_handle] in H. exists []. split; [|auto].
      destruct h as [h|].
      * cbn in H. inversion H; subst w' r. constructor; cbn; rewrite ?app_nil_r; auto.
        rewrite A1. apply upd_false. exact A4.
      * inversion H; subst. constructor; rewrite ?app_nil_r; auto.
    + rewrite B3 in H. cbn in H. inversion H; subst w' r. exists [false]. split; [|auto].
      constructor; cbn; auto.
      rewrite B1. apply upd_last.
  - inversion H; subst w' r. destruct Hb as (U & F & K & D).
    destruct D as [(A1 & A2 & A3 & A4)|(B1 & B2 & B3)].
    + exists []. split; [|auto]. constructor; rewrite ?app_nil_r; auto.
    + exists [true]. split; [|right; right; split; [reflexivity|exists e; reflexivity]].
      constructor; auto.
Qed.

(** The constructors of the library are of this form. *)
Definition ok_body (body : nat -> M unit) : Prop :=
  forall o hh I, stable o hh I -> keeps I (body o).

Lemma units_body : ok_body (uses [false]).
Proof. intros o hh I H. eapply stable_uses; eauto. Qed.

Lemma c_units_ctor : forall h, c_units h = ctor h (uses [false]).
Proof. reflexivity. Qed.

Lemma c_group_ctor : forall l h, c_group l h = ctor h (uses l).
Proof. reflexivity. Qed.

Lemma frozen_drop : forall h A (m : M A), frozen h m -> frozen h (drop m).
Proof. intros h A m H. unfold drop. apply frozen_bind; auto. intro a. apply frozen_ret. Qed.

Lemma frozen_units : forall h, frozen h (c_units (Some h)).
Proof. intro h. rewrite c_units_ctor. apply ctor_frozen. intros o I H. eapply units_body; eauto. Qed.

Lemma frozen_group : forall l h, frozen h (c_group l (Some h)).
Proof. intros l h. rewrite c_group_ctor. apply ctor_frozen. intros o I H. eapply stable_uses; eauto. Qed.

Definition metadata_body (pl : plan) (units : bool) (o : nat) : M unit :=
  let! _ := (if units then ret tt else let! hh := get_handle o in drop (c_units (Some hh))) in
  let! _ := uses (pl_meta pl) o in load_groups (pl_groups pl) o.

Lemma metadata_body_ok : forall pl units, ok_body (metadata_body pl units).
Proof.
  intros pl units o hh I H. unfold metadata_body. apply keeps_bind.
  - destruct units; [apply keeps_ret|]. eapply stable_with; eauto. apply frozen_drop. apply frozen_units.
  - intros _. apply keeps_bind; [eapply stable_uses; eauto|]. intros _. unfold load_groups.
    apply keeps_repeatM. apply Forall_forall. intros m Hm. apply in_map_iff in Hm.
    destruct Hm as (reads & <- & _). eapply stable_with; eauto. apply frozen_drop. apply frozen_group.
Qed.

Lemma c_metadata_ctor : forall pl units h w, c_metadata pl units h w = ctor h (metadata_body pl units) w.
Proof.
  intros pl units h w. unfold c_metadata, ctor, metadata_body, mbind. cbn [new_prov].
  destruct ((if units then ret tt else _) _) as [w1 [a|e]]; [|reflexivity].
  destruct (uses (pl_meta pl) _ w1) as [w2 [b|e]]; reflexivity.
Qed.

Lemma frozen_metadata : forall pl units h, frozen h (c_metadata pl units (Some h)).
Proof.
  intros pl units h w Ho Ha. rewrite c_metadata_ctor. apply ctor_frozen; auto.
  intros o I H. eapply metadata_body_ok; eauto.
Qed.

Lemma frozen_discriminator : forall pl h, frozen h (discriminator pl h).
Proof.
  intros pl h. unfold discriminator. apply frozen_bind; [apply frozen_access|].
  intros _. apply frozen_metadata.
Qed.

Definition mask_body (pl : plan) (o : nat) : M unit :=
  let! _ := (fun w => (w, pl_check pl)) in uses (pl_cells pl) o.

Lemma mask_body_ok : forall pl, ok_body (mask_body pl).
Proof.
  intros pl o hh I H. unfold mask_body. apply keeps_bind; [intros w Hw; exact Hw|].
  intros _. eapply stable_uses; eauto.
Qed.

Lemma c_mask_ctor : forall pl h w, c_mask pl h w = ctor h (mask_body pl) w.
Proof. intros pl h w. unfold c_mask, ctor, mask_body, mbind. cbn [new_prov]. destruct (pl_check pl); reflexivity. Qed.

Lemma frozen_mask : forall pl h, frozen h (c_mask pl (Some h)).
Proof.
  intros pl h w Ho Ha. rewrite c_mask_ctor. apply ctor_frozen; auto.
  intros o I H. eapply mask_body_ok; eauto.
Qed.

Lemma frozen_columns : forall n h, frozen h (columns n h).
Proof.
  induction n as [|n IH]; intro h; [apply frozen_ret|]. cbn [columns]. apply frozen_bind; auto.
  unfold c_columns. apply frozen_bind; [apply frozen_access|]. intros _. apply frozen_new.
Qed.

Lemma frozen_group_dataset : forall n h, frozen h (c_group_dataset n h).
Proof.
  intros n h. unfold c_group_dataset. apply frozen_bind; [apply frozen_columns|]. intros _.
  apply frozen_bind; [apply frozen_access|]. intros _.
  apply (ctor_frozen h (uses [false])). intros o I H. eapply units_body; eauto.
Qed.

Definition dataset_body (pl : plan) (masked : bool) (o : nat) : M unit :=
  let! _ := (if masked then ret tt
             else let! hh := get_handle o in
                  let! _ := c_units (Some hh) in
                  let! hh := get_handle o in
                  drop (discriminator pl hh)) in
  repeatM (map (fun ncol => let! hh := get_handle o in drop (c_group_dataset ncol hh)) (pl_columns pl)).

Lemma dataset_body_ok : forall pl masked, ok_body (dataset_body pl masked).
Proof.
  intros pl masked o hh I H. unfold dataset_body. apply keeps_bind.
  - destruct masked; [apply keeps_ret|]. intros w Hw. rewrite <- bind_assoc.
    revert w Hw. apply keeps_bind.
    + eapply stable_with; eauto. apply frozen_units.
    + intros _. eapply stable_with; eauto. apply frozen_drop. apply frozen_discriminator.
  - intros _. apply keeps_repeatM. apply Forall_forall. intros m Hm. apply in_map_iff in Hm.
    destruct Hm as (n & <- & _). eapply stable_with; eauto. apply frozen_drop. apply frozen_group_dataset.
Qed.

Lemma c_dataset_ctor : forall pl masked h w, c_dataset pl masked h w = ctor h (dataset_body pl masked) w.
Proof.
  intros pl masked h w. unfold c_dataset, ctor, dataset_body. apply bind_ext. intros o w1.
  rewrite bind_assoc. reflexivity.
Qed.

Lemma frozen_dataset : forall pl masked h, frozen h (c_dataset pl masked (Some h)).
Proof.
  intros pl masked h w Ho Ha. rewrite c_dataset_ctor. apply ctor_frozen; auto.
  intros o I H. eapply dataset_body_ok; eauto.
Qed.

(** * Context managers *)

Lemma open_effect : forall w w1 h, h5open false w = (w1, Ok h) -> all_open w ->
  effect w w1 [true] /\ h = length (w_open w) /\ is_open w1 h = true.
Proof.
  intros w w1 h H Ha. unfold h5open in H. destruct (fault w); [discriminate|]. inversion H; subst.
  split; [|split; [reflexivity|apply nth_snoc]]. constructor; auto. intros i Hi. reflexivity.
Qed.

Lemma open_fails : forall w w1 e u, h5open u w = (w1, Err e) -> w1 = tick w.
Proof. intros w w1 e u H. unfold h5open in H. destruct (fault w); [|discriminate]. inversion H; auto. Qed.

Lemma tick_same : forall w, same w (tick w).
Proof. intro w. repeat split; auto. exists []. rewrite app_nil_r. reflexivity. Qed.

Lemma with_temp_effect : forall A (body : nat -> M A) w w' r,
  (forall h, frozen h (body h)) -> all_open w -> with_temp body w = (w', r) ->
  exists new, effect w w' new /\ (new = [] \/ new = [false]).
Proof.
  intros A body w w' r Hb Ha H. unfold with_temp in H. destruct (h5open false w) as [w1 [h|e]] eqn:E.
  - destruct (open_effect _ _ _ E Ha) as (F & -> & Ho).
    destruct (Hb _ w1 Ho (e_uses _ _ _ F)) as (S1 & S2).
    destruct (body (length (w_open w)) w1) as [w2 r2]. cbn in H. inversion H; subst. clear H. cbn in S1, S2.
    exists [false]. split; [|auto]. destruct F as [F1 F2 F3 F4 F5]. destruct S1 as (A1 & A2 & A3 & new & A4).
    constructor; cbn [w_open w_user w_fail w_objs w_uses]; try congruence; auto.
    + rewrite A1, F1. apply upd_last.
    + rewrite A2, F2. reflexivity.
    + intros i Hi. cbn [w_objs]. rewrite A4, nth_error_app1.
      * apply F5. exact Hi.
      * apply nth_error_Some. rewrite (F5 i Hi). apply nth_error_Some. exact Hi.
  - inversion H; subst. rewrite (open_fails _ _ _ _ E). exists []. split; [|auto].
    apply same_effect; [apply tick_same|exact Ha].
Qed.

Lemma with_open_file_effect : forall A o (body : nat -> M A) w w' r,
  (forall h, frozen h (body h)) -> all_open w -> with_open_file o body w = (w', r) ->
  exists new, effect w w' new /\ (new = [] \/ new = [false]).
Proof.
  intros A o body w w' r Hb Ha H. unfold with_open_file in H.
  destruct (nth_error (w_objs w) o) as [p|].
  - destruct (truthy w (p_handle p)) eqn:Et.
    + destruct (p_handle p) as [h|]; [|discriminate].
      cbn [truthy] in Et. destruct (Hb h w Et Ha) as (S1 & S2). rewrite H in S1, S2. cbn in S1, S2.
      exists []. split; [apply same_effect; auto|auto].
    + eapply with_temp_effect; eauto.
  - inversion H; subst. exists []. split; [apply same_effect; auto; apply same_refl|auto].
Qed.

Lemma effect_from_same : forall w w1 w' new, same w w1 -> effect w1 w' new -> effect w w' new.
Proof.
  intros w w1 w' new (A & B & C & n & D) [E1 E2 E3 E4 E5]. constructor; try congruence; auto.
  intros i Hi. rewrite (E5 i); [rewrite D, nth_error_app1 by auto; reflexivity|].
  rewrite D, app_length. lia.
Qed.

Lemma with_src_effect : forall A s (body : nat -> M A) w w' r,
  (forall h, frozen h (body h)) -> all_open w -> with_path_or_handle s body w = (w', r) ->
  exists new, effect w w' new /\ (new = [] \/ new = [false]).
Proof.
  intros A s body w w' r Hb Ha H.
  assert (G : forall x, (let! o := new_prov x in with_open_file o body) w = (w', r) ->
            exists new, effect w w' new /\ (new = [] \/ new = [false])).
  { intros x Hx. unfold mbind, new_prov in Hx.
    set (w1 := mkworld _ _ _ _ _ _) in Hx.
    assert (S1 : same w w1) by (repeat split; auto; eexists; reflexivity).
    destruct (with_open_file_effect _ _ body w1 w' r Hb Ha Hx) as (new & E & D).
    exists new. split; auto. eapply effect_from_same; eauto. }
  destruct s as [|h]; cbn [with_path_or_handle] in H; [eapply G; eauto|].
  destruct (is_open w h); [eapply G; eauto|]. inversion H; subst.
  exists []. split; [apply same_effect; auto; apply same_refl|auto].
Qed.

Lemma frozen_accesses : forall n h, frozen h (repeatM (repeat (access h) n)).
Proof.
  intros n h. apply frozen_repeatM. apply Forall_forall. intros m Hm.
  apply repeat_spec in Hm. subst. apply frozen_access.
Qed.

(** * One operation *)

Lemma effect_trans : forall w w1 w' n1 n2, effect w w1 n1 -> effect w1 w' n2 -> effect w w' (n1 ++ n2).
Proof.
  intros w w1 w' n1 n2 [A1 A2 A3 A4 A5] [B1 B2 B3 B4 B5]. constructor; auto; try congruence.
  - rewrite B1, A1, app_assoc. reflexivity.
  - rewrite B2, A2, map_app, app_assoc. reflexivity.
  - intros i Hi. rewrite B5; [apply A5; auto|]. apply nth_error_Some. rewrite (A5 i Hi).
    apply nth_error_Some. exact Hi.
Qed.

Lemma subset_effect : forall n o w w' r, all_open w -> write_subset n o w = (w', r) ->
  exists new, effect w w' new /\ ~ In true new.
Proof.
  intros n o w w' r Ha H. unfold write_subset, with_open_file in H.
  assert (G : forall h w0 w1 r1, is_open w0 h = true -> all_open w0 ->
            with_temp (fun _ => repeatM (repeat (access h) n)) w0 = (w1, r1) ->
            exists new, effect w0 w1 new /\ (new = [] \/ new = [false])).
  { intros h w0 w1 r1 Ho Ha0 Hw. unfold with_temp in Hw.
    destruct (h5open false w0) as [w2 [h'|e]] eqn:E.
    - destruct (open_effect _ _ _ E Ha0) as (F & -> & Ho').
      assert (Ho2 : is_open w2 h = true).
      { unfold is_open in *. rewrite (e_open _ _ _ F). rewrite app_nth1; auto.
        destruct (Nat.lt_ge_cases h (length (w_open w0))) as [L|L]; auto.
        rewrite nth_overflow in Ho by auto. discriminate. }
      destruct (frozen_accesses n h w2 Ho2 (e_uses _ _ _ F)) as (S1 & S2).
      destruct (repeatM (repeat (access h) n) w2) as [w3 r3]. cbn in Hw, S1, S2. inversion Hw; subst. clear Hw.
      exists [false]. split; [|auto]. destruct F as [F1 F2 F3 F4 F5]. destruct S1 as (A1 & A2 & A3 & new & A4).
      constructor; cbn [w_open w_user w_fail w_objs w_uses]; try congruence; auto.
      + rewrite A1, F1. apply upd_last.
      + rewrite A2, F2. reflexivity.
      + intros i Hi. cbn [w_objs]. rewrite A4, nth_error_app1.
        * apply F5. exact Hi.
        * apply nth_error_Some. rewrite (F5 i Hi). apply nth_error_Some. exact Hi.
    - inversion Hw; subst. rewrite (open_fails _ _ _ _ E). exists []. split; [|auto].
      apply same_effect; [apply tick_same|exact Ha0]. }
  assert (Hn : forall new, new = [] \/ new = [false] -> ~ In true new).
  { intros new [-> | ->]; cbn; intuition discriminate. }
  destruct (nth_error (w_objs w) o) as [p|].
  2:{ inversion H; subst. exists []. split; [apply same_effect; auto; apply same_refl|auto]. }
  assert (Q : forall x, with_temp (fun h => with_temp (fun _ => repeatM (repeat (access h) n))) x = (w', r) ->
              x = w -> exists new, effect w w' new /\ ~ In true new).
  { intros x Hx ->. unfold with_temp at 1 in Hx. destruct (h5open false w) as [w1 [h|e]] eqn:E.
    - destruct (open_effect _ _ _ E Ha) as (F & -> & Ho).
      destruct (with_temp (fun _ => repeatM (repeat (access (length (w_open w))) n)) w1) as [w2 r2] eqn:E2.
      destruct (G _ _ _ _ Ho (e_uses _ _ _ F) E2) as (new & F2 & D). cbn in Hx. inversion Hx; subst. clear Hx.
      pose proof (effect_trans _ _ _ _ _ F F2) as [T1 T2 T3 T4 T5].
      exists (false :: new). split; [|intros [X|X]; [discriminate|exact (Hn _ D X)]].
      constructor; cbn [w_open w_user w_fail w_objs w_uses]; auto.
      rewrite T1. cbn [app]. clear. induction (w_open w) as [|a t IH]; cbn; [reflexivity|]. rewrite IH. reflexivity.
    - inversion Hx; subst. rewrite (open_fails _ _ _ _ E). exists []. split; [|auto].
      apply same_effect; [apply tick_same|exact Ha]. }
  destruct (truthy w (p_handle p)) eqn:Et; [|eapply Q; eauto].
  destruct (p_handle p) as [h|]; [|discriminate]. cbn [truthy] in Et.
  destruct (G _ _ _ _ Et Ha H) as (new & F & D). exists new. split; auto.
Qed.

(** Constructors called directly. *)
Lemma ctor_effect : forall h body w w' r, ok_body body -> all_open w -> ctor h body w = (w', r) ->
  exists new, effect w w' new
    /\ (new = [] \/ new = [false] \/ (new = [true] /\ is_err r /\ truthy w h = false)).
Proof.
  intros h body w w' r Hb Ha H. destruct (truthy w h) eqn:Et.
  - destruct h as [h|]; [|discriminate]. cbn [truthy] in Et.
    destruct (ctor_frozen h body) with (w := w) as (S1 & S2); auto.
    { intros o I HI. eapply Hb; eauto. }
    rewrite H in S1, S2. cbn in S1, S2. exists []. split; [apply same_effect; auto|auto].
  - destruct (ctor_open h body w w' r Et) as (new & E & D); auto.
    { intros o I HI. eapply Hb; eauto. }
    exists new. split; auto. destruct D as [D|[D|(D1 & D2)]]; auto.
Qed.

(** [get_metadata()] and the like, on an existing object. *)
Lemma again_effect : forall n o w w' r, all_open w -> uses (repeat false n) o w = (w', r) ->
  exists new, w_open w' = w_open w ++ new /\ w_user w' = w_user w ++ map (fun _ => false) new
    /\ w_fail w' = w_fail w /\ all_open w' /\ (new = [] \/ new = [true]).
Proof.
  intros n o w w' r Ha H.
  destruct (nth_error (w_objs w) o) as [p|] eqn:Eo.
  - destruct p as [h mg]. destruct (truthy w h) eqn:Et.
    + destruct h as [h|]; [|discriminate]. cbn [truthy] in Et.
      assert (St : stable o h (fun w1 => all_open w1 /\ w_open w1 = w_open w /\ w_user w1 = w_user w
                 /\ w_fail w1 = w_fail w /\ nth_error (w_objs w1) o = Some (mkprov (Some h) mg))).
      { split; [intros w1 (A & _); exact A|]. split.
        - intros w1 (A1 & A2 & A3 & A4 & A5). unfold get_handle. rewrite A5. cbn [p_handle truthy].
          assert (E : is_open w1 h = true) by (unfold is_open; rewrite A2; exact Et).
          rewrite E. cbn. auto 10.
        - intros w1 w2 (A1 & A2 & A3 & A4 & A5) Ho Hs Ha2. pose proof Hs as (B1 & B2 & B3 & _).
          split; [exact Ha2|]. repeat split; try congruence. eapply same_obj; eauto. }
      pose proof (stable_uses _ _ _ (repeat false n) St w) as K. rewrite H in K. cbn [fst] in K.
      destruct K as (A1 & A2 & A3 & A4 & _); [auto 10|]. exists []. rewrite !app_nil_r. auto 10.
    + destruct mg.
      * assert (St : stable o (length (w_open w)) (inv_own o h w)).
        { apply stable_own. apply Nat.lt_le_incl. apply nth_error_Some. congruence. }
        pose proof (stable_uses _ _ _ (repeat false n) St w) as K. rewrite H in K. cbn [fst] in K.
        destruct K as (A1 & A2 & _ & D).
        { split; [exact Ha|]. split; [reflexivity|]. split; [intros i _; reflexivity|]. left. auto. }
        destruct D as [(B1 & B2 & _)|(B1 & B2 & _)].
        { exists []. rewrite !app_nil_r. auto 10. }
        { exists [true]. auto 10. }
      * exists []. rewrite !app_nil_r.
        destruct n as [|n]; cbn [repeat uses] in H.
        { inversion H; subst. auto 10. }
        { unfold mbind, use_key, use in H. unfold mbind, get_handle in H. rewrite Eo in H.
          cbn [p_handle p_manager] in H. rewrite Et in H. cbn in H. inversion H; subst. auto 10. }
  - exists []. rewrite !app_nil_r. destruct n as [|n]; cbn [repeat uses] in H.
    + inversion H; subst. auto 10.
    + unfold mbind, use_key, use in H. unfold mbind, get_handle in H. rewrite Eo in H. inversion H; subst. auto 10.
Qed.
