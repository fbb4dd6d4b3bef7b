(** What operations do with a handle that is lent to them. *)
From Coq Require Import List Bool Arith Lia.
From Verif Require Import Base HandleModel.
Import ListNotations.

Section Lent.
Variable h : nat.
Notation mine := (mkprov (Some h) false).

(** Files stay as they are, [k] objects with the handle are added and [n] accesses made; an error is that of
    the check or of an access, a missing key only if there is an access that is not in a [try]. *)
Definition outcome {A} (chk : res unit) (unc : bool) (n k : nat) (w w' : world) (r : res A) : Prop :=
  w_open w' = w_open w /\ w_fail w' = w_fail w /\ w_time w <= w_time w'
  /\ exists j, w_objs w' = w_objs w ++ repeat mine j
     /\ match r with
        | Ok _ => w_time w' = w_time w + n /\ j = k
        | Err e => (exists t, w_time w <= t < w_time w' /\ w_fail w t = Some e /\ (e = KeyError -> unc = true)) \/ chk = Err e
        end.

Definition does {A} chk unc n k (P : world -> Prop) (m : M A) (Q : A -> world -> Prop) : Prop :=
  forall w, is_open w h = true -> P w ->
  outcome chk unc n k w (fst (m w)) (snd (m w)) /\ (forall a, snd (m w) = Ok a -> Q a (fst (m w))).

Definition stab (F : world -> Prop) : Prop := forall w w' l, w_objs w' = w_objs w ++ l -> F w -> F w'.
Definition holds (o : nat) (w : world) : Prop := nth_error (w_objs w) o = Some mine.

Lemma stab_holds : forall o, stab (holds o).
Proof. intros o w w' l E H. unfold holds. rewrite E, nth_error_app1; [exact H|]. apply nth_error_Some. unfold holds in H. congruence. Qed.
Lemma stab_true : stab (fun _ => True).
Proof. intros w w' l _ _. exact I. Qed.

Lemma does_frame : forall A chk unc n k P (m : M A) Q F, stab F -> does chk unc n k P m Q ->
  does chk unc n k (fun w => P w /\ F w) m (fun a w => Q a w /\ F w).
Proof.
  intros A chk unc n k P m Q F S H w O (HP & HF). destruct (H w O HP) as (E & K). split; [exact E|].
  intros a R. split; [apply K; exact R|]. destruct E as (_ & _ & _ & j & J & _). exact (S _ _ _ J HF).
Qed.

Lemma does_conseq : forall A chk unc n k (P P' : world -> Prop) (m : M A) (Q Q' : A -> world -> Prop),
  does chk unc n k P m Q -> (forall w, P' w -> P w) -> (forall a w, Q a w -> Q' a w) -> does chk unc n k P' m Q'.
Proof. intros A chk unc n k P P' m Q Q' H HP HQ w O W. destruct (H w O (HP w W)) as (E & K). split; [exact E|]. intros a R. apply HQ, K, R. Qed.

Lemma does_weaken : forall A chk (unc unc' : bool) n k P (m : M A) Q, (unc = true -> unc' = true) -> does (Ok tt) unc n k P m Q -> does chk unc' n k P m Q.
Proof.
  intros A chk unc unc' n k P m Q U H w O W. destruct (H w O W) as ((E1 & E2 & E3 & j & J & R) & K). split; [|exact K].
  split; [exact E1|]. split; [exact E2|]. split; [exact E3|]. exists j. split; [exact J|].
  destruct (snd (m w)) as [a|e]; [exact R|]. destruct R as [(t & T & F & C)|R]; [|discriminate]. left. exists t. split; [exact T|]. split; [exact F|]. intro X. apply U, C, X.
Qed.

Lemma does_bind : forall A B chk u1 u2 n1 n2 k1 k2 P (m : M A) Q (f : A -> M B) R,
  does chk u1 n1 k1 P m Q -> (forall a, does chk u2 n2 k2 (Q a) (f a) R) ->
  does chk (u1 || u2) (n1 + n2) (k1 + k2) P (mbind m f) R.
Proof.
  intros A B chk u1 u2 n1 n2 k1 k2 P m Q f R H1 H2 w O W. unfold mbind.
  destruct (H1 w O W) as ((E1 & E2 & E3 & j & J & E) & K). destruct (m w) as [w1 r1]. cbn [fst snd] in *.
  destruct r1 as [a|e]; cbn [fst snd].
  - assert (O1 : is_open w1 h = true) by (unfold is_open; rewrite E1; exact O).
    destruct (H2 a w1 O1 (K a eq_refl)) as ((F1 & F2 & F3 & j2 & J2 & F) & K2). destruct (f a w1) as [w2 r2]. cbn [fst snd] in *.
    destruct E as (T1 & ->). split; [|exact K2]. split; [congruence|]. split; [congruence|]. split; [lia|].
    exists (k1 + j2). split; [rewrite J2, J, <- app_assoc, repeat_app; reflexivity|].
    destruct r2 as [b|e]; [destruct F as (T2 & ->); split; lia|]. destruct F as [(t & T & X & C)|F]; [|right; exact F].
    left. exists t. split; [lia|]. split; [rewrite <- E2; exact X|]. intro Y. apply C in Y. subst u2. apply orb_true_r.
  - split; [|discriminate]. split; [exact E1|]. split; [exact E2|]. split; [exact E3|]. exists j. split; [exact J|].
    destruct E as [(t & T & X & C)|E]; [|right; exact E]. left. exists t. split; [exact T|]. split; [exact X|]. intro Y. apply C in Y. subst u1. reflexivity.
Qed.

Lemma does_cast : forall A chk u u' n n' k k' P (m : M A) Q, does chk u n k P m Q -> u = u' -> n = n' -> k = k' -> does chk u' n' k' P m Q.
Proof. intros; subst; assumption. Qed.

Lemma does_ret : forall A (a : A) (P : world -> Prop), does (Ok tt) false 0 0 P (ret a) (fun b w => b = a /\ P w).
Proof.
  intros A a P w O W. cbn. split; [|intros b E; injection E as <-; split; [reflexivity|exact W]].
  split; [reflexivity|]. split; [reflexivity|]. split; [lia|]. exists 0. split; [symmetry; apply app_nil_r|]. split; [lia|reflexivity].
Qed.

Lemma does_access : does (Ok tt) true 1 0 (fun _ => True) (access h) (fun _ _ => True).
Proof.
  intros w O _. unfold access. rewrite O. cbn [negb]. unfold fault. destruct (w_fail w (w_time w)) as [e|] eqn:F; cbn [fst snd].
  - split; [|discriminate]. split; [reflexivity|]. split; [reflexivity|]. cbn [w_time]. split; [lia|]. exists 0. split; [symmetry; apply app_nil_r|].
    left. exists (w_time w). split; [lia|]. split; [exact F|]. reflexivity.
  - split; [|intros; exact I]. split; [reflexivity|]. split; [reflexivity|]. cbn [w_time]. split; [lia|]. exists 0. split; [symmetry; apply app_nil_r|]. split; [lia|reflexivity].
Qed.

Lemma does_new : does (Ok tt) false 0 1 (fun _ => True) (new_prov (Some h)) (fun o w => holds o w).
Proof.
  intros w O _. unfold new_prov, truthy. rewrite O. cbn [negb fst snd]. split.
  - split; [reflexivity|]. split; [reflexivity|]. cbn [w_time w_objs]. split; [lia|]. exists 1. split; [reflexivity|]. split; [lia|reflexivity].
  - intros a E. injection E as <-. unfold holds. cbn [w_objs]. rewrite nth_error_app2, Nat.sub_diag by lia. reflexivity.
Qed.

Lemma does_handle : forall o, does (Ok tt) false 0 0 (holds o) (get_handle o) (fun a w => a = h /\ holds o w).
Proof.
  intros o w O H. unfold get_handle. unfold holds in H. rewrite H. cbn [p_handle p_manager truthy]. rewrite O. cbn [fst snd].
  split; [|intros a E; injection E as <-; split; [reflexivity|exact H]].
  split; [reflexivity|]. split; [reflexivity|]. split; [lia|]. exists 0. split; [symmetry; apply app_nil_r|]. split; [lia|reflexivity].
Qed.

Lemma does_close : forall o, does (Ok tt) false 0 0 (holds o) (close_if_manager o) (fun _ w => holds o w).
Proof.
  intros o w O H. unfold close_if_manager. unfold holds in H. rewrite H. cbn [p_manager fst snd]. split; [|intros; exact H].
  split; [reflexivity|]. split; [reflexivity|]. split; [lia|]. exists 0. split; [symmetry; apply app_nil_r|]. split; [lia|reflexivity].
Qed.

Lemma does_use : forall c o, does (Ok tt) (negb c) 1 0 (holds o) (use_key c o) (fun _ w => holds o w).
Proof.
  intros c o w O H. unfold holds in H. destruct c; unfold use_key, catch_key, use, mbind, get_handle; cbv beta; rewrite H; cbn [p_handle p_manager truthy];
    rewrite O; unfold access; rewrite O; cbn [negb]; unfold fault; destruct (w_fail w (w_time w)) as [e|] eqn:F; cbn [fst snd];
    try (destruct e eqn:Ee; cbn [fst snd]).
  all: split; [|try discriminate; intros; exact H]; (split; [reflexivity|]); (split; [reflexivity|]); cbn [w_time]; (split; [lia|]);
    exists 0; (split; [symmetry; apply app_nil_r|]).
  all: first [split; [lia|reflexivity]|left; exists (w_time w); split; [lia|]; split; [exact F|]; first [discriminate|reflexivity|intro; discriminate]].
Qed.

Lemma does_uses : forall l o, does (Ok tt) (existsb negb l) (length l) 0 (holds o) (uses l o) (fun _ w => holds o w).
Proof.
  induction l as [|c l IH]; intro o; cbn [uses existsb length].
  - apply (does_conseq _ _ _ _ _ _ _ _ _ _ (does_ret _ tt (holds o))); [auto|]. intros a w (_ & H). exact H.
  - apply (does_bind _ _ _ _ _ 1 (length l) 0 0 _ _ _ _ _ (does_use c o)). intros _. apply IH.
Qed.

(** A new object that is used and then finished. *)
Lemma does_ctor : forall chk u n k (body : nat -> M unit), (forall o, does chk u n k (holds o) (body o) (fun _ w => holds o w)) ->
  does chk u n (S k) (fun _ => True) (let! o := new_prov (Some h) in let! _ := body o in let! _ := close_if_manager o in ret o) (fun o w => holds o w).
Proof.
  intros chk u n k body H.
  apply (does_cast _ chk (false || (u || (false || false))) u (0 + (n + (0 + 0))) n (1 + (k + (0 + 0))) (S k)); [|destruct u; reflexivity|lia|lia].
  apply (does_bind _ _ _ _ _ _ _ _ _ _ _ (fun o w => holds o w)); [apply (does_weaken _ _ false); [auto|apply does_new]|]. intro o.
  apply (does_bind _ _ _ _ _ _ _ _ _ _ _ (fun _ w => holds o w)); [apply H|]. intros _.
  apply (does_bind _ _ _ _ _ _ _ _ _ _ _ (fun _ w => holds o w)); [apply (does_weaken _ _ false); [auto|apply does_close]|]. intros _.
  apply (does_weaken _ _ false); [auto|]. apply (does_conseq _ _ _ _ _ _ _ _ _ _ (does_ret _ o (holds o))); [auto|]. intros a w (-> & K). exact K.
Qed.

Lemma does_units : does (Ok tt) true 1 1 (fun _ => True) (c_units (Some h)) (fun o w => holds o w).
Proof. apply does_ctor. intro o. apply (does_uses [false]). Qed.

Lemma does_group : forall reads, does (Ok tt) (existsb negb reads) (length reads) 1 (fun _ => True) (c_group reads (Some h)) (fun o w => holds o w).
Proof. intro reads. apply (does_ctor _ _ _ 0 (uses reads)). intro o. apply does_uses. Qed.

Lemma does_drop : forall A chk u n k P (m : M A) Q, does chk u n k P m Q -> does chk u n k P (drop m) (fun _ _ => True).
Proof.
  intros A chk u n k P m Q H. unfold drop. apply (does_cast _ chk (u || false) u (n + 0) n (k + 0) k); [|apply orb_false_r|lia|lia].
  apply (does_bind _ _ _ _ _ _ _ _ _ _ _ _ _ _ H). intro a. apply (does_weaken _ _ false); [auto|].
  apply (does_conseq _ _ _ _ _ _ _ _ _ _ (does_ret _ tt (Q a))); auto.
Qed.

(** Something with the handle of an object. *)
Lemma does_with_handle : forall chk u n k o (f : nat -> M unit), does chk u n k (fun _ => True) (f h) (fun _ _ => True) ->
  does chk u n k (holds o) (let! hh := get_handle o in f hh) (fun _ w => holds o w).
Proof.
  intros chk u n k o f H. apply (does_cast _ chk (false || u) u (0 + n) n (0 + k) k); [|reflexivity|lia|lia].
  apply (does_bind _ _ _ _ _ _ _ _ _ _ _ (fun a w => a = h /\ holds o w)); [apply (does_weaken _ _ false); [auto|apply does_handle]|].
  intros a w O (-> & W). apply (does_frame _ _ _ _ _ _ _ _ (holds o) (stab_holds o)) in H.
  destruct (H w O (conj I W)) as (E & K). split; [exact E|]. intros b R. apply (K b R).
Qed.

Definition total {A} (f : A -> nat) (l : list A) : nat := fold_right (fun x s => f x + s) 0 l.

Lemma does_repeat : forall A chk (u : A -> bool) (n k : A -> nat) o (f : A -> M unit) l,
  (forall a, does chk (u a) (n a) (k a) (holds o) (f a) (fun _ w => holds o w)) ->
  does chk (existsb u l) (total n l) (total k l) (holds o) (repeatM (map f l)) (fun _ w => holds o w).
Proof.
  intros A chk u n k o f l H. induction l as [|a l IH]; cbn [map repeatM existsb total fold_right].
  - apply (does_weaken _ _ false); [auto|]. apply (does_conseq _ _ _ _ _ _ _ _ _ _ (does_ret _ tt (holds o))); [auto|]. intros a w (_ & K). exact K.
  - apply (does_bind _ _ _ _ _ _ _ _ _ _ _ (fun _ w => holds o w)); [apply H|]. intros _. exact IH.
Qed.

Lemma does_groups : forall groups o, does (Ok tt) (existsb (existsb negb) groups) (total (@length bool) groups) (length groups)
  (holds o) (load_groups groups o) (fun _ w => holds o w).
Proof.
  intros groups o. unfold load_groups.
  apply (does_cast _ _ _ _ _ _ (total (fun _ => 1) groups) _ _ _ _ (does_repeat _ (Ok tt) (existsb negb) (@length bool) (fun _ => 1) o _ groups
    (fun reads => does_with_handle _ _ _ _ o (fun hh => drop (c_group reads (Some hh))) (does_drop _ _ _ _ _ _ _ _ (does_group reads))))); auto.
Qed.

Definition meta_reads (pl : plan) (units : bool) : nat := (if units then 0 else 1) + (length (pl_meta pl) + total (@length bool) (pl_groups pl)).
Definition meta_objects (pl : plan) (units : bool) : nat := S ((if units then 0 else 1) + (0 + length (pl_groups pl))).
Definition meta_free (pl : plan) (units : bool) : bool := negb units || (existsb negb (pl_meta pl) || existsb (existsb negb) (pl_groups pl)).

Lemma does_seq : forall chk u1 u2 n1 n2 k1 k2 o (a b : M unit),
  does chk u1 n1 k1 (holds o) a (fun _ w => holds o w) -> does chk u2 n2 k2 (holds o) b (fun _ w => holds o w) ->
  does chk (u1 || u2) (n1 + n2) (k1 + k2) (holds o) (let! _ := a in b) (fun _ w => holds o w).
Proof. intros chk u1 u2 n1 n2 k1 k2 o a b A B. apply (does_bind _ _ _ _ _ _ _ _ _ _ _ (fun _ w => holds o w)); [exact A|]. intros _. exact B. Qed.

(** [mbind] is associative. *)
Lemma does_ext : forall A chk u n k P (m m' : M A) Q, (forall w, m w = m' w) -> does chk u n k P m Q -> does chk u n k P m' Q.
Proof. intros A chk u n k P m m' Q E H w O W. rewrite <- E. apply H; assumption. Qed.

Lemma mbind_assoc : forall A B C (m : M A) (f : A -> M B) (g : B -> M C) w, mbind (mbind m f) g w = mbind m (fun a => mbind (f a) g) w.
Proof. intros A B C m f g w. unfold mbind. destruct (m w) as [w1 [a|e]]; reflexivity. Qed.

Lemma mbind_ext : forall A B (m : M A) (f g : A -> M B) w, (forall a w, f a w = g a w) -> mbind m f w = mbind m g w.
Proof. intros A B m f g w H. unfold mbind. destruct (m w) as [w1 [a|e]]; [apply H|reflexivity]. Qed.

Lemma does_metadata : forall pl units, does (Ok tt) (meta_free pl units) (meta_reads pl units) (meta_objects pl units) (fun _ => True)
  (c_metadata pl units (Some h)) (fun o w => holds o w).
Proof.
  intros pl units.
  apply (does_ext _ _ _ _ _ _ (let! o := new_prov (Some h) in
     let! _ := (let! _ := (if units then ret tt else let! hh := get_handle o in drop (c_units (Some hh))) in
                let! _ := uses (pl_meta pl) o in load_groups (pl_groups pl) o) in
     let! _ := close_if_manager o in ret o)).
  { intro w. apply mbind_ext. intros o w1. rewrite mbind_assoc. apply mbind_ext. intros _ w2. rewrite mbind_assoc. reflexivity. }
  apply does_ctor. intro o. apply does_seq.
  - destruct units; cbn [negb].
    + apply (does_conseq _ _ _ _ _ _ _ _ _ _ (does_ret _ tt (holds o))); [auto|]. intros a w (_ & K). exact K.
    + apply (does_with_handle _ _ _ _ o (fun hh => drop (c_units (Some hh)))). exact (does_drop _ _ _ _ _ _ _ _ does_units).
  - apply does_seq; [apply does_uses|apply does_groups].
Qed.

Lemma does_discriminator : forall pl, does (Ok tt) true (S (meta_reads pl true)) (meta_objects pl true) (fun _ => True)
  (discriminator pl h) (fun o w => holds o w).
Proof.
  intro pl. unfold discriminator. apply (does_bind _ _ _ true (meta_free pl true) 1 _ 0 _ _ _ (fun _ _ => True)); [apply does_access|].
  intros _. apply does_metadata.
Qed.

Lemma does_check : forall chk o, does chk false 0 0 (holds o) (fun w => (w, chk)) (fun _ w => holds o w).
Proof.
  intros chk o w O H. cbn [fst snd]. split; [|intros; exact H]. split; [reflexivity|]. split; [reflexivity|]. split; [lia|].
  exists 0. split; [symmetry; apply app_nil_r|]. destruct chk as [u|e]; [split; [lia|reflexivity]|right; reflexivity].
Qed.

Lemma does_mask : forall pl, does (pl_check pl) (existsb negb (pl_cells pl)) (length (pl_cells pl)) 1 (fun _ => True) (c_mask pl (Some h)) (fun o w => holds o w).
Proof.
  intro pl. apply (does_ext _ _ _ _ _ _ (let! o := new_prov (Some h) in
     let! _ := (let! _ := (fun w => (w, pl_check pl)) in uses (pl_cells pl) o) in let! _ := close_if_manager o in ret o)).
  { intro w. apply mbind_ext. intros o w1. rewrite mbind_assoc. reflexivity. }
  apply does_ctor. intro o. apply (does_seq _ false _ 0 _ 0 0); [apply does_check|]. apply (does_weaken _ _ (existsb negb (pl_cells pl))); [auto|apply does_uses].
Qed.

Lemma does_columns : forall n, does (Ok tt) true n n (fun _ => True) (columns n h) (fun _ _ => True).
Proof.
  induction n as [|n IH]; cbn [columns].
  - apply (does_weaken _ _ false); [auto|]. apply (does_conseq _ _ _ _ _ _ _ _ _ _ (does_ret _ tt (fun _ => True))); auto.
  - apply (does_bind _ _ _ true true 1 n 1 n _ _ (fun _ _ => True)); [|intros _; exact IH].
    unfold c_columns. apply (does_bind _ _ _ true false 1 0 0 1 _ _ (fun _ _ => True)); [apply does_access|]. intros _.
    apply (does_conseq _ _ _ _ _ _ _ _ _ _ does_new); auto.
Qed.

Lemma does_group_dataset : forall n, does (Ok tt) true (S (S n)) (S n) (fun _ => True) (c_group_dataset n h) (fun o w => holds o w).
Proof.
  intro n. unfold c_group_dataset.
  apply (does_cast _ (Ok tt) (true || (true || true)) true (n + (1 + 1)) _ (n + (0 + 1)) _); [|reflexivity|lia|lia].
  apply (does_bind _ _ _ _ _ _ _ _ _ _ _ (fun _ _ => True)); [apply does_columns|]. intros _.
  apply (does_bind _ _ _ _ _ _ _ _ _ _ _ (fun _ _ => True)); [apply does_access|]. intros _.
  apply (does_ctor _ _ _ 0 (uses [false])). intro o. apply (does_uses [false]).
Qed.

Definition data_reads (pl : plan) (masked : bool) : nat := (if masked then 0 else 2 + meta_reads pl true) + total (fun n => S (S n)) (pl_columns pl).
Definition data_objects (pl : plan) (masked : bool) : nat := S ((if masked then 0 else 1 + meta_objects pl true) + total S (pl_columns pl)).

Lemma does_dataset : forall pl masked, does (Ok tt) true (data_reads pl masked) (data_objects pl masked) (fun _ => True)
  (c_dataset pl masked (Some h)) (fun o w => holds o w).
Proof.
  intros pl masked.
  apply (does_ext _ _ _ _ _ _ (let! o := new_prov (Some h) in
     let! _ := (let! _ := (if masked then ret tt
             else let! hh := get_handle o in let! _ := c_units (Some hh) in let! hh := get_handle o in drop (discriminator pl hh)) in
        repeatM (map (fun ncol => let! hh := get_handle o in drop (c_group_dataset ncol hh)) (pl_columns pl))) in
     let! _ := close_if_manager o in ret o)).
  { intro w. apply mbind_ext. intros o w1. rewrite mbind_assoc. reflexivity. }
  apply does_ctor. intro o. apply (does_seq _ true true).
  - destruct masked.
    + apply (does_weaken _ _ false); [auto|]. apply (does_conseq _ _ _ _ _ _ _ _ _ _ (does_ret _ tt (holds o))); [auto|]. intros a w (_ & K). exact K.
    + apply (does_cast _ (Ok tt) (false || (true || true)) true (0 + (1 + S (meta_reads pl true))) _ (0 + (1 + meta_objects pl true)) _); [|reflexivity|reflexivity|reflexivity].
      apply (does_bind _ _ _ _ _ _ _ _ _ _ _ _ _ _ (does_handle o)). intro hh.
      apply (does_bind _ _ _ _ _ _ _ _ _ _ _ (fun _ w => holds o w)).
      * intros w O (-> & W). destruct (does_frame _ _ _ _ _ _ _ _ (holds o) (stab_holds o) does_units w O (conj I W)) as (E & K).
        split; [exact E|]. intros b R. apply (K b R).
      * intros _. apply (does_with_handle _ _ _ _ o (fun hh => drop (discriminator pl hh))). exact (does_drop _ _ _ _ _ _ _ _ (does_discriminator pl)).
  - apply (does_weaken _ _ (existsb (fun _ => true) (pl_columns pl))); [auto|].
    apply (does_repeat _ (Ok tt) (fun _ => true) (fun n => S (S n)) S o (fun ncol => let! hh := get_handle o in drop (c_group_dataset ncol hh))). intro n.
    apply (does_with_handle _ _ _ _ o (fun hh => drop (c_group_dataset n hh))). exact (does_drop _ _ _ _ _ _ _ _ (does_group_dataset n)).
Qed.

(** * The functions *)

Definition loading (pl : plan) (masked : bool) (h : nat) : M nat := let! _ := access h in c_dataset pl masked (Some h).
Definition masking (pl : plan) (h : nat) : M nat :=
  let! _ := access h in let! _ := c_units (Some h) in let! _ := discriminator pl h in c_mask pl (Some h).

Lemma does_load : forall pl masked, does (Ok tt) true (S (data_reads pl masked)) (data_objects pl masked) (fun _ => True) (loading pl masked h) (fun _ _ => True).
Proof.
  intros pl masked. apply (does_bind _ _ _ true true 1 _ 0 _ _ _ (fun _ _ => True)); [apply does_access|]. intros _.
  apply (does_conseq _ _ _ _ _ _ _ _ _ _ (does_dataset pl masked)); auto.
Qed.

Lemma does_make_mask : forall pl, does (pl_check pl) true (3 + (meta_reads pl true + length (pl_cells pl))) (2 + meta_objects pl true) (fun _ => True) (masking pl h) (fun _ _ => True).
Proof.
  intro pl. apply (does_cast _ (pl_check pl) (true || (true || (true || true))) true (1 + (1 + (S (meta_reads pl true) + length (pl_cells pl)))) _ (0 + (1 + (meta_objects pl true + 1))) _); [|reflexivity|lia|lia].
  apply (does_bind _ _ _ _ _ _ _ _ _ _ _ (fun _ _ => True)); [apply (does_weaken _ _ true); [auto|apply does_access]|]. intros _.
  apply (does_bind _ _ _ _ _ _ _ _ _ _ _ (fun _ _ => True)); [apply (does_weaken _ _ true); [auto|]; apply (does_conseq _ _ _ _ _ _ _ _ _ _ does_units); auto|]. intros _.
  apply (does_bind _ _ _ _ _ _ _ _ _ _ _ (fun _ _ => True)); [apply (does_weaken _ _ true); [auto|]; apply (does_conseq _ _ _ _ _ _ _ _ _ _ (does_discriminator pl)); auto|]. intros _.
  intros w O W. destruct (does_mask pl w O I) as ((E1 & E2 & E3 & j & J & R) & _). split; [|auto]. split; [exact E1|]. split; [exact E2|]. split; [exact E3|].
  exists j. split; [exact J|]. destruct (snd (c_mask pl (Some h) w)); [exact R|]. destruct R as [(t & T & F & C)|R]; [|right; exact R]. left. exists t. auto.
Qed.
End Lent.

(** * Calls of the package *)

Lemma upd_end : forall A (l : list A) x y, upd (length l) x (l ++ [y]) = l ++ [x].
Proof. induction l as [|a l IH]; intros x y; [reflexivity|]. cbn [length app upd]. f_equal. apply IH. Qed.

Lemma lent_call_does : forall A h chk u n k (body : nat -> M A), does h chk u n k (fun _ => True) (body h) (fun _ _ => True) ->
  does h chk u n (S k) (fun _ => True) (with_path_or_handle (AHandle h) body) (fun _ _ => True).
Proof.
  intros A h chk u n k body H w O _.
  assert (E : with_path_or_handle (AHandle h) body w = (let! o := new_prov (Some h) in body h) w).
  { unfold with_path_or_handle. rewrite O. unfold mbind. unfold new_prov, truthy. rewrite O. cbn [negb]. unfold with_open_file. cbn [w_objs].
    rewrite nth_error_app2, Nat.sub_diag by lia. cbn [nth_error p_handle truthy]. unfold is_open in *. cbn [w_open]. rewrite O. reflexivity. }
  rewrite E. refine (does_bind h _ _ chk false u 0 n 1 k (fun _ => True) (new_prov (Some h)) (fun _ _ => True) (fun _ => body h) (fun _ _ => True) _ (fun _ => H) w O I).
  apply (does_weaken _ _ _ false); [auto|]. apply (does_conseq _ _ _ _ _ _ _ _ _ _ _ (does_new h)); auto.
Qed.

(** The call with a path opens the file, does the same and closes it. *)
Lemma path_call_does : forall A chk u n k (body : nat -> M A), (forall h, does h chk u n k (fun _ => True) (body h) (fun _ _ => True)) ->
  forall w, let r := with_path_or_handle APath body w in
  (exists e, w_fail w (w_time w) = Some e /\ snd r = Err e /\ w_open (fst r) = w_open w /\ w_objs (fst r) = w_objs w ++ [mkprov None true])
  \/ (w_fail w (w_time w) = None /\ w_open (fst r) = w_open w ++ [false]
      /\ exists j, w_objs (fst r) = w_objs w ++ mkprov None true :: repeat (mkprov (Some (length (w_open w))) false) j
         /\ match snd r with
            | Ok _ => w_time (fst r) = S (w_time w + n) /\ j = k
            | Err e => (exists t, w_time w < t < w_time (fst r) /\ w_fail w t = Some e /\ (e = KeyError -> u = true)) \/ chk = Err e
            end).
Proof.
  intros A chk u n k body H w. cbv zeta. unfold with_path_or_handle, mbind, new_prov, with_open_file. cbn [w_objs truthy negb].
  rewrite nth_error_app2, Nat.sub_diag by lia. cbn [nth_error p_handle truthy]. unfold with_temp, h5open, fault. cbn [w_fail w_time].
  destruct (w_fail w (w_time w)) as [e|] eqn:F.
  - left. exists e. repeat split.
  - right. split; [reflexivity|]. cbn [w_open w_user w_objs w_uses w_time w_fail].
    set (w1 := mkworld _ _ _ _ _ _). assert (O : is_open w1 (length (w_open w)) = true) by (unfold is_open, w1; cbn [w_open]; rewrite app_nth2, Nat.sub_diag by lia; reflexivity).
    destruct (H _ w1 O I) as ((E1 & E2 & E3 & j & J & R) & _). destruct (body (length (w_open w)) w1) as [w2 r]. cbn [fst snd] in *.
    unfold h5close. cbn [fst snd w_open w_objs w_time]. rewrite E1. unfold w1. cbn [w_open]. rewrite upd_end. split; [reflexivity|].
    exists j. split; [rewrite J; unfold w1; cbn [w_objs]; rewrite <- app_assoc; reflexivity|]. unfold w1 in R. cbn [w_time w_fail] in R.
    destruct r as [a|e]; [destruct R as (-> & ->); split; [lia|reflexivity]|]. destruct R as [(t & T & X & C)|R]; [|right; exact R]. left. exists t. split; [lia|]. split; [exact X|exact C].
Qed.
