(** C138: what the representation of an array tells. *)
From Coq Require Import String List ZArith Bool Ascii Lia.
From Verif Require Import Base NamesModel TextModel.
Import ListNotations.
Open Scope list_scope.

(** * Vocabulary *)
Definition quote : ascii := ascii_of_nat 39.
(** The attributes of a [cosmo_array]. *)
Definition array_labels (c : option bool) (f : name) (v : bool) : labels := mk_labels (Some c) (Some f) (Some v).

(** * Lemmas *)
Lemma split_first (c : ascii) : forall (x y s t : name), ~ In c x -> ~ In c y -> x ++ c :: s = y ++ c :: t -> x = y /\ s = t.
Proof.
  induction x as [|a x IH]; intros [|b y] s t X Y E; cbn in *.
  - injection E as <-. split; reflexivity.
  - injection E as <- _. exfalso. apply Y. left. reflexivity.
  - injection E as -> _. exfalso. apply X. left. reflexivity.
  - injection E as <- E. destruct (IH y s t) as [-> ->]; [tauto|tauto|exact E|]. split; reflexivity.
Qed.
Lemma split_last (c : ascii) : forall (x y s t : name), ~ In c s -> ~ In c t -> x ++ c :: s = y ++ c :: t -> x = y /\ s = t.
Proof.
  intros x y s t A B E. apply (f_equal (@rev ascii)) in E. rewrite !rev_app_distr in E. cbn [rev] in E. rewrite <- !app_assoc in E. cbn [app] in E.
  destruct (split_first c (rev s) (rev t) (rev x) (rev y)) as [E1 E2]; [rewrite <- in_rev; exact A|rewrite <- in_rev; exact B|exact E|].
  apply (f_equal (@rev ascii)) in E1. apply (f_equal (@rev ascii)) in E2. rewrite !rev_involutive in E1, E2. split; assumption.
Qed.
Lemma flag_plain c : ~ In quote (flag_text c).
Proof. destruct c as [[]|]; cbn; intuition discriminate. Qed.
Lemma flag_inj c c' : flag_text c = flag_text c' -> c = c'.
Proof. destruct c as [[]|], c' as [[]|]; cbn; congruence. Qed.

(** * C138 *)

(** What it looks like: unyt's text without its closing bracket, the labels, a closing bracket. *)
Theorem C138_form : forall body c f v,
  array_repr (body ++ txt ")") (array_labels c f v)
    = body ++ txt ", comoving='" ++ flag_text c ++ txt "', cosmo_factor='" ++ f ++ txt "', valid_transform='" ++ flag_text (Some v) ++ txt "')".
Proof.
  intros body c f v. unfold array_repr, array_labels. cbn [l_comoving l_factor l_valid text_of]. change (txt ")") with [")"%char] at 1.
  rewrite removelast_last. f_equal. rewrite <- !app_assoc. reflexivity.
Qed.
(** An array without labels has unyt's text. *)
Theorem C138_unlabelled : forall body, array_repr (body ++ txt ")") (mk_labels None None None) = body ++ txt ")".
Proof. intro body. unfold array_repr. cbn [l_comoving l_factor l_valid text_of app]. change (txt ")") with [")"%char] at 1. rewrite removelast_last. reflexivity. Qed.

(** It tells everything: unyt's text, the flag, the text of the factor (which has no quotes) and the mark. *)
Theorem C138_tells : forall body c f v body' c' f' v', ~ In quote f -> ~ In quote f' ->
  array_repr (body ++ txt ")") (array_labels c f v) = array_repr (body' ++ txt ")") (array_labels c' f' v') ->
  body = body' /\ c = c' /\ f = f' /\ v = v'.
Proof.
  intros body c f v body' c' f' v' F F' E. rewrite !C138_form in E.
  assert (P : forall (b : name) cc (ff : name) vv,
    b ++ txt ", comoving='" ++ flag_text cc ++ txt "', cosmo_factor='" ++ ff ++ txt "', valid_transform='" ++ flag_text (Some vv) ++ txt "')"
    = (((((b ++ txt ", comoving=") ++ quote :: flag_text cc) ++ quote :: txt ", cosmo_factor=") ++ quote :: ff)
         ++ quote :: txt ", valid_transform=") ++ quote :: flag_text (Some vv) ++ txt "')").
  { intros b cc ff vv. rewrite <- !app_assoc. reflexivity. }
  assert (P' : forall x : name, x ++ txt "')" = x ++ quote :: txt ")") by reflexivity.
  rewrite !P in E. rewrite (app_comm_cons _ _ quote), (app_comm_cons (flag_text (Some v')) _ quote), !app_assoc, !P' in E.
  apply split_last in E; [|cbn; intuition discriminate..]. destruct E as [E _].
  apply split_last in E; [|apply flag_plain..]. destruct E as [E V].
  apply split_last in E; [|cbn; intuition discriminate..]. destruct E as [E _].
  apply split_last in E; [|assumption..]. destruct E as [E FF].
  apply split_last in E; [|cbn; intuition discriminate..]. destruct E as [E _].
  apply split_last in E; [|apply flag_plain..]. destruct E as [E C].
  apply app_inv_tail in E. apply flag_inj in V. apply flag_inj in C. injection V as V. repeat split; assumption.
Qed.

(** With quotes in the factor's text the labels are still told apart for one text of unyt. *)
Theorem C138_labels : forall unyt c f v c' f' v',
  array_repr unyt (array_labels c f v) = array_repr unyt (array_labels c' f' v') -> c = c' /\ f = f' /\ v = v'.
Proof.
  intros unyt c f v c' f' v' E. unfold array_repr, array_labels in E. cbn [l_comoving l_factor l_valid text_of] in E.
  apply app_inv_head in E.
  assert (V : v = v').
  { apply (f_equal (@rev ascii)) in E. rewrite !rev_app_distr in E. destruct v, v'; try reflexivity; cbn in E; discriminate E. }
  subst v'.
  assert (C : c = c' /\ txt ", cosmo_factor='" ++ f = txt ", cosmo_factor='" ++ f').
  { rewrite <- !app_assoc in E. apply app_inv_head in E. destruct c as [[]|], c' as [[]|]; try (cbn in E; discriminate E); (split; [reflexivity|]);
      repeat apply app_inv_head in E; rewrite !app_assoc in E; repeat apply app_inv_tail in E; rewrite E; reflexivity. }
  destruct C as [-> C]. apply app_inv_head in C. split; [reflexivity|]. split; [exact C|reflexivity].
Qed.

(** The flag is written as a text: the representation of an array with the flag unset names one all the same, unlike
    [np.array2string] (PrintModel.v). *)
Example C138_case :
  array_repr (txt "cosmo_array([1., 2.], 'Mpc')") (array_labels (Some true) (txt "a at a=0.5") true)
    = txt "cosmo_array([1., 2.], 'Mpc', comoving='True', cosmo_factor='a at a=0.5', valid_transform='True')" /\
  array_repr (txt "cosmo_array([1., 2.], 'Mpc')") (array_labels None (txt "None at a=None") false)
    = txt "cosmo_array([1., 2.], 'Mpc', comoving='None', cosmo_factor='None at a=None', valid_transform='False')" /\
  ~ In quote (txt "a at a=0.5") /\
  array_repr (txt "unyt_array([1.], 'kg')") (mk_labels None None None) = txt "unyt_array([1.], 'kg')".
Proof. repeat match goal with |- _ /\ _ => split end; try reflexivity. cbn. intuition discriminate. Qed.

Print Assumptions C138_form.
Print Assumptions C138_unlabelled.
Print Assumptions C138_tells.
Print Assumptions C138_labels.
