(** Proofs about sorting. *)
From Coq Require Import List ZArith Lia Bool Permutation Sorted.
From Verif Require Import Base BaseLemmas SortModel RangesSpec.
Import ListNotations.
Open Scope Z_scope.

Lemma insert_key_perm x l : Permutation (insert_key x l) (x :: l).
Proof.
  induction l as [|y l IH]; cbn; [reflexivity|].
  destruct (fst x <=? fst y); [reflexivity|].
  rewrite IH. apply perm_swap.
Qed.

Lemma sort_keys_perm l : Permutation (sort_keys l) l.
Proof.
  induction l as [|x l IH]; cbn; [reflexivity|]. rewrite insert_key_perm. now constructor.
Qed.

Lemma insert_key_sorted x l :
  StronglySorted (fun a b => fst a <= fst b) l ->
  StronglySorted (fun a b => fst a <= fst b) (insert_key x l).
Proof.
  induction 1 as [|y l Hs IH Hall]; cbn; [constructor; constructor|].
  destruct (fst x <=? fst y) eqn:E.
  - apply Z.leb_le in E. constructor; [constructor; assumption|].
    constructor; [assumption|]. eapply Forall_impl; [|exact Hall]. cbn; intros; lia.
  - apply Z.leb_gt in E. constructor; [assumption|].
    eapply Permutation_Forall; [symmetry; apply insert_key_perm|].
    constructor; [lia|assumption].
Qed.

Lemma sort_keys_sorted l : StronglySorted (fun a b => fst a <= fst b) (sort_keys l).
Proof. induction l; cbn; [constructor|]. now apply insert_key_sorted. Qed.

Lemma sorted_map_fst l :
  StronglySorted (fun a b : Z * nat => fst a <= fst b) l -> StronglySorted Z.le (map fst l).
Proof.
  induction 1 as [|x l _ IH Hall]; cbn; constructor; [assumption|].
  apply Forall_map. exact Hall.
Qed.

Lemma combine_seq_nth (keys : list Z) : forall s k i,
  In (k, i) (combine keys (seq s (length keys))) ->
  (s <= i)%nat /\ nth (i - s) keys 0 = k.
Proof.
  induction keys as [|x keys IH]; intros s k i H; cbn in H; [easy|].
  destruct H as [[= -> ->]|H].
  - split; [lia|]. now rewrite Nat.sub_diag.
  - apply IH in H. destruct H as [H1 H2]. split; [lia|].
    replace (i - s)%nat with (S (i - S s)) by lia. exact H2.
Qed.

Lemma map_combine_fst (keys : list Z) s :
  map fst (combine keys (seq s (length keys))) = keys.
Proof. revert s. induction keys; intros s; cbn; [reflexivity|]. now f_equal. Qed.

Lemma map_combine_snd (keys : list Z) s :
  map snd (combine keys (seq s (length keys))) = seq s (length keys).
Proof. revert s. induction keys; intros s; cbn; [reflexivity|]. now f_equal. Qed.

Lemma stable_argsort_is_argsort : is_argsort stable_argsort.
Proof.
  intros keys. unfold stable_argsort. split.
  - rewrite sort_keys_perm, map_combine_snd. reflexivity.
  - rewrite map_map.
    replace (map (fun x => nth (snd x) keys 0) (sort_keys (combine keys (seq 0 (length keys)))))
      with (map fst (sort_keys (combine keys (seq 0 (length keys))))).
    + apply sorted_map_fst, sort_keys_sorted.
    + apply map_ext_in. intros [k i] H.
      eapply Permutation_in in H; [|apply sort_keys_perm].
      apply combine_seq_nth in H. cbn. rewrite Nat.sub_0_r in H. symmetry. tauto.
Qed.

Lemma np_sort_perm keys : Permutation (np_sort keys) keys.
Proof. unfold np_sort. now rewrite sort_keys_perm, map_combine_fst. Qed.

Lemma np_sort_sorted keys : StronglySorted Z.le (np_sort keys).
Proof. apply sorted_map_fst, sort_keys_sorted. Qed.

Lemma sorted_perm_eq l m :
  StronglySorted Z.le l -> StronglySorted Z.le m -> Permutation l m -> l = m.
Proof.
  intros Hl. revert m. induction Hl as [|x l Hl IH Hx]; intros m Hm Hp.
  - now apply Permutation_nil in Hp.
  - destruct Hm as [|y m Hm Hy]; [symmetry in Hp; now apply Permutation_nil in Hp|].
    assert (x = y) as ->.
    { assert (In x (y :: m)) as Hin by (eapply Permutation_in; [exact Hp|now left]).
      assert (In y (x :: l)) as Hin2
          by (eapply Permutation_in; [symmetry; exact Hp|now left]).
      rewrite Forall_forall in Hx, Hy.
      destruct Hin as [->|Hin]; [reflexivity|]. destruct Hin2 as [->|Hin2]; [reflexivity|].
      specialize (Hx _ Hin2). specialize (Hy _ Hin). lia. }
    f_equal. apply IH; [assumption|]. now apply Permutation_cons_inv in Hp.
Qed.
