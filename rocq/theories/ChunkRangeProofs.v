(** The chunk ranges computed by [get_chunk_ranges] (C48). *)
From Coq Require Import List ZArith Lia Sorted Bool.
From Verif Require Import Base BaseLemmas RangesModel RangesSpec.
Import ListNotations.
Open Scope Z_scope.

Definition lo (cs : Z) (r : range) : Z := (fst r / cs) * cs.
Definition hi (cs n : Z) (r : range) : Z := Z.min (- ((- snd r) / cs) * cs) n.

Lemma lo_le : forall cs r, 0 < cs -> lo cs r <= fst r.
Proof. intros cs r H. unfold lo. pose proof (Z.mul_div_le (fst r) cs H). lia. Qed.
Lemma hi_ge : forall cs n r, 0 < cs -> snd r <= n -> snd r <= hi cs n r.
Proof.
  intros cs n r H L. unfold hi. pose proof (Z.mul_div_le (- snd r) cs H). apply Z.min_glb; [|exact L].
  rewrite Z.mul_opp_l. lia.
Qed.
Lemma lo_mono : forall cs a b, 0 < cs -> fst a <= fst b -> lo cs a <= lo cs b.
Proof. intros cs a b H L. unfold lo. apply Z.mul_le_mono_nonneg_r; [lia|]. apply Z.div_le_mono; assumption. Qed.
Lemma hi_mono : forall cs n a b, 0 < cs -> snd a <= snd b -> hi cs n a <= hi cs n b.
Proof.
  intros cs n a b H L. unfold hi. apply Z.min_le_compat_r. apply Z.mul_le_mono_nonneg_r; [lia|].
  apply -> Z.opp_le_mono. apply Z.div_le_mono; [assumption|lia].
Qed.
Lemma hi_le : forall cs n r, hi cs n r <= n.
Proof. intros. unfold hi. apply Z.le_min_r. Qed.

Record chunked (cs n : Z) (l acc : list range) : Prop := mkchunked {
  ck_whole : Forall (whole_chunks cs n) acc;
  ck_sorted : StronglySorted (fun b a : range => snd a < fst b) acc;
  ck_cover : forall r, In r l -> exists c, In c acc /\ fst c <= lo cs r /\ hi cs n r <= snd c;
  ck_tight : forall c x, In c acc -> fst c <= x < snd c -> exists r, In r l /\ lo cs r <= x < hi cs n r;
  ck_head : match rev l with
            | [] => acc = []
            | a :: _ => exists l0 older, acc = (l0, hi cs n a) :: older /\ l0 <= lo cs a
            end
}.

Lemma hi_whole : forall cs n r, 0 < cs -> (cs | hi cs n r) \/ hi cs n r = n.
Proof.
  intros cs n r H. unfold hi. destruct (Z.min_spec (- (- snd r / cs) * cs) n) as [[_ E]|[_ E]]; rewrite E.
  - left. exists (- (- snd r / cs)). reflexivity.
  - right. reflexivity.
Qed.

Lemma step_chunked : forall cs n l r acc, 0 < cs -> in_bounds n r ->
  (forall a, In a l -> fst a <= fst r /\ snd a <= snd r) ->
  chunked cs n l acc -> chunked cs n (l ++ [r]) (chunk_step cs n acc r).
Proof.
  intros cs n l r acc H B O [W S C T Hd]. destruct B as (B0 & B1 & B2).
  pose proof (lo_le cs r H) as Lr. pose proof (hi_ge cs n r H B2) as Hr. pose proof (hi_le cs n r) as Hn.
  assert (L0 : 0 <= lo cs r) by (unfold lo; apply Z.mul_nonneg_nonneg; [apply Z.div_pos; lia|lia]).
  assert (Wr : whole_chunks cs n (lo cs r, hi cs n r)).
  { repeat split; cbn [fst snd]; try lia; [exists (fst r / cs); reflexivity|apply hi_whole; exact H]. }
  unfold chunk_step. fold (lo cs r). fold (hi cs n r).
  destruct acc as [|[l0 u0] older].
  - assert (l = []) as ->.
    { destruct l as [|a l]; [reflexivity|]. destruct (rev (a :: l)) as [|b m] eqn:E.
      - apply (f_equal (@rev range)) in E. rewrite rev_involutive in E. discriminate E.
      - destruct Hd as (? & ? & Q & _). discriminate Q. }
    cbn [app]. constructor.
    + constructor; [exact Wr|constructor].
    + constructor; constructor.
    + intros q [<-|[]]. exists (lo cs r, hi cs n r). cbn [fst snd]. split; [left; reflexivity|lia].
    + intros c x [<-|[]] X. exists r. cbn [fst snd] in X. split; [left; reflexivity|exact X].
    + cbn. exists (lo cs r), []. split; [reflexivity|lia].
  - destruct (rev l) as [|a m] eqn:Er; [discriminate Hd|].
    destruct Hd as (l0' & older' & Q & Ha). injection Q as -> -> ->.
    assert (Ia : In a l) by (apply in_rev; rewrite Er; left; reflexivity).
    destruct (O a Ia) as [Oa1 Oa2].
    pose proof (lo_mono cs a r H Oa1) as M1. pose proof (hi_mono cs n a r H Oa2) as M2.
    inversion W as [|? ? W0 Wo]; subst. inversion S as [|? ? So S0]; subst.
    assert (Hrev : rev (l ++ [r]) = r :: a :: m) by (rewrite rev_app_distr, Er; reflexivity).
    destruct (Z.ltb_spec (hi cs n a) (lo cs r)) as [Lt|Ge].
    + constructor.
      * constructor; [exact Wr|exact W].
      * constructor; [exact S|]. constructor; [exact Lt|].
        apply Forall_forall. intros c Hc. rewrite Forall_forall in S0. specialize (S0 c Hc).
        cbn [fst snd] in *. lia.
      * intros q Hq. apply in_app_or in Hq. destruct Hq as [Hq|[<-|[]]].
        -- destruct (C q Hq) as (c & Ic & P). exists c. split; [right; exact Ic|exact P].
        -- exists (lo cs r, hi cs n r). split; [left; reflexivity|cbn [fst snd]; lia].
      * intros c x [<-|Ic] X.
        -- exists r. split; [apply in_or_app; right; left; reflexivity|exact X].
        -- destruct (T c x Ic X) as (q & Iq & P). exists q. split; [apply in_or_app; left; exact Iq|exact P].
      * rewrite Hrev. exists (lo cs r), ((l0', hi cs n a) :: older'). split; [reflexivity|lia].
    + destruct W0 as (P1 & P2 & P3 & P4 & P5). cbn [fst snd] in *.
      constructor.
      * constructor; [|exact Wo]. repeat split; cbn [fst snd]; try lia; [exact P4|apply hi_whole; exact H].
      * constructor; [exact So|]. exact S0.
      * intros q Hq. apply in_app_or in Hq. destruct Hq as [Hq|[<-|[]]].
        -- destruct (C q Hq) as (c & [<-|Ic] & P).
           ++ exists (l0', hi cs n r). split; [left; reflexivity|]. cbn [fst snd] in *. lia.
           ++ exists c. split; [right; exact Ic|exact P].
        -- exists (l0', hi cs n r). split; [left; reflexivity|cbn [fst snd]; lia].
      * intros c x [<-|Ic] X; cbn [fst snd] in *.
        -- destruct (Z.lt_ge_cases x (hi cs n a)) as [Lx|Gx].
           ++ destruct (T (l0', hi cs n a) x (or_introl eq_refl)) as (q & Iq & P); [cbn [fst snd]; lia|].
              exists q. split; [apply in_or_app; left; exact Iq|exact P].
           ++ exists r. split; [apply in_or_app; right; left; reflexivity|lia].
        -- destruct (T c x (or_intror Ic) X) as (q & Iq & P). exists q. split; [apply in_or_app; left; exact Iq|exact P].
      * rewrite Hrev. exists l0', older'. split; [reflexivity|lia].
Qed.

Lemma sorted_app_last : forall A (R : A -> A -> Prop) l r, StronglySorted R (l ++ [r]) ->
  StronglySorted R l /\ forall a, In a l -> R a r.
Proof.
  intros A R l r H. induction l as [|x l IH]; cbn [app] in H.
  - split; [constructor|intros a []].
  - inversion H as [|? ? S F]; subst. destruct (IH S) as [S' L]. rewrite Forall_forall in F. split.
    + constructor; [exact S'|]. apply Forall_forall. intros y Hy. apply F. apply in_or_app. left. exact Hy.
    + intros a [<-|Ha]; [apply F; apply in_or_app; right; left; reflexivity|apply L; exact Ha].
Qed.

Lemma fold_chunked : forall cs n l, 0 < cs -> Forall (in_bounds n) l -> ordered_ranges l ->
  chunked cs n l (fold_left (chunk_step cs n) l []).
Proof.
  intros cs n l H. induction l as [|r l IH] using rev_ind; intros B O.
  - cbn [fold_left]. constructor; [constructor|constructor|intros q []|intros c x []|reflexivity].
  - apply Forall_app in B. destruct B as [B Br]. inversion Br; subst.
    destruct (sorted_app_last _ _ _ _ O) as [Ol Or]. rewrite fold_left_app. cbn [fold_left].
    apply step_chunked; [exact H|assumption|exact Or|apply IH; assumption].
Qed.

Lemma sorted_snoc : forall A (R : A -> A -> Prop) l x,
  StronglySorted R l -> (forall y, In y l -> R y x) -> StronglySorted R (l ++ [x]).
Proof.
  intros A R l x H. induction H as [|y l S IH F]; intro L; cbn [app]; [constructor; constructor|].
  constructor; [apply IH; intros z Hz; apply L; right; exact Hz|].
  apply Forall_app. split; [exact F|]. constructor; [apply L; left; reflexivity|constructor].
Qed.
Lemma sorted_rev : forall A (R : A -> A -> Prop) l,
  StronglySorted (fun b a => R a b) l -> StronglySorted R (rev l).
Proof.
  intros A R l H. induction H as [|x l S IH F]; cbn [rev]; [constructor|].
  apply sorted_snoc; [exact IH|]. intros y Hy. apply in_rev in Hy. rewrite Forall_forall in F. apply F. exact Hy.
Qed.

(** A row of a chunk range lies in a chunk that a non-empty request touches. *)
Lemma touched : forall cs n r x, 0 < cs -> in_bounds n r -> fst r < snd r -> lo cs r <= x < hi cs n r ->
  exists y, fst r <= y < snd r /\ y / cs = x / cs.
Proof.
  intros cs n r x H (B0 & B1 & B2) N [X1 X2].
  assert (X3 : x < - (- snd r / cs) * cs) by (unfold hi in X2; lia).
  assert (D : fst r / cs <= x / cs) by (unfold lo in X1; apply Z.div_le_lower_bound; lia).
  pose proof (Z.mul_div_le (- snd r) cs H) as M.
  pose proof (Z.mul_succ_div_gt (- snd r) cs H) as M'.
  pose proof (Z.mul_div_le x cs H) as Mx. pose proof (Z.mul_succ_div_gt x cs H) as Mx'.
  assert (U : x / cs * cs < snd r).
  { assert (x / cs < - (- snd r / cs)) by (apply Z.div_lt_upper_bound; lia). nia. }
  destruct (Z.le_gt_cases (fst r) (x / cs * cs)) as [A|A].
  - exists (x / cs * cs). split; [lia|]. rewrite Z.div_mul by lia. reflexivity.
  - exists (fst r). split; [lia|]. apply Z.le_antisymm; [exact D|].
    apply Z.div_le_lower_bound; lia.
Qed.
