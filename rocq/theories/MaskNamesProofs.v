(** Proofs: the mask object with names does what the numbered one does. *)
From Coq Require Import String Ascii List ZArith QArith Lia Bool Permutation.
From Verif Require Import Base BaseLemmas RangesModel RangesSpec SortModel SortProofs MaskModel MaskSpec
     NamesModel SubsetModel MaskNamesModel MaskNamesSpec.
Import ListNotations.
Open Scope Z_scope.
Global Arguments under _ : simpl never.
Global Arguments size_of _ : simpl never.

(** * Dictionaries *)

Lemma dget_finds {A} k (d : dict A) v : dget k d = Some v <-> finds k d v.
Proof.
  induction d as [|[k' v'] d IH]; cbn.
  - split; [discriminate|]. intros ([|? ?] & ? & H & _); discriminate.
  - destruct (String.eqb_spec k k') as [->|N].
    + split.
      * intros [= <-]. exists [], d. now split; [|intros []].
      * intros ([|[k1 v1] b] & a & H & Hn); injection H; [now intros _ ->|].
        intros _ _ <-. exfalso. apply Hn. now left.
    + rewrite IH. split.
      * intros (b & a & -> & Hn). exists ((k', v') :: b), a. split; [reflexivity|].
        cbn. intros [H|H]; [congruence|contradiction].
      * intros ([|[k1 v1] b] & a & H & Hn); injection H; [congruence|].
        intros -> _ _. exists b, a. split; [reflexivity|]. intros Hi. apply Hn. now right.
Qed.

Lemma dget_none {A} k (d : dict A) : dget k d = None <-> lacks k d.
Proof.
  unfold lacks. induction d as [|[k' v'] d IH]; cbn; [tauto|].
  destruct (String.eqb_spec k k') as [->|N]; [|rewrite IH].
  - split; [discriminate|]. intros H. exfalso. apply H. now left.
  - split; intros H; [intros [E|E]; [congruence|contradiction]|]. intros E. apply H. now right.
Qed.

Lemma dget_dset {A} k k' (v : A) d : dget k (dset k' v d) = if (k =? k')%string then Some v else dget k d.
Proof.
  induction d as [|[k1 v1] d IH]; cbn; [reflexivity|].
  destruct (String.eqb_spec k' k1) as [->|N]; cbn.
  - now destruct (String.eqb_spec k k1).
  - destruct (String.eqb_spec k k1) as [->|N2]; [|exact IH].
    destruct (String.eqb_spec k1 k'); [congruence|reflexivity].
Qed.

Lemma dget_dset_eq {A} k (v : A) d : dget k (dset k v d) = Some v.
Proof. now rewrite dget_dset, String.eqb_refl. Qed.

Lemma dget_dset_neq {A} k k' (v : A) d : k <> k' -> dget k (dset k' v d) = dget k d.
Proof. intros H. rewrite dget_dset. now destruct (String.eqb_spec k k'). Qed.

Lemma dset_new {A} k (v : A) d : ~ In k (map fst d) -> dset k v d = d ++ [(k, v)].
Proof.
  induction d as [|[k' v'] d IH]; cbn; [reflexivity|]. intros H.
  destruct (String.eqb_spec k k') as [->|N]; [exfalso; apply H; now left|].
  f_equal. apply IH. intros E. apply H. now right.
Qed.

Lemma dmerge_new {A} (e : dict A) : forall d,
  NoDup (map fst (d ++ e)) -> dmerge d e = d ++ e.
Proof.
  induction e as [|[k v] e IH]; intros d H; [now rewrite app_nil_r|].
  change (dmerge d ((k, v) :: e)) with (dmerge (dset k v d) e).
  rewrite dset_new.
  - rewrite IH; rewrite <- app_assoc; [reflexivity|exact H].
  - rewrite map_app in H. apply NoDup_remove_2 in H. intros E. apply H, in_or_app. now left.
Qed.

Lemma dget_dmerge {A} (f : string -> A) e : forall d k,
  (forall kv, In kv e -> snd kv = f (fst kv)) ->
  dget k (dmerge d e) = if in_dec string_dec k (map fst e) then Some (f k) else dget k d.
Proof.
  induction e as [|[k1 v1] e IH]; intros d k H; [reflexivity|].
  change (dmerge d ((k1, v1) :: e)) with (dmerge (dset k1 v1 d) e).
  rewrite IH by (intros kv Hi; apply H; now right). rewrite dget_dset.
  destruct (in_dec string_dec k (map fst e)) as [Hi|Hi].
  - destruct (in_dec string_dec k (map fst ((k1, v1) :: e))) as [|Hn]; [reflexivity|].
    exfalso. apply Hn. now right.
  - destruct (String.eqb_spec k k1) as [->|N].
    + destruct (in_dec string_dec k1 (map fst ((k1, v1) :: e))) as [|Hn].
      * f_equal. apply (H (k1, v1)). now left.
      * exfalso. apply Hn. now left.
    + destruct (in_dec string_dec k (map fst ((k1, v1) :: e))) as [[E|E]|]; cbn in *; congruence.
Qed.

Lemma dget_map {A B} (f : A -> B) k (d : dict A) :
  dget k (map (fun kv => (fst kv, f (snd kv))) d) = option_map f (dget k d).
Proof.
  induction d as [|[k' v'] d IH]; cbn; [reflexivity|]. now destruct (k =? k')%string.
Qed.

(** * Loops *)

Section Loops.
  Context {X A : Type} (put : dict A -> mobj) (keys : X -> list string)
          (body : X -> mobj -> step) (new : X -> string -> option A).

  Lemma for_each_slots xs : forall a0,
    NoDup (flat_map keys xs) ->
    (forall x a, In x xs -> (forall k, In k (keys x) -> dget k a = dget k a0) ->
       exists a', body x (put a) = fine (put a') /\
                  (forall k, In k (keys x) -> dget k a' = new x k) /\
                  (forall k, ~ In k (keys x) -> dget k a' = dget k a)) ->
    exists a', for_each xs body (put a0) = fine (put a') /\
               (forall x k, In x xs -> In k (keys x) -> dget k a' = new x k) /\
               (forall k, ~ In k (flat_map keys xs) -> dget k a' = dget k a0).
  Proof.
    induction xs as [|x xs IH]; intros a0 ND H.
    - exists a0. cbn. repeat split; auto. intros x k [].
    - cbn [flat_map] in ND.
      destruct (H x a0 (or_introl eq_refl) (fun k _ => eq_refl)) as (a1 & E & Hn & Ho).
      assert (D : forall y k, In y xs -> In k (keys y) -> ~ In k (keys x)).
      { intros y k Hy Hk Hx. clear - ND Hy Hk Hx.
        assert (Hi : In k (flat_map keys xs)) by (apply in_flat_map; now exists y).
        induction (keys x) as [|z l IHl]; [destruct Hx|]. cbn in ND. inversion ND as [|? ? N1 N2]; subst.
        destruct Hx as [->|Hx]; [apply N1, in_or_app; now right|]. now apply IHl. }
      destruct (IH a1) as (a2 & E2 & Hn2 & Ho2).
      { clear - ND. induction (keys x); [exact ND|]. apply IHl. now inversion ND. }
      { intros y a Hy Hs. apply H; [now right|]. intros k Hk. rewrite Hs by exact Hk.
        apply Ho. now apply (D y). }
      exists a2. repeat split.
      + cbn [for_each]. rewrite E. exact E2.
      + intros y k [<-|Hy] Hk; [|now apply Hn2].
        destruct (in_dec string_dec k (flat_map keys xs)) as [Hi|Hi].
        * apply in_flat_map in Hi. destruct Hi as (y & Hy & Hk2). exfalso. now apply (D y k Hy Hk2).
        * rewrite Ho2 by exact Hi. now apply Hn.
      + intros k Hk. rewrite Ho2; [apply Ho|]; intros Hi; apply Hk; cbn; apply in_or_app; tauto.
  Qed.
End Loops.

Lemma fold_dset {X A} (key : X -> string) (F : X -> dict A -> res (dict A)) (new : X -> A) xs :
  forall d0,
    NoDup (map key xs) ->
    (forall x d, In x xs -> dget (key x) d = dget (key x) d0 -> F x d = Ok (dset (key x) (new x) d)) ->
    exists d', fold_left (fun acc x => do d <- acc; F x d) xs (Ok d0) = Ok d' /\
               (forall x, In x xs -> dget (key x) d' = Some (new x)) /\
               (forall k, ~ In k (map key xs) -> dget k d' = dget k d0).
Proof.
  induction xs as [|x xs IH]; intros d0 ND H.
  - exists d0. cbn. repeat split; auto. intros x [].
  - inversion ND as [|? ? N1 N2]; subst.
    destruct (IH (dset (key x) (new x) d0) N2) as (d' & E & Hn & Ho).
    { intros y d Hy E. apply H; [now right|]. rewrite E. apply dget_dset_neq. intros E2. apply N1.
      rewrite <- E2. now apply in_map. }
    exists d'. repeat split.
    + cbn [fold_left bind]. rewrite H; [exact E|now left|reflexivity].
    + intros y [<-|Hy]; [|now apply Hn]. rewrite Ho by exact N1. apply dget_dset_eq.
    + intros k Hk. rewrite Ho by (intros Hi; apply Hk; now right). apply dget_dset_neq.
      intros ->. apply Hk. now left.
Qed.

(** * Dictionaries against lists *)

Definition agrees {A} (d : dict A) (ks : list string) (l : list A) : Prop :=
  length l = length ks /\
  forall i k v, nth_error ks i = Some k -> nth_error l i = Some v -> dget k d = Some v.

Lemma agrees_get {A} d ks (l : list A) i k : agrees d ks l -> nth_error ks i = Some k ->
  exists v, nth_error l i = Some v /\ dget k d = Some v.
Proof.
  intros [L H] E. destruct (nth_error l i) as [v|] eqn:Ev.
  - exists v. split; [reflexivity|]. now apply (H i).
  - apply nth_error_None in Ev. assert ((i < length ks)%nat) by (apply nth_error_Some; congruence). lia.
Qed.

Lemma nth_error_combine_some {A B} (l : list A) : forall (m : list B) i x y,
  nth_error (combine l m) i = Some (x, y) <-> nth_error l i = Some x /\ nth_error m i = Some y.
Proof.
  induction l as [|a l IH]; intros [|b m] [|i] x y; cbn; try (split; [discriminate|intros []; discriminate]).
  - split; [now intros [= -> ->]|now intros [[= ->] [= ->]]].
  - apply IH.
Qed.

(** * The names *)

(** The names the masks are stored under, without the underscore. *)
Definition kn (md : meta) : list string :=
  match shared_cell_counts (md_kind md) with
  | None => present_names md
  | Some _ => ["shared"%string]
  end.

(** The names of the numbers of rows. *)
Definition nn (md : meta) : list string :=
  match shared_cell_counts (md_kind md) with
  | None => present_names md
  | Some s => [lower_string s]
  end.

Lemma update_list_kn md : update_list md = map under (kn md).
Proof. unfold update_list, kn. destruct (shared_cell_counts _); reflexivity. Qed.

Lemma drop_under k : drop_first (under k) = k.
Proof. reflexivity. Qed.

Lemma under_inj a b : under a = under b -> a = b.
Proof. now intros [= ->]. Qed.

Lemma append_assoc (a b c : string) : ((a ++ b) ++ c)%string = (a ++ (b ++ c))%string.
Proof. induction a as [|x a IH]; cbn; [reflexivity|]. now rewrite IH. Qed.

Lemma size_under k : size_of (under k) = under (size_of k).
Proof. reflexivity. Qed.

Lemma append_inj_r (s : string) : forall a b, (a ++ s)%string = (b ++ s)%string -> a = b.
Proof.
  assert (L : forall a b : string, String.length (a ++ b)%string = (String.length a + String.length b)%nat)
    by (induction a as [|x a IH]; intros b; cbn; [reflexivity|now rewrite IH]).
  induction a as [|x a IH]; intros [|y b] H; cbn in H; [reflexivity| | |].
  - exfalso. apply (f_equal String.length) in H. cbn in H. rewrite L in H. lia.
  - exfalso. apply (f_equal String.length) in H. cbn in H. rewrite L in H. lia.
  - injection H as -> H. f_equal. now apply IH.
Qed.

Definition slots (k : string) : list string := [under k; size_of (under k)].

Lemma NoDup_slots ks :
  NoDup ks -> (forall a b, In a ks -> In b ks -> a <> size_of b) -> NoDup (flat_map slots ks).
Proof.
  induction ks as [|k ks IH]; intros ND H; [constructor|]. inversion ND as [|? ? N1 N2]; subst.
  change (NoDup (under k :: size_of (under k) :: flat_map slots ks)). constructor.
  - intros [E|E].
    + rewrite size_under in E. apply under_inj in E. now apply (H k k); [left|left|].
    + apply in_flat_map in E. destruct E as (b & Hb & [E|[E|[]]]).
      * apply under_inj in E. subst. contradiction.
      * rewrite size_under in E. apply under_inj in E.
        apply (H k b); [now left|now right|]. now rewrite E.
  - constructor.
    + intros E. apply in_flat_map in E. destruct E as (b & Hb & [E|[E|[]]]).
      * rewrite size_under in E. apply under_inj in E. now apply (H b k); [right|left|].
      * rewrite !size_under in E. apply under_inj, append_inj_r in E. subst. contradiction.
    + apply IH; [exact N2|]. intros a b Ha Hb. apply H; now right.
Qed.

Lemma names_present md : names md = present_names md.
Proof. reflexivity. Qed.

Lemma NoDup_kn md : names_ok md -> (md_kind md = KSnapshot \/ md_kind md = KSOAP) ->
  NoDup (kn md) /\ NoDup (flat_map slots (kn md)).
Proof.
  intros [H1 H2] HK. unfold kn. destruct HK as [E|E]; rewrite E; cbn [shared_cell_counts].
  - destruct H1 as [H1|H1]; [congruence|]. split; [exact H1|].
    apply NoDup_slots; [exact H1|exact H2].
  - split; [repeat constructor; now intros []|]. apply NoDup_slots.
    + repeat constructor. now intros [].
    + intros a b [<-|[]] [<-|[]]. discriminate.
Qed.

Lemma kind_cases md : kind_ok md -> md_kind md = KSnapshot \/ md_kind md = KSOAP.
Proof. intros [[H _]|[H _]]; auto. Qed.

Lemma groupcat_spec t : groupcat t = true <-> In t ["FOF"; "SOAP"; "FOFSubset"; "SOAPSubset"]%string.
Proof.
  unfold groupcat. rewrite existsb_exists. split.
  - intros (x & Hx & E). apply String.eqb_eq in E. now subst.
  - intros H. exists t. split; [exact H|]. apply String.eqb_refl.
Qed.

Lemma mask_names_kn md : kind_ok md -> mask_names md = kn md.
Proof.
  intros [[E H]|[E H]]; unfold mask_names, kn; rewrite E; cbn [shared_cell_counts];
    destruct (groupcat (md_output_type md)) eqn:G; try reflexivity.
  - apply groupcat_spec in G. contradiction.
  - exfalso. assert (groupcat (md_output_type md) = true); [|congruence].
    apply groupcat_spec. destruct H as [<-|[<-|[]]]; cbn; tauto.
Qed.

(** * The correspondence *)

Record static (md : meta) (mm : mask_meta) (o : mobj) : Prop := {
  s_box : mm_box mm = md_box md;
  s_hom : mm_homogeneous mm = homogeneous_arrays (md_kind md);
  s_keys : map fst (mo_counts o) = kn md;
  s_counts : agrees (mo_counts o) (kn md) (map (fun key => map cell_count (key_cells key)) (mm_keys mm));
  s_offsets : agrees (mo_offsets o) (kn md) (map (fun key => map cell_offset (key_cells key)) (mm_keys mm));
  s_min : agrees (mo_min o) (kn md) (map (fun key => map cell_min (key_cells key)) (mm_keys mm));
  s_max : agrees (mo_max o) (kn md) (map (fun key => map cell_max (key_cells key)) (mm_keys mm));
  s_centres : forall key, In key (mm_keys mm) -> length (key_cells key) = length (mo_centres o);
  s_total : agrees (md_n md) (nn md) (map key_total (mm_keys mm))
}.

Definition same_masks (md : meta) (o : mobj) (m : masks) : Prop :=
  match m with
  | InRanges l =>
      mo_range_mask o = true /\
      agrees (mo_attrs o) (map under (kn md)) (map (fun x => VRanges (fst x)) l) /\
      agrees (mo_attrs o) (map (fun k => size_of (under k)) (kn md)) (map (fun x => VSize (snd x)) l)
  | InBools l =>
      mo_range_mask o = false /\
      agrees (mo_attrs o) (map under (kn md)) (map (fun x => VBools (fst x)) l) /\
      agrees (mo_attrs o) (map (fun k => size_of (under k)) (kn md)) (map (fun x => VSize (snd x)) l)
  end.

Record sim (md : meta) (mm : mask_meta) (o : mobj) (st : mask_state) : Prop := {
  sim_static : static md mm o;
  sim_cm : agrees (mo_cell_mask o) (kn md) (ms_cell_mask st);
  sim_masks : same_masks md o (ms_masks st);
  sim_con : mo_constrained o = ms_constrained st
}.

Lemma static_attrs md mm o a : static md mm o -> static md mm (set_attrs a o).
Proof. intros []. now constructor. Qed.
Lemma static_cm md mm o c : static md mm o -> static md mm (set_cell_mask c o).
Proof. intros []. now constructor. Qed.
Lemma static_rm md mm o b : static md mm o -> static md mm (set_range_mask b o).
Proof. intros []. now constructor. Qed.
Lemma static_con md mm o c : static md mm o -> static md mm (set_constrained c o).
Proof. intros []. now constructor. Qed.

Lemma agrees_length {A} d ks (l : list A) : agrees d ks l -> length l = length ks.
Proof. now intros []. Qed.

Lemma agrees_intro {A} (d : dict A) ks l :
  length l = length ks ->
  (forall i k v, nth_error ks i = Some k -> nth_error l i = Some v -> dget k d = Some v) -> agrees d ks l.
Proof. now split. Qed.

Lemma agrees_map_intro {A B} (f : string -> string) (g : B -> A) (d : dict A) ks l :
  length l = length ks ->
  (forall i k v, nth_error ks i = Some k -> nth_error l i = Some v -> dget (f k) d = Some (g v)) ->
  agrees d (map f ks) (map g l).
Proof.
  intros L H. split; [now rewrite !map_length|]. intros i k v Hk Hv.
  rewrite nth_error_map in Hk, Hv.
  destruct (nth_error ks i) eqn:E1; [|discriminate]. destruct (nth_error l i) eqn:E2; [|discriminate].
  cbn in Hk, Hv. injection Hk as <-. injection Hv as <-. eapply H; eassumption.
Qed.

Lemma agrees_map_get {A B} (f : string -> string) (g : B -> A) (d : dict A) ks l i k v :
  agrees d (map f ks) (map g l) -> nth_error ks i = Some k -> nth_error l i = Some v ->
  dget (f k) d = Some (g v).
Proof.
  intros [_ H] Hk Hv. apply (H i); rewrite nth_error_map; [now rewrite Hk|now rewrite Hv].
Qed.

Lemma agrees_map_length {A B} (f : string -> string) (g : B -> A) (d : dict A) ks l :
  agrees d (map f ks) (map g l) -> length l = length ks.
Proof. intros [L _]. now rewrite !map_length in L. Qed.

Lemma In_nth {A} (l : list A) x : In x l -> exists i, nth_error l i = Some x.
Proof. apply In_nth_error. Qed.

Lemma nth_some_of_length {A B} (l : list A) (m : list B) i x :
  length m = length l -> nth_error l i = Some x -> exists y, nth_error m i = Some y.
Proof.
  intros L E. destruct (nth_error m i) as [y|] eqn:Ey; [now exists y|].
  apply nth_error_None in Ey. assert ((i < length l)%nat) by (apply nth_error_Some; congruence). lia.
Qed.

(** * compress *)

Lemma compress_map_r {A B} (f : A -> B) m : forall l, compress m (map f l) = map f (compress m l).
Proof.
  induction m as [|b m IH]; intros [|x l]; cbn; try reflexivity.
  destruct b; cbn; now rewrite IH.
Qed.

Lemma combine_map_map {A B C} (f : A -> B) (g : A -> C) l :
  combine (map f l) (map g l) = map (fun x => (f x, g x)) l.
Proof. induction l as [|x l IH]; cbn; [reflexivity|]. now rewrite IH. Qed.

Lemma fold_left_map {A B C} (f : C -> B -> C) (g : A -> B) l : forall c,
  fold_left f (map g l) c = fold_left (fun c x => f c (g x)) l c.
Proof. induction l as [|x l IH]; intros c; cbn; [reflexivity|]. apply IH. Qed.

(** * Updating the particle masks *)

Lemma set_attrs_self o : set_attrs (mo_attrs o) o = o.
Proof. now destruct o. Qed.
Lemma set_cell_mask_self o : set_cell_mask (mo_cell_mask o) o = o.
Proof. now destruct o. Qed.
Lemma set_attrs_twice a b o : set_attrs a (set_attrs b o) = set_attrs a o.
Proof. reflexivity. Qed.

Section Update.
  Context (md : meta) (mm : mask_meta) (o : mobj) (cm : list (list bool)) (m : masks).
  Context (HS : static md mm o) (HC : agrees (mo_cell_mask o) (kn md) cm)
          (ND : NoDup (flat_map slots (kn md))).

  Lemma key_data k : In k (kn md) -> exists i key c,
    nth_error (kn md) i = Some k /\ nth_error (mm_keys mm) i = Some key /\ nth_error cm i = Some c /\
    dget k (mo_counts o) = Some (map cell_count (key_cells key)) /\
    dget k (mo_offsets o) = Some (map cell_offset (key_cells key)) /\
    dget k (mo_cell_mask o) = Some c.
  Proof.
    intros Hk. apply In_nth in Hk. destruct Hk as [i Hi].
    destruct (agrees_get _ _ _ _ _ (s_counts _ _ _ HS) Hi) as (c1 & E1 & D1).
    destruct (agrees_get _ _ _ _ _ (s_offsets _ _ _ HS) Hi) as (c2 & E2 & D2).
    destruct (agrees_get _ _ _ _ _ HC Hi) as (c3 & E3 & D3).
    rewrite nth_error_map in E1, E2. destruct (nth_error (mm_keys mm) i) as [key|] eqn:Ek; [|discriminate].
    cbn in E1, E2. injection E1 as <-. injection E2 as <-. exists i, key, c3. now repeat split.
  Qed.

  Definition ranges_for (k : string) : list range * Z :=
    match dget k (mo_counts o), dget k (mo_cell_mask o), dget k (mo_offsets o) with
    | Some counts, Some cm, Some offsets =>
        (map (fun co => (snd co, fst co + snd co)) (combine (compress cm counts) (compress cm offsets)),
         sumZ (compress cm counts))
    | _, _, _ => ([], 0)
    end.

  Definition slot_value (mask size : string -> option mvalue) (k s : string) : option mvalue :=
    if (s =? under k)%string then mask k else size k.

  Lemma slot_mask f g k : slot_value f g k (under k) = f k.
  Proof. unfold slot_value. now rewrite String.eqb_refl. Qed.

  Lemma slots_differ k : size_of (under k) <> under k.
  Proof.
    rewrite size_under. intros E. apply under_inj in E. unfold size_of in E.
    apply (f_equal String.length) in E. revert E.
    induction k as [|x k IH]; cbn; [discriminate|]. intros [= E]. now apply IH.
  Qed.

  Lemma slot_size f g k : slot_value f g k (size_of (under k)) = g k.
  Proof. unfold slot_value. destruct (String.eqb_spec (size_of (under k)) (under k)) as [E|]; [|reflexivity].
         now apply slots_differ in E. Qed.
End Update.

(** A loop over the masks: what each entry becomes. *)
Lemma for_masks md (body : string -> mobj -> step) (put : dict mvalue -> mobj)
      (mask size : string -> option mvalue) a0 :
  NoDup (flat_map slots (kn md)) ->
  (forall k a, In k (kn md) -> dget (under k) a = dget (under k) a0 ->
     dget (size_of (under k)) a = dget (size_of (under k)) a0 ->
     exists a', body (under k) (put a) = fine (put a') /\
                dget (under k) a' = mask k /\ dget (size_of (under k)) a' = size k /\
                (forall s, s <> under k -> s <> size_of (under k) -> dget s a' = dget s a)) ->
  exists a', for_each (update_list md) body (put a0) = fine (put a') /\
             forall k, In k (kn md) -> dget (under k) a' = mask k /\ dget (size_of (under k)) a' = size k.
Proof.
  intros ND H. rewrite update_list_kn.
  assert (M : forall (o : mobj) l, for_each (map under l) body o = for_each l (fun k => body (under k)) o).
  { intros o l. revert o. induction l as [|x l IH]; intros o; cbn; [reflexivity|].
    destruct (body (under x) o) as [o' [e|]]; cbn; [reflexivity|apply IH]. }
  rewrite M.
  destruct (for_each_slots put slots (fun k => body (under k)) (slot_value mask size) (kn md) a0)
    as (a' & E & Hn & _).
  - exact ND.
  - intros k a Hk Hs. destruct (H k a Hk) as (a' & E & E1 & E2 & E3).
    + apply Hs. now left.
    + apply Hs. right. now left.
    + exists a'. split; [exact E|]. split.
      * intros s [<-|[<-|[]]]; [now rewrite slot_mask|now rewrite slot_size].
      * intros s Hs2. apply E3; intros ->; apply Hs2; cbn; auto.
  - exists a'. split; [exact E|]. intros k Hk. split.
    + rewrite (Hn k (under k) Hk) by (now left). apply slot_mask.
    + rewrite (Hn k (size_of (under k)) Hk) by (right; now left). apply slot_size.
Qed.
