(** Proofs: every method of the mask object with names against the numbered one. *)
From Coq Require Import String Ascii List ZArith QArith Lia Bool Permutation.
From Verif Require Import Base BaseLemmas RangesModel RangesSpec SortModel SortProofs MaskModel MaskSpec
     NamesModel SubsetModel MaskNamesModel MaskNamesSpec MaskNamesProofs.
Import ListNotations.
Open Scope Z_scope.

Ltac dsets := repeat first [rewrite dget_dset_eq | rewrite dget_dset_neq by (first [assumption | apply not_eq_sym; assumption | apply slots_differ | apply not_eq_sym, slots_differ])].

(** * Particle masks from cell masks *)

Lemma ranges_for_eq o k key c :
  dget k (mo_counts o) = Some (map cell_count (key_cells key)) ->
  dget k (mo_offsets o) = Some (map cell_offset (key_cells key)) ->
  dget k (mo_cell_mask o) = Some c ->
  ranges_for o k = range_mask_of_cells (key_cells key) c.
Proof.
  intros E1 E2 E3. unfold ranges_for, range_mask_of_cells. rewrite E1, E2, E3.
  rewrite !compress_map_r, combine_map_map, map_map. reflexivity.
Qed.

Lemma combine_length_eq {A B} (l : list A) (m : list B) n : length l = n -> length m = n -> length (combine l m) = n.
Proof. intros H1 H2. rewrite combine_length, H1, H2. apply Nat.min_id. Qed.

Lemma static_keys_length md mm o : static md mm o -> length (mm_keys mm) = length (kn md).
Proof. intros H. pose proof (agrees_length _ _ _ (s_counts _ _ _ H)) as L. now rewrite map_length in L. Qed.

Lemma update_masks_ranges md mm o cm l0 :
  static md mm o -> agrees (mo_cell_mask o) (kn md) cm -> NoDup (flat_map slots (kn md)) ->
  mo_range_mask o = true ->
  exists a', update_masks md o = fine (set_attrs a' o) /\
             same_masks md (set_attrs a' o) (update_range_masks mm cm (InRanges l0)).
Proof.
  intros HS HC ND HR. unfold update_masks.
  destruct (for_masks md update_mask (fun a => set_attrs a o)
              (fun k => Some (VRanges (fst (ranges_for o k))))
              (fun k => Some (VSize (snd (ranges_for o k)))) (mo_attrs o) ND) as (a' & E & H).
  { intros k a Hk _ _. destruct (key_data md mm o cm HS HC k Hk) as (i & key & c & _ & _ & _ & E1 & E2 & E3).
    eexists. split; [|split; [|split]].
    - unfold update_mask. rewrite drop_under. unfold entry. cbn [mo_counts mo_cell_mask mo_offsets mo_range_mask set_attrs].
      rewrite E1, E2, E3, HR. cbn [get]. unfold setattr. rewrite set_attrs_twice. reflexivity.
    - cbn [mo_attrs set_attrs]. dsets. do 2 f_equal. unfold ranges_for. now rewrite E1, E2, E3.
    - cbn [mo_attrs set_attrs]. dsets. do 2 f_equal. unfold ranges_for. now rewrite E1, E2, E3.
    - intros s H1 H2. cbn [mo_attrs set_attrs]. now rewrite !dget_dset_neq by assumption. }
  rewrite set_attrs_self in E. exists a'. split; [exact E|].
  assert (L : length (map (fun kc => range_mask_of_cells (key_cells (fst kc)) (snd kc)) (combine (mm_keys mm) cm))
              = length (kn md)).
  { rewrite map_length. apply combine_length_eq; [now apply (static_keys_length _ _ o)|].
    now apply agrees_length in HC. }
  assert (V : forall i k v, nth_error (kn md) i = Some k ->
            nth_error (map (fun kc => range_mask_of_cells (key_cells (fst kc)) (snd kc)) (combine (mm_keys mm) cm)) i
            = Some v -> v = ranges_for o k).
  { intros i k v Hk Hv. rewrite nth_error_map in Hv.
    destruct (nth_error (combine (mm_keys mm) cm) i) as [[key c]|] eqn:Ec; [|discriminate].
    cbn in Hv. injection Hv as <-. apply nth_error_combine_some in Ec. destruct Ec as [Ek Ec].
    symmetry. apply ranges_for_eq.
    - destruct (s_counts _ _ _ HS) as [_ A]. apply (A i); [exact Hk|]. now rewrite nth_error_map, Ek.
    - destruct (s_offsets _ _ _ HS) as [_ A]. apply (A i); [exact Hk|]. now rewrite nth_error_map, Ek.
    - destruct HC as [_ A]. now apply (A i). }
  cbn [update_range_masks same_masks mo_range_mask set_attrs mo_attrs]. split; [exact HR|].
  split; apply agrees_map_intro; try exact L; intros i k v Hk Hv; rewrite (V i k v Hk Hv);
    apply H; now apply nth_error_In with i.
Qed.

Lemma bool_mask_eq key c m :
  fold_left (fun m co => set_slice (snd co) (fst co + snd co) false m)
            (combine (compress (map negb c) (map cell_count (key_cells key)))
                     (compress (map negb c) (map cell_offset (key_cells key)))) m
  = bool_mask_of_cells (key_cells key) c m.
Proof.
  rewrite !compress_map_r, combine_map_map, fold_left_map. reflexivity.
Qed.

Lemma update_masks_bools md mm o cm l :
  static md mm o -> agrees (mo_cell_mask o) (kn md) cm -> NoDup (flat_map slots (kn md)) ->
  same_masks md o (InBools l) ->
  exists a', update_masks md o = fine (set_attrs a' o) /\
             same_masks md (set_attrs a' o) (update_range_masks mm cm (InBools l)).
Proof.
  intros HS HC ND (HR & HM & HZ). unfold update_masks.
  pose (new := fun k => match dget k (mo_counts o), dget k (mo_cell_mask o), dget k (mo_offsets o),
                              dget (under k) (mo_attrs o) with
                        | Some counts, Some cm, Some offsets, Some (VBools m) =>
                            Some (VBools (fold_left (fun m co => set_slice (snd co) (fst co + snd co) false m)
                              (combine (compress (map negb cm) counts) (compress (map negb cm) offsets)) m))
                        | _, _, _, _ => None
                        end).
  pose proof (agrees_map_length _ _ _ _ _ HM) as Ll.
  destruct (for_masks md update_mask (fun a => set_attrs a o) new
              (fun k => dget (size_of (under k)) (mo_attrs o)) (mo_attrs o) ND) as (a' & E & H).
  { intros k a Hk Ha1 Ha2. destruct (key_data md mm o cm HS HC k Hk) as (i & key & c & Ei & _ & _ & E1 & E2 & E3).
    destruct (nth_some_of_length _ _ _ _ Ll Ei) as [x Ex].
    pose proof (agrees_map_get _ _ _ _ _ _ _ _ HM Ei Ex) as G. cbn beta in G.
    eexists. split; [|split; [|split]].
    - unfold update_mask. rewrite drop_under. unfold entry, attribute.
      cbn [mo_counts mo_cell_mask mo_offsets mo_range_mask mo_attrs set_attrs].
      rewrite E1, E2, E3, HR, Ha1, G. cbn [get]. unfold setattr. rewrite set_attrs_twice. reflexivity.
    - cbn [mo_attrs set_attrs]. dsets. unfold new. now rewrite E1, E2, E3, G.
    - cbn [mo_attrs set_attrs]. dsets. exact Ha2.
    - intros s H1 H2. cbn [mo_attrs set_attrs]. now rewrite !dget_dset_neq by assumption. }
  rewrite set_attrs_self in E. exists a'. split; [exact E|].
  cbn [update_range_masks same_masks mo_range_mask set_attrs mo_attrs]. split; [exact HR|].
  assert (L : length (map (fun kcb => (bool_mask_of_cells (key_cells (fst (fst kcb))) (snd (fst kcb))
                                                   (fst (snd kcb)), snd (snd kcb)))
                   (combine (combine (mm_keys mm) cm) l)) = length (kn md)).
  { rewrite map_length. apply combine_length_eq; [|exact Ll].
    apply combine_length_eq; [now apply (static_keys_length _ _ o)|]. now apply agrees_length in HC. }
  split; apply agrees_map_intro; try exact L; intros i k v Hk Hv; rewrite nth_error_map in Hv;
    destruct (nth_error (combine (combine (mm_keys mm) cm) l) i) as [[[key c] [b z]]|] eqn:Ec; try discriminate;
    cbn in Hv; injection Hv as <-; apply nth_error_combine_some in Ec; destruct Ec as [Ec Eb];
    apply nth_error_combine_some in Ec; destruct Ec as [Ek Ec]; cbn [fst snd];
    destruct (H k) as [H1 H2]; try (now apply nth_error_In with i).
  - rewrite H1. unfold new.
    assert (E1 : dget k (mo_counts o) = Some (map cell_count (key_cells key))).
    { destruct (s_counts _ _ _ HS) as [_ A]. apply (A i); [exact Hk|]. now rewrite nth_error_map, Ek. }
    assert (E2 : dget k (mo_offsets o) = Some (map cell_offset (key_cells key))).
    { destruct (s_offsets _ _ _ HS) as [_ A]. apply (A i); [exact Hk|]. now rewrite nth_error_map, Ek. }
    assert (E3 : dget k (mo_cell_mask o) = Some c).
    { destruct HC as [_ A]. now apply (A i). }
    pose proof (agrees_map_get _ _ _ _ _ _ _ _ HM Hk Eb) as G. cbn [fst] in G.
    rewrite E1, E2, E3, G. now rewrite bool_mask_eq.
  - rewrite H2. apply (agrees_map_get _ _ _ _ _ _ _ _ HZ Hk Eb).
Qed.

Lemma update_masks_sim md mm o cm m :
  static md mm o -> agrees (mo_cell_mask o) (kn md) cm -> NoDup (flat_map slots (kn md)) ->
  same_masks md o m ->
  exists a', update_masks md o = fine (set_attrs a' o) /\
             same_masks md (set_attrs a' o) (update_range_masks mm cm m).
Proof.
  intros HS HC ND HM. destruct m as [l|l].
  - destruct HM as [HR _]. now apply update_masks_ranges.
  - now apply update_masks_bools.
Qed.

(** * Conversions *)

Lemma to_ranges_sim md mm o st :
  NoDup (flat_map slots (kn md)) -> sim md mm o st ->
  exists o', to_ranges md o = fine o' /\
             sim md mm o' (mk_mask_state (ms_constrained st) (ms_cell_mask st)
                                         (convert_masks_to_ranges (ms_masks st))).
Proof.
  intros ND [HS HC HM HK]. unfold to_ranges. destruct (ms_masks st) as [l|l] eqn:Em.
  - destruct HM as (HR & HM & HZ). rewrite HR. exists o. split; [reflexivity|].
    constructor; try assumption. cbn. auto.
  - destruct HM as (HR & HM & HZ). rewrite HR.
    pose (w := fun k => match dget (under k) (mo_attrs o) with Some (VBools m) => where_true m | _ => [] end).
    pose proof (agrees_map_length _ _ _ _ _ HM) as Ll.
    match goal with |- context[for_each (update_list md) ?b o] => set (body := b) end.
    destruct (for_masks md body
      (fun a => set_attrs a o) (fun k => Some (VRanges (ranges_from_array (w k))))
      (fun k => Some (VSize (zlen (w k)))) (mo_attrs o) ND) as (a' & E & H).
    { intros k a Hk Ha1 Ha2. apply In_nth in Hk. destruct Hk as [i Ei].
      destruct (nth_some_of_length _ _ _ _ Ll Ei) as [x Ex].
      pose proof (agrees_map_get _ _ _ _ _ _ _ _ HM Ei Ex) as G. cbn beta in G.
      eexists. split; [|split; [|split]].
      - unfold body, attribute. cbn [mo_attrs set_attrs]. rewrite Ha1, G. cbn [get]. cbv zeta. unfold setattr.
        rewrite set_attrs_twice. reflexivity.
      - cbn [mo_attrs set_attrs]. dsets. unfold w. now rewrite G.
      - cbn [mo_attrs set_attrs]. dsets. unfold w. now rewrite G.
      - intros s H1 H2. cbn [mo_attrs set_attrs]. now rewrite !dget_dset_neq by assumption. }
    rewrite set_attrs_self in E. rewrite E. exists (set_range_mask true (set_attrs a' o)).
    split; [reflexivity|]. constructor; cbn [ms_cell_mask ms_masks ms_constrained].
    + now apply static_rm, static_attrs.
    + exact HC.
    + cbn [convert_masks_to_ranges same_masks mo_range_mask set_range_mask mo_attrs set_attrs].
      split; [reflexivity|].
      split; apply agrees_map_intro; rewrite ?map_length; try exact Ll; intros i k v Hk Hv;
        rewrite nth_error_map in Hv; destruct (nth_error l i) as [x|] eqn:Ex; try discriminate;
        cbn in Hv; injection Hv as <-; destruct (H k) as [H1 H2]; try (now apply nth_error_In with i);
        pose proof (agrees_map_get _ _ _ _ _ _ _ _ HM Hk Ex) as G; cbn beta in G.
      * rewrite H1. unfold w. now rewrite G.
      * rewrite H2. unfold w. now rewrite G.
    + exact HK.
Qed.

Lemma group_mapping_nodup md : md_kind md = KSnapshot -> NoDup (present_names md) ->
  group_mapping md = map (fun g => (g, under g)) (present_names md).
Proof.
  intros E ND. unfold group_mapping. rewrite E. cbn [shared_cell_counts].
  rewrite dmerge_new; [reflexivity|]. cbn [app]. rewrite map_map. cbn. now rewrite map_id.
Qed.

(** The sizes of the empty masks, in the order of the masks. *)
Lemma empty_sizes_eq md mm o :
  (md_kind md = KSnapshot \/ md_kind md = KSOAP) -> NoDup (kn md) -> static md mm o ->
  empty_sizes md = Ok (combine (map under (kn md)) (map key_total (mm_keys mm))).
Proof.
  intros HK ND HS. pose proof (s_total _ _ _ HS) as HT. pose proof (static_keys_length _ _ _ HS) as L.
  unfold empty_sizes, nn in *. destruct HK as [E|E].
  - rewrite group_mapping_nodup by (unfold kn in ND; rewrite E in ND; assumption).
    unfold kn in *. rewrite E in *. cbn [shared_cell_counts] in *.
    rewrite fold_left_map. cbn [fst snd].
    assert (G : forall gs ts d, length ts = length gs ->
              (forall i k v, nth_error gs i = Some k -> nth_error ts i = Some v -> dget k (md_n md) = Some v) ->
              NoDup (map fst d ++ map under gs) ->
              fold_left (fun acc g => do d <- acc; do n <- attribute g (md_n md); Ok (dset (under g) n d)) gs (Ok d)
              = Ok (d ++ combine (map under gs) ts)).
    { clear. induction gs as [|g gs IH]; intros [|t ts] d Hl Hn Hd; cbn in Hl; try discriminate.
      - cbn. now rewrite app_nil_r.
      - cbn [fold_left bind]. unfold attribute at 2. rewrite (Hn 0%nat g t eq_refl eq_refl). cbn [bind].
        rewrite dset_new.
        + rewrite (IH ts).
          * rewrite <- app_assoc. reflexivity.
          * lia.
          * intros i k v Hk Hv. now apply (Hn (S i)).
          * rewrite map_app, <- app_assoc. exact Hd.
        + cbn in Hd. apply NoDup_remove_2 in Hd. intros Hi. apply Hd, in_or_app. now left. }
    rewrite (G _ (map key_total (mm_keys mm)) []).
    + reflexivity.
    + now rewrite map_length.
    + apply HT.
    + cbn. clear -ND. induction (present_names md) as [|x l IH]; cbn; [constructor|].
      inversion ND as [|? ? N1 N2]; subst. constructor; [|now apply IH]. intros Hi. apply in_map_iff in Hi.
      destruct Hi as (y & E & Hy). apply under_inj in E. now subst.
  - unfold kn in *. rewrite E in *. cbn [shared_cell_counts] in *.
    destruct (mm_keys mm) as [|key [|? ?]]; cbn in L; try discriminate.
    destruct HT as [_ HT]. unfold attribute. rewrite (HT 0%nat _ (key_total key) eq_refl eq_refl).
    reflexivity.
Qed.

Lemma for_each_ext {A} (f g : A -> mobj -> step) l : (forall x o, In x l -> f x o = g x o) ->
  forall o, for_each l f o = for_each l g o.
Proof.
  induction l as [|x l IH]; intros H o; [reflexivity|]. cbn. rewrite H by now left.
  destruct (g x o) as [o' [e|]]; cbn; [reflexivity|]. apply IH. intros y o2 Hy. apply H. now right.
Qed.

Lemma for_each_map {A B} (f : B -> mobj -> step) (g : A -> B) l : forall o,
  for_each (map g l) f o = for_each l (fun x => f (g x)) o.
Proof.
  induction l as [|x l IH]; intros o; [reflexivity|]. cbn.
  destruct (f (g x) o) as [o' [e|]]; cbn; [reflexivity|]. apply IH.
Qed.

Lemma pairs_slots {B} (ks : list string) : forall (ts : list B), length ts = length ks ->
  flat_map (fun x => slots (fst x)) (combine ks ts) = flat_map slots ks.
Proof.
  induction ks as [|k ks IH]; intros [|t ts] H; cbn in H; try discriminate; [reflexivity|].
  cbn. do 2 f_equal. apply IH. lia.
Qed.

Lemma combine_map_fst {A B C} (f : A -> B) (l : list A) : forall (m : list C),
  combine (map f l) m = map (fun x => (f (fst x), snd x)) (combine l m).
Proof. induction l as [|x l IH]; intros [|y m]; cbn; try reflexivity. now rewrite IH. Qed.

Lemma to_bool_sim md mm o st :
  (md_kind md = KSnapshot \/ md_kind md = KSOAP) -> NoDup (kn md) ->
  NoDup (flat_map slots (kn md)) -> sim md mm o st ->
  exists o', to_bool md o = fine o' /\
             sim md mm o' (mk_mask_state (ms_constrained st) (ms_cell_mask st)
                                         (convert_masks_to_bool mm (ms_masks st))).
Proof.
  intros HKind NDk ND [HS HC HM HK]. unfold to_bool. destruct (ms_masks st) as [l|l] eqn:Em.
  2: { destruct HM as (HR & HM & HZ). rewrite HR. exists o. split; [reflexivity|].
       constructor; try assumption. cbn. auto. }
  destruct HM as (HR & HM & HZ). rewrite HR.
  rewrite (empty_sizes_eq md mm o HKind NDk HS). cbn [get].
  pose proof (agrees_map_length _ _ _ _ _ HM) as Ll.
  pose proof (static_keys_length _ _ _ HS) as Lk.
  set (xs := combine (kn md) (map key_total (mm_keys mm))).
  assert (Lx : length (map key_total (mm_keys mm)) = length (kn md)) by now rewrite map_length.
  rewrite combine_map_fst. fold xs. rewrite for_each_map. cbn [fst snd].
  assert (NDx : NoDup (flat_map (fun x => slots (fst x)) xs)) by (unfold xs; now rewrite pairs_slots).
  assert (Hx : forall x, In x xs -> exists i key r, nth_error (kn md) i = Some (fst x) /\
             nth_error (mm_keys mm) i = Some key /\ nth_error l i = Some r /\ snd x = key_total key /\
             dget (under (fst x)) (mo_attrs o) = Some (VRanges (fst r))).
  { intros [k t] Hi. apply In_nth in Hi. destruct Hi as [i Hi]. unfold xs in Hi.
    apply nth_error_combine_some in Hi. destruct Hi as [H1 H2]. rewrite nth_error_map in H2.
    destruct (nth_error (mm_keys mm) i) as [key|] eqn:Ek; [|discriminate]. cbn in H2. injection H2 as <-.
    destruct (nth_some_of_length _ _ _ _ Ll H1) as [r Er]. exists i, key, r. cbn [fst snd].
    repeat split; try assumption. apply (agrees_map_get _ _ _ _ _ _ _ _ HM H1 Er). }
  pose (new := fun x : string * Z => match dget (under (fst x)) (mo_attrs o) with
                           | Some (VRanges rs) => Some (VBools (bools_of_ranges (snd x) rs))
                           | _ => None end).
  match goal with |- context[for_each xs ?b o] => set (body1 := b) end.
  destruct (for_each_slots (fun a => set_attrs a o) (fun x => slots (fst x)) body1
     (fun x s => if (s =? under (fst x))%string then new x else dget s (mo_attrs o)) xs (mo_attrs o) NDx)
    as (a1 & E1 & H1 & _).
  { intros x a Hi Ha. destruct (Hx x Hi) as (i & key & r & _ & _ & _ & _ & G).
    eexists. split; [|split].
    - unfold body1, attribute. cbn [mo_attrs set_attrs]. rewrite Ha by now left. rewrite G. cbn [get].
      unfold setattr. rewrite set_attrs_twice. reflexivity.
    - intros s Hs. cbn [mo_attrs set_attrs]. rewrite dget_dset.
      destruct (String.eqb_spec s (under (fst x))) as [->|N].
      + unfold new. now rewrite G.
      + now apply Ha.
    - intros s Hs. cbn [mo_attrs set_attrs]. apply dget_dset_neq. intros ->. apply Hs. now left. }
  rewrite set_attrs_self in E1. rewrite E1. cbn [next fine]. rewrite for_each_map. cbn [fst snd].
  match goal with |- context[for_each xs ?b (set_attrs a1 o)] => set (body2 := b) end.
  destruct (for_each_slots (fun a => set_attrs a o) (fun x => slots (fst x)) body2
     (fun x s => if (s =? size_of (under (fst x)))%string then Some (VSize (snd x)) else dget s a1) xs a1 NDx)
    as (a2 & E2 & H2 & _).
  { intros x a Hi Ha. eexists. split; [|split].
    - unfold body2, setattr. cbn [mo_attrs set_attrs]. rewrite set_attrs_twice. reflexivity.
    - intros s Hs. cbn [mo_attrs set_attrs]. rewrite dget_dset.
      destruct (String.eqb_spec s (size_of (under (fst x)))) as [->|N]; [reflexivity|]. now apply Ha.
    - intros s Hs. cbn [mo_attrs set_attrs]. apply dget_dset_neq. intros ->. apply Hs. right. now left. }
  rewrite E2. cbn [next fine]. eexists. split; [reflexivity|].
  constructor; cbn [ms_cell_mask ms_masks ms_constrained].
  - now apply static_rm, static_attrs.
  - exact HC.
  - cbn [convert_masks_to_bool same_masks mo_range_mask set_range_mask mo_attrs set_attrs].
    split; [reflexivity|].
    split; apply agrees_map_intro;
      try (rewrite map_length; now apply combine_length_eq); intros i k v Hk Hv;
      rewrite nth_error_map in Hv; destruct (nth_error (combine (mm_keys mm) l) i) as [[key r]|] eqn:Ec;
      try discriminate; cbn in Hv; injection Hv as <-; apply nth_error_combine_some in Ec;
      destruct Ec as [Ek Er]; cbn [fst snd];
      assert (Hi : In (k, key_total key) xs)
        by (apply nth_error_In with i; apply nth_error_combine_some; split;
            [exact Hk|now rewrite nth_error_map, Ek]).
    + rewrite (H2 _ (under k) Hi) by now left.
      destruct (String.eqb_spec (under k) (size_of (under (fst (k, key_total key))))) as [E|_].
      { cbn [fst] in E. symmetry in E. now apply slots_differ in E. }
      rewrite (H1 _ (under k) Hi) by now left. cbn [fst]. rewrite String.eqb_refl. unfold new. cbn [fst snd].
      pose proof (agrees_map_get _ _ _ _ _ _ _ _ HM Hk Er) as G. cbn beta in G. now rewrite G.
    + rewrite (H2 _ (size_of (under k)) Hi) by (right; now left). cbn [fst snd].
      now rewrite String.eqb_refl.
  - exact HK.
Qed.
