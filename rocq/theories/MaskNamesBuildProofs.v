(** Proofs: building the mask object with names from a file, and its cell tables. *)
From Coq Require Import String Ascii List ZArith QArith Lia Bool Permutation.
From Verif Require Import Base BaseLemmas RangesModel RangesSpec SortModel SortProofs MaskModel MaskSpec
     MaskCountProofs NamesModel SubsetModel SubsetProofs MaskNamesModel MaskNamesSpec MaskNamesProofs
     MaskNamesStepProofs MaskNamesCallProofs.
Import ListNotations.
Open Scope Z_scope.

(** * Dictionaries in the order of the masks *)

Lemma agrees_combine {A} ks (l : list A) : NoDup ks -> length l = length ks -> agrees (combine ks l) ks l.
Proof.
  intros ND L. split; [exact L|]. revert l L. induction ND as [|k ks N ND IH]; intros [|x l] L i k' v Hk Hv;
    cbn in L; try discriminate.
  - destruct i; discriminate.
  - destruct i as [|i]; cbn in Hk, Hv.
    + injection Hk as <-. injection Hv as <-. cbn. now rewrite String.eqb_refl.
    + cbn. destruct (String.eqb_spec k' k) as [->|_].
      * exfalso. apply N. now apply nth_error_In with i.
      * apply (IH l) with i; [lia|assumption|assumption].
Qed.

Lemma fold_tables {G A} (key : G -> string) (F : G -> dict A -> res (dict A)) gs : forall (ts : list A) d,
  length ts = length gs ->
  (forall i g v d, nth_error gs i = Some g -> nth_error ts i = Some v -> F g d = Ok (dset (key g) v d)) ->
  NoDup (map fst d ++ map key gs) ->
  fold_left (fun acc g => do d <- acc; F g d) gs (Ok d) = Ok (d ++ combine (map key gs) ts).
Proof.
  induction gs as [|g gs IH]; intros [|t ts] d Hl HF Hd; cbn in Hl; try discriminate.
  - cbn. now rewrite app_nil_r.
  - cbn [fold_left bind]. rewrite (HF 0%nat g t d eq_refl eq_refl). rewrite dset_new.
    + rewrite (IH ts).
      * rewrite <- app_assoc. reflexivity.
      * lia.
      * intros i g' v d' Hg Hv. now apply (HF (S i)).
      * rewrite map_app, <- app_assoc. exact Hd.
    + cbn in Hd. apply NoDup_remove_2 in Hd. intros Hi. apply Hd, in_or_app. now left.
Qed.

Lemma sort_combine {A} order ks (l : list (list A)) :
  sort_table order (combine ks l) = combine ks (map (fun v => take_order v order) l).
Proof.
  unfold sort_table. revert l. induction ks as [|k ks IH]; intros [|x l]; cbn; try reflexivity. now rewrite IH.
Qed.

Lemma map_fst_combine {A B} (l : list A) : forall (m : list B), length m = length l -> map fst (combine l m) = l.
Proof. induction l as [|x l IH]; intros [|y m] H; cbn in H; try discriminate; [reflexivity|]. cbn. f_equal. apply IH. lia. Qed.

(** * Cells *)

Lemma map_zip3 {A B C D E} (g : D -> E) (f : A -> B -> C -> D) l m n :
  map g (zip3 f l m n) = zip3 (fun a b c => g (f a b c)) l m n.
Proof. unfold zip3. now rewrite map_map. Qed.

Lemma zip3_first {A B C} (l : list A) : forall (m : list B) (n : list C),
  length m = length l -> length n = length l -> zip3 (fun a _ _ => a) l m n = l.
Proof.
  induction l as [|x l IH]; intros [|y m] [|z n] H1 H2; cbn in H1, H2; try discriminate; [reflexivity|].
  rewrite zip3_cons. f_equal. apply IH; lia.
Qed.

Lemma zip3_second {A B C} (l : list A) : forall (m : list B) (n : list C),
  length m = length l -> length n = length l -> zip3 (fun _ b _ => b) l m n = m.
Proof.
  induction l as [|x l IH]; intros [|y m] [|z n] H1 H2; cbn in H1, H2; try discriminate; [reflexivity|].
  rewrite zip3_cons. f_equal. apply IH; lia.
Qed.

Lemma zip3_third {A B C E} (g : C -> E) (l : list A) : forall (m : list B) (n : list C),
  length m = length l -> length n = length l -> zip3 (fun _ _ c => g c) l m n = map g n.
Proof.
  induction l as [|x l IH]; intros [|y m] [|z n] H1 H2; cbn in H1, H2; try discriminate; [reflexivity|].
  rewrite zip3_cons. cbn. f_equal. apply IH; lia.
Qed.

Lemma zip3_12 {A B C E} (g : A -> B -> E) (l : list A) : forall (m : list B) (n : list C),
  length m = length l -> length n = length l ->
  zip3 (fun a b _ => g a b) l m n = map (fun ab => g (fst ab) (snd ab)) (combine l m).
Proof.
  induction l as [|x l IH]; intros [|y m] [|z n] H1 H2; cbn in H1, H2; try discriminate; [reflexivity|].
  rewrite zip3_cons. cbn. f_equal. apply IH; lia.
Qed.

Lemma zip3_13 {A B C E} (g : A -> C -> E) (l : list A) : forall (m : list B) (n : list C),
  length m = length l -> length n = length l ->
  zip3 (fun a _ c => g a c) l m n = map (fun ac => g (fst ac) (snd ac)) (combine l n).
Proof.
  induction l as [|x l IH]; intros [|y m] [|z n] H1 H2; cbn in H1, H2; try discriminate; [reflexivity|].
  rewrite zip3_cons. cbn. f_equal. apply IH; lia.
Qed.

Section Cells.
  Context (rc : raw_cells) (rk : raw_key).
  Context (L1 : length (rk_counts rk) = length (rk_offsets rk))
          (L2 : length (cell_extents rc rk) = length (rk_offsets rk)).

  Lemma map_count : map cell_count (raw_cells_of_key rc rk) = rk_counts rk.
  Proof. unfold raw_cells_of_key. rewrite map_zip3. cbn. now apply zip3_second. Qed.
  Lemma map_offset : map cell_offset (raw_cells_of_key rc rk) = rk_offsets rk.
  Proof. unfold raw_cells_of_key. rewrite map_zip3. cbn. now apply zip3_first. Qed.
  Lemma map_min : map cell_min (raw_cells_of_key rc rk) = map fst (cell_extents rc rk).
  Proof. unfold raw_cells_of_key. rewrite map_zip3. cbn. now apply (zip3_third fst). Qed.
  Lemma map_max : map cell_max (raw_cells_of_key rc rk) = map snd (cell_extents rc rk).
  Proof. unfold raw_cells_of_key. rewrite map_zip3. cbn. now apply (zip3_third snd). Qed.
End Cells.

(** * Building *)

Lemma nth_mask_kn md i h k n : kind_ok md -> nth_mask md i h k n -> nth_error (kn md) i = Some k.
Proof.
  intros HK. unfold nth_mask, kn, present_names. destruct (kind_cases _ HK) as [E|E]; rewrite E; cbn [shared_cell_counts].
  - intros [H _]. now rewrite nth_error_map, H.
  - intros (-> & _ & -> & _). reflexivity.
Qed.

Lemma nth_mask_nn md i h k n : kind_ok md -> nth_mask md i h k n -> nth_error (nn md) i = Some n.
Proof.
  intros HK. unfold nth_mask, nn, present_names. destruct (kind_cases _ HK) as [E|E]; rewrite E; cbn [shared_cell_counts].
  - intros [H ->]. now rewrite nth_error_map, H.
  - intros (-> & _ & _ & ->). reflexivity.
Qed.

Lemma kn_nth_mask md i k : kind_ok md -> nth_error (kn md) i = Some k -> exists h n, nth_mask md i h k n.
Proof.
  intros HK. unfold nth_mask, kn, present_names. destruct (kind_cases _ HK) as [E|E]; rewrite E; cbn [shared_cell_counts].
  - rewrite nth_error_map. destruct (nth_error (md_groups md) i) as [[h k']|]; [|discriminate].
    cbn. intros [= ->]. now exists h, k.
  - destruct i as [|[|i]]; cbn; try discriminate. intros [= <-]. now exists "Subhalos"%string, "subhalos"%string.
Qed.

Lemma nn_length md : length (nn md) = length (kn md).
Proof. unfold nn, kn. now destruct (shared_cell_counts _). Qed.

(** Reading one kind of table for every mask. *)
Lemma read_tables_eq md (f : raw_key -> list Z) rks table :
  kind_ok md -> NoDup (kn md) -> length rks = length (kn md) ->
  (forall i h k n rk, nth_mask md i h k n -> nth_error rks i = Some rk -> dget h table = Some (f rk)) ->
  read_tables md table = Ok (combine (kn md) (map f rks)).
Proof.
  intros HK ND L H. unfold read_tables, kn in *. unfold nth_mask in H.
  destruct (kind_cases _ HK) as [E|E]; rewrite E in *; cbn [shared_cell_counts] in *.
  - rewrite (fold_tables snd _ (md_groups md) (map f rks) []); [reflexivity| | |exact ND].
    + unfold present_names in L. rewrite map_length in *. exact L.
    + intros i g v d Hg Hv. rewrite nth_error_map in Hv. destruct (nth_error rks i) as [rk|] eqn:Er; [|discriminate].
      cbn in Hv. injection Hv as <-. unfold entry. destruct g as [h k]. cbn [fst snd].
      rewrite (H i h k k rk (conj Hg eq_refl) Er). reflexivity.
  - destruct rks as [|rk [|? ?]]; cbn in L; try discriminate.
    unfold entry. rewrite (H 0%nat _ _ _ rk (conj eq_refl (conj eq_refl (conj eq_refl eq_refl))) eq_refl). reflexivity.
Qed.

Lemma read_extent_eq md (f : raw_key -> list vec) g centres rks table :
  md_kind md = KSnapshot -> NoDup (kn md) -> length rks = length (kn md) ->
  (forall i h k n rk, nth_mask md i h k n -> nth_error rks i = Some rk -> dget h table = Some (f rk)) ->
  read_extent md table g centres
  = Ok (combine (kn md) (map (fun rk => map (fun cv => g (fst cv) (snd cv)) (combine centres (f rk))) rks)).
Proof.
  intros E ND L H. unfold read_extent, kn in *. unfold nth_mask in H. rewrite E in *. cbn [shared_cell_counts] in *.
  rewrite (fold_tables snd _ (md_groups md)
     (map (fun rk => map (fun cv => g (fst cv) (snd cv)) (combine centres (f rk))) rks) []); [reflexivity| | |exact ND].
  - unfold present_names in L. rewrite map_length in *. exact L.
  - intros i gr v d Hg Hv. rewrite nth_error_map in Hv. destruct (nth_error rks i) as [rk|] eqn:Er; [|discriminate].
    cbn in Hv. injection Hv as <-. unfold entry. destruct gr as [h k]. cbn [fst snd].
    rewrite (H i h k k rk (conj Hg eq_refl) Er). reflexivity.
Qed.

Lemma alias_shared_eq md (v : list vec) :
  exists d, alias_shared md [("shared"%string, v)] = Ok d /\
            dget "shared"%string d = Some v /\ forall g, In g (present_names md) -> dget g d = Some v.
Proof.
  unfold alias_shared.
  assert (G : forall gs d, dget "shared"%string d = Some v ->
     exists d', fold_left (fun acc g => do d <- acc; do v <- entry "shared"%string d; Ok (dset g v d)) gs (Ok d) = Ok d' /\
                dget "shared"%string d' = Some v /\ (forall g, In g gs -> dget g d' = Some v) /\
                (forall g, dget g d = Some v -> dget g d' = Some v)).
  { clear. induction gs as [|g gs IH]; intros d Hd.
    - exists d. cbn. repeat split; auto. intros g [].
    - cbn [fold_left bind]. unfold entry at 2. rewrite Hd. cbn [bind].
      assert (K : forall g', dget g' d = Some v -> dget g' (dset g v d) = Some v).
      { intros g' H'. rewrite dget_dset. now destruct (String.eqb_spec g' g). }
      destruct (IH (dset g v d) (K _ Hd)) as (d' & E & H1 & H2 & H3).
      exists d'. repeat split; auto. intros g' [<-|Hg]; [|now apply H2]. apply H3. apply dget_dset_eq. }
  destruct (G (present_names md) [("shared"%string, v)] eq_refl) as (d & E & H1 & H2 & _). exists d. auto.
Qed.

Definition order_of (rks : list raw_key) : list nat :=
  match rks with [] => [] | rk :: _ => stable_argsort (rk_offsets rk) end.

Lemma keys_length md raw : kind_ok md ->
  (forall i h k n, nth_mask md i h k n -> exists rk, nth_error (rc_keys raw) i = Some rk) ->
  (forall i rk, nth_error (rc_keys raw) i = Some rk -> exists h k n, nth_mask md i h k n) ->
  length (rc_keys raw) = length (kn md).
Proof.
  intros HK H1 H2. destruct (Nat.lt_trichotomy (length (rc_keys raw)) (length (kn md))) as [H|[H|H]]; [|exact H|].
  - apply nth_error_Some in H. destruct (nth_error (kn md) (length (rc_keys raw))) as [k|] eqn:E; [|congruence].
    destruct (kn_nth_mask md _ _ HK E) as (h & n & HM). destruct (H1 _ _ _ _ HM) as (rk & Er).
    assert ((length (rc_keys raw) < length (rc_keys raw))%nat) by (apply nth_error_Some; congruence). lia.
  - apply nth_error_Some in H. destruct (nth_error (rc_keys raw) (length (kn md))) as [rk|] eqn:E; [|congruence].
    destruct (H2 _ _ E) as (h & k & n & HM). apply nth_mask_kn in HM; [|exact HK].
    assert ((length (kn md) < length (kn md))%nat) by (apply nth_error_Some; congruence). lia.
Qed.

Section Build.
  Context (md : meta) (pad : padding) (cg : cells_group) (raw : raw_cells).
  Context (HK : kind_ok md) (ND : NoDup (kn md)) (HD : describes md pad cg raw).

  Let ks := kn md.
  Let rks := rc_keys raw.
  Let mm := unpack_cell_metadata raw.

  Lemma build_length : length rks = length ks.
  Proof.
    destruct HD as (_ & _ & _ & _ & _ & _ & (offs & _ & H1) & H2). apply keys_length; [exact HK| |].
    - intros i h k n HM. destruct (H1 i h k n HM) as (rk & E & _). now exists rk.
    - exact H2.
  Qed.

  Lemma build_key i k rk : nth_error ks i = Some k -> nth_error rks i = Some rk ->
    exists offs h n, offsets_table cg offs /\ nth_mask md i h k n /\ describes_key cg md offs h n rk.
  Proof.
    intros Hk Hr. destruct (kn_nth_mask md i k HK Hk) as (h & n & HM).
    destruct HD as (_ & _ & _ & _ & _ & _ & (offs & HO & H1) & _).
    destruct (H1 i h k n HM) as (rk' & E & HDK). fold rks in E. assert (rk' = rk) by congruence. subst.
    exists offs, h, n. auto.
  Qed.

  Lemma build_rk rk : In rk rks -> length (rk_counts rk) = length (cg_centres cg) /\
    length (rk_offsets rk) = length (cg_centres cg) /\ length (cell_extents raw rk) = length (cg_centres cg).
  Proof.
    intros Hi. apply In_nth in Hi. destruct Hi as [i Hi].
    destruct (nth_some_of_length rks ks i rk (eq_sym build_length) Hi) as [k Hk].
    destruct (build_key i k rk Hk Hi) as (offs & h & n & _ & _ & (_ & _ & _ & L1 & L2 & HE)).
    split; [exact L1|]. split; [exact L2|].
    destruct HD as (HC & _). unfold cell_extents.
    destruct (cg_min cg) as [mn|]; [destruct (cg_max cg) as [mx|]|].
    - destruct HE as (a & b & -> & _ & _ & La & Lb). rewrite zip3_length; rewrite HC; [reflexivity|exact La|exact Lb].
    - rewrite HE, map_length. now rewrite HC.
    - rewrite HE, map_length. now rewrite HC.
  Qed.

  Lemma build_order : rks <> [] -> Permutation (order_of rks) (seq 0 (length (cg_centres cg))).
  Proof.
    intros H. unfold order_of. pose proof build_rk as HR. destruct rks as [|rk t]; [congruence|].
    destruct (stable_argsort_is_argsort (rk_offsets rk)) as [P _].
    destruct (HR rk (or_introl eq_refl)) as (_ & L & _). now rewrite L in P.
  Qed.

  Lemma extents_dict :
    exists mins maxs, read_extents md pad cg = Ok (mins, maxs) /\
      (has_extents cg = true /\
       mins = combine ks (map (fun rk => map fst (cell_extents raw rk)) rks) /\
       maxs = combine ks (map (fun rk => map snd (cell_extents raw rk)) rks) \/
       has_extents cg = false /\ exists vmin vmax,
         mins = [("shared"%string, vmin)] /\ maxs = [("shared"%string, vmax)] /\
         forall rk, In rk rks -> map fst (cell_extents raw rk) = vmin /\ map snd (cell_extents raw rk) = vmax).
  Proof.
    pose proof build_length as BL. pose proof build_key as BK.
    destruct HD as (HC & HZ & _ & HP & _ & HSoap & _ & _).
    assert (NoExt : has_extents cg = false ->
       exists mins maxs, Ok (
          [("shared"%string, map (fun c a => (c a - ((if groupcat (md_output_type md) then 0 else safe_padding pad) + (1 # 2)) * cg_size cg a)%Q) (cg_centres cg))],
          [("shared"%string, map (fun c a => (c a + ((if groupcat (md_output_type md) then 0 else safe_padding pad) + (1 # 2)) * cg_size cg a)%Q) (cg_centres cg))])
        = Ok (mins, maxs) /\
       (has_extents cg = true /\
       mins = combine ks (map (fun rk => map fst (cell_extents raw rk)) rks) /\
       maxs = combine ks (map (fun rk => map snd (cell_extents raw rk)) rks) \/
       has_extents cg = false /\ exists vmin vmax,
         mins = [("shared"%string, vmin)] /\ maxs = [("shared"%string, vmax)] /\
         forall rk, In rk rks -> map fst (cell_extents raw rk) = vmin /\ map snd (cell_extents raw rk) = vmax)).
    { intros HE. eexists. eexists. split; [reflexivity|]. right. split; [exact HE|].
      eexists. eexists. split; [reflexivity|]. split; [reflexivity|].
      intros rk Hi. apply In_nth in Hi. destruct Hi as [i Hi].
      destruct (nth_some_of_length rks ks i rk (eq_sym BL) Hi) as [k Hk].
      destruct (BK i k rk Hk Hi) as (offs & h & n & _ & _ & (_ & _ & _ & _ & _ & HX)).
      assert (HN : rk_extent rk = None).
      { unfold has_extents in HE. destruct (cg_min cg); [destruct (cg_max cg)|]; try discriminate; exact HX. }
      assert (Hpad : rc_pad raw = (if groupcat (md_output_type md) then 0%Q else safe_padding pad)).
      { rewrite HP. unfold pad_used. destruct HK as [[E G]|[E G]]; rewrite E.
        - destruct (groupcat (md_output_type md)) eqn:EG.
          + apply groupcat_spec in EG. contradiction.
          + now destruct pad.
        - assert (EG : groupcat (md_output_type md) = true).
          { apply groupcat_spec. destruct G as [<-|[<-|[]]]; cbn; tauto. }
          now rewrite EG. }
      unfold cell_extents. rewrite HN, !map_map, HC, HZ, Hpad. split; reflexivity. }
    unfold read_extents. destruct (cg_min cg) as [mn|] eqn:E1; [destruct (cg_max cg) as [mx|] eqn:E2|].
    2,3: apply NoExt; unfold has_extents; rewrite E1; try rewrite E2; reflexivity.
    clear NoExt.
    assert (ES : md_kind md = KSnapshot).
    { destruct (kind_cases _ HK) as [E|E]; [exact E|]. destruct (HSoap E); discriminate. }
    pose (fa := fun rk => match rk_extent rk with Some (a, _) => a | None => [] end).
    pose (fb := fun rk => match rk_extent rk with Some (_, b) => b | None => [] end).
    assert (HE : forall i h k n rk, nth_mask md i h k n -> nth_error rks i = Some rk ->
      dget h mn = Some (fa rk) /\ dget h mx = Some (fb rk) /\ rk_extent rk = Some (fa rk, fb rk) /\
      length (fa rk) = length (cg_centres cg) /\ length (fb rk) = length (cg_centres cg)).
    { intros i h k n rk HM Hr. pose proof (nth_mask_kn md i h k n HK HM) as Hk.
      destruct (BK i k rk Hk Hr) as (offs & h' & n' & _ & HM' & (_ & _ & _ & _ & _ & HX)).
      unfold nth_mask in HM, HM'. rewrite ES in HM, HM'. destruct HM as [HM _], HM' as [HM' _].
      assert (h' = h) by congruence. subst h'. try rewrite E1 in HX. try rewrite E2 in HX.
      destruct HX as (a & b & EX & F1 & F2 & La & Lb).
      unfold fa, fb. rewrite EX. apply dget_finds in F1, F2. auto. }
    rewrite (read_extent_eq md fa (min_of (cg_size cg)) (cg_centres cg) rks mn ES ND BL)
      by (intros i h k n rk HM Hr; now apply (HE i h k n rk)).
    rewrite (read_extent_eq md fb (max_of (cg_size cg)) (cg_centres cg) rks mx ES ND BL)
      by (intros i h k n rk HM Hr; now apply (HE i h k n rk)).
    cbn [bind]. eexists. eexists. split; [reflexivity|]. left.
    split; [unfold has_extents; now rewrite E1, E2|].
    assert (HX : forall rk, In rk rks -> cell_extents raw rk
        = zip3 (fun c mn mx => (min_of (cg_size cg) c mn, max_of (cg_size cg) c mx)) (cg_centres cg) (fa rk) (fb rk)
        /\ length (fa rk) = length (cg_centres cg) /\ length (fb rk) = length (cg_centres cg)).
    { intros rk Hi. apply In_nth in Hi. destruct Hi as [i Hi].
      destruct (nth_some_of_length rks ks i rk (eq_sym BL) Hi) as [k Hk].
      destruct (kn_nth_mask md i k HK Hk) as (h & n & HM).
      destruct (HE i h k n rk HM Hi) as (_ & _ & EX & La & Lb). unfold cell_extents. rewrite EX, HC, HZ.
      split; [reflexivity|]. now split. }
    fold ks. split; f_equal; apply map_ext_in; intros rk Hi; destruct (HX rk Hi) as (-> & La & Lb); rewrite map_zip3;
      cbn [fst snd]; symmetry.
    - now apply (zip3_12 (min_of (cg_size cg))).
    - now apply (zip3_13 (max_of (cg_size cg))).
  Qed.

  Lemma mm_keys_eq : mm_keys mm
    = map (fun rk => mk_mask_key (take_order (raw_cells_of_key raw rk) (order_of rks)) (rk_total rk)) rks.
  Proof. reflexivity. Qed.

  Lemma build_column {A} (c : cell -> A) (f : raw_key -> list A) (d : dict (list A)) :
    (forall rk, In rk rks -> map c (raw_cells_of_key raw rk) = f rk) ->
    agrees d ks (map (fun rk => take_order (f rk) (order_of rks)) rks) ->
    agrees d ks (map (fun key => map c (key_cells key)) (mm_keys mm)).
  Proof.
    intros H HA. rewrite mm_keys_eq, map_map. cbn [key_cells].
    erewrite map_ext_in; [exact HA|]. intros rk Hi. cbn beta. rewrite <- take_order_map. now rewrite H.
  Qed.

  Lemma unpack_sim : exists o, unpack md pad cg = Ok o /\ static md mm o /\
    mo_range_mask o = true /\ mo_constrained o = None.
  Proof.
    pose proof build_length as BL. pose proof build_key as BK. pose proof build_rk as BR.
    pose proof build_order as BO. destruct extents_dict as (mins & maxs & HE & HEC).
    assert (Hoffs : exists table, match cg_offsets_in_file cg with
              | Some d => Ok d
              | None => match cg_offsets cg with Some d => Ok d | None => Err KeyError end
              end = Ok table /\ forall i h k n rk, nth_mask md i h k n -> nth_error rks i = Some rk ->
                dget h table = Some (rk_offsets rk)).
    { destruct HD as (_ & _ & _ & _ & _ & _ & (offs & HO & H1) & _). exists offs. split.
      - destruct HO as [->|[-> ->]]; reflexivity.
      - intros i h k n rk HM Hr. destruct (H1 i h k n HM) as (rk' & E & (_ & F & _)).
        fold rks in E. assert (rk' = rk) by congruence. subst. now apply dget_finds. }
    destruct Hoffs as (table & ET & HT).
    assert (HCn : forall i h k n rk, nth_mask md i h k n -> nth_error rks i = Some rk ->
                dget h (cg_counts cg) = Some (rk_counts rk)).
    { destruct HD as (_ & _ & _ & _ & _ & _ & (offs & HO & H1) & _).
      intros i h k n rk HM Hr. destruct (H1 i h k n HM) as (rk' & E & (F & _)).
      fold rks in E. assert (rk' = rk) by congruence. subst. now apply dget_finds. }
    unfold unpack. rewrite ET. cbn [bind].
    rewrite (read_tables_eq md rk_offsets rks table HK ND BL HT). cbn [bind].
    rewrite (read_tables_eq md rk_counts rks (cg_counts cg) HK ND BL HCn). cbn [bind].
    rewrite HE. cbn [bind fst snd]. fold ks.
    assert (EO : match combine ks (map rk_offsets rks) with
                 | [] => []
                 | (_, first) :: _ => stable_argsort first
                 end = order_of rks).
    { clear - BL. unfold order_of. destruct rks as [|rk t], ks as [|k t']; cbn in BL; try discriminate; reflexivity. }
    rewrite EO. set (order := order_of rks) in *.
    assert (Cells : forall rk, In rk rks ->
      map cell_count (raw_cells_of_key raw rk) = rk_counts rk /\
      map cell_offset (raw_cells_of_key raw rk) = rk_offsets rk /\
      map cell_min (raw_cells_of_key raw rk) = map fst (cell_extents raw rk) /\
      map cell_max (raw_cells_of_key raw rk) = map snd (cell_extents raw rk)).
    { intros rk Hi. destruct (BR rk Hi) as (L1 & L2 & L3).
      split; [apply map_count; congruence|]. split; [apply map_offset; congruence|].
      split; [apply map_min; congruence|apply map_max; congruence]. }
    assert (Fin : exists mins' maxs',
      (if has_extents cg then Ok (sort_table order mins) else alias_shared md (sort_table order mins)) = Ok mins' /\
      (if has_extents cg then Ok (sort_table order maxs) else alias_shared md (sort_table order maxs)) = Ok maxs' /\
      agrees mins' ks (map (fun rk => take_order (map fst (cell_extents raw rk)) order) rks) /\
      agrees maxs' ks (map (fun rk => take_order (map snd (cell_extents raw rk)) order) rks)).
    { destruct HEC as [(-> & -> & ->)|(-> & vmin & vmax & -> & -> & HV)].
      - eexists. eexists. split; [reflexivity|]. split; [reflexivity|]. rewrite !sort_combine, !map_map.
        split; apply agrees_combine; try exact ND; now rewrite map_length.
      - cbn [sort_table map fst snd].
        destruct (alias_shared_eq md (take_order vmin order)) as (d1 & E1 & S1 & G1).
        destruct (alias_shared_eq md (take_order vmax order)) as (d2 & E2 & S2 & G2).
        exists d1, d2. split; [exact E1|]. split; [exact E2|].
        assert (HS : forall k (d : dict (list vec)) v, In k ks -> dget "shared"%string d = Some v ->
                   (forall g, In g (present_names md) -> dget g d = Some v) -> dget k d = Some v).
        { intros k d v Hk H1 H2. unfold ks, kn in Hk. destruct (shared_cell_counts (md_kind md)).
          - destruct Hk as [<-|[]]. exact H1.
          - now apply H2. }
        split; (split; [now rewrite map_length|]); intros i k v Hk Hv; rewrite nth_error_map in Hv;
          destruct (nth_error rks i) as [rk|] eqn:Er; try discriminate; cbn in Hv; injection Hv as <-;
          destruct (HV rk (nth_error_In _ _ Er)) as [V1 V2].
        + rewrite V1. apply HS; [now apply nth_error_In with i|exact S1|exact G1].
        + rewrite V2. apply HS; [now apply nth_error_In with i|exact S2|exact G2]. }
    destruct Fin as (mins' & maxs' & -> & -> & A1 & A2). cbn [bind].
    eexists. split; [reflexivity|]. split; [|now split].
    constructor; cbn [mo_counts mo_offsets mo_min mo_max mo_centres].
    - destruct HD as (_ & _ & HB & _). exact HB.
    - destruct HD as (_ & _ & _ & _ & HH & _). cbn [mm unpack_cell_metadata mm_homogeneous].
      destruct (kind_cases _ HK) as [E|E]; rewrite E in *; cbn [homogeneous_arrays].
      + destruct (rc_homogeneous raw); [|reflexivity]. destruct HH as [HH _]. discriminate (HH eq_refl).
      + now apply HH.
    - rewrite sort_combine. apply map_fst_combine. rewrite map_length. now rewrite map_length.
    - rewrite sort_combine. apply (build_column cell_count rk_counts).
      + intros rk Hi. now apply Cells.
      + rewrite map_map. apply agrees_combine; [exact ND|]. now rewrite map_length.
    - rewrite sort_combine. apply (build_column cell_offset rk_offsets).
      + intros rk Hi. now apply Cells.
      + rewrite map_map. apply agrees_combine; [exact ND|]. now rewrite map_length.
    - apply (build_column cell_min (fun rk => map fst (cell_extents raw rk))); [|exact A1].
      intros rk Hi. now apply Cells.
    - apply (build_column cell_max (fun rk => map snd (cell_extents raw rk))); [|exact A2].
      intros rk Hi. now apply Cells.
    - intros key Hi. rewrite mm_keys_eq in Hi. apply in_map_iff in Hi. destruct Hi as (rk & <- & Hi).
      cbn [key_cells]. fold order.
      assert (P : Permutation order (seq 0 (length (cg_centres cg)))).
      { apply BO. intros E. rewrite E in Hi. destruct Hi. }
      rewrite !take_order_length; [reflexivity| |].
      + now apply valid_perm.
      + destruct (BR rk Hi) as (L1 & L2 & L3). unfold raw_cells_of_key. rewrite zip3_length by congruence.
        rewrite L2. now apply valid_perm.
    - split; [rewrite map_length, mm_keys_eq, map_length, nn_length; exact BL|].
      intros i k v Hk Hv. rewrite mm_keys_eq, map_map, nth_error_map in Hv. cbn [key_total] in Hv.
      destruct (nth_error rks i) as [rk|] eqn:Er; [|discriminate]. cbn in Hv. injection Hv as <-.
      destruct (nth_some_of_length rks ks i rk (eq_sym BL) Er) as [k2 Hk2].
      destruct (BK i k2 rk Hk2 Er) as (offs & h & n & _ & HM & (_ & _ & F & _)).
      apply nth_mask_nn in HM; [|exact HK]. assert (n = k) by congruence. subst. now apply dget_finds.
  Qed.

  Lemma new_object_sim : NoDup (flat_map slots (kn md)) -> md_partial md = false ->
    exists o, new_object md pad cg = Ok o /\ sim md mm o (new_mask mm).
  Proof.
    intros NS HP. unfold new_object. rewrite HP.
    assert (V : masking_valid (md_kind md) = true) by (destruct (kind_cases _ HK) as [->| ->]; reflexivity).
    rewrite V. cbn [negb]. destruct unpack_sim as (o & -> & HS & HR & HC). cbn [bind].
    pose proof (full_mask_sim md mm o HK HS) as HF.
    destruct (update_masks_ranges md mm (set_cell_mask (full_mask md o) o) (full_cell_mask mm) [])
      as (a' & E & HM).
    - now apply static_cm.
    - exact HF.
    - exact NS.
    - exact HR.
    - rewrite E. eexists. split; [reflexivity|]. constructor.
      + now apply static_attrs, static_cm.
      + exact HF.
      + exact HM.
      + exact HC.
  Qed.
End Build.

(** * Cell tables of the mask *)

Lemma fold_all_ok {X A} (F : string * X -> dict A -> res (dict A)) ks : forall (xs : list X) (rs : list (res A)) d,
  length xs = length ks -> length rs = length ks ->
  (forall i k x r d, nth_error ks i = Some k -> nth_error xs i = Some x -> nth_error rs i = Some r ->
     F (k, x) d = do a <- r; Ok (dset k a d)) ->
  NoDup (map fst d ++ ks) ->
  fold_left (fun acc kx => do d <- acc; F kx d) (combine ks xs) (Ok d) = do l <- all_ok rs; Ok (d ++ combine ks l).
Proof.
  induction ks as [|k ks IH]; intros [|x xs] [|r rs] d L1 L2 HF Hd; cbn in L1, L2; try discriminate.
  - cbn. now rewrite app_nil_r.
  - cbn [combine fold_left bind all_ok]. rewrite (HF 0%nat k x r d eq_refl eq_refl eq_refl).
    destruct r as [a|e]; cbn [bind].
    + rewrite dset_new by (intros Hi; apply NoDup_remove_2 in Hd; apply Hd, in_or_app; now left).
      rewrite (IH xs rs).
      * destruct (all_ok rs); cbn [bind]; [|reflexivity]. rewrite <- app_assoc. reflexivity.
      * lia.
      * lia.
      * intros i k' x' r' d' H1 H2 H3. now apply (HF (S i)).
      * rewrite map_app, <- app_assoc. exact Hd.
    + clear. induction (combine ks xs); [reflexivity|]. cbn. apply IHl.
Qed.

Lemma keys_agrees {A} (d : dict A) : forall ks l, NoDup ks -> map fst d = ks -> agrees d ks l -> d = combine ks l.
Proof.
  induction d as [|[k v] d IH]; intros ks l ND E HA; cbn in E.
  - subst. destruct l; reflexivity.
  - destruct ks as [|k' ks]; [discriminate|]. injection E as -> E. destruct HA as [L HA].
    destruct l as [|x l]; [discriminate|]. cbn. inversion ND as [|? ? N ND']; subst k' l0.
    f_equal.
    + f_equal. pose proof (HA 0%nat _ _ eq_refl eq_refl) as H. cbn in H. rewrite String.eqb_refl in H. congruence.
    + apply IH; [exact ND'|exact E|]. split; [cbn in L; lia|]. intros i k2 v2 Hk Hv.
      pose proof (HA (S i) k2 v2 Hk Hv) as H. cbn in H. destruct (String.eqb_spec k2 x0) as [->|_]; [|exact H].
      exfalso. apply N. now apply nth_error_In with i.
Qed.

Definition mask_data (v : masks) (i : nat) : option (list range + list bool) :=
  match v with
  | InRanges l => option_map (fun x => inl (fst x)) (nth_error l i)
  | InBools l => option_map (fun x => inr (fst x)) (nth_error l i)
  end.

Definition one_table (m : masks) (i : nat) (key : mask_key) : res (list Z * list Z) :=
  match mask_data m i with
  | Some x => masked_counts_offsets (key_cells key) x
  | None => Err IndexError
  end.

Definition key_tables (mm : mask_meta) (m : masks) : list (res (list Z * list Z)) :=
  map (fun ik => one_table m (fst ik) (snd ik)) (combine (seq 0 (length (mm_keys mm))) (mm_keys mm)).

Lemma key_tables_nth mm m i key : nth_error (mm_keys mm) i = Some key ->
  nth_error (key_tables mm m) i = Some (one_table m i key).
Proof.
  intros H. unfold key_tables. rewrite nth_error_map.
  assert (E : nth_error (combine (seq 0 (length (mm_keys mm))) (mm_keys mm)) i = Some (i, key)).
  { apply nth_error_combine_some. split; [|exact H].
    assert (L : (i < length (mm_keys mm))%nat) by (apply nth_error_Some; congruence).
    rewrite (nth_error_nth' _ 0%nat) by now rewrite seq_length. now rewrite seq_nth. }
  now rewrite E.
Qed.

Lemma key_tables_length mm m : length (key_tables mm m) = length (mm_keys mm).
Proof. unfold key_tables. rewrite map_length, combine_length, seq_length. lia. Qed.

Lemma tables_sim md mm o st : NoDup (kn md) -> sim md mm o st ->
  masked_tables o = do l <- all_ok (key_tables mm (ms_masks st)); Ok (combine (kn md) l).
Proof.
  intros ND [HS HC HM HL]. unfold masked_tables.
  assert (LK : length (mm_keys mm) = length (kn md)).
  { pose proof (agrees_length _ _ _ (s_counts _ _ _ HS)) as L. now rewrite map_length in L. }
  rewrite (keys_agrees (mo_counts o) (kn md) _ ND (s_keys _ _ _ HS) (s_counts _ _ _ HS)).
  match goal with |- fold_left ?f _ _ = _ => set (F := f) end.
  assert (EF : F = (fun acc kx => do d <- acc; (fun kc d =>
    do offsets <- entry (fst kc) (mo_offsets o);
    do v <- attribute (under (fst kc)) (mo_attrs o);
    do mc <- (if mo_range_mask o
              then match v with
                   | VRanges rs => masked_counts_ranges offsets (snd kc) rs
                   | _ => Err TypeError
                   end
              else match v with
                   | VBools bs => Ok (masked_counts_bools offsets (snd kc) bs)
                   | _ => Err TypeError
                   end);
    Ok (dset (fst kc) (mc, offsets_from_counts mc) d)) kx d)) by reflexivity.
  rewrite EF. clear F EF.
  rewrite (fold_all_ok _ (kn md) _ (key_tables mm (ms_masks st)) []).
  - reflexivity.
  - now rewrite map_length.
  - now rewrite key_tables_length.
  - intros i k x r d Hk Hx Hr. rewrite nth_error_map in Hx.
    destruct (nth_error (mm_keys mm) i) as [key|] eqn:Ek; [|discriminate]. cbn in Hx. injection Hx as <-.
    rewrite (key_tables_nth _ _ _ _ Ek) in Hr. injection Hr as <-.
    destruct (agrees_get _ _ _ _ _ (s_offsets _ _ _ HS) Hk) as (c & E1 & D1).
    rewrite nth_error_map, Ek in E1. cbn in E1. injection E1 as <-.
    cbn [fst snd]. unfold entry. rewrite D1. cbn [bind]. unfold attribute, one_table, masked_counts_offsets.
    unfold same_masks in HM. destruct (ms_masks st) as [l|l]; destruct HM as (-> & HM & _);
      pose proof (agrees_map_length _ _ _ _ _ HM) as L;
      destruct (nth_some_of_length (kn md) l i k L Hk) as [y Hy];
      rewrite (agrees_map_get _ _ _ _ _ _ _ _ HM Hk Hy); cbn [bind mask_data]; rewrite Hy; cbn [option_map bind].
    + destruct (masked_counts_ranges _ _ _); reflexivity.
    + reflexivity.
  - exact ND.
Qed.
