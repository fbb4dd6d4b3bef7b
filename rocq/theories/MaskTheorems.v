(** Properties C07-C19: masks.  See properties.jsonl and MaskSpec.v. *)
From Coq Require Import List ZArith QArith Qabs Qminmax Lia Bool Permutation Sorted.
From Verif Require Import Base BaseLemmas QTac RangesModel RangesSpec RangesProofs SortModel SortProofs
     OrderedSlicesProofs MaskModel MaskSpec MaskListProofs MaskGeomProofs MaskProofs
     MaskHistProofs MaskCountProofs.
Import ListNotations.
Open Scope Z_scope.

(** * The example snapshot used below

    Box of side 2, two cells per side along x; gas: rows 0-2 in the left cell and 3-4 in the
    right one; dark matter: rows 0-1 on the right, 2-5 on the left. *)
Definition v3 (x y z : Q) : vec := fun a => match a with AX => x | AY => y | AZ => z end.

Definition ex_left (o n : Z) : cell := mk_cell o n (v3 0 0 0) (v3 1 2 2).
Definition ex_right (o n : Z) : cell := mk_cell o n (v3 1 0 0) (v3 2 2 2).

Definition ex_mm : mask_meta :=
  mk_mask_meta false (v3 2 2 2)
    [ mk_mask_key [ex_left 0 3; ex_right 3 2] 5;
      mk_mask_key [ex_left 2 4; ex_right 0 2] 6 ].

(** A SOAP-like catalogue: one shared key, homogeneous arrays. *)
Definition ex_soap : mask_meta :=
  mk_mask_meta true (v3 2 2 2) [ mk_mask_key [ex_left 0 3; ex_right 3 2] 5 ].

Ltac ex_wf := split; [intros []; reflexivity|]; split;
  [ repeat constructor; cbn; lia | cbn; try discriminate; auto ].

Lemma ex_mm_wf : wf_meta ex_mm.
Proof. ex_wf. Qed.

Lemma ex_soap_wf : wf_meta ex_soap.
Proof. ex_wf. Qed.

Ltac ex_ext := let a := fresh "a" in intros a; destruct a; cbn; unfold Qle, Qlt; cbn; lia.

(** * C07 *)

Theorem C07_spatial_complete :
  forall (mm : mask_meta) (k : nat) (mk : mask_key) (c : cell) (i : Z) (p : vec)
         (region : list (option (list Q))) (union : bool),
  wf_meta mm ->
  nth_error (mm_keys mm) k = Some mk -> In c (key_cells mk) ->
  extent_ok (mm_box mm) c ->
  (* particle i of type k is stored in cell c and its position p is in the box of c *)
  stored_in c i -> in_cell_extent (mm_box mm) c p ->
  (* the region is valid and contains p *)
  well_formed_region region -> region_in_window (mm_box mm) region ->
  inside_region (mm_box mm) region p ->
  exists st, constrain_spatial mm region union (new_mask mm) = (st, None) /\ selected st k i.
Proof.
  intros mm k mk c i p region union (Hb & Hf & _) Hk Hc Hext Hi Hp Hw Hwin Hin.
  destruct (spatial_fresh mm region union Hb (conj Hw Hwin)) as (res & Er & E).
  eexists. split; [exact E|]. unfold selected. cbn [ms_masks].
  apply selected_update_ranges. exists mk, c. repeat split; auto.
  - apply (cell_ok_iff mm region res c Hb Er Hwin Hext).
    now apply (inside_region_touches _ _ _ p).
  - apply Hi.
  - apply Hi.
Qed.

(** The same from the tables in the file: [j] is the row of the Cells tables. *)
Theorem C07_spatial_complete_from_file :
  forall (rc : raw_cells) (k : nat) (rk : raw_key) (j : nat) (o n i : Z) (p : vec)
         (region : list (option (list Q))) (union : bool),
  wf_raw rc ->
  nth_error (rc_keys rc) k = Some rk ->
  nth_error (rk_offsets rk) j = Some o -> nth_error (rk_counts rk) j = Some n ->
  o <= i < o + n ->
  (forall a, exists lo hi, file_extent rc rk j a lo hi /\
     (- rc_box rc a / 2 <= lo /\ hi <= 3 * rc_box rc a / 2)%Q /\
     exists m : Z, (lo <= p a + inject_Z m * rc_box rc a <= hi)%Q) ->
  well_formed_region region -> region_in_window (rc_box rc) region ->
  inside_region (rc_box rc) region p ->
  exists st, constrain_spatial (unpack_cell_metadata rc) region union
               (new_mask (unpack_cell_metadata rc)) = (st, None) /\ selected st k i.
Proof.
  intros rc k rk j o n i p region union Hw Hk Ho Hn Hi Hp Hwf Hwin Hin.
  assert (L : rk_lengths rc rk) by (apply wf_raw_lengths; [assumption|eapply nth_error_In; exact Hk]).
  destruct (raw_cell_nth rc rk j o n L Ho Hn) as (c & Hc & Eo & En & Hext).
  destruct (unpack_key rc k rk Hw Hk) as (mk & Hmk & P & _).
  assert (Hin' : In c (key_cells mk)).
  { eapply Permutation_in; [symmetry; exact P|]. eapply nth_error_In. exact Hc. }
  assert (Same : forall a lo hi, file_extent rc rk j a lo hi ->
            (lo == cell_min c a /\ hi == cell_max c a /\ cell_min c a < cell_max c a)%Q).
  { intros a lo hi (c1 & E1 & H1). destruct (Hext a) as (c2 & E2 & H2).
    rewrite E1 in E2. injection E2 as <-.
    destruct Hw as (_ & Hsz & Hpad & _). specialize (Hsz a).
    destruct (rk_extent rk) as [[mn mx]|].
    - destruct H1 as (n1 & x1 & F1 & G1 & A1 & B1). destruct H2 as (n2 & x2 & F2 & G2 & A2 & B2).
      rewrite F1 in F2. rewrite G1 in G2. injection F2 as <-. injection G2 as <-.
      rewrite A1, B1, A2, B2. split; [reflexivity|]. split; [reflexivity|].
      apply Qle_lt_trans with (c1 a - rc_size rc a / 2)%Q; [apply Q.le_min_l|].
      apply Qlt_le_trans with (c1 a + rc_size rc a / 2)%Q; [qlra|apply Q.le_max_l].
    - destruct H1 as [A1 B1], H2 as [A2 B2]. rewrite A1, B1, A2, B2.
      split; [reflexivity|]. split; [reflexivity|].
      assert (0 <= rc_pad rc * rc_size rc a)%Q by (apply Qmult_le_0_compat; qlra).
      set (t := (rc_pad rc * rc_size rc a)%Q) in *. qlra. }
  apply (C07_spatial_complete (unpack_cell_metadata rc) k mk c i p region union); auto.
  - now apply unpack_wf.
  - intros a. destruct (Hp a) as (lo & hi & F & [W1 W2] & _).
    apply Same in F as (A & B & C). rewrite <- A, <- B. cbn. repeat split; auto.
    now rewrite A, B.
  - unfold stored_in. lia.
  - intros a. destruct (Hp a) as (lo & hi & F & _ & m & M1 & M2). exists m.
    apply Same in F as (A & B & C). rewrite <- A, <- B. now split.
Qed.

(** A particle at x = 3/2 with an inverted region (x from 7/4 through the edge to 1/4 keeps
    rows of both cells; x from 5/4 to 7/4 only those of the right one). *)
Example C07_example :
  masked_rows (ms_masks (fst (constrain_spatial ex_mm [Some [5#4; 7#4]; None; None] false (new_mask ex_mm)))) 0
    = [3; 4] /\
  masked_rows (ms_masks (fst (constrain_spatial ex_mm [Some [7#4; 1#4]; None; None] false (new_mask ex_mm)))) 0
    = [0; 1; 2; 3; 4] /\
  inside_region (mm_box ex_mm) [Some [7#4; 1#4]; None; None] (v3 0 1 1) /\
  extent_ok (mm_box ex_mm) (ex_left 0 3) /\
  in_cell_extent (mm_box ex_mm) (ex_left 0 3) (v3 0 1 1).
Proof.
  split; [reflexivity|]. split; [reflexivity|]. split.
  - cbn. repeat split. exists 1. split; reflexivity.
  - split; [ex_ext|]. intros a. exists 0. destruct a; cbn; split; unfold Qle; cbn; lia.
Qed.

(** Cells of the file in MPI order, with MinPositions/MaxPositions for the first type. *)
Definition ex_raw : raw_cells :=
  mk_raw_cells [v3 (3#2) 1 1; v3 (1#2) 1 1] (v3 1 2 2) (1#10) (v3 2 2 2) false
    [ mk_raw_key [3; 0] [2; 3] (Some ([v3 (9#10) 0 0; v3 0 0 0], [v3 2 2 2; v3 1 2 2])) 5;
      mk_raw_key [0; 2] [2; 4] None 6 ].

Example C07_file_example :
  wf_raw ex_raw /\
  masked_rows (ms_masks (fst (constrain_spatial (unpack_cell_metadata ex_raw)
     [Some [1#4; 19#20]; None; None] false (new_mask (unpack_cell_metadata ex_raw))))) 0
  = [0; 1; 2; 3; 4] /\
  masked_rows (ms_masks (fst (constrain_spatial (unpack_cell_metadata ex_raw)
     [Some [1#4; 17#20]; None; None] false (new_mask (unpack_cell_metadata ex_raw))))) 1
  = [2; 3; 4; 5].
Proof.
  split; [|split; reflexivity].
  split; [intros []; reflexivity|]. split; [intros []; reflexivity|]. split; [easy|].
  split; [discriminate|]. repeat constructor; cbn; lia.
Qed.

(** * C08 *)

Theorem C08_exact_cells :
  forall (mm : mask_meta) (region : list (option (list Q))) (union : bool),
  wf_meta mm -> well_formed_region region -> region_in_window (mm_box mm) region ->
  (forall mk c, In mk (mm_keys mm) -> In c (key_cells mk) -> extent_ok (mm_box mm) c) ->
  exists st, constrain_spatial mm region union (new_mask mm) = (st, None) /\
    forall k i, selected st k i <->
      exists mk c, nth_error (mm_keys mm) k = Some mk /\ In c (key_cells mk) /\ stored_in c i /\
                   region_touches (mm_box mm) region c.
Proof.
  intros mm region union (Hb & Hf & _) Hw Hwin Hext.
  destruct (spatial_fresh mm region union Hb (conj Hw Hwin)) as (res & Er & E).
  eexists. split; [exact E|]. intros k i. unfold selected. cbn [ms_masks].
  rewrite selected_update_ranges. split.
  - intros (mk & c & H1 & H2 & H3 & H4). exists mk, c. split; [assumption|]. split; [assumption|].
    split; [assumption|]. apply (cell_ok_iff mm region res c Hb Er Hwin); [|assumption].
    apply (Hext mk c); [eapply nth_error_In; exact H1|assumption].
  - intros (mk & c & H1 & H2 & H3 & H4). exists mk, c. split; [assumption|]. split; [assumption|].
    split; [|assumption]. apply (cell_ok_iff mm region res c Hb Er Hwin); [|assumption].
    apply (Hext mk c); [eapply nth_error_In; exact H1|assumption].
Qed.

(** The same in every state that no constraint has succeeded on (conversions and failed calls
    may have happened), provided that no row is listed in two cells. *)
Theorem C08_exact_cells_any_form :
  forall (mm : mask_meta) (st : mask_state) (region : list (option (list Q))) (union : bool),
  wf_meta mm -> reachable mm st -> ms_constrained st = None ->
  Forall cells_disjoint (mm_keys mm) ->
  well_formed_region region -> region_in_window (mm_box mm) region ->
  (forall mk c, In mk (mm_keys mm) -> In c (key_cells mk) -> extent_ok (mm_box mm) c) ->
  exists st', constrain_spatial mm region union st = (st', None) /\
    forall k i, selected st' k i <->
      exists mk c, nth_error (mm_keys mm) k = Some mk /\ In c (key_cells mk) /\ stored_in c i /\
                   region_touches (mm_box mm) region c.
Proof.
  intros mm st region union Hw Hr Hnone Hdis Hwf Hwin Hext.
  pose proof (reachable_good _ _ Hw Hr) as [Hg Hm].
  pose proof (unconstrained_selection mm st Hw Hr Hnone) as Hall.
  pose proof Hw as (Hb & Hf & _).
  destruct (constrain_spatial_cases mm region union st Hb Hg)
    as [[C E]|[(W & C & E)|[(W & A & C & E)|(W & A & C & res & g & Er & Hgm & E)]]].
  - contradiction.
  - destruct C. now left.
  - contradiction.
  - cbv zeta in E. rewrite Hnone in E. cbn in E. eexists. split; [exact E|]. intros k i.
    assert (Key : forall mk c, nth_error (mm_keys mm) k = Some mk -> In c (key_cells mk) ->
              cell_ok (mm_box mm) res c = true <-> region_touches (mm_box mm) region c).
    { intros mk c H1 H2. apply (cell_ok_iff mm region res c Hb Er Hwin).
      apply (Hext mk c); [eapply nth_error_In; exact H1|assumption]. }
    unfold selected. cbn [ms_masks]. destruct (ms_masks st) as [l|l] eqn:El.
    + rewrite selected_update_ranges. split; intros (mk & c & H1 & H2 & H3 & H4);
        exists mk, c; pose proof (Key mk c H1 H2); tauto.
    + rewrite selected_update_bools by assumption.
      specialize (Hall k i). unfold selected in Hall. rewrite El in Hall. rewrite <- Hall.
      unfold new_mask. cbn [ms_masks]. change (full_cell_mask mm) with (cell_masks mm (fun _ => true)).
      rewrite selected_update_ranges. split.
      * intros [(mk & c & H1 & H2 & _ & H4) N]. exists mk, c.
        split; [assumption|]. split; [assumption|]. split; [assumption|].
        apply (Key mk c H1 H2). destruct (cell_ok (mm_box mm) res c) eqn:Eo; [reflexivity|].
        exfalso. apply N. exists mk, c. auto.
      * intros (mk & c & H1 & H2 & H3 & H4). split; [exists mk, c; auto|].
        intros (mk' & d & E1 & D2 & D3 & D4). rewrite H1 in E1. injection E1 as <-.
        apply (Key mk c H1 H2) in H4. assert (c <> d) by (intros ->; congruence).
        apply nth_error_In in H1. pose proof (proj1 (Forall_forall _ _) Hdis mk H1) as D.
        destruct (ForallOrdPairs_In D c d H2 D2) as [|[D'|D']]; [contradiction| |];
          apply (D' i); auto.
Qed.

(** For an interval of positive length "touches" means: some periodic image of the open cell
    interval has a point in common with the open requested interval. *)
Theorem C08_touching_is_overlap : forall box lo up cmin cmax : Q,
  (lo < wrap_upper box lo up)%Q -> (cmin < cmax)%Q ->
  interval_touches box lo up cmin cmax <->
  (exists x, cmin < x /\ x < cmax /\ inside_interval box lo up x)%Q.
Proof. intros. now apply touches_overlap. Qed.

Example C08_example :
  region_touches (mm_box ex_mm) [Some [7#4; 1#4]; None; None] (ex_left 0 3) /\
  ~ region_touches (mm_box ex_mm) [Some [5#4; 7#4]; None; None] (ex_left 0 3).
Proof.
  split.
  - cbn. repeat split. right. exists 1. split; reflexivity.
  - intros [[H|(j & H1 & H2)] _].
    + vm_compute in H. discriminate.
    + cbn in H1, H2. unfold wrap_upper in H2. destruct (Qlt_le_dec (7#4) (5#4)) as [C|C].
      * vm_compute in C. discriminate.
      * unfold Qlt, Qplus, Qmult, inject_Z in H1, H2. cbn -[Z.mul Z.add] in H1, H2. lia.
Qed.

(** * C09 *)

Theorem C09_closed_boundary_refuted :
  exists (mm : mask_meta) (mk : mask_key) (c : cell) (i : Z) (p : vec) (lo up : Q) (st : mask_state),
    wf_meta mm /\ nth_error (mm_keys mm) 0 = Some mk /\ cells_partition mk /\
    In c (key_cells mk) /\ extent_ok (mm_box mm) c /\ stored_in c i /\
    (forall a, cell_min c a <= p a <= cell_max c a)%Q /\
    (lo <= p AX <= up)%Q /\
    constrain_spatial mm [Some [lo; up]; None; None] false (new_mask mm) = (st, None) /\
    ~ selected st 0 i.
Proof.
  exists ex_mm, (mk_mask_key [ex_left 0 3; ex_right 3 2] 5), (ex_left 0 3), 0, (v3 1 1 1), 1%Q, (3#2)%Q.
  eexists. split; [apply ex_mm_wf|]. split; [reflexivity|]. split.
  { split; [split; [cbn; lia|repeat constructor; cbn; lia]|]. split.
    - repeat constructor. intros i (H1 & H2). unfold stored_in in *. cbn in *. lia.
    - intros i Hi. cbn in Hi. destruct (Z_lt_le_dec i 3).
      + exists (ex_left 0 3). split; [now left|]. unfold stored_in. cbn. lia.
      + exists (ex_right 3 2). split; [right; now left|]. unfold stored_in. cbn. lia. }
  split; [now left|]. split; [ex_ext|]. split; [unfold stored_in; cbn; lia|].
  split; [intros []; cbn; unfold Qle; cbn; lia|]. split; [unfold Qle; cbn; lia|].
  split; [reflexivity|]. unfold selected. vm_compute. intros [H|[H|[]]]; discriminate.
Qed.

(** * C10 *)

Theorem C10_value_error_iff :
  forall (mm : mask_meta) (st : mask_state) (region : list (option (list Q))) (union : bool),
  wf_meta mm -> reachable mm st ->
  (snd (constrain_spatial mm region union st) = Some ValueError <->
   ~ well_formed_region region \/
   (spatial_allowed st union /\ ~ region_in_window (mm_box mm) region)).
Proof.
  intros mm st region union Hw Hr. destruct (reachable_good _ _ Hw Hr) as [Hg Hm].
  destruct Hw as (Hb & _).
  destruct (constrain_spatial_cases mm region union st Hb Hg)
    as [[C E]|[(W & C & E)|[(W & A & C & E)|(W & A & C & r & g & _ & _ & E)]]];
    cbv zeta in E; rewrite E; cbn [snd]; split; auto; try discriminate.
  - intros [N|[N _]]; contradiction.
  - intros [N|[_ N]]; contradiction.
Qed.

Theorem C10_error_leaves_mask_alone :
  forall (mm : mask_meta) (st st' : mask_state) (region : list (option (list Q))) (union : bool) e,
  wf_meta mm -> reachable mm st ->
  constrain_spatial mm region union st = (st', Some e) -> st' = st.
Proof.
  intros mm st st' region union e Hw Hr H. destruct (reachable_good _ _ Hw Hr) as [Hg Hm].
  destruct Hw as (Hb & _).
  destruct (constrain_spatial_cases mm region union st Hb Hg)
    as [[C E]|[(W & C & E)|[(W & A & C & E)|(W & A & C & r & g & _ & _ & E)]]];
    cbv zeta in E; rewrite E in H; congruence.
Qed.

Example C10_example :
  snd (constrain_spatial ex_mm [Some [-3; 1]; None; None]%Q false (new_mask ex_mm)) = Some ValueError /\
  snd (constrain_spatial ex_mm [Some [0; 1]; None]%Q false (new_mask ex_mm)) = Some ValueError /\
  snd (constrain_spatial ex_mm [Some [-1; 3]; None; None]%Q false (new_mask ex_mm)) = None /\
  reachable ex_mm (new_mask ex_mm).
Proof.
  split; [reflexivity|]. split; [reflexivity|]. split; [reflexivity|].
  exists []. split; [constructor|reflexivity].
Qed.

(** * C11 *)

Theorem C11_union :
  forall (mm : mask_meta) (regions : list (list (option (list Q)))),
  wf_meta mm -> regions <> [] -> Forall (ok_region mm) regions ->
  exists st, mask_run mm (map (fun r => OpSpatial r true) regions) (new_mask mm)
             = (st, map (fun _ => None) regions) /\
    forall k i, selected st k i <->
      exists r, In r regions /\ selected (fst (constrain_spatial mm r false (new_mask mm))) k i.
Proof.
  intros mm regions (Hb & _) Hne Hok.
  destruct (union_run_fresh mm regions Hb Hok Hne) as (h & E & Hh).
  eexists. split; [exact E|]. intros k i. unfold selected at 1. cbn [ms_masks].
  rewrite selected_update_ranges. split.
  - intros (mk & c & H1 & H2 & H3 & H4). apply Hh in H3 as (r & res & Hin & Er & Hc).
    exists r. split; [assumption|].
    destruct (spatial_fresh mm r false Hb) as (res' & Er' & E').
    { now apply (proj1 (Forall_forall _ _) Hok). }
    rewrite Er in Er'. injection Er' as <-. rewrite E'. unfold selected. cbn [fst ms_masks].
    apply selected_update_ranges. exists mk, c. auto.
  - intros (r & Hin & H). destruct (spatial_fresh mm r false Hb) as (res' & Er' & E').
    { now apply (proj1 (Forall_forall _ _) Hok). }
    rewrite E' in H. unfold selected in H. cbn [fst ms_masks] in H.
    apply selected_update_ranges in H as (mk & c & H1 & H2 & H3 & H4).
    exists mk, c. split; [assumption|]. split; [assumption|]. split; [|assumption].
    apply Hh. exists r, res'. auto.
Qed.

(** Order and repetition are irrelevant: the masks are identical. *)
Theorem C11_union_order_and_repetition :
  forall (mm : mask_meta) (regions regions' : list (list (option (list Q)))),
  wf_meta mm -> regions <> [] ->
  Forall (ok_region mm) regions -> (forall r, In r regions <-> In r regions') ->
  ms_masks (fst (mask_run mm (map (fun r => OpSpatial r true) regions) (new_mask mm)))
  = ms_masks (fst (mask_run mm (map (fun r => OpSpatial r true) regions') (new_mask mm))).
Proof.
  intros mm rs rs' (Hb & _) Hne Hok Hiff.
  assert (Hok' : Forall (ok_region mm) rs').
  { apply Forall_forall. intros r Hr. apply Hiff in Hr. now apply (proj1 (Forall_forall _ _) Hok). }
  assert (Hne' : rs' <> []).
  { destruct rs as [|r rs]; [congruence|]. intros ->. apply (proj1 (Hiff r)). now left. }
  destruct (union_run_fresh mm rs Hb Hok Hne) as (h & E & Hh).
  destruct (union_run_fresh mm rs' Hb Hok' Hne') as (h' & E' & Hh').
  rewrite E, E'. cbn [fst ms_masks]. apply update_ranges_ext. intros c. rewrite Hh, Hh'.
  split; intros (r & res & H1 & H2); exists r, res; split; auto; now apply Hiff.
Qed.

Definition ex_r1 : list (option (list Q)) := [Some [1#4; 1#2]; None; None]%Q.
Definition ex_r2 : list (option (list Q)) := [Some [5#4; 3#2]; None; None]%Q.

Example C11_example :
  Forall (ok_region ex_mm) [ex_r1; ex_r2] /\
  masked_rows (ms_masks (fst (mask_run ex_mm [OpSpatial ex_r1 true; OpSpatial ex_r2 true] (new_mask ex_mm)))) 1
  = [2; 3; 4; 5; 0; 1].
Proof.
  split; [|reflexivity].
  repeat constructor; cbn; try (intros r [<-|[<-|[<-|[]]]]; exact I || reflexivity);
    unfold Qle; cbn; lia.
Qed.

(** * C12 *)

Theorem C12_conversion_between_unions_refuted :
  exists (mm : mask_meta) (r1 r2 : list (option (list Q))) (st : mask_state) (i : Z),
    wf_meta mm /\ Forall (ok_region mm) [r1; r2] /\
    mask_run mm [OpSpatial r1 true; OpToBool; OpSpatial r2 true] (new_mask mm)
      = (st, [None; None; None]) /\
    selected (fst (constrain_spatial mm r2 false (new_mask mm))) 0 i /\ ~ selected st 0 i.
Proof.
  exists ex_mm, ex_r1, ex_r2. eexists. exists 3. split; [apply ex_mm_wf|].
  split; [apply C11_example|]. split; [reflexivity|]. split.
  - unfold selected. vm_compute. auto.
  - unfold selected. vm_compute. intros [H|[H|[H|[]]]]; discriminate.
Qed.

(** In boolean form a later union call never adds a row, whatever the region. *)
Theorem C12_bool_form_union_only_shrinks :
  forall (mm : mask_meta) (st st' : mask_state) (region : list (option (list Q))) (union : bool),
  wf_meta mm -> reachable mm st -> ~ in_range_form (ms_masks st) ->
  constrain_spatial mm region union st = (st', None) ->
  forall k i, selected st' k i -> selected st k i.
Proof.
  intros mm st st' region union Hw Hr Hform H k i Hs.
  destruct (reachable_good _ _ Hw Hr) as [Hg Hm]. destruct Hw as (Hb & _).
  destruct (constrain_spatial_cases mm region union st Hb Hg)
    as [[C E]|[(W & C & E)|[(W & A & C & E)|(W & A & C & r & g & _ & _ & E)]]];
    cbv zeta in E; rewrite E in H; try discriminate.
  injection H as <-. unfold selected in *. cbn [ms_masks] in Hs.
  destruct (ms_masks st) as [l|l]; [exfalso; apply Hform; exact I|].
  apply selected_update_bools in Hs; [|assumption]. apply Hs.
Qed.

(** The conversion can also be caused by a property constraint that failed. *)
Theorem C12_failed_property_between_unions_refuted :
  exists (mm : mask_meta) (r1 r2 : list (option (list Q))) (st : mask_state) (i : Z),
    wf_meta mm /\ Forall (ok_region mm) [r1; r2] /\
    mask_run mm [OpSpatial r1 true; OpProperty 0 None 0 1; OpSpatial r2 true] (new_mask mm)
      = (st, [None; Some KeyError; None]) /\
    selected (fst (constrain_spatial mm r2 false (new_mask mm))) 0 i /\ ~ selected st 0 i.
Proof.
  exists ex_mm, ex_r1, ex_r2. eexists. exists 3. split; [apply ex_mm_wf|].
  split; [apply C11_example|]. split; [reflexivity|]. split.
  - unfold selected. vm_compute. auto.
  - unfold selected. vm_compute. intros [H|[H|[H|[]]]]; discriminate.
Qed.

(** * C13 *)

Theorem C13_spatial_succeeds_iff :
  forall (mm : mask_meta) (st : mask_state) (region : list (option (list Q))) (union : bool),
  wf_meta mm -> reachable mm st ->
  (snd (constrain_spatial mm region union st) = None <->
   well_formed_region region /\ region_in_window (mm_box mm) region /\
   (ms_constrained st = None \/ (ms_constrained st = Some CSpatial /\ union = true))).
Proof.
  intros mm st region union Hw Hr. destruct (reachable_good _ _ Hw Hr) as [Hg Hm].
  destruct Hw as (Hb & _).
  destruct (constrain_spatial_cases mm region union st Hb Hg)
    as [[C E]|[(W & C & E)|[(W & A & C & E)|(W & A & C & r & g & _ & _ & E)]]];
    cbv zeta in E; rewrite E; cbn [snd]; fold (spatial_allowed st union); split;
    try discriminate; tauto.
Qed.

Theorem C13_indices_succeed_iff :
  forall (mm : mask_meta) (st : mask_state) (indices : list Z) (index : Z),
  wf_meta mm -> reachable mm st ->
  (ok_op mm (OpIndices indices) ->
   (snd (constrain_indices mm indices st) = None <->
    ms_constrained st = None /\ mm_homogeneous mm = true)) /\
  (ok_op mm (OpIndex index) ->
   (snd (constrain_index mm index st) = None <->
    ms_constrained st = None /\ mm_homogeneous mm = true)).
Proof.
  intros mm st indices index Hw Hr. pose proof (reachable_good _ _ Hw Hr) as Hgood.
  destruct Hw as (Hb & Hf & _).
  assert (G : forall l, ok_op mm (OpIndices l) ->
             (snd (constrain_indices mm l st) = None <->
              ms_constrained st = None /\ mm_homogeneous mm = true)).
  { intros l Hok.
    destruct (constrain_indices_cases mm l st Hf Hgood Hok) as [[E N]|(A & B & st' & E & _)];
      rewrite E; cbn.
    - split; [discriminate|]. intros [A B]. destruct N; congruence.
    - tauto. }
  split; [apply G|]. intros Hok. rewrite constrain_index_cases.
  assert (Hok' : ok_op mm (OpIndices [index])).
  { eapply Forall_impl; [|exact Hok]. intros mk H. now constructor. }
  rewrite <- (G [index] Hok'). destruct (constrain_indices mm [index] st) as [s [e|]]; cbn; tauto.
Qed.

(** A property constraint is allowed in every state, if the quantity exists. *)
Theorem C13_property_always_allowed :
  forall (mm : mask_meta) (st : mask_state) (key : nat) (vals : list Q) (lower upper : Q),
  wf_meta mm -> reachable mm st -> (key < length (mm_keys mm))%nat ->
  snd (constrain_property mm key (Some vals) lower upper st) = None.
Proof.
  intros mm st key vals lower upper Hw Hr Hk.
  destruct (reachable_good _ _ Hw Hr) as [_ Hm]. destruct Hw as (_ & Hf & _).
  destruct (constrain_property mm key (Some vals) lower upper st) as [st' [e|]] eqn:E; [|reflexivity].
  exfalso. unfold constrain_property in E.
  pose proof (good_to_bool mm _ Hf Hm) as Hb.
  destruct (constrain_property_bools mm (ms_masks st)) as [l El]. rewrite El in *. cbn in Hb.
  destruct (nth_error l key) as [[cur size]|] eqn:En; [discriminate|].
  apply nth_error_None in En. rewrite <- (Forall2_len _ _ _ Hb) in En. lia.
Qed.

(** A call that raises selects the same particles as before and leaves the label alone. *)
Theorem C13_failing_call_keeps_selection :
  forall (mm : mask_meta) (st st' : mask_state) (op : mask_op) (e : pyerr),
  wf_meta mm -> reachable mm st -> mask_step mm op st = (st', Some e) ->
  same_selection st st' /\ ms_constrained st' = ms_constrained st.
Proof. intros mm st st' op e Hw Hr. apply failing_step; auto. now apply reachable_good. Qed.

(** The constraints that succeed in any history on a fresh mask: spatial ones, or one index
    constraint, followed by property constraints only. *)
Theorem C13_successful_histories :
  forall (mm : mask_meta) (ops : list mask_op),
  let l := successes ops (snd (mask_run mm ops (new_mask mm))) in
  exists pre props, l = pre ++ props /\ all_are CProperty props /\
    (all_are CSpatial pre \/ pre = [CIndex] \/ pre = [CIndices]).
Proof. intros mm ops. exact (history_pattern mm ops (new_mask mm)). Qed.

Example C13_example :
  snd (mask_run ex_soap
         [OpIndices [4; 0]; OpSpatial ex_r1 true; OpIndex 1; OpToBool;
          OpProperty 0 (Some [1; 2; 3; 4; 5]%Q) 1 9; OpProperty 0 None 0 0; OpToRanges]
         (new_mask ex_soap))
  = [None; Some RuntimeError; Some RuntimeError; None; None; Some KeyError; None] /\
  masked_rows (ms_masks (fst (mask_run ex_soap
         [OpIndices [4; 0]; OpSpatial ex_r1 true; OpIndex 1; OpToBool;
          OpProperty 0 (Some [1; 2; 3; 4; 5]%Q) 1 9; OpProperty 0 None 0 0; OpToRanges]
         (new_mask ex_soap)))) 0 = [4].
Proof. split; reflexivity. Qed.

(** * C14 *)

Theorem C14_property_exact :
  forall (mm : mask_meta) (st st' : mask_state) (key : nat) (vals : list Q) (lower upper : Q),
  wf_meta mm -> reachable mm st ->
  ok_op mm (OpProperty key (Some vals) lower upper) ->
  constrain_property mm key (Some vals) lower upper st = (st', None) ->
  (forall i, selected st' key i <->
     selected st key i /\
     exists v, nth_error vals (Z.to_nat i) = Some v /\ (lower < v)%Q /\ (v <= upper)%Q) /\
  (forall k i, k <> key -> selected st' k i <-> selected st k i).
Proof.
  intros mm st st' key vals lower upper Hw Hr Hok H.
  pose proof (reachable_good _ _ Hw Hr) as Hgood. destruct Hw as (_ & Hf & _).
  pose proof (fun k i => selected_property mm key vals lower upper st st' k i Hf Hgood Hok H) as S.
  split.
  - intros i. rewrite S. intuition.
  - intros k i Hne. rewrite S. intuition congruence.
Qed.

(** Two property constraints commute and select the intersection. *)
Theorem C14_property_commute :
  forall (mm : mask_meta) (st : mask_state) (k1 k2 : nat) (v1 v2 : list Q) (l1 u1 l2 u2 : Q)
         (a ab b ba : mask_state),
  wf_meta mm -> reachable mm st ->
  ok_op mm (OpProperty k1 (Some v1) l1 u1) -> ok_op mm (OpProperty k2 (Some v2) l2 u2) ->
  constrain_property mm k1 (Some v1) l1 u1 st = (a, None) ->
  constrain_property mm k2 (Some v2) l2 u2 a = (ab, None) ->
  constrain_property mm k2 (Some v2) l2 u2 st = (b, None) ->
  constrain_property mm k1 (Some v1) l1 u1 b = (ba, None) ->
  same_selection ab ba /\
  (forall k i, selected ab k i <-> selected a k i /\ selected b k i).
Proof.
  intros mm st k1 k2 v1 v2 l1 u1 l2 u2 a ab b ba Hw Hr O1 O2 Ha Hab Hb Hba.
  pose proof (reachable_good _ _ Hw Hr) as G. pose proof Hw as (_ & Hf & _).
  assert (Ga : good mm a) by exact (good_property mm k1 v1 l1 u1 st a Hf G Ha).
  assert (Gb : good mm b) by exact (good_property mm k2 v2 l2 u2 st b Hf G Hb).
  split; intros k i;
    rewrite ?(selected_property mm _ _ _ _ _ ab k i Hf Ga O2 Hab),
            ?(selected_property mm _ _ _ _ _ ba k i Hf Gb O1 Hba),
            ?(selected_property mm _ _ _ _ _ a k i Hf G O1 Ha),
            ?(selected_property mm _ _ _ _ _ b k i Hf G O2 Hb); tauto.
Qed.

Example C14_example :
  masked_rows (ms_masks (fst (constrain_property ex_mm 0 (Some [1; 2; 3; 4; 5]%Q) 1 4 (new_mask ex_mm)))) 0
  = [1; 2; 3] /\
  masked_rows (ms_masks (fst (constrain_property ex_mm 0 (Some [1; 2; 3; 4; 5]%Q) 1 4 (new_mask ex_mm)))) 1
  = [0; 1; 2; 3; 4; 5] /\
  ok_op ex_mm (OpProperty 0 (Some [1; 2; 3; 4; 5]%Q) 1 4).
Proof.
  split; [reflexivity|]. split; [reflexivity|]. intros mk H. cbn in H. now injection H as <-.
Qed.

(** * C15 *)

Theorem C15_conversion_keeps_selection :
  forall (mm : mask_meta) (st : mask_state),
  wf_meta mm -> reachable mm st ->
  same_selection st (fst (mask_step mm OpToBool st)) /\
  same_selection st (fst (mask_step mm OpToRanges st)).
Proof.
  intros mm st Hw Hr. destruct (reachable_good _ _ Hw Hr) as [_ Hm]. destruct Hw as (_ & Hf & _).
  split; intros k i; unfold selected; cbn.
  - symmetry. now apply rows_to_bool.
  - now rewrite rows_to_ranges.
Qed.

(** From boolean form: the ranges list the selected rows in increasing order, the size is
    their number, and the way back gives the same boolean mask. *)
Theorem C15_bool_to_ranges :
  forall (mm : mask_meta) (st : mask_state) (k : nat),
  wf_meta mm -> reachable mm st -> (k < length (mm_keys mm))%nat ->
  ~ in_range_form (ms_masks st) ->
  let m := ms_masks (fst (mask_step mm OpToRanges st)) in
  in_range_form m /\
  StronglySorted Z.lt (masked_rows m k) /\
  (forall i, In i (masked_rows m k) <-> selected st k i) /\
  masked_size m k = zlen (masked_rows m k) /\
  convert_masks_to_bool mm m = ms_masks st.
Proof.
  intros mm st k Hw Hr Hk Hform m. destruct (reachable_good _ _ Hw Hr) as [_ Hm].
  destruct Hw as (_ & Hf & _). subst m. cbn. destruct (ms_masks st) as [l|l] eqn:El;
    [exfalso; apply Hform; exact I|]. cbn in Hm.
  destruct (nth_error l k) as [[bs size]|] eqn:E.
  2:{ apply nth_error_None in E. rewrite <- (Forall2_len _ _ _ Hm) in E. lia. }
  pose proof (rows_to_ranges (InBools l) k) as R. cbn in R |- *. rewrite E in R.
  rewrite nth_error_map in R |- *. rewrite E in R |- *. cbn in R |- *. rewrite R.
  split; [exact I|]. split; [apply sorted_rows_true|]. split.
  - intros i. unfold selected. rewrite El. cbn. now rewrite E.
  - split; [now rewrite where_true_rows|]. f_equal.
    clear - Hm Hf. revert Hf. induction Hm as [|mk bs ks l [H1 H2] _ IH]; intros Hf; [reflexivity|].
    inversion Hf as [|? ? [Hn _] Hf']; subst. cbn [map combine fst snd].
    f_equal; [|now apply IH]. destruct bs as [m size]. cbn in *. f_equal; [|congruence].
    apply bool_eq_rows; [now rewrite zlen_bools_of_ranges|].
    intros i. rewrite In_rows_bools_of_ranges by assumption.
    rewrite ranges_from_array_indices, where_true_rows. split; [tauto|]. intros Hi. split; [|assumption].
    apply In_rows_true in Hi. lia.
Qed.

(** In range form the reported size is always the number of rows listed. *)
Theorem C15_range_form_size :
  forall (mm : mask_meta) (st : mask_state) (k : nat),
  wf_meta mm -> reachable mm st -> in_range_form (ms_masks st) ->
  masked_size (ms_masks st) k = zlen (masked_rows (ms_masks st) k).
Proof.
  intros mm st k Hw Hr Hform. destruct (reachable_good _ _ Hw Hr) as [_ Hm].
  destruct (ms_masks st) as [l|l]; [|destruct Hform]. cbn in *.
  destruct (nth_error l k) as [rs|] eqn:E; [|reflexivity].
  now destruct (Forall2_nth_r _ _ _ _ _ Hm E) as (mk & _ & [_ H]).
Qed.

Example C15_example :
  ms_masks (fst (mask_run ex_mm
     [OpSpatial ex_r2 false; OpProperty 1 (Some [1; 2; 3; 4; 5; 6]%Q) 1 4; OpToRanges] (new_mask ex_mm)))
  = InRanges [([(3, 5)], 2); ([(1, 2)], 1)].
Proof. reflexivity. Qed.

(** * C16 *)

Theorem C16_indices_range_form :
  forall (mm : mask_meta) (indices : list Z),
  wf_meta mm -> mm_homogeneous mm = true -> ok_op mm (OpIndices indices) ->
  exists st, constrain_indices mm indices (new_mask mm) = (st, None) /\
    Permutation (masked_rows (ms_masks st) 0) indices /\
    StronglySorted Z.le (masked_rows (ms_masks st) 0) /\
    masked_size (ms_masks st) 0 = zlen indices /\
    in_range_form (ms_masks st).
Proof.
  intros mm indices (Hb & Hf & Hh) Hhom Hok.
  destruct (constrain_indices_cases mm indices (new_mask mm) Hf (good_new mm Hf) Hok)
    as [[E [N|N]]|(_ & _ & st & E & _ & _ & _ & M)].
  - now exfalso.
  - congruence.
  - exists st. split; [assumption|]. cbn in M. rewrite M. cbn. clear M.
    assert (L : length (map (fun kc : mask_key * list bool =>
                range_mask_of_cells (key_cells (fst kc)) (snd kc)) (combine (mm_keys mm) (full_cell_mask mm)))
                = 1%nat).
    { rewrite map_length, combine_length. unfold full_cell_mask. rewrite map_length, Hh by assumption.
      reflexivity. }
    destruct (map (fun kc : mask_key * list bool =>
                range_mask_of_cells (key_cells (fst kc)) (snd kc)) (combine (mm_keys mm) (full_cell_mask mm)))
      as [|x [|? ?]]; try discriminate. cbn.
    rewrite ranges_from_array_indices. split; [apply np_sort_perm|].
    split; [apply np_sort_sorted|]. auto.
Qed.

Theorem C16_indices_bool_form :
  forall (mm : mask_meta) (indices : list Z),
  wf_meta mm -> mm_homogeneous mm = true -> ok_op mm (OpIndices indices) ->
  exists st, mask_run mm [OpToBool; OpIndices indices] (new_mask mm) = (st, [None; None]) /\
    NoDup (masked_rows (ms_masks st) 0) /\
    forall i, selected st 0 i <-> selected (new_mask mm) 0 i /\ In i indices.
Proof.
  intros mm indices Hw Hhom Hok. pose proof Hw as (Hb & Hf & Hh).
  assert (R : reachable mm (fst (mask_step mm OpToBool (new_mask mm)))).
  { apply reachable_step; [|exact I]. exists []. split; [constructor|reflexivity]. }
  pose proof (reachable_good _ _ Hw R) as G.
  destruct (constrain_indices_cases mm indices _ Hf G Hok)
    as [[E [N|N]]|(_ & _ & st & E & _ & _ & _ & M)].
  - now exfalso.
  - congruence.
  - exists st. cbn [mask_run mask_step]. cbn [mask_step fst] in E, M. rewrite E.
    split; [reflexivity|]. cbn [ms_masks new_mask update_range_masks convert_masks_to_bool] in M.
    destruct M as [M1 M2]. split.
    + destruct (ms_masks st); [exfalso; apply M1; exact I|]. apply nodup_bools.
    + intros i. rewrite M2. destruct (C15_conversion_keeps_selection mm (new_mask mm) Hw) as [S _].
      { exists []. split; [constructor|reflexivity]. }
      specialize (S 0%nat i). rewrite S. unfold selected. reflexivity.
Qed.

(** In range form the indices are not checked against the file; in boolean form they are. *)
Theorem C16_range_form_does_not_check_bounds :
  forall (mm : mask_meta) (indices : list Z),
  mm_homogeneous mm = true ->
  snd (constrain_indices mm indices (new_mask mm)) = None.
Proof.
  intros mm indices H. unfold constrain_indices, constrain_indices_body. cbn. rewrite H. reflexivity.
Qed.

Theorem C16_bool_form_checks_bounds :
  forall (mm : mask_meta) (mk : mask_key) (indices : list Z) (i : Z),
  wf_meta mm -> mm_homogeneous mm = true -> nth_error (mm_keys mm) 0 = Some mk ->
  In i indices -> key_total mk <= i ->
  snd (mask_run mm [OpToBool; OpIndices indices] (new_mask mm)) = [None; Some IndexError].
Proof.
  intros mm mk indices i (Hb & Hf & Hh) Hhom Hk Hi Hout. cbn [mask_run mask_step].
  unfold constrain_indices, constrain_indices_body. cbn [ms_constrained new_mask ms_masks].
  rewrite Hhom. cbn [negb].
  destruct (mm_keys mm) as [|mk0 [|? ?]] eqn:Ek; try (specialize (Hh Hhom); discriminate).
  cbn in Hk. injection Hk as ->.
  unfold full_cell_mask. rewrite Ek. cbn [map combine update_range_masks convert_masks_to_bool].
  rewrite Ek. cbn [map combine fst snd indices_bool_loop].
  unfold set_indices. rewrite zlen_bools_of_ranges by (inversion Hf as [|? ? [? _] _]; assumption).
  replace (forallb _ indices) with false; [reflexivity|].
  symmetry. apply not_true_iff_false. rewrite forallb_forall. intros C. apply C in Hi.
  apply andb_true_iff in Hi. rewrite Z.leb_le, Z.ltb_lt in Hi. lia.
Qed.

Example C16_example :
  ms_masks (fst (constrain_indices ex_soap [4; 1; 0; 1] (new_mask ex_soap)))
  = InRanges [([(0, 2); (1, 2); (4, 5)], 4)] /\
  masked_rows (ms_masks (fst (mask_run ex_soap [OpToBool; OpIndices [4; 1; 0; 1]] (new_mask ex_soap)))) 0
  = [0; 1; 4] /\
  ok_op ex_soap (OpIndices [4; 1; 0; 1]).
Proof.
  split; [reflexivity|]. split; [reflexivity|]. repeat constructor; cbn; lia.
Qed.

(** * C17 *)

Theorem C17_counts_and_offsets :
  forall (cells : list cell) (n : Z) (m : list (Z * Z) + list bool),
  cells <> [] -> cells_tile 0 cells n -> mask_for n m ->
  exists counts offsets, masked_counts_offsets cells m = Ok (counts, offsets) /\
    length counts = length cells /\ length offsets = length cells /\
    (forall j c, nth_error cells j = Some c ->
       nth_error counts j = Some (count_in c (rows_of m)) /\
       nth_error offsets j = Some (sumZ (firstn j counts))) /\
    sumZ counts = zlen (rows_of m).
Proof.
  intros cells n m Hne Ht Hm. do 2 eexists. split; [now apply (masked_counts_spec cells n)|].
  split; [apply map_length|]. split; [rewrite running_offsets_length; apply map_length|]. split.
  - intros j c Hj. split; [exact (map_nth_error (fun c => count_in c (rows_of m)) _ _ Hj)|].
    rewrite running_offsets_nth; [f_equal|].
    rewrite map_length. apply nth_error_Some. congruence.
  - apply (tile_count_total cells n); [assumption|]. now apply mask_for_rows.
Qed.

(** The new table tiles the masked file. *)
Theorem C17_masked_cells_tile :
  forall (cells : list cell) (n : Z) (m : list (Z * Z) + list bool) counts offsets,
  cells <> [] -> cells_tile 0 cells n -> mask_for n m ->
  masked_counts_offsets cells m = Ok (counts, offsets) ->
  cells_tile 0 (zip3 (fun o c e => mk_cell o c (cell_min e) (cell_max e)) offsets counts cells)
             (zlen (rows_of m)).
Proof.
  intros cells n m counts offsets Hne Ht Hm E.
  rewrite (masked_counts_spec cells n m Ht Hne Hm) in E. injection E as <- <-.
  rewrite <- (tile_count_total cells n (rows_of m) Ht (mask_for_rows n m Hm)).
  assert (G : forall l s, cells_tile s
     (zip3 (fun o c e => mk_cell o c (cell_min e) (cell_max e))
        (running_offsets s (map (fun c => count_in c (rows_of m)) l))
        (map (fun c => count_in c (rows_of m)) l) l)
     (s + sumZ (map (fun c => count_in c (rows_of m)) l))).
  { induction l as [|c l IH]; intros s; [cbn; lia|].
    cbn [map running_offsets]. unfold zip3. cbn [combine map fst snd cells_tile cell_offset cell_count].
    split; [reflexivity|]. split; [apply zlen_nonneg|].
    rewrite sumZ_cons, Z.add_assoc. apply IH. }
  apply (G cells 0).
Qed.

(** Sorting by offset and partitioning the file is not enough: an empty cell listed after
    the cell that starts at the same offset hides that cell's particles. *)
Theorem C17_sorted_partition_refuted :
  exists (mk : mask_key) counts offsets,
    cells_partition mk /\ StronglySorted Z.le (map cell_offset (key_cells mk)) /\
    masked_counts_offsets (key_cells mk) (inl [(0, key_total mk)]) = Ok (counts, offsets) /\
    0 < key_total mk /\ sumZ counts = 0.
Proof.
  exists (mk_mask_key [ex_left 0 5; ex_right 0 0] 5). do 2 eexists. split.
  { split; [split; [cbn; lia|repeat constructor; cbn; lia]|]. split.
    - repeat constructor. intros i (H1 & H2). unfold stored_in in *. cbn in *. lia.
    - intros i Hi. cbn in Hi. exists (ex_left 0 5). split; [now left|]. unfold stored_in. cbn. lia. }
  split; [repeat constructor; cbn; lia|]. split; [reflexivity|]. split; reflexivity.
Qed.

Example C17_example :
  let cells := [ex_left 0 3; ex_right 3 0; ex_left 3 4] in
  cells_tile 0 cells 7 /\
  masked_counts_offsets cells (inl [(1, 4); (6, 7)]) = Ok ([2; 0; 2], [0; 2; 2]) /\
  masked_counts_offsets cells (inr [false; true; true; true; false; false; true])
  = Ok ([2; 0; 2], [0; 2; 2]).
Proof. cbn. repeat split; lia. Qed.

(** * C18 *)

Theorem C18_negative_count_refuted :
  exists (cells : list cell) (n : Z) counts offsets,
    Forall (fun c => 0 <= cell_offset c /\ 0 <= cell_count c /\ cell_offset c + cell_count c <= n) cells /\
    mask_for n (inl (ranges_from_array [])) /\
    masked_counts_offsets cells (inl (ranges_from_array [])) = Ok (counts, offsets) /\
    Exists (fun c => c < 0) counts.
Proof.
  exists [ex_left 3 2], 5. do 2 eexists. split; [repeat constructor; cbn; lia|].
  split; [repeat constructor; cbn; lia|]. split; [vm_compute; reflexivity|]. constructor. lia.
Qed.

(** If the cells tile the file the empty mask gives zero everywhere. *)
Theorem C18_empty_mask_when_tiled :
  forall (cells : list cell) (n : Z) counts offsets,
  cells <> [] -> cells_tile 0 cells n ->
  masked_counts_offsets cells (inl (ranges_from_array [])) = Ok (counts, offsets) ->
  Forall (eq 0) counts /\ Forall (eq 0) offsets.
Proof.
  intros cells n counts offsets Hne Ht E.
  assert (Hm : mask_for n (inl (ranges_from_array []))).
  { repeat constructor; cbn; try lia. now apply tile_bounds in Ht. }
  rewrite (masked_counts_spec cells n _ Ht Hne Hm) in E. injection E as <- <-.
  change (rows_of (inl (ranges_from_array []))) with (@nil Z).
  assert (Z0 : map (fun c => count_in c []) cells = map (fun _ => 0) cells) by reflexivity.
  rewrite Z0. split.
  - apply Forall_map, Forall_forall. reflexivity.
  - clear. assert (G : forall l : list cell, Forall (eq 0) (running_offsets 0 (map (fun _ => 0) l))).
    { induction l; cbn; constructor; auto. }
    apply G.
Qed.

(** * C19 *)

Theorem C19_no_duplicates :
  forall (mm : mask_meta) (ops : list mask_op) (k : nat),
  wf_meta mm -> Forall cells_disjoint (mm_keys mm) -> Forall nodup_op ops ->
  NoDup (masked_rows (ms_masks (fst (mask_run mm ops (new_mask mm)))) k).
Proof.
  intros mm ops k Hw Hd Hops. apply nodup_run; auto.
  - now exists (fun _ => true).
  - unfold new_mask. cbn [ms_masks]. change (full_cell_mask mm) with (cell_masks mm (fun _ => true)).
    now apply nodup_update.
Qed.

Definition longer_than_box (box : Q) (r : option (list Q)) : Prop :=
  match r with None => True | Some [lo; up] => (box < Qabs (up - lo))%Q | _ => False end.

(** No constraint, or a region longer than the box (or unrestricted) on every axis:
    every row exactly once. *)
Theorem C19_whole_box :
  forall (mm : mask_meta) (k : nat) (mk : mask_key) (rx ry rz : option (list Q)),
  wf_meta mm -> nth_error (mm_keys mm) k = Some mk -> cells_partition mk ->
  (forall c, In c (key_cells mk) -> extent_ok (mm_box mm) c) ->
  region_in_window (mm_box mm) [rx; ry; rz] ->
  longer_than_box (mm_box mm AX) rx -> longer_than_box (mm_box mm AY) ry ->
  longer_than_box (mm_box mm AZ) rz ->
  let all := zrange 0 (key_total mk) in
  Permutation (masked_rows (ms_masks (new_mask mm)) k) all /\
  exists st, constrain_spatial mm [rx; ry; rz] false (new_mask mm) = (st, None) /\
             Permutation (masked_rows (ms_masks st) k) all.
Proof.
  intros mm k mk rx ry rz (Hb & Hf & _) Hk (Hin & Hdis & Hcov) Hext Hwin Hx Hy Hz all.
  assert (G : forall g l, (forall c, In c (key_cells mk) -> g c = true) ->
     Permutation (masked_rows (update_range_masks mm (cell_masks mm g) (InRanges l)) k) all).
  { intros g l Hg. apply NoDup_Permutation.
    - rewrite rows_update_ranges, Hk. apply NoDup_cell_ranges, FOP_filter. exact Hdis.
    - apply NoDup_zrange.
    - intros i. unfold all; rewrite In_zrange, selected_update_ranges. split.
      + intros (mk' & c & E & Hc & _ & Hi). rewrite Hk in E. injection E as <-.
        destruct Hin as [_ Hin]. apply (proj1 (Forall_forall _ _) Hin) in Hc.
        unfold stored_in in Hi. lia.
      + intros Hi. destruct (Hcov i Hi) as (c & Hc & Hs). exists mk, c. auto. }
  split.
  - unfold new_mask. cbn [ms_masks]. change (full_cell_mask mm) with (cell_masks mm (fun _ => true)).
    now apply G.
  - assert (Hw : well_formed_region [rx; ry; rz]).
    { split; [reflexivity|]. unfold longer_than_box in *.
      intros r [<-|[<-|[<-|[]]]]; [destruct rx as [l|]|destruct ry as [l|]|destruct rz as [l|]]; auto;
        destruct l as [|? [|? [|? ?]]]; try contradiction; reflexivity. }
    destruct (spatial_fresh mm [rx; ry; rz] false Hb (conj Hw Hwin)) as (res & Er & E).
    eexists. split; [exact E|]. cbn [ms_masks]. apply G. intros c Hc.
    apply (cell_ok_iff mm _ res c Hb Er Hwin (Hext c Hc)). cbn.
    assert (T : forall b r lo hi, longer_than_box b r -> axis_touches b r lo hi).
    { intros b r lo hi H. destruct r as [[|? [|? [|? ?]]]|]; cbn in *; auto. }
    repeat split; apply T; assumption.
Qed.

Example C19_example :
  Forall cells_disjoint (mm_keys ex_mm) /\
  region_in_window (mm_box ex_mm) [Some [-1; 3]; None; Some [-1; 3]]%Q /\
  longer_than_box (mm_box ex_mm AX) (Some [-1; 3])%Q /\
  masked_rows (ms_masks (fst (constrain_spatial ex_mm [Some [-1; 3]; None; Some [-1; 3]]%Q false
                                                (new_mask ex_mm)))) 1
  = [2; 3; 4; 5; 0; 1].
Proof.
  split; [|split; [|split; reflexivity]].
  - repeat constructor; intros i (H1 & H2); unfold stored_in in *; cbn in *; lia.
  - cbn. repeat constructor; unfold Qle; cbn; lia.
Qed.

Print Assumptions C07_spatial_complete.
Print Assumptions C07_spatial_complete_from_file.
Print Assumptions C08_exact_cells.
Print Assumptions C08_exact_cells_any_form.
Print Assumptions C08_touching_is_overlap.
Print Assumptions C09_closed_boundary_refuted.
Print Assumptions C10_value_error_iff.
Print Assumptions C10_error_leaves_mask_alone.
Print Assumptions C11_union.
Print Assumptions C11_union_order_and_repetition.
Print Assumptions C12_conversion_between_unions_refuted.
Print Assumptions C12_bool_form_union_only_shrinks.
Print Assumptions C12_failed_property_between_unions_refuted.
Print Assumptions C13_spatial_succeeds_iff.
Print Assumptions C13_indices_succeed_iff.
Print Assumptions C13_property_always_allowed.
Print Assumptions C13_failing_call_keeps_selection.
Print Assumptions C13_successful_histories.
Print Assumptions C14_property_exact.
Print Assumptions C14_property_commute.
Print Assumptions C15_conversion_keeps_selection.
Print Assumptions C15_bool_to_ranges.
Print Assumptions C15_range_form_size.
Print Assumptions C16_indices_range_form.
Print Assumptions C16_indices_bool_form.
Print Assumptions C16_range_form_does_not_check_bounds.
Print Assumptions C16_bool_form_checks_bounds.
Print Assumptions C17_counts_and_offsets.
Print Assumptions C17_masked_cells_tile.
Print Assumptions C17_sorted_partition_refuted.
Print Assumptions C18_negative_count_refuted.
Print Assumptions C18_empty_mask_when_tiled.
Print Assumptions C19_no_duplicates.
Print Assumptions C19_whole_box.
