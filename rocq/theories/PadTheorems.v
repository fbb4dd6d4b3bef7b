(** C132: how far from its cell a particle may be for a spatial mask to load it (safe_padding), from the call of
    [swiftsimio.mask] on. *)
From Coq Require Import String List ZArith QArith Lia Lqa Bool.
From Verif Require Import Base BaseLemmas QTac RangesModel RangesSpec MaskModel MaskSpec MaskTheorems SubsetModel
     MaskNamesModel MaskNamesSpec MaskNamesTheorems.
Import ListNotations.
Open Scope Z_scope.

(** Row [row] of a group is stored in cell [j], whose geometrical cell is [centre] +- half of [size]. *)
Definition row_in_cell (cg : cells_group) (offsets : list (string * list Z)) (in_file : string) (j : nat) (centre : vec) (row : Z) : Prop :=
  nth_error (cg_centres cg) j = Some centre /\
  exists os ns o n, finds in_file offsets os /\ finds in_file (cg_counts cg) ns /\ nth_error os j = Some o /\ nth_error ns j = Some n
    /\ o <= row < o + n.
(** A position, up to images, at most [far] cell lengths outside of the cell. *)
Definition near_cell (md : meta) (cg : cells_group) (far : Q) (centre p : vec) : Prop :=
  forall a, exists m : Z, (centre a - cg_size cg a / 2 - far * cg_size cg a <= p a + inject_Z m * md_box md a
                           <= centre a + cg_size cg a / 2 + far * cg_size cg a)%Q.
(** The padded cell is no wider than the regions that are allowed. *)
Definition padding_fits (md : meta) (cg : cells_group) (far : Q) (centre : vec) : Prop :=
  forall a, (- md_box md a / 2 <= centre a - cg_size cg a / 2 - far * cg_size cg a
             /\ centre a + cg_size cg a / 2 + far * cg_size cg a <= 3 * md_box md a / 2)%Q.

Lemma finds_unique : forall A k (d : list (string * A)) v w, finds k d v -> finds k d w -> v = w.
Proof.
  intros A k d v w (b & a & E & N) (b' & a' & E' & N'). subst d. revert b' E' N'. induction b as [|x b IH]; intros [|y b'] E' N'; cbn [app] in E'.
  - injection E' as E' _. exact E'.
  - injection E' as <- _. exfalso. apply N'. left. reflexivity.
  - injection E' as -> _. exfalso. apply N. left. reflexivity.
  - injection E' as -> E'. apply (IH (fun H => N (or_intror H)) b' E' (fun H => N' (or_intror H))).
Qed.

(** Snapshots without bounding boxes of cells: with a padding of [pad], every particle that is no more than that many cell
    lengths outside of its cell and lies in the region is in the mask of its group.  The padding is a tenth by default. *)
Theorem C132_padded_complete : forall md pad cg raw g i in_file number offsets j centre row p region union,
  md_kind md = KSnapshot -> kind_ok md -> names_ok md -> md_partial md = false -> describes md pad cg raw -> wf_raw raw ->
  cg_min cg = None \/ cg_max cg = None ->
  nth_mask md i in_file g number -> offsets_table cg offsets ->
  row_in_cell cg offsets in_file j centre row ->
  let far := match pad with PadTrue => 1 # 10 | PadFalse => 0%Q | PadBy x => x end in
  near_cell md cg far centre p -> padding_fits md cg far centre ->
  well_formed_region region -> region_in_window (md_box md) region -> inside_region (md_box md) region p ->
  exists o v, new_object md pad cg = Ok o /\ snd (call_run md [CallSpatial region union] o) = [None]
    /\ mask_getattr md (fst (call_run md [CallSpatial region union] o)) g = Ok v /\ In row (value_rows v).
Proof.
  intros md pad cg raw g i in_file number offsets j centre row p region union EK HK HN HP HD HW HX HI HO (Hc & os & ns & oo & nn & Fo & Fn & Eo & En & Hr) far Near Fits Wf Win Ins.
  destruct HD as (Dc & Ds & Db & Dp & Dh & Dk & (offs & To & Keys) & Dn). assert (offs = offsets) by (destruct To as [T|[T1 T2]], HO as [O|[O1 O2]]; congruence). subst offs.
  destruct (Keys i in_file g number HI) as (rk & Ek & K1 & K2 & K3 & L1 & L2 & KX).
  assert (Ext : rk_extent rk = None) by (destruct HX as [Q|Q]; rewrite Q in KX; [exact KX|destruct (cg_min cg); exact KX]).
  assert (os = rk_offsets rk) by (apply (finds_unique _ in_file offsets); assumption). assert (ns = rk_counts rk) by (apply (finds_unique _ in_file (cg_counts cg)); assumption). subst os ns.
  assert (Pd : rc_pad raw = far) by (rewrite Dp; unfold pad_used; rewrite EK; reflexivity).
  destruct (C07_spatial_complete_from_file raw i rk j oo nn row p region union HW Ek Eo En Hr) as (st & E & S1).
  - intro a. exists (centre a - cg_size cg a / 2 - far * cg_size cg a)%Q, (centre a + cg_size cg a / 2 + far * cg_size cg a)%Q.
    split; [|split].
    + exists centre. rewrite Dc. split; [exact Hc|]. rewrite Ext, Ds, Pd. split; reflexivity.
    + rewrite Db. exact (Fits a).
    + rewrite Db. exact (Near a).
  - exact Wf.
  - rewrite Db. exact Win.
  - rewrite Db. exact Ins.
  - assert (HD : describes md pad cg raw) by (repeat split; try assumption; try apply Dh; exists offsets; split; assumption).
    assert (HF : Forall2 (same_call md) [CallSpatial region union] [OpSpatial region union]) by (constructor; [constructor|constructor]).
    destruct (C90_histories md pad cg raw _ _ HK HN HP HD HF) as (o & No & Errs & _ & Vals).
    cbn [mask_run mask_step] in Errs, Vals. rewrite E in Errs, Vals. cbn [fst snd] in Errs, Vals.
    assert (U : uses_mask md g i).
    { unfold nth_mask in HI. unfold uses_mask. rewrite EK in *. destruct HI as [HI _]. unfold names. rewrite nth_error_map, HI. reflexivity. }
    destruct (Vals g i U) as (v & n & G1 & _ & MV). exists o, v. split; [exact No|]. split; [exact Errs|]. split; [exact G1|].
    unfold selected, masked_rows in S1. unfold mask_value in MV. unfold value_rows.
    destruct (ms_masks st) as [l|l]; destruct MV as (x & Ex & ->); rewrite Ex in S1; exact S1.
Qed.

(** The text of [swiftsimio.mask] says that the default pads by a cell length and that all particles in the region are
    selected then.  Four cells along x, one particle of the first one half a cell away from it. *)
Definition dr_md : meta := mk_meta KSnapshot "FullVolume" false [("PartType0", "gas")]%string [("gas", 1)]%string (fun _ _ => None) (v3 4 4 4).
Definition dr_cg : cells_group :=
  mk_cells_group [v3 (1 # 2) 2 2; v3 (3 # 2) 2 2; v3 (5 # 2) 2 2; v3 (7 # 2) 2 2] (v3 1 4 4) [("PartType0", [1; 0; 0; 0])]%string
    (Some [("PartType0", [0; 1; 1; 1])]%string) None None None.
Definition dr_raw (pad : Q) : raw_cells :=
  mk_raw_cells (cg_centres dr_cg) (v3 1 4 4) pad (v3 4 4 4) false [mk_raw_key [0; 1; 1; 1] [1; 0; 0; 0] None 1].
Definition dr_region : list (option (list Q)) := [Some [5 # 4; 7 # 4]; None; None].
Lemma dr_describes : forall pad, describes dr_md pad dr_cg (dr_raw (pad_used dr_md pad)).
Proof.
  intro pad. repeat split; try discriminate.
  - eexists. split; [left; reflexivity|]. intros i h k n [H ->]. destruct i as [|[|i]]; cbn in H; try discriminate; injection H as <- <-;
      (eexists; split; [reflexivity|]); repeat split; now apply ex_finds.
  - intros i rk H. destruct i as [|[|i]]; cbn in H; try discriminate; repeat eexists.
Qed.
Theorem C132_docstring_refuted : exists md cg o p centre row,
  md_kind md = KSnapshot /\ kind_ok md /\ names_ok md /\ md_partial md = false /\ cg_min cg = None
  /\ (exists offsets, offsets_table cg offsets /\ row_in_cell cg offsets "PartType0" 0 centre row)
  /\ near_cell md cg 1 centre p /\ inside_region (md_box md) dr_region p
  /\ new_object md PadTrue cg = Ok o /\ snd (call_run md [CallSpatial dr_region false] o) = [None]
  /\ (exists v, mask_getattr md (fst (call_run md [CallSpatial dr_region false] o)) "gas" = Ok v /\ ~ In row (value_rows v))
  /\ exists o1 v1, new_object md (PadBy 1) cg = Ok o1
     /\ mask_getattr md (fst (call_run md [CallSpatial dr_region false] o1)) "gas" = Ok v1 /\ In row (value_rows v1).
Proof.
  exists dr_md, dr_cg. eexists. exists (v3 (3 # 2) 2 2), (v3 (1 # 2) 2 2), 0.
  split; [reflexivity|]. split; [left; split; [reflexivity|]; cbn; intuition discriminate|].
  split; [split; [right; repeat constructor; cbn; intuition discriminate|intros a b [<-|[]] [<-|[]]; discriminate]|].
  split; [reflexivity|]. split; [reflexivity|].
  split.
  { eexists. split; [left; reflexivity|]. split; [reflexivity|]. exists [0; 1; 1; 1], [1; 0; 0; 0], 0, 1.
    split; [apply ex_finds; reflexivity|]. split; [apply ex_finds; reflexivity|]. split; [reflexivity|]. split; [reflexivity|lia]. }
  split; [intro a; exists 0; destruct a; cbn; split; unfold Qle; cbn; lia|].
  split; [cbn; repeat split; exists 0; split; reflexivity|].
  split; [vm_compute; reflexivity|]. split; [vm_compute; reflexivity|].
  split; [eexists; split; [vm_compute; reflexivity|vm_compute; tauto]|].
  do 2 eexists. split; [vm_compute; reflexivity|]. split; [vm_compute; reflexivity|]. vm_compute. tauto.
Qed.

(** A case of the first theorem: the same file with a padding of half a cell length, the same particle. *)
Example C132_case : wf_raw (dr_raw (1 # 2)) /\ describes dr_md (PadBy (1 # 2)) dr_cg (dr_raw (1 # 2)) /\ padding_fits dr_md dr_cg (1 # 2) (v3 (1 # 2) 2 2)
  /\ near_cell dr_md dr_cg (1 # 2) (v3 (1 # 2) 2 2) (v3 (3 # 2) 2 2) /\ ~ near_cell dr_md dr_cg (1 # 10) (v3 (1 # 2) 2 2) (v3 (3 # 2) 2 2)
  /\ nth_mask dr_md 0 "PartType0" "gas" "gas" /\ well_formed_region dr_region /\ region_in_window (md_box dr_md) dr_region.
Proof.
  split; [|split; [|split; [|split; [|split; [|split; [|split]]]]]].
  - split; [intros []; reflexivity|]. split; [intros []; reflexivity|]. split; [easy|]. split; [discriminate|]. repeat constructor; cbn; lia.
  - exact (dr_describes (PadBy (1 # 2))).
  - intros []; cbn; split; unfold Qle; cbn; lia.
  - intro a. exists 0. destruct a; cbn; split; unfold Qle; cbn; lia.
  - intro H. destruct (H AX) as (m & H1 & H2). cbn [dr_md dr_cg md_box cg_size v3] in H1, H2.
    assert (C : m <= 0 \/ 1 <= m) by lia. destruct C as [C|C]; rewrite Zle_Qle in C; cbn [inject_Z] in C.
    + destruct (Z.eq_dec m 0) as [->|N]; [unfold Qle in H2; cbn in H2; lia|]. assert (D : m <= -1) by (rewrite <- Zle_Qle in C; lia).
      rewrite Zle_Qle in D. change (inject_Z (-1)) with (-1 # 1) in D. qlra.
    + change (inject_Z 1) with (1 # 1) in C. qlra.
  - split; reflexivity.
  - split; [reflexivity|]. intros r [<-|[<-|[<-|[]]]]; reflexivity || exact I.
  - cbn. repeat constructor; unfold Qle; cbn; lia.
Qed.

Print Assumptions C132_padded_complete.
Print Assumptions C132_docstring_refuted.
Print Assumptions C132_case.
