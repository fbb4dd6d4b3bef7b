(** Proofs about masks in memory. *)
From Coq Require Import List ZArith QArith Bool Lia.
From Verif Require Import Base BaseLemmas RangesModel SortModel MaskModel MaskHeapModel MaskHeapSpec.
Import ListNotations.
Open Scope Z_scope.

(** Arrays of ranges stay as they are. *)
Definition kept (h h' : memory) : Prop :=
  forall r l, nth_error h r = Some (ARanges l) -> nth_error h' r = Some (ARanges l).

Lemma kept_refl : forall h, kept h h.
Proof. intros h r l H. exact H. Qed.
Lemma kept_trans : forall h h' h'', kept h h' -> kept h' h'' -> kept h h''.
Proof. intros h h' h'' A B r l H. apply B, A, H. Qed.
Lemma kept_app : forall h k, kept h (h ++ k).
Proof. intros h k r l H. rewrite nth_error_app1; [exact H|]. apply nth_error_Some. congruence. Qed.
Lemma kept_ranges : forall h h' r, kept h h' -> is_ranges h r -> is_ranges h' r.
Proof. intros h h' r K (l & H). exists l. apply K, H. Qed.

Lemma allocate_eq : forall l h,
  allocate h l = (h ++ map fst l, combine (seq (length h) (length l)) (map snd l)).
Proof.
  induction l as [|(a, z) l IH]; intro h; [cbn; rewrite app_nil_r; reflexivity|].
  cbn [allocate map length seq combine fst snd]. rewrite IH, app_length. cbn [length].
  rewrite <- app_assoc. cbn [app]. rewrite Nat.add_1_r. reflexivity.
Qed.

Lemma combine_fst : forall A B (l : list A) (m : list B), length l = length m -> map fst (combine l m) = l.
Proof. intros A B. induction l as [|x l IH]; intros [|y m] H; try discriminate; [reflexivity|]. cbn in *. rewrite IH by lia. reflexivity. Qed.

Lemma allocated : forall h (l : list (marr * Z)),
  Forall2 (fun s x => nth_error (h ++ map fst l) (fst s) = Some (fst x) /\ snd s = snd x)
          (combine (seq (length h) (length l)) (map snd l)) l.
Proof.
  intros h l. assert (G : forall (l : list (marr * Z)) k h, Forall2 (fun s x => nth_error (h ++ map fst l ++ k) (fst s) = Some (fst x) /\ snd s = snd x)
          (combine (seq (length h) (length l)) (map snd l)) l).
  { clear. induction l as [|(a, z) l IH]; intros k h; [constructor|]. cbn [length seq map combine fst snd]. constructor.
    - cbn [fst snd]. split; [|reflexivity]. rewrite nth_error_app2 by lia. rewrite Nat.sub_diag. reflexivity.
    - pose proof (IH k (h ++ [a])) as H. rewrite app_length in H. cbn [length] in H. rewrite Nat.add_1_r in H.
      rewrite <- app_assoc in H. exact H. }
  pose proof (G l [] h) as H. rewrite app_nil_r in H. exact H.
Qed.

Lemma Forall2_len : forall A B (P : A -> B -> Prop) l m, Forall2 P l m -> length l = length m.
Proof. intros A B P l m H. induction H; cbn; congruence. Qed.

Lemma Forall2_imp : forall A B (P Q : A -> B -> Prop) l m, (forall x y, P x y -> Q x y) -> Forall2 P l m -> Forall2 Q l m.
Proof. intros A B P Q l m H F. induction F; constructor; auto. Qed.

Lemma Forall2_map_r : forall A B C (P : A -> C -> Prop) (f : B -> C) l m,
  Forall2 (fun x y => P x (f y)) l m -> Forall2 P l (map f m).
Proof. intros A B C P f l m F. induction F; constructor; auto. Qed.

Lemma map_ranges_at : forall h (slots : list (nat * Z)) (l : list (list range * Z)),
  Forall2 (fun s x => nth_error h (fst s) = Some (ARanges (fst x)) /\ snd s = snd x) slots l ->
  map (fun s => ranges_at h (fst s)) slots = map fst l.
Proof.
  intros h slots l F. induction F as [|s x slots l (H & _) F IH]; [reflexivity|]. cbn [map]. rewrite IH. f_equal.
  unfold ranges_at. rewrite H. reflexivity.
Qed.

Lemma map_bools_at : forall h (slots : list (nat * Z)) (l : list (list bool * Z)),
  Forall2 (fun s x => nth_error h (fst s) = Some (ABools (fst x)) /\ snd s = snd x) slots l ->
  map (fun s => bools_at h (fst s)) slots = map fst l.
Proof.
  intros h slots l F. induction F as [|s x slots l (H & _) F IH]; [reflexivity|]. cbn [map]. rewrite IH. f_equal.
  unfold bools_at. rewrite H. reflexivity.
Qed.

(** What freshly allocated arrays give. *)
Definition good_ranges (h : memory) (slots : list (nat * Z)) (l : list (list range * Z)) : Prop :=
  Forall2 (fun s x => nth_error h (fst s) = Some (ARanges (fst x)) /\ snd s = snd x) slots l /\ NoDup (map fst slots).
Definition good_bools (h : memory) (slots : list (nat * Z)) (l : list (list bool * Z)) : Prop :=
  Forall2 (fun s x => nth_error h (fst s) = Some (ABools (fst x)) /\ snd s = snd x) slots l /\ NoDup (map fst slots).

Lemma fresh : forall B (f : B -> marr) h (l : list (B * Z)) h' slots,
  allocate h (map (fun x => (f (fst x), snd x)) l) = (h', slots) ->
  Forall2 (fun s x => nth_error h' (fst s) = Some (f (fst x)) /\ snd s = snd x) slots l
  /\ NoDup (map fst slots) /\ kept h h'.
Proof.
  intros B f h l h' slots H. rewrite allocate_eq in H.
  pose proof (allocated h (map (fun x => (f (fst x), snd x)) l)) as A.
  injection H as H1 H2. rewrite H1, H2 in A. split; [|split].
  - clear - A. revert slots A. induction l as [|x l IH]; intros slots A; inversion A; subst; constructor; auto.
  - rewrite <- H2, combine_fst by (rewrite seq_length, !map_length; reflexivity). apply seq_NoDup.
  - rewrite <- H1. apply kept_app.
Qed.

Lemma fresh_ranges : forall h (l : list (list range * Z)) h' slots,
  allocate h (map (fun x => (ARanges (fst x), snd x)) l) = (h', slots) -> good_ranges h' slots l /\ kept h h'.
Proof. intros h l h' slots H. apply (fresh _ ARanges) in H. unfold good_ranges. tauto. Qed.

Lemma fresh_bools : forall h (l : list (list bool * Z)) h' slots,
  allocate h (map (fun x => (ABools (fst x), snd x)) l) = (h', slots) -> good_bools h' slots l /\ kept h h'.
Proof. intros h l h' slots H. apply (fresh _ ABools) in H. unfold good_bools. tauto. Qed.

(** * Assignments in place *)

Lemma upd_bools_kept : forall h r a, is_bools h r -> kept h (upd r (ABools a) h).
Proof.
  intros h r a (b & B) r' l H. destruct (Nat.eq_dec r r') as [->|N]; [congruence|]. rewrite nth_error_upd_neq; auto.
Qed.

Lemma upd_nth : forall h r (a b : marr), nth_error h r = Some b -> nth_error (upd r a h) r = Some a.
Proof. intros h r a b H. apply nth_error_upd_eq. apply nth_error_Some. congruence. Qed.

Section Fold.
Variable A : Type.
Variable g : A -> list bool -> list bool.

Lemma fold_upd : forall (L : list (A * (nat * Z))) h,
  NoDup (map (fun x => fst (snd x)) L) ->
  (forall x, In x L -> is_bools h (fst (snd x))) ->
  let h' := fold_left (fun h x => upd (fst (snd x)) (ABools (g (fst x) (bools_at h (fst (snd x))))) h) L h in
  kept h h'
  /\ (forall r, ~ In r (map (fun x => fst (snd x)) L) -> nth_error h' r = nth_error h r)
  /\ (forall x, In x L -> nth_error h' (fst (snd x)) = Some (ABools (g (fst x) (bools_at h (fst (snd x)))))).
Proof.
  induction L as [|x L IH]; intros h N B; cbn zeta.
  - split; [apply kept_refl|]. split; [reflexivity|]. intros x [].
  - cbn [fold_left map] in *. inversion N as [|? ? N1 N2]; subst.
    set (h1 := upd (fst (snd x)) (ABools (g (fst x) (bools_at h (fst (snd x))))) h).
    assert (Bx : is_bools h (fst (snd x))) by (apply B; left; reflexivity).
    assert (B1 : forall y, In y L -> is_bools h1 (fst (snd y))).
    { intros y I. destruct (B y (or_intror I)) as (b & E). exists b. unfold h1. rewrite nth_error_upd_neq; [exact E|].
      intro Q. apply N1. rewrite Q. apply in_map_iff. exists y. auto. }
    destruct (IH h1 N2 B1) as (K & O & I). cbn zeta in *.
    assert (K1 : kept h h1) by (apply upd_bools_kept; exact Bx).
    split; [exact (kept_trans _ _ _ K1 K)|]. split.
    + intros r R. rewrite O; [|intro Q; apply R; right; exact Q]. unfold h1. apply nth_error_upd_neq.
      intro Q. apply R. left. exact Q.
    + intros y [->|J].
      * rewrite O by exact N1. destruct Bx as (b & E). unfold h1. apply (upd_nth _ _ _ _ E).
      * rewrite (I y J). do 2 f_equal. unfold bools_at, h1.
        rewrite nth_error_upd_neq; [reflexivity|]. intro Q. apply N1. rewrite Q. apply in_map_iff. exists y. auto.
Qed.
End Fold.

Lemma map_snd_combine : forall A B (l : list A) (m : list B), length l = length m -> map snd (combine l m) = m.
Proof. intros A B. induction l as [|x l IH]; intros [|y m] H; try discriminate; [reflexivity|]. cbn in *. rewrite IH by lia. reflexivity. Qed.

(** * Refinement *)

(** The calls on the mask in memory do what they do on the mask as a value, keep the arrays of ranges, and keep
    the mask sound. *)
Definition refines (mm : mask_meta) (h : memory) (x : memory * hmask * option pyerr) (o : outcome) : Prop :=
  let '(h', m', e) := x in
  sound_mask mm h' m' /\ stands h' m' (fst o) /\ e = snd o /\ kept h h'.

Lemma sound_from_ranges : forall mm h c cm slots l, good_ranges h slots l ->
  length slots = length (mm_keys mm) -> length cm = length (mm_keys mm) ->
  sound_mask mm h (mkhmask c cm true slots) /\ stands h (mkhmask c cm true slots) (mk_mask_state c cm (InRanges l)).
Proof.
  intros mm h c cm slots l (F & N) L1 L2. split.
  - split; [exact N|]. split; [|split; [exact L1|exact L2]]. cbn [hm_slots hm_range]. intros r I. apply in_map_iff in I.
    destruct I as (s & <- & I). clear - F I. induction F as [|s' x slots l (H & _) F IH]; [destruct I|].
    destruct I as [->|I]; [eexists; exact H|auto].
  - constructor; [reflexivity|exact F].
Qed.

Lemma sound_from_bools : forall mm h c cm slots l, good_bools h slots l ->
  length slots = length (mm_keys mm) -> length cm = length (mm_keys mm) ->
  sound_mask mm h (mkhmask c cm false slots) /\ stands h (mkhmask c cm false slots) (mk_mask_state c cm (InBools l)).
Proof.
  intros mm h c cm slots l (F & N) L1 L2. split.
  - split; [exact N|]. split; [|split; [exact L1|exact L2]]. cbn [hm_slots hm_range]. intros r I. apply in_map_iff in I.
    destruct I as (s & <- & I). clear - F I. induction F as [|s' x slots l (H & _) F IH]; [destruct I|].
    destruct I as [->|I]; [eexists; exact H|auto].
  - constructor; [reflexivity|exact F].
Qed.

Lemma good_len_r : forall h slots l, good_ranges h slots l -> length slots = length l.
Proof. intros h slots l (F & _). apply (Forall2_len _ _ _ _ _ F). Qed.
Lemma good_len_b : forall h slots l, good_bools h slots l -> length slots = length l.
Proof. intros h slots l (F & _). apply (Forall2_len _ _ _ _ _ F). Qed.

Lemma combine_len : forall A B (l : list A) (m : list B), length l = length m -> length (combine l m) = length m.
Proof. intros A B l m H. rewrite combine_length. lia. Qed.

(** Cases of a mask. *)
Lemma mask_cases : forall mm h m st, sound_mask mm h m -> stands h m st ->
  (exists l, m = mkhmask (ms_constrained st) (ms_cell_mask st) true (hm_slots m) /\ ms_masks st = InRanges l /\ good_ranges h (hm_slots m) l
             /\ length l = length (mm_keys mm) /\ length (ms_cell_mask st) = length (mm_keys mm))
  \/ (exists l, m = mkhmask (ms_constrained st) (ms_cell_mask st) false (hm_slots m) /\ ms_masks st = InBools l /\ good_bools h (hm_slots m) l
             /\ length l = length (mm_keys mm) /\ length (ms_cell_mask st) = length (mm_keys mm)).
Proof.
  intros mm h m st (N & K & L1 & L2) S. destruct S as [l R F|l R F]; [left|right]; exists l; cbn [ms_constrained ms_cell_mask ms_masks].
  - split; [destruct m; cbn in *; rewrite R; reflexivity|]. split; [reflexivity|]. split; [split; assumption|].
    split; [rewrite <- L1; symmetry; apply (Forall2_len _ _ _ _ _ F)|exact L2].
  - split; [destruct m; cbn in *; rewrite R; reflexivity|]. split; [reflexivity|]. split; [split; assumption|].
    split; [rewrite <- L1; symmetry; apply (Forall2_len _ _ _ _ _ F)|exact L2].
Qed.

Lemma h_update_ok : forall mm h m st cm, sound_mask mm h m -> stands h m st -> length cm = length (mm_keys mm) ->
  let '(h', m') := h_update mm h m cm in
  sound_mask mm h' m' /\ stands h' m' (mk_mask_state (ms_constrained st) cm (update_range_masks mm cm (ms_masks st))) /\ kept h h'.
Proof.
  intros mm h m st cm S T L. destruct (mask_cases mm h m st S T) as [(l & E & M & G & L1 & L2)|(l & E & M & G & L1 & L2)].
  - unfold h_update. rewrite E, M. cbn [hm_range hm_constrained update_range_masks].
    set (rz := map (fun kc => range_mask_of_cells (key_cells (fst kc)) (snd kc)) (combine (mm_keys mm) cm)).
    assert (Q : map (fun kc => (ARanges (fst (range_mask_of_cells (key_cells (fst kc)) (snd kc))), snd (range_mask_of_cells (key_cells (fst kc)) (snd kc)))) (combine (mm_keys mm) cm)
              = map (fun x => (ARanges (fst x), snd x)) rz) by (unfold rz; rewrite map_map; reflexivity).
    rewrite Q. destruct (allocate h (map (fun x => (ARanges (fst x), snd x)) rz)) as (h', slots) eqn:A.
    apply fresh_ranges in A. destruct A as (A & K).
    assert (Ls : length slots = length (mm_keys mm)).
    { rewrite (good_len_r _ _ _ A). unfold rz. rewrite map_length, combine_len; congruence. }
    destruct (sound_from_ranges mm h' (ms_constrained st) cm slots rz A Ls L) as (S' & T'). auto.
  - unfold h_update. rewrite E, M. cbn [hm_range hm_constrained hm_slots update_range_masks].
    set (LL := combine (combine (mm_keys mm) cm) (hm_slots m)).
    destruct G as (F & N).
    assert (Ll : length (combine (mm_keys mm) cm) = length (hm_slots m)).
    { rewrite combine_len by congruence. rewrite (Forall2_len _ _ _ _ _ F). congruence. }
    assert (Lr : map (fun x => fst (snd x)) LL = map fst (hm_slots m)).
    { unfold LL. rewrite <- (map_map snd fst), map_snd_combine by exact Ll. reflexivity. }
    destruct (fold_upd (mask_key * list bool) (fun kc => bool_mask_of_cells (key_cells (fst kc)) (snd kc)) LL h) as (K & O & I).
    { rewrite Lr. exact N. }
    { intros (k, s) J. pose proof (in_combine_r _ _ _ _ J) as J'. cbn [fst snd].
      clear - F J'. induction F as [|s' y slots l (H & _) F IH]; [destruct J'|]. destruct J' as [->|J']; [eexists; exact H|auto]. }
    cbn zeta in K, O, I. set (h' := fold_left _ LL h) in *. change (fold_left _ LL h) with h'.
    set (l' := map (fun kcb => (bool_mask_of_cells (key_cells (fst (fst kcb))) (snd (fst kcb)) (fst (snd kcb)), snd (snd kcb)))
                   (combine (combine (mm_keys mm) cm) l)).
    assert (G' : good_bools h' (hm_slots m) l').
    { split; [|exact N]. unfold l'. clear - F I Ll. unfold LL in I. revert I Ll. generalize (combine (mm_keys mm) cm) as kc. 
      clearbody h'. induction F as [|s y slots l (H & Hz) F IH]; intros kc I Ll; destruct kc as [|k kc]; try discriminate; [constructor|].
      cbn [combine map]. constructor.
      - cbn [fst snd]. split; [|exact Hz]. pose proof (I (k, s) (or_introl eq_refl)) as Q. cbn [fst snd] in Q. rewrite Q.
        do 3 f_equal. unfold bools_at. rewrite H. reflexivity.
      - apply IH; [|cbn in Ll; lia]. intros x J. apply (I x). right. exact J. }
    destruct (sound_from_bools mm h' (ms_constrained st) cm (hm_slots m) l' G') as (S' & T').
    { apply S. }
    { exact L. }
    auto.
Qed.

Lemma h_to_ranges_ok : forall mm h m st, sound_mask mm h m -> stands h m st ->
  let '(h', m') := h_to_ranges h m in
  sound_mask mm h' m' /\ stands h' m' (mk_mask_state (ms_constrained st) (ms_cell_mask st) (convert_masks_to_ranges (ms_masks st)))
  /\ kept h h' /\ hm_range m' = true.
Proof.
  intros mm h m st S T. destruct (mask_cases mm h m st S T) as [(l & E & M & G & L1 & L2)|(l & E & M & G & L1 & L2)].
  - unfold h_to_ranges. rewrite M. assert (R : hm_range m = true) by (rewrite E; reflexivity). rewrite R. cbn [convert_masks_to_ranges].
    split; [exact S|]. split; [rewrite <- M; destruct st; exact T|]. split; [apply kept_refl|exact R].
  - unfold h_to_ranges. rewrite E, M. cbn [hm_range hm_constrained hm_cells hm_slots convert_masks_to_ranges].
    set (l' := map (fun bs => let w := where_true (fst bs) in (ranges_from_array w, zlen w)) l).
    assert (Q : map (fun rz => (ARanges (ranges_from_array (where_true (bools_at h (fst rz)))), zlen (where_true (bools_at h (fst rz))))) (hm_slots m)
              = map (fun x => (ARanges (fst x), snd x)) l').
    { unfold l'. rewrite map_map. cbn zeta. cbn [fst snd].
      rewrite <- (map_map fst (fun b => (ARanges (ranges_from_array (where_true b)), zlen (where_true b)))).
      rewrite <- (map_bools_at h (hm_slots m) l (proj1 G)). rewrite map_map. reflexivity. }
    rewrite Q. destruct (allocate h (map (fun x => (ARanges (fst x), snd x)) l')) as (h', slots) eqn:A.
    apply fresh_ranges in A. destruct A as (A & K).
    assert (Ls : length slots = length (mm_keys mm)).
    { rewrite (good_len_r _ _ _ A). unfold l'. rewrite map_length. exact L1. }
    destruct (sound_from_ranges mm h' (ms_constrained st) (ms_cell_mask st) slots l' A Ls L2) as (S' & T'). auto.
Qed.

Lemma h_to_bool_ok : forall mm h m st, sound_mask mm h m -> stands h m st ->
  let '(h', m') := h_to_bool mm h m in
  sound_mask mm h' m' /\ stands h' m' (mk_mask_state (ms_constrained st) (ms_cell_mask st) (convert_masks_to_bool mm (ms_masks st)))
  /\ kept h h' /\ hm_range m' = false.
Proof.
  intros mm h m st S T. destruct (mask_cases mm h m st S T) as [(l & E & M & G & L1 & L2)|(l & E & M & G & L1 & L2)].
  - unfold h_to_bool. rewrite E, M. cbn [hm_range hm_constrained hm_cells hm_slots convert_masks_to_bool].
    set (l' := map (fun kr => (bools_of_ranges (key_total (fst kr)) (fst (snd kr)), key_total (fst kr))) (combine (mm_keys mm) l)).
    assert (Q : map (fun kr => (ABools (bools_of_ranges (key_total (fst kr)) (ranges_at h (fst (snd kr)))), key_total (fst kr)))
                    (combine (mm_keys mm) (hm_slots m)) = map (fun x => (ABools (fst x), snd x)) l').
    { unfold l'. rewrite map_map. cbn [fst snd]. destruct G as (F & _). clear - F. generalize (mm_keys mm) as ks.
      induction F as [|s x slots l (H & _) F IH]; intros [|k ks]; try reflexivity. cbn [combine map fst snd]. rewrite IH. do 4 f_equal.
      unfold ranges_at. rewrite H. reflexivity. }
    rewrite Q. destruct (allocate h (map (fun x => (ABools (fst x), snd x)) l')) as (h', slots) eqn:A.
    apply fresh_bools in A. destruct A as (A & K).
    assert (Ls : length slots = length (mm_keys mm)).
    { rewrite (good_len_b _ _ _ A). unfold l'. rewrite map_length, combine_len; congruence. }
    destruct (sound_from_bools mm h' (ms_constrained st) (ms_cell_mask st) slots l' A Ls L2) as (S' & T'). auto.
  - unfold h_to_bool. rewrite M. assert (R : hm_range m = false) by (rewrite E; reflexivity). rewrite R. cbn [convert_masks_to_bool].
    split; [exact S|]. split; [rewrite <- M; destruct st; exact T|]. split; [apply kept_refl|exact R].
Qed.

Lemma label_ok : forall mm h c m st, sound_mask mm h m -> stands h m st ->
  sound_mask mm h (set_label c m) /\ stands h (set_label c m) (mk_mask_state (Some c) (ms_cell_mask st) (ms_masks st)).
Proof.
  intros mm h c m st S T. split; [exact S|]. destruct T as [l R F|l R F]; cbn [ms_cell_mask ms_masks].
  - apply (stands_ranges h (set_label c m) l R F).
  - apply (stands_bools h (set_label c m) l R F).
Qed.

Lemma generate_len : forall mm f cm, generate_cell_mask mm f = Ok cm -> length cm = length (mm_keys mm).
Proof. intros mm f cm H. unfold generate_cell_mask in H. destruct (existsb _ axes); [discriminate|]. injection H as <-. apply map_length. Qed.

Lemma same_refines : forall mm h m st e, sound_mask mm h m -> stands h m st -> refines mm h (h, m, e) (st, e).
Proof. intros mm h m st e S T. unfold refines. cbn. repeat split; auto; try apply S; apply kept_refl. Qed.

Lemma h_spatial_ok : forall mm region union h m st, sound_mask mm h m -> stands h m st ->
  refines mm h (h_spatial mm region union h m) (constrain_spatial mm region union st).
Proof.
  intros mm region union h m st S T. unfold h_spatial, constrain_spatial.
  destruct (sanitize_region (mm_box mm) region) as [f|e]; [|apply same_refines; assumption].
  assert (C : hm_constrained m = ms_constrained st) by (destruct T; reflexivity). rewrite C.
  assert (CC : hm_cells m = ms_cell_mask st) by (destruct T; reflexivity). rewrite CC.
  assert (D : forall cm, length cm = length (mm_keys mm) ->
     refines mm h (let '(h', m') := h_update mm h m cm in (h', set_label CSpatial m', None))
       (mk_mask_state (Some CSpatial) cm (update_range_masks mm cm (ms_masks st)), None)).
  { intros cm L. pose proof (h_update_ok mm h m st cm S T L) as H. destruct (h_update mm h m cm) as (h', m').
    destruct H as (S' & T' & K). destruct (label_ok mm h' CSpatial m' _ S' T') as (S2 & T2). unfold refines. cbn [fst snd]. auto. }
  assert (X : refines mm h
     (match generate_cell_mask mm f with
      | Err e => (h, m, Some e)
      | Ok new_mask => let '(h', m') := h_update mm h m new_mask in (h', set_label CSpatial m', None) end)
     (match generate_cell_mask mm f with
      | Err e => (st, Some e)
      | Ok new_mask => (mk_mask_state (Some CSpatial) new_mask (update_range_masks mm new_mask (ms_masks st)), None) end)).
  { destruct (generate_cell_mask mm f) as [cm|e] eqn:E; [|apply same_refines; assumption]. apply D. apply (generate_len _ _ _ E). }
  destruct (ms_constrained st) as [c|]; [|exact X].
  destruct c, union; try (apply same_refines; assumption).
  destruct (generate_cell_mask mm f) as [cm|e] eqn:E; [|apply same_refines; assumption]. apply D.
  rewrite map_length, combine_length, (generate_len _ _ _ E).
  assert (length (ms_cell_mask st) = length (mm_keys mm)) by (rewrite <- CC; apply S). lia.
Qed.

Lemma nth_upd_other : forall A (x : A) l i j, i <> j -> nth_error (upd i x l) j = nth_error l j.
Proof. intros. apply nth_error_upd_neq. assumption. Qed.

Lemma h_property_ok : forall mm key values lower upper h m st, sound_mask mm h m -> stands h m st ->
  refines mm h (h_property mm key values lower upper h m) (constrain_property mm key values lower upper st).
Proof.
  intros mm key values lower upper h m st S T. unfold h_property, constrain_property.
  pose proof (h_to_bool_ok mm h m st S T) as H. destruct (h_to_bool mm h m) as (h1, m1). destruct H as (S1 & T1 & K & R).
  set (st1 := mk_mask_state (ms_constrained st) (ms_cell_mask st) (convert_masks_to_bool mm (ms_masks st))) in *.
  assert (Y : forall e, refines mm h (h1, m1, Some e) (st1, Some e)).
  { intro e. unfold refines. cbn [fst snd]. auto. }
  destruct (mask_cases mm h1 m1 st1 S1 T1) as [(l & E & M & _)|(l & E & M & (F & N) & L1 & L2)]; [rewrite E in R; discriminate|].
  cbn [st1 ms_masks] in M. rewrite M.
  destruct values as [vals|]; [|apply Y].
  assert (Z : match nth_error (hm_slots m1) key with
              | Some (r, size) => exists b, nth_error l key = Some (b, size) /\ nth_error h1 r = Some (ABools b)
              | None => nth_error l key = None end).
  { clear - F. revert key. induction F as [|s x slots l (H & Hz) F IH]; intros [|key]; try reflexivity.
    - cbn [nth_error]. destruct s as (r, size), x as (b, z). cbn [fst snd] in *. subst. exists b. auto.
    - apply IH. }
  destruct (nth_error (hm_slots m1) key) as [(r, size)|] eqn:Q; [|rewrite Z; apply Y].
  destruct Z as (b & Z1 & Z2). rewrite Z1. assert (B : bools_at h1 r = b) by (unfold bools_at; rewrite Z2; reflexivity). rewrite B.
  set (new := map _ _). set (b' := masked_assign b b new).
  assert (K2 : kept h1 (upd r (ABools b') h1)) by (apply upd_bools_kept; eexists; exact Z2).
  assert (G : good_bools (upd r (ABools b') h1) (hm_slots m1) (upd key (b', size) l)).
  { split; [|exact N]. clear - F N Q Z1 Z2. revert key l F Q Z1. induction (hm_slots m1) as [|s slots IH]; intros key l F Q Z1; [destruct key; discriminate|].
    inversion F as [|? x ? l' (H & Hz) F']; subst. inversion N as [|? ? N1 N2]; subst. destruct key as [|key]; cbn [nth_error upd] in *.
    - injection Q as ->. cbn [fst snd] in *. injection Z1 as ->. constructor.
      + cbn [fst snd]. split; [apply (upd_nth _ _ _ _ Z2)|reflexivity].
      + clear - F' N1. induction F' as [|s x slots l (H & Hz) F IH]; constructor.
        * split; [|exact Hz]. rewrite nth_error_upd_neq; [exact H|]. intro E. apply N1. left. auto.
        * apply IH. intro I. apply N1. right. exact I.
    - constructor.
      + split; [|exact Hz]. rewrite nth_error_upd_neq; [exact H|]. intro E. apply N1. rewrite <- E.
        apply in_map_iff. exists (r, size). split; [reflexivity|]. apply nth_error_In in Q. exact Q.
      + apply IH; assumption. }
  destruct (sound_from_bools mm _ (Some CProperty) (ms_cell_mask st) (hm_slots m1) _ G) as (S' & T').
  { apply S1. }
  { exact L2. }
  unfold refines. cbn [fst snd]. 
  assert (E' : set_label CProperty m1 = mkhmask (Some CProperty) (ms_cell_mask st) false (hm_slots m1)).
  { unfold set_label. rewrite E. reflexivity. }
  rewrite E'. split; [exact S'|]. split; [exact T'|]. split; [reflexivity|]. apply (kept_trans _ _ _ K K2).
Qed.

Lemma h_loop_ok : forall indices (slots : list (nat * Z)) h (l : list (list bool * Z)),
  Forall2 (fun s x => nth_error h (fst s) = Some (ABools (fst x)) /\ snd s = snd x) slots l -> NoDup (map fst slots) ->
  let '(h', slots', e) := h_indices_loop indices h slots in
  let '(l', e') := indices_bool_loop indices l in
  Forall2 (fun s x => nth_error h' (fst s) = Some (ABools (fst x)) /\ snd s = snd x) slots' l'
  /\ NoDup (map fst slots') /\ e = e' /\ (exists k, h' = h ++ k)
  /\ (forall r, In r (map fst slots') -> In r (map fst slots) \/ (length h <= r)%nat)
  /\ length slots' = length slots.
Proof.
  intros indices. induction slots as [|(r, size) slots IH]; intros h l F N; inversion F as [|? x ? l0 (H & Hz) F']; subst.
  - cbn. split; [constructor|]. split; [constructor|]. split; [reflexivity|]. split; [exists []; rewrite app_nil_r; reflexivity|]. split; [intros r []|reflexivity].
  - destruct x as (b, z). cbn [h_indices_loop indices_bool_loop fst snd] in *. subst z. assert (B : bools_at h r = b) by (unfold bools_at; rewrite H; reflexivity). rewrite B.
    clear B. inversion N as [|? ? N1 N2]; subst.
    destruct (set_indices (zlen b) indices) as [cmp|e].
    + set (a := ABools (map (fun xy => andb (fst xy) (snd xy)) (combine b cmp))).
      assert (F1 : Forall2 (fun s x => nth_error (h ++ [a]) (fst s) = Some (ABools (fst x)) /\ snd s = snd x) slots l0).
      { clear - F'. induction F' as [|s x slots l (H & Hz) F IH]; constructor; auto. split; [|exact Hz].
        rewrite nth_error_app1; [exact H|]. apply nth_error_Some. congruence. }
      pose proof (IH (h ++ [a]) l0 F1 N2) as X. destruct (h_indices_loop indices (h ++ [a]) slots) as ((h', rest'), e1).
      destruct (indices_bool_loop indices l0) as (l', e2). destruct X as (X1 & X2 & X3 & (k & X4) & X5 & X6).
      split; [|split; [|split; [exact X3|split; [|split]]]].
      * constructor; [|exact X1]. cbn [fst snd]. split; [|reflexivity]. rewrite X4, <- app_assoc. rewrite nth_error_app2 by lia.
        rewrite Nat.sub_diag. reflexivity.
      * cbn [map fst]. constructor; [|exact X2]. intro I. destruct (X5 _ I) as [J|J].
        -- apply in_map_iff in J. destruct J as (s & E & J).
           assert (V : nth_error h (fst s) <> None).
           { clear - F' J. induction F' as [|s' x slots l (H & _) F IH]; [destruct J|]. destruct J as [->|J]; [congruence|auto]. }
           apply nth_error_Some in V. lia.
        -- rewrite app_length in J. cbn in J. lia.
      * exists (a :: k). rewrite X4, <- app_assoc. reflexivity.
      * intros r' [I|I]; [right; cbn in I; lia|]. destruct (X5 _ I) as [J|J]; [left; right; exact J|right; rewrite app_length in J; cbn in J; lia].
      * cbn [length]. rewrite X6. reflexivity.
    + split; [exact F|]. split; [exact N|]. split; [reflexivity|]. split; [exists []; rewrite app_nil_r; reflexivity|]. split; [intros r' I; left; exact I|reflexivity].
Qed.

Lemma h_indices_ok : forall mm indices h m st, sound_mask mm h m -> stands h m st ->
  refines mm h (h_indices mm indices h m) (constrain_indices mm indices st).
Proof.
  intros mm indices h m st S T. unfold h_indices, constrain_indices, constrain_indices_body.
  assert (C : hm_constrained m = ms_constrained st) by (destruct T; reflexivity). rewrite C.
  destruct (ms_constrained st) as [c|] eqn:CS; [apply same_refines; assumption|].
  destruct (negb (mm_homogeneous mm)); [apply same_refines; assumption|].
  set (si := if is_sorted indices then indices else np_sort indices).
  destruct (mask_cases mm h m st S T) as [(l & E & M & G & L1 & L2)|(l & E & M & G & L1 & L2)].
  - rewrite M. assert (R : hm_range m = true) by (rewrite E; reflexivity). rewrite R.
    set (l' := map (fun _ : list range * Z => (ranges_from_array si, zlen indices)) l).
    assert (Q : map (fun _ : nat * Z => (ARanges (ranges_from_array si), zlen indices)) (hm_slots m)
              = map (fun x => (ARanges (fst x), snd x)) l').
    { unfold l'. rewrite map_map. cbn [fst snd]. destruct G as (F & _). clear - F. induction F; [reflexivity|]. cbn [map]. f_equal. assumption. }
    rewrite Q. destruct (allocate h (map (fun x => (ARanges (fst x), snd x)) l')) as (h', slots) eqn:A.
    apply fresh_ranges in A. destruct A as (A & K).
    assert (Ls : length slots = length (mm_keys mm)) by (rewrite (good_len_r _ _ _ A); unfold l'; rewrite map_length; exact L1).
    assert (HC : hm_cells m = ms_cell_mask st) by (rewrite E; reflexivity). rewrite HC.
    destruct (sound_from_ranges mm h' (Some CIndices) (ms_cell_mask st) slots l' A Ls L2) as (S' & T').
    unfold refines, with_label. cbn [fst snd ms_cell_mask ms_masks]. auto.
  - rewrite M. assert (R : hm_range m = false) by (rewrite E; reflexivity). rewrite R.
    destruct G as (F & N). pose proof (h_loop_ok indices (hm_slots m) h l F N) as X.
    destruct (h_indices_loop indices h (hm_slots m)) as ((h', slots), e). destruct (indices_bool_loop indices l) as (l', e').
    destruct X as (X1 & X2 & X3 & (k & X4) & _ & X6). subst e'.
    assert (HC : hm_cells m = ms_cell_mask st) by (rewrite E; reflexivity). rewrite HC.
    assert (Ls : length slots = length (mm_keys mm)) by (rewrite X6; apply S).
    assert (K : kept h h') by (rewrite X4; apply kept_app).
    destruct e as [e|]; unfold refines, with_label; cbn [fst snd ms_cell_mask ms_masks].
    + destruct (sound_from_bools mm h' None (ms_cell_mask st) slots l' (conj X1 X2) Ls L2) as (S' & T'). auto.
    + destruct (sound_from_bools mm h' (Some CIndices) (ms_cell_mask st) slots l' (conj X1 X2) Ls L2) as (S' & T'). auto.
Qed.

Lemma h_step_ok : forall mm op h m st, sound_mask mm h m -> stands h m st ->
  refines mm h (h_step mm op h m) (mask_step mm op st).
Proof.
  intros mm op h m st S T. destruct op as [region union|key values lower upper|i|l| |]; cbn [h_step mask_step].
  - apply h_spatial_ok; assumption.
  - apply h_property_ok; assumption.
  - unfold h_index, constrain_index. assert (C : hm_constrained m = ms_constrained st) by (destruct T; reflexivity). rewrite C.
    destruct (ms_constrained st) as [c|]; [apply same_refines; assumption|].
    pose proof (h_indices_ok mm [i] h m st S T) as H. unfold refines in H |- *.
    destruct (h_indices mm [i] h m) as ((h', m'), e). destruct (constrain_indices mm [i] st) as (st', e').
    cbn [fst snd] in H. destruct H as (S' & T' & -> & K). destruct e' as [e'|]; cbn [with_label fst snd].
    + auto.
    + destruct (label_ok mm h' CIndex m' st' S' T') as (S2 & T2). auto.
  - apply h_indices_ok; assumption.
  - pose proof (h_to_ranges_ok mm h m st S T) as H. destruct (h_to_ranges h m) as (h', m'). destruct H as (S' & T' & K & _).
    unfold refines. cbn [fst snd]. auto.
  - pose proof (h_to_bool_ok mm h m st S T) as H. destruct (h_to_bool mm h m) as (h', m'). destruct H as (S' & T' & K & _).
    unfold refines. cbn [fst snd]. auto.
Qed.

(** Every sound mask stands for something. *)
Lemma sound_stands : forall mm h m, sound_mask mm h m -> exists st, stands h m st.
Proof.
  intros mm h m (_ & K & _). destruct (hm_range m) eqn:R.
  - assert (X : exists l : list (list range * Z), Forall2 (fun s x => nth_error h (fst s) = Some (ARanges (fst x)) /\ snd s = snd x) (hm_slots m) l).
    { clear R. induction (hm_slots m) as [|s slots IH]; [exists []; constructor|].
      destruct IH as (l & F); [intros r I; apply K; right; exact I|]. destruct (K (fst s) (or_introl eq_refl)) as (a & E).
      exists ((a, snd s) :: l). constructor; [split; [exact E|reflexivity]|exact F]. }
    destruct X as (l & F). eexists. apply (stands_ranges h m l R F).
  - assert (X : exists l : list (list bool * Z), Forall2 (fun s x => nth_error h (fst s) = Some (ABools (fst x)) /\ snd s = snd x) (hm_slots m) l).
    { clear R. induction (hm_slots m) as [|s slots IH]; [exists []; constructor|].
      destruct IH as (l & F); [intros r I; apply K; right; exact I|]. destruct (K (fst s) (or_introl eq_refl)) as (a & E).
      exists ((a, snd s) :: l). constructor; [split; [exact E|reflexivity]|exact F]. }
    destruct X as (l & F). eexists. apply (stands_bools h m l R F).
Qed.

Lemma stands_unique : forall h m st st', stands h m st -> stands h m st' -> st = st'.
Proof.
  intros h m st st' A B. destruct A as [l R F|l R F]; inversion B as [l' R' F' E|l' R' F' E]; subst; try congruence.
  - f_equal. f_equal. clear - F F'. revert l' F'. induction F as [|s (a, z) slots l (H & Hz) F IH]; intros l' F'; inversion F' as [|? (a', z') ? l0 (H' & Hz') F0]; subst; [reflexivity|].
    cbn [fst snd] in *. f_equal; [congruence|apply IH; assumption].
  - f_equal. f_equal. clear - F F'. revert l' F'. induction F as [|s (a, z) slots l (H & Hz) F IH]; intros l' F'; inversion F' as [|? (a', z') ? l0 (H' & Hz') F0]; subst; [reflexivity|].
    cbn [fst snd] in *. f_equal; [congruence|apply IH; assumption].
Qed.

Lemma h_new_ok : forall mm h, let '(h', m') := h_new mm h in
  sound_mask mm h' m' /\ stands h' m' (new_mask mm) /\ kept h h'.
Proof.
  intros mm h. unfold h_new, h_update. cbn [hm_range hm_constrained].
  set (cm := full_cell_mask mm). assert (L : length cm = length (mm_keys mm)) by apply map_length.
  set (rz := map (fun kc => range_mask_of_cells (key_cells (fst kc)) (snd kc)) (combine (mm_keys mm) cm)).
  assert (Q : map (fun kc => (ARanges (fst (range_mask_of_cells (key_cells (fst kc)) (snd kc))), snd (range_mask_of_cells (key_cells (fst kc)) (snd kc)))) (combine (mm_keys mm) cm)
            = map (fun x => (ARanges (fst x), snd x)) rz) by (unfold rz; rewrite map_map; reflexivity).
  rewrite Q. destruct (allocate h (map (fun x => (ARanges (fst x), snd x)) rz)) as (h', slots) eqn:A.
  apply fresh_ranges in A. destruct A as (A & K).
  assert (Ls : length slots = length (mm_keys mm)).
  { rewrite (good_len_r _ _ _ A). unfold rz. rewrite map_length, combine_len; congruence. }
  destruct (sound_from_ranges mm h' None cm slots rz A Ls L) as (S' & T'). auto.
Qed.

(** * Programs *)

Lemma use_step_ok : forall mm u w, sound mm w ->
  sound mm (fst (use_step mm u w)) /\ kept (w_mem w) (w_mem (fst (use_step mm u w)))
  /\ (exists ds, w_datasets (fst (use_step mm u w)) = w_datasets w ++ ds).
Proof.
  intros mm u w (S & D). destruct (sound_stands mm _ _ S) as (st & T). destruct u as [op|b|key]; cbn [use_step].
  - pose proof (h_step_ok mm op _ _ st S T) as H. destruct (h_step mm op (w_mem w) (w_mask w)) as ((h', m'), e).
    destruct H as (S' & T' & _ & K). cbn [fst]. split; [split; [exact S'|]|].
    + intros d r I J. cbn [w_mem]. apply (kept_ranges _ _ _ K). apply (D d); assumption.
    + split; [exact K|]. exists []. cbn [w_datasets]. rewrite app_nil_r. reflexivity.
  - pose proof (h_to_ranges_ok mm _ _ st S T) as H. destruct (h_to_ranges (w_mem w) (w_mask w)) as (h', m').
    destruct H as (S' & T' & K & R). destruct b; cbn [fst].
    + split; [split; [exact S'|]|split; [exact K|eexists; reflexivity]]. intros d r I J. cbn [w_mem w_datasets] in *.
      apply in_app_iff in I. destruct I as [I|[<-|[]]]; [apply (kept_ranges _ _ _ K); apply (D d); assumption|].
      destruct S' as (_ & KK & _). specialize (KK r J). rewrite R in KK. exact KK.
    + split; [split; [exact S'|]|split; [exact K|exists []; cbn [w_datasets]; rewrite app_nil_r; reflexivity]].
      intros d r I J. cbn [w_mem]. apply (kept_ranges _ _ _ K). apply (D d); assumption.
  - destruct (nth_error (hm_slots (w_mask w)) key) as [(r, z)|]; cbn [fst];
      (split; [split; [exact S|exact D]|split; [apply kept_refl|exists []; cbn [w_datasets]; rewrite app_nil_r; reflexivity]]).
Qed.

Lemma use_run_ok : forall mm us w, sound mm w ->
  sound mm (use_run mm us w) /\ kept (w_mem w) (w_mem (use_run mm us w))
  /\ (exists ds, w_datasets (use_run mm us w) = w_datasets w ++ ds).
Proof.
  intros mm. induction us as [|u us IH]; intros w S; cbn [use_run].
  - split; [exact S|]. split; [apply kept_refl|]. exists []. rewrite app_nil_r. reflexivity.
  - destruct (use_step_ok mm u w S) as (S1 & K1 & (d1 & D1)). destruct (IH _ S1) as (S2 & K2 & (d2 & D2)).
    split; [exact S2|]. split; [apply (kept_trans _ _ _ K1 K2)|]. exists (d1 ++ d2). rewrite D2, D1, app_assoc. reflexivity.
Qed.

Lemma dataset_mask_kept : forall h h' d key, kept h h' -> (forall r, In r (map fst d) -> is_ranges h r) ->
  dataset_mask h' d key = dataset_mask h d key.
Proof.
  intros h h' d key K R. unfold dataset_mask. destruct (nth_error d key) as [(r, z)|] eqn:E; [|reflexivity].
  destruct (R r) as (l & H).
  { apply in_map_iff. exists (r, z). split; [reflexivity|]. apply nth_error_In in E. exact E. }
  unfold ranges_at. rewrite H, (K _ _ H). reflexivity.
Qed.
