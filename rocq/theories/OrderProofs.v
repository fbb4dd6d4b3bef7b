(** Lemmas about byte orders. *)
From Coq Require Import List ZArith Lia Bool.
From Verif Require Import Base BaseLemmas NamesModel NamesProofs RangesModel ReaderModel ReaderSpec OrderModel OrderSpec.
Import ListNotations.
Open Scope Z_scope.

Scheme dtype_mut := Induction for dtype Sort Prop
  with fields_mut := Induction for fields Sort Prop.
Combined Scheme dtype_fields_ind from dtype_mut, fields_mut.

Definition flip (o : order) : order := match o with Little => Big | Big => Little end.

Lemma order_eqb_eq : forall x y, order_eqb x y = true <-> x = y.
Proof. intros [] []; cbn; split; congruence. Qed.

Lemma flip_or : forall x y, x = y \/ x = flip y.
Proof. intros [] []; cbn; auto. Qed.

Lemma flip_flip : forall o, flip (flip o) = o.
Proof. now intros []. Qed.

Lemma number_flip : forall o p n, number o p n -> number (flip o) (rev p) n.
Proof.
  intros o p n H. inversion H; subst; cbn; constructor; [now rewrite rev_involutive|assumption].
Qed.

Lemma rev_short : forall (p : list byte), (length p <= 1)%nat -> rev p = p.
Proof. intros [|a [|b p]] H; cbn in *; auto; lia. Qed.

Lemma number_short : forall o o' p n, (length p <= 1)%nat -> number o p n -> number o' p n.
Proof.
  intros o o' p n Hp H. destruct (flip_or o' o) as [->| ->]; [assumption|].
  rewrite <- (rev_short p Hp). now apply number_flip.
Qed.

Lemma concat_size : forall (size : nat) (pieces : list (list byte)),
  Forall (fun p => length p = size) pieces -> length (concat pieces) = (size * length pieces)%nat.
Proof. induction 1 as [|p l Hp Hl IH]; cbn; [lia|]. rewrite app_length, IH, Hp. lia. Qed.

Lemma Forall2_nth_l : forall {A B} (P : A -> B -> Prop) l m i a,
  Forall2 P l m -> nth_error l i = Some a -> exists b, nth_error m i = Some b /\ P a b.
Proof.
  intros A B P l m i a H. revert i. induction H; intros [|i] Hi; cbn in *; try discriminate.
  - injection Hi as ->. eauto.
  - eauto.
Qed.

Lemma means_size :
  (forall d b v, means d b v -> length b = size_of d) /\
  (forall l b vs, means_fields l b vs -> length b = size_of_fields l).
Proof.
  apply dtype_fields_ind.
  - intros o s k b v H. inversion H; subst. cbn. now apply concat_size.
  - intros s b v H. now inversion H; subst.
  - intros l IH b v H. inversion H as [| |l' b' vs Hf]; subst. cbn. exact (IH b vs Hf).
  - intros gap b vs H. now inversion H; subst.
  - intros gap n d IHd l IHl b vs H. inversion H as [|g n' d' l' b1 r v vs' Hd Hl]; subst. cbn. rewrite !app_length.
    rewrite (IHd _ _ Hd), (IHl _ _ Hl). lia.
Qed.

Lemma newbyteorder_size :
  forall o, (forall d, size_of (newbyteorder o d) = size_of d) /\
  (forall l, size_of_fields (newbyteorder_fields o l) = size_of_fields l).
Proof.
  intros o. apply dtype_fields_ind; cbn; intros; auto.
Qed.

Lemma swap_parts_concat : forall size pieces,
  Forall (fun p => length p = size) pieces ->
  swap_parts size (length pieces) (concat pieces) = concat (map (@rev byte) pieces).
Proof.
  induction 1 as [|p l Hp Hl IH]; [reflexivity|]. cbn [length concat map swap_parts].
  rewrite <- Hp, firstn_app, skipn_app, Nat.sub_diag, firstn_all, skipn_all, firstn_O, skipn_O, app_nil_r, Hp.
  cbn [app]. now rewrite IH.
Qed.

Lemma swapped_number : forall o size parts b v,
  means (Number o size parts) b v -> means (Number (flip o) size parts) (swap_parts size parts b) v.
Proof.
  intros o size parts b v H. inversion H as [o' s' pieces ns Hs Hn| |]; subst.
  rewrite (swap_parts_concat size pieces Hs), <- (map_length (@rev byte) pieces) at 1.
  constructor.
  - apply Forall_map. eapply Forall_impl; [|exact Hs]. cbn. intros p Hp. now rewrite rev_length.
  - clear H Hs. induction Hn; cbn; constructor; auto. now apply number_flip.
Qed.

Lemma short_number : forall o o' size parts b v, (size <= 1)%nat ->
  means (Number o size parts) b v -> means (Number o' size parts) b v.
Proof.
  intros o o' size parts b v Hsize H. inversion H as [o1 s1 pieces ns Hs Hn| |]; subst.
  constructor; [assumption|]. clear H. revert Hs. induction Hn; intros Hs; constructor.
  - inversion Hs; subst. eapply number_short; [|eassumption]. lia.
  - inversion Hs; subst. auto.
Qed.

Lemma keep_native : forall o,
  (forall d, in_order o d -> forall b v, means d b v -> means (newbyteorder o d) b v) /\
  (forall l, in_order_fields o l -> forall b vs, means_fields l b vs -> means_fields (newbyteorder_fields o l) b vs).
Proof.
  intros o. apply dtype_fields_ind.
  - intros p s k Ho b v H. cbn. inversion Ho; subst; [assumption|]. eapply short_number; eassumption.
  - intros s _ b v H. exact H.
  - intros l IH Ho b v H. inversion Ho; subst. inversion H; subst. cbn. constructor. auto.
  - intros gap _ b vs H. exact H.
  - intros gap n d IHd l IHl Ho b vs H. inversion Ho; subst. inversion H; subst. cbn. constructor; auto.
Qed.

Lemma swap_other : forall o,
  (forall d, in_order (flip o) d -> forall b v, means d b v -> means (newbyteorder o d) (byteswap d b) v) /\
  (forall l, in_order_fields (flip o) l -> forall b vs, means_fields l b vs ->
     means_fields (newbyteorder_fields o l) (byteswap_fields l b) vs).
Proof.
  intros o. apply dtype_fields_ind.
  - intros p s k Ho b v H. cbn. inversion Ho; subst.
    + rewrite <- (flip_flip o) at 1. now apply swapped_number.
    + eapply short_number; [assumption|]. eapply swapped_number. eassumption.
  - intros s _ b v H. exact H.
  - intros l IH Ho b v H. inversion Ho; subst. inversion H; subst. cbn. constructor. auto.
  - intros gap _ b vs H. exact H.
  - intros gap n d IHd l IHl Ho b vs H. inversion Ho; subst. inversion H as [|g n' d' l' b1 r v vs' Hd Hl]; subst. cbn.
    rewrite firstn_app, skipn_app, Nat.sub_diag, firstn_all, skipn_all, firstn_O, skipn_O, app_nil_r. cbn [app].
    rewrite <- (proj1 means_size _ _ _ Hd).
    rewrite firstn_app, skipn_app, Nat.sub_diag, firstn_all, skipn_all, firstn_O, skipn_O, app_nil_r. cbn [app].
    constructor; auto.
Qed.

Lemma isnative_iff : forall o,
  (forall d, isnative o d = true <-> in_order o d) /\
  (forall l, isnative_fields o l = true <-> in_order_fields o l).
Proof.
  intros o. apply dtype_fields_ind; cbn.
  - intros p s k. rewrite orb_true_iff, Nat.leb_le, order_eqb_eq. split.
    + intros [H| ->]; [now constructor|constructor].
    + intros H. inversion H; subst; auto.
  - intros s. split; [constructor|reflexivity].
  - intros l IH. rewrite IH. split; [now constructor|]. intros H. now inversion H.
  - intros gap. split; [constructor|reflexivity].
  - intros gap n d IHd l IHl. rewrite andb_true_iff, IHd, IHl. split.
    + intros [H1 H2]. now constructor.
    + intros H. now inversion H.
Qed.

Lemma newbyteorder_native : forall o,
  (forall d, in_order o (newbyteorder o d)) /\ (forall l, in_order_fields o (newbyteorder_fields o l)).
Proof. intros o. apply dtype_fields_ind; cbn; intros; constructor; auto. Qed.

Lemma name_eqb_refl : forall n, name_eqb n n = true.
Proof. intros n. now apply name_eqb_iff. Qed.

(** * Field by field *)

Definition step (native : order) (l : fields) (b : list byte) (n : name) : list byte :=
  match field_type n l with
  | Some d => if isnative native d then b else on_field n (byteswap d) l b
  | None => b
  end.

Lemma fold_rows : forall native l ns rows,
  fold_left (swap_field native l) ns rows = on_entries (fun b => fold_left (step native l) ns b) rows.
Proof.
  intros native l ns. unfold on_entries. induction ns as [|n ns IH]; intros rows; cbn [fold_left].
  - rewrite <- (map_id rows) at 1. apply map_ext. intros r. now rewrite map_id.
  - rewrite IH. unfold swap_field, on_entries, step.
    destruct (field_type n l) as [d|]; [|reflexivity].
    destruct (isnative native d); [reflexivity|].
    rewrite map_map. apply map_ext. intros r. rewrite map_map. reflexivity.
Qed.

Lemma firstn_at : forall {A} (a b : list A) n, n = length a -> firstn n (a ++ b) = a.
Proof. intros A a b n ->. rewrite firstn_app, Nat.sub_diag, firstn_all, firstn_O. apply app_nil_r. Qed.
Lemma skipn_at : forall {A} (a b : list A) n, n = length a -> skipn n (a ++ b) = b.
Proof. intros A a b n ->. rewrite skipn_app, Nat.sub_diag, skipn_all, skipn_O. reflexivity. Qed.

Lemma step_tail : forall native gap m d l g b r n,
  n <> m -> length g = gap -> length b = size_of d ->
  step native (FCons gap m d l) (g ++ b ++ r) n = g ++ b ++ step native l r n.
Proof.
  intros native gap m d l g b r n Hn Hg Hb. unfold step. cbn [field_type on_field].
  assert (E : name_eqb m n = false).
  { destruct (name_eqb m n) eqn:E; [|reflexivity]. apply name_eqb_iff in E. congruence. }
  rewrite E. destruct (field_type n l) as [d'|]; [|reflexivity].
  destruct (isnative native d'); [reflexivity|].
  rewrite (firstn_at g _ gap), (skipn_at g _ gap), (firstn_at b _ (size_of d)), (skipn_at b _ (size_of d)) by auto.
  reflexivity.
Qed.

Lemma fold_tail : forall native gap m d l ns g b r,
  ~ In m ns -> length g = gap -> length b = size_of d ->
  fold_left (step native (FCons gap m d l)) ns (g ++ b ++ r) = g ++ b ++ fold_left (step native l) ns r.
Proof.
  intros native gap m d l ns. induction ns as [|n ns IH]; intros g b r Hn Hg Hb; [reflexivity|].
  cbn [fold_left]. rewrite step_tail; [|intros ->; apply Hn; now left|assumption|assumption].
  apply IH; auto. intros H. apply Hn. now right.
Qed.

Lemma convert_fields : forall native l b vs,
  plain l -> means_fields l b vs ->
  means_fields (newbyteorder_fields native l) (fold_left (step native l) (names_of l) b) vs.
Proof.
  intros native l. induction l as [gap|gap n d l IH]; intros b vs Hp H.
  - exact H.
  - destruct Hp as ((o & Ho) & Hn & Hp). inversion H as [|g n' d' l' b1 r v vs' Hd Hl]; subst.
    cbn [names_of fold_left newbyteorder_fields].
    pose proof (proj1 means_size _ _ _ Hd) as Hb1.
    set (b2 := if isnative native d then b1 else byteswap d b1).
    assert (Hm : means (newbyteorder native d) b2 v).
    { unfold b2. destruct (isnative native d) eqn:E.
      - apply keep_native; [|assumption]. now apply isnative_iff.
      - apply swap_other; [|assumption]. destruct (flip_or o native) as [->| ->]; [|assumption].
        apply isnative_iff in Ho. congruence. }
    assert (Hb2 : length b2 = size_of d).
    { rewrite (proj1 means_size _ _ _ Hm). apply newbyteorder_size. }
    assert (Es : step native (FCons (length g) n d l) (g ++ b1 ++ r) n = g ++ b2 ++ r).
    { unfold step. cbn [field_type on_field]. rewrite name_eqb_refl.
      unfold b2. destruct (isnative native d); [reflexivity|].
      rewrite (firstn_at g _ (length g)), (skipn_at g _ (length g)), (firstn_at b1 _ (size_of d)), (skipn_at b1 _ (size_of d)) by auto.
      reflexivity. }
    rewrite Es, (fold_tail native (length g) n d l (names_of l) g b2 r Hn eq_refl Hb2).
    constructor; auto.
Qed.

Lemma Forall2_map_l : forall {A B C} (f : A -> B) (P : B -> C -> Prop) (l : list A) (m : list C),
  Forall2 (fun a c => P (f a) c) l m -> Forall2 P (map f l) m.
Proof. induction 1; cbn; constructor; auto. Qed.

Lemma shows_entries : forall d d' f rows vs,
  (forall b v, means d b v -> means d' (f b) v) ->
  Forall2 (Forall2 (means d)) rows vs -> Forall2 (Forall2 (means d')) (on_entries f rows) vs.
Proof.
  intros d d' f rows vs Hf H. unfold on_entries. apply Forall2_map_l.
  induction H as [|r v rows vs Hr H IH]; constructor; [|assumption].
  apply Forall2_map_l. clear -Hf Hr. induction Hr; constructor; auto.
Qed.

Lemma to_native_shows : forall native x vs,
  simple (a_type x) -> shows x vs -> shows (to_native native x) vs.
Proof.
  intros native [d rows] vs Hs H. unfold to_native, shows in *. cbn [a_type a_rows] in *.
  destruct (isnative native d) eqn:E; [exact H|]. cbn [a_type a_rows].
  destruct d as [o s k|s|l]; [|discriminate E|].
  - apply shows_entries with (2 := H). intros b v. apply swap_other.
    destruct (flip_or o native) as [->| ->]; [|constructor].
    cbn in E. apply orb_false_iff in E. destruct E as [_ E]. exfalso.
    assert (X : order_eqb native native = true) by now apply order_eqb_eq. congruence.
  - rewrite fold_rows. apply shows_entries with (2 := H). intros b v Hm. inversion Hm; subst. cbn [newbyteorder].
    constructor. now apply convert_fields.
Qed.

Lemma to_native_type : forall native x, in_order native (a_type (to_native native x)).
Proof.
  intros native [d rows]. unfold to_native. cbn [a_type].
  destruct (isnative native d) eqn:E; cbn [a_type]; [now apply isnative_iff|apply newbyteorder_native].
Qed.

(** * Reading *)

Lemma initialised_shows : forall (f : field (list byte)) column idx out,
  shows_rows f column idx out -> exists rows, initialised out = Ok rows /\ out = map Some rows.
Proof.
  intros f column idx out H. induction H as [|i o idx out Hi H IH]; [now exists []|].
  destruct Hi as (_ & row & e & _ & -> & _). destruct IH as (rows & E & ->).
  exists (e :: rows). cbn. now rewrite E.
Qed.

Lemma entries_of_values : forall d (f : field (list byte)) vals column idx rows,
  Forall2 (Forall2 (means d)) (fd_rows f) vals ->
  shows_rows f column idx (map Some rows) ->
  exists entries, Forall2 (Forall2 (means d)) rows entries /\
    shows_rows (mk_field (fd_layout f) (fd_2d f) (fd_width f) vals) column idx (map Some entries).
Proof.
  intros d f vals column idx rows Hv H.
  remember (map Some rows) as out eqn:Eo. revert rows Eo.
  induction H as [|i o idx out Hi H IH]; intros rows Eo.
  - destruct rows; [|discriminate]. exists []. split; constructor.
  - destruct rows as [|r rows]; [discriminate|]. cbn in Eo. injection Eo as -> ->.
    destruct (IH rows eq_refl) as (es & H1 & H2).
    destruct Hi as (Hi & row & e & Hrow & He & Hent). injection He as <-.
    destruct (Forall2_nth_l _ _ _ _ _ Hv Hrow) as (vrow & Hvrow & Hmv).
    assert (X : exists ve, Forall2 (means d) r ve /\
                entry_of (mk_field (fd_layout f) (fd_2d f) (fd_width f) vals) column vrow ve).
    { unfold entry_of in *. cbn [fd_2d]. destruct column as [j|].
      - destruct (fd_2d f).
        + destruct Hent as (x & Hx & ->). destruct (Forall2_nth_l _ _ _ _ _ Hmv Hx) as (vx & Hvx & Hm).
          exists [vx]. split; [repeat constructor; assumption|]. exists vx. auto.
        + subst r. eauto.
      - subst r. eauto. }
    destruct X as (ve & H3 & H4). exists (ve :: es). split; [now constructor|].
    cbn [map]. constructor; [|assumption]. split; [assumption|]. exists vrow, ve. auto.
Qed.
