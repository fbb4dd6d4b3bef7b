(** C134: the regions that the documentation calls equivalent (docs/source/masking/index.rst, "Periodic boundaries"). *)
From Coq Require Import List ZArith QArith Qabs Lia Bool.
From Verif Require Import Base BaseLemmas QTac MaskModel MaskSpec MaskTheorems.
Import ListNotations.
Open Scope Z_scope.

(** * Vocabulary *)

(** A region with the given row for each axis. *)
Definition region_of (rows : axis -> option (list Q)) : list (option (list Q)) := [rows AX; rows AY; rows AZ].
Definition in_window (mm : mask_meta) (rows : axis -> option (list Q)) : Prop :=
  forall a, match rows a with
            | None => True
            | Some l => length l = 2%nat /\ Forall (fun b => - mm_box mm a / 2 <= b /\ b <= 3 * mm_box mm a / 2)%Q l
            end.

(** Two rows that ask for the same interval of a periodic box of length [L]. *)
Inductive same_row (L : Q) : option (list Q) -> option (list Q) -> Prop :=
| same_refl r : same_row L r r
| same_sym r s : same_row L r s -> same_row L s r
| same_trans r s t : same_row L r s -> same_row L s t -> same_row L r t
(** equal numbers *)
| same_numbers lo up lo' up' : (lo == lo')%Q -> (up == up')%Q -> same_row L (Some [lo; up]) (Some [lo'; up'])
(** moved by whole boxes *)
| same_moved lo up (j : Z) : same_row L (Some [lo; up]) (Some [lo + inject_Z j * L; up + inject_Z j * L])%Q
(** from [lo] through the edge of the box to [up] *)
| same_through lo up : (up < lo)%Q -> (lo - up <= L)%Q -> same_row L (Some [lo; up]) (Some [lo - L; up])%Q
(** longer than the box *)
| same_all lo up : (L < Qabs (up - lo))%Q -> same_row L (Some [lo; up]) None.

(** The row [s] asks for at least what [r] asks for. *)
Inductive wider_row : option (list Q) -> option (list Q) -> Prop :=
| wider_all r : wider_row r None
| wider_both lo up lo' up' : (lo' <= lo)%Q -> (lo <= up)%Q -> (up <= up')%Q -> wider_row (Some [lo; up]) (Some [lo'; up']).

(** Another row for one axis. *)
Definition axis_eqb (a b : axis) : bool := match a, b with AX, AX | AY, AY | AZ, AZ => true | _, _ => false end.
Definition with_row (rows : axis -> option (list Q)) (a : axis) (r : option (list Q)) : axis -> option (list Q) :=
  fun b => if axis_eqb a b then r else rows b.

(** * Proofs *)

Lemma wrap_same box lo up j : (wrap_upper box (lo + inject_Z j * box) (up + inject_Z j * box) == wrap_upper box lo up + inject_Z j * box)%Q.
Proof.
  unfold wrap_upper. destruct (Qlt_le_dec (up + inject_Z j * box) (lo + inject_Z j * box)), (Qlt_le_dec up lo); qlra.
Qed.

Lemma touches_moved box lo up j cmin cmax :
  interval_touches box lo up cmin cmax <-> interval_touches box (lo + inject_Z j * box) (up + inject_Z j * box) cmin cmax.
Proof.
  unfold interval_touches. pose proof (wrap_same box lo up j) as W. split; intros [i [A B]].
  - exists (i + j). rewrite inject_Z_plus, Qmult_plus_distr_l. split; qlra.
  - exists (i - j). unfold Z.sub. rewrite inject_Z_plus, inject_Z_opp. rewrite Qmult_plus_distr_l.
    setoid_replace (- inject_Z j * box)%Q with (- (inject_Z j * box))%Q by ring. split; qlra.
Qed.

Lemma same_row_touches L r s : (0 < L)%Q -> same_row L r s -> forall cmin cmax,
  (cmin < cmax)%Q -> axis_touches L r cmin cmax <-> axis_touches L s cmin cmax.
Proof.
  intros P S. induction S as [r|r s S IH|r s t S1 IH1 S2 IH2|lo up lo' up' N1 N2|lo up j|lo up H1 H2|lo up H]; intros cmin cmax C; cbn [axis_touches].
  - tauto.
  - rewrite (IH cmin cmax C). tauto.
  - rewrite (IH1 cmin cmax C). apply IH2. exact C.
  - assert (W : (wrap_upper L lo up == wrap_upper L lo' up')%Q).
    { unfold wrap_upper. destruct (Qlt_le_dec up lo), (Qlt_le_dec up' lo'); qlra. }
    unfold interval_touches. rewrite N1, N2. split; (intros [N|[i [X Y]]]; [left; exact N|right; exists i; split; qlra]).
  - rewrite (touches_moved L lo up j). setoid_replace (up + inject_Z j * L - (lo + inject_Z j * L))%Q with (up - lo)%Q by ring. tauto.
  - assert (A1 : ~ (L < Qabs (up - lo))%Q).
    { intro N. rewrite Qabs_neg in N by qlra. qlra. }
    assert (A2 : ~ (L < Qabs (up - (lo - L)))%Q).
    { intro N. rewrite Qabs_pos in N by qlra. qlra. }
    assert (W1 : wrap_upper L lo up = (up + L)%Q) by (unfold wrap_upper; destruct (Qlt_le_dec up lo); [reflexivity|exfalso; qlra]).
    assert (W2 : wrap_upper L (lo - L) up = up) by (unfold wrap_upper; destruct (Qlt_le_dec up (lo - L)); [exfalso; qlra|reflexivity]).
    unfold interval_touches. rewrite W1, W2. split; (intros [N|[i [X Y]]]; [contradiction|right]).
    + exists (i - 1). unfold Z.sub. rewrite inject_Z_plus. change (inject_Z (-(1)))%Q with (- (1))%Q. rewrite Qmult_plus_distr_l. split; qlra.
    + exists (i + 1). rewrite inject_Z_plus. change (inject_Z 1) with 1%Q. rewrite Qmult_plus_distr_l. split; qlra.
  - split; [auto|]. intros _. left. exact H.
Qed.

Lemma wider_row_touches L r s : wider_row r s -> forall cmin cmax, axis_touches L r cmin cmax -> axis_touches L s cmin cmax.
Proof.
  intros W cmin cmax T. destruct W as [r|lo up lo' up' H1 H2 H3]; cbn [axis_touches] in *; [exact I|].
  destruct T as [T|[j [A B]]].
  - left. rewrite Qabs_pos in T by qlra. rewrite Qabs_pos by qlra. qlra.
  - right. exists j. unfold wrap_upper in *. destruct (Qlt_le_dec up lo); [exfalso; qlra|].
    destruct (Qlt_le_dec up' lo'); [exfalso; qlra|]. split; qlra.
Qed.

Lemma cut_touches L lo m up cmin cmax : (lo < m)%Q -> (m < up)%Q -> (up - lo <= L)%Q -> (cmin < cmax)%Q ->
  axis_touches L (Some [lo; up]) cmin cmax <-> axis_touches L (Some [lo; m]) cmin cmax \/ axis_touches L (Some [m; up]) cmin cmax.
Proof.
  intros H1 H2 H3 C. cbn [axis_touches].
  assert (A : forall x y, (x < y)%Q -> (y - x <= L)%Q -> ~ (L < Qabs (y - x))%Q).
  { intros x y X Y N. rewrite Qabs_pos in N by qlra. qlra. }
  assert (W : forall x y, (x < y)%Q -> wrap_upper L x y = y).
  { intros x y X. unfold wrap_upper. destruct (Qlt_le_dec y x); [exfalso; qlra|reflexivity]. }
  unfold interval_touches. rewrite !W by qlra. split.
  - intros [N|[j [X Y]]]; [exfalso; revert N; apply A; qlra|].
    destruct (Qlt_le_dec m (cmax + inject_Z j * L)) as [D|D].
    + right. right. exists j. split; assumption.
    + left. right. exists j. split; [assumption|]. qlra.
  - intros [[N|[j [X Y]]]|[N|[j [X Y]]]].
    + exfalso. revert N. apply A; qlra.
    + right. exists j. split; qlra.
    + exfalso. revert N. apply A; qlra.
    + right. exists j. split; qlra.
Qed.

Lemma region_touches_of box rows c : region_touches box (region_of rows) c <-> (forall a, axis_touches (box a) (rows a) (cell_min c a) (cell_max c a)).
Proof. unfold region_touches, region_of. split; [intros (A & B & C) []; assumption|intro H; split; [|split]; apply H]. Qed.

Lemma ok_region_of mm rows : in_window mm rows -> ok_region mm (region_of rows).
Proof.
  intro W. unfold region_of. split; [split; [reflexivity|]|].
  - intros r [<- | [<- | [<- | []]]]; [specialize (W AX); destruct (rows AX)|specialize (W AY); destruct (rows AY)|specialize (W AZ); destruct (rows AZ)]; try exact I; apply W.
  - cbn. unfold axis_in_window. split; [|split]; [specialize (W AX); destruct (rows AX)|specialize (W AY); destruct (rows AY)|specialize (W AZ); destruct (rows AZ)]; try exact I; apply W.
Qed.

Definition cells_fine (mm : mask_meta) : Prop := forall mk c, In mk (mm_keys mm) -> In c (key_cells mk) -> extent_ok (mm_box mm) c.

Lemma selects mm rows union : wf_meta mm -> cells_fine mm -> in_window mm rows ->
  exists st, constrain_spatial mm (region_of rows) union (new_mask mm) = (st, None) /\
    forall k i, selected st k i <-> exists mk c, nth_error (mm_keys mm) k = Some mk /\ In c (key_cells mk) /\ stored_in c i /\
      (forall a, axis_touches (mm_box mm a) (rows a) (cell_min c a) (cell_max c a)).
Proof.
  intros Hw Hc Win. destruct (ok_region_of mm rows Win) as [W1 W2].
  destruct (C08_exact_cells mm (region_of rows) union Hw W1 W2 Hc) as (st & E & S). exists st. split; [exact E|].
  intros k i. rewrite S. split; intros (mk & c & A & B & C & D); exists mk, c; (split; [exact A|]); (split; [exact B|]); (split; [exact C|]);
    apply region_touches_of; exact D.
Qed.

(** * C134 *)

(** Regions whose rows ask for the same periodic intervals select the same rows: moved by whole boxes, from a greater to a
    smaller bound or below zero, or longer than the box instead of [None]. *)
Theorem C134_same_rows : forall mm rows rows' union union', wf_meta mm -> cells_fine mm -> in_window mm rows -> in_window mm rows' ->
  (forall a, same_row (mm_box mm a) (rows a) (rows' a)) ->
  exists st st', constrain_spatial mm (region_of rows) union (new_mask mm) = (st, None) /\
    constrain_spatial mm (region_of rows') union' (new_mask mm) = (st', None) /\ same_selection st st'.
Proof.
  intros mm rows rows' union union' Hw Hc W W' S.
  destruct (selects mm rows union Hw Hc W) as (st & E & H). destruct (selects mm rows' union' Hw Hc W') as (st' & E' & H').
  exists st, st'. split; [exact E|]. split; [exact E'|]. intros k i. rewrite H, H'.
  assert (T : forall mk c, nth_error (mm_keys mm) k = Some mk -> In c (key_cells mk) -> forall a,
    axis_touches (mm_box mm a) (rows a) (cell_min c a) (cell_max c a) <-> axis_touches (mm_box mm a) (rows' a) (cell_min c a) (cell_max c a)).
  { intros mk c A B a. apply nth_error_In in A. pose proof (Hc mk c A B a) as X.
    apply same_row_touches; [apply Hw|apply S|apply X]. }
  split; intros (mk & c & A & B & C & D); exists mk, c; (split; [exact A|]); (split; [exact B|]); (split; [exact C|]); intro a;
    apply (T mk c A B a); apply D.
Qed.

(** A wider region selects at least the same rows. *)
Theorem C134_wider : forall mm rows rows' union union', wf_meta mm -> cells_fine mm -> in_window mm rows -> in_window mm rows' ->
  (forall a, wider_row (rows a) (rows' a)) ->
  exists st st', constrain_spatial mm (region_of rows) union (new_mask mm) = (st, None) /\
    constrain_spatial mm (region_of rows') union' (new_mask mm) = (st', None) /\
    forall k i, selected st k i -> selected st' k i.
Proof.
  intros mm rows rows' union union' Hw Hc W W' S.
  destruct (selects mm rows union Hw Hc W) as (st & E & H). destruct (selects mm rows' union' Hw Hc W') as (st' & E' & H').
  exists st, st'. split; [exact E|]. split; [exact E'|]. intros k i. rewrite H, H'.
  intros (mk & c & A & B & C & D); exists mk, c; (split; [exact A|]); (split; [exact B|]); (split; [exact C|]); intro a.
  exact (wider_row_touches _ _ _ (S a) _ _ (D a)).
Qed.

(** Two calls with [union=True] for the parts of an interval that is cut at [m] select what one call for the interval does. *)
Theorem C134_cut : forall mm rows a lo m up, wf_meta mm -> cells_fine mm -> in_window mm (with_row rows a (Some [lo; up])) ->
  (lo < m)%Q -> (m < up)%Q -> (up - lo <= mm_box mm a)%Q ->
  exists st st', constrain_spatial mm (region_of (with_row rows a (Some [lo; up]))) false (new_mask mm) = (st, None) /\
    mask_run mm [OpSpatial (region_of (with_row rows a (Some [lo; m]))) true; OpSpatial (region_of (with_row rows a (Some [m; up]))) true]
      (new_mask mm) = (st', [None; None]) /\ same_selection st st'.
Proof.
  intros mm rows a lo m up Hw Hc W H1 H2 H3.
  assert (Wpart : forall x y, (lo <= x)%Q -> (x <= up)%Q -> (lo <= y)%Q -> (y <= up)%Q -> in_window mm (with_row rows a (Some [x; y]))).
  { intros x y X1 X2 Y1 Y2 b. specialize (W b). unfold with_row in *. destruct (axis_eqb a b); [|exact W].
    destruct W as [_ W]. inversion W as [|? ? [B1 B2] W']; subst. inversion W' as [|? ? [B3 B4] _]; subst.
    split; [reflexivity|]. constructor; [split; qlra|]. constructor; [split; qlra|]. constructor. }
  assert (W1 : in_window mm (with_row rows a (Some [lo; m]))) by (apply Wpart; qlra).
  assert (W2 : in_window mm (with_row rows a (Some [m; up]))) by (apply Wpart; qlra).
  destruct (selects mm _ false Hw Hc W) as (st & E & H).
  destruct (selects mm _ false Hw Hc W1) as (s1 & E1 & S1). destruct (selects mm _ false Hw Hc W2) as (s2 & E2 & S2).
  destruct (C11_union mm [region_of (with_row rows a (Some [lo; m])); region_of (with_row rows a (Some [m; up]))] Hw ltac:(discriminate)) as (st' & E' & U).
  { constructor; [apply ok_region_of; exact W1|]. constructor; [apply ok_region_of; exact W2|constructor]. }
  exists st, st'. split; [exact E|]. split; [exact E'|].
  assert (Cut : forall c, extent_ok (mm_box mm) c ->
    (forall b, axis_touches (mm_box mm b) (with_row rows a (Some [lo; up]) b) (cell_min c b) (cell_max c b)) <->
    (forall b, axis_touches (mm_box mm b) (with_row rows a (Some [lo; m]) b) (cell_min c b) (cell_max c b)) \/
    (forall b, axis_touches (mm_box mm b) (with_row rows a (Some [m; up]) b) (cell_min c b) (cell_max c b))).
  { intros c X. assert (Key : forall b, axis_eqb a b = true -> b = a) by (intros b; destruct a, b; cbn; congruence).
    assert (Ra : axis_eqb a a = true) by (destruct a; reflexivity).
    assert (Q := cut_touches (mm_box mm a) lo m up (cell_min c a) (cell_max c a) H1 H2 H3 (proj1 (proj2 (X a)))).
    split.
    - intro T. pose proof (T a) as Ta. unfold with_row in Ta at 1. rewrite Ra in Ta. apply Q in Ta.
      destruct Ta as [Ta|Ta]; [left|right]; intro b; specialize (T b); unfold with_row in *;
        (destruct (axis_eqb a b) eqn:Eb; [rewrite (Key b Eb); exact Ta|exact T]).
    - intros [T|T] b; pose proof (T a) as Ta; unfold with_row in Ta at 1; rewrite Ra in Ta; specialize (T b); unfold with_row in *;
        (destruct (axis_eqb a b) eqn:Eb; [rewrite (Key b Eb); apply Q; auto|exact T]). }
  intros k i. rewrite H, U. split.
  - intros (mk & c & A & B & C & D). apply Cut in D; [|eapply Hc; [eapply nth_error_In; exact A|exact B]].
    destruct D as [D|D].
    + eexists. split; [left; reflexivity|]. rewrite E1. apply S1. exists mk, c. auto.
    + eexists. split; [right; left; reflexivity|]. rewrite E2. apply S2. exists mk, c. auto.
  - intros (r & [<- | [<- | []]] & S).
    + rewrite E1 in S. apply S1 in S as (mk & c & A & B & C & D). exists mk, c. split; [exact A|]. split; [exact B|]. split; [exact C|].
      apply Cut; [eapply Hc; [eapply nth_error_In; exact A|exact B]|left; exact D].
    + rewrite E2 in S. apply S2 in S as (mk & c & A & B & C & D). exists mk, c. split; [exact A|]. split; [exact B|]. split; [exact C|].
      apply Cut; [eapply Hc; [eapply nth_error_In; exact A|exact B]|right; exact D].
Qed.

(** The slab of the documentation: from [l] through the edge of the box to [h], as one interval below zero, as an interval
    with exchanged bounds, and as two calls. *)
Theorem C134_slab : forall mm rows a l h, wf_meta mm -> cells_fine mm -> in_window mm (with_row rows a None) ->
  (0 < h)%Q -> (h < l)%Q -> (mm_box mm a / 2 <= l)%Q -> (l < mm_box mm a)%Q ->
  exists st st' st'',
    constrain_spatial mm (region_of (with_row rows a (Some [l - mm_box mm a; h]%Q))) false (new_mask mm) = (st, None) /\
    constrain_spatial mm (region_of (with_row rows a (Some [l; h]))) false (new_mask mm) = (st', None) /\
    mask_run mm [OpSpatial (region_of (with_row rows a (Some [0; h]%Q))) false;
                 OpSpatial (region_of (with_row rows a (Some [l; mm_box mm a]))) true] (new_mask mm) = (st'', [None; None]) /\
    same_selection st st' /\ same_selection st st''.
Proof.
  intros mm rows a l h Hw Hc W Hh Hl H2 HL. assert (P : (0 < mm_box mm a)%Q) by (apply Hw). set (L := mm_box mm a) in *.
  assert (Win : forall x y, (- L / 2 <= x)%Q -> (x <= 3 * L / 2)%Q -> (- L / 2 <= y)%Q -> (y <= 3 * L / 2)%Q ->
    in_window mm (with_row rows a (Some [x; y]))).
  { intros x y X1 X2 Y1 Y2 b. specialize (W b). unfold with_row in *. destruct (axis_eqb a b) eqn:Eb; [|exact W].
    assert (b = a) as -> by (destruct a, b; cbn in Eb; congruence). fold L. split; [reflexivity|].
    constructor; [split; assumption|]. constructor; [split; assumption|]. constructor. }
  assert (Same : forall r s, same_row L r s -> forall b, same_row (mm_box mm b) (with_row rows a r b) (with_row rows a s b)).
  { intros r s Hs b. unfold with_row. destruct (axis_eqb a b) eqn:Eb; [|constructor].
    assert (b = a) as -> by (destruct a, b; cbn in Eb; congruence). exact Hs. }
  destruct (C134_same_rows mm (with_row rows a (Some [l - L; h]%Q)) (with_row rows a (Some [l; h])) false false Hw Hc) as (st & st' & E & E' & S).
  { apply Win; qlra. } { apply Win; qlra. } { apply Same. apply same_sym. apply same_through; qlra. }
  destruct (C134_cut mm rows a (l - L)%Q 0%Q h Hw Hc) as (st0 & stc & E0 & Ec & Sc); [apply Win; qlra|qlra|qlra|fold L; qlra|].
  rewrite E in E0. injection E0 as <-.
  destruct (C134_same_rows mm (with_row rows a (Some [l - L; 0]%Q)) (with_row rows a (Some [l; L])) false false Hw Hc) as (u & u' & Eu & Eu' & Su).
  { apply Win; qlra. } { apply Win; qlra. }
  { apply Same. apply (same_trans L _ (Some [l - L + inject_Z 1 * L; 0 + inject_Z 1 * L]%Q)); [apply same_moved|].
    apply same_numbers; change (inject_Z 1) with 1%Q; qlra. }
  destruct (C11_union mm [region_of (with_row rows a (Some [l - L; 0]%Q)); region_of (with_row rows a (Some [0; h]%Q))] Hw ltac:(discriminate)) as (v & Ev & Uv).
  { constructor; [apply ok_region_of; apply Win; qlra|]. constructor; [apply ok_region_of; apply Win; qlra|constructor]. }
  cbn [map] in Ev. rewrite Ec in Ev. injection Ev as <-.
  destruct (C11_union mm [region_of (with_row rows a (Some [0; h]%Q)); region_of (with_row rows a (Some [l; L]))] Hw ltac:(discriminate)) as (w & Ew & Uw).
  { constructor; [apply ok_region_of; apply Win; qlra|]. constructor; [apply ok_region_of; apply Win; qlra|constructor]. }
  exists st, st', w. split; [exact E|]. split; [exact E'|]. split.
  { exact Ew. }
  split; [exact S|]. intros k i. rewrite (Sc k i), Uv, Uw. split.
  - intros (r & [<- | [<- | []]] & T).
    + eexists. split; [right; left; reflexivity|]. rewrite Eu in T. rewrite Eu'. apply Su. exact T.
    + eexists. split; [left; reflexivity|exact T].
  - intros (r & [<- | [<- | []]] & T).
    + eexists. split; [right; left; reflexivity|exact T].
    + eexists. split; [left; reflexivity|]. rewrite Eu' in T. rewrite Eu. apply Su. exact T.
Qed.

(** A region that is longer than the box on every axis selects what the region without restrictions selects: every row of
    every cell. *)
Theorem C134_everything : forall mm rows, wf_meta mm -> cells_fine mm -> in_window mm rows ->
  (forall a, same_row (mm_box mm a) (rows a) None) ->
  exists st, constrain_spatial mm (region_of rows) false (new_mask mm) = (st, None) /\ same_selection st (new_mask mm).
Proof.
  intros mm rows Hw Hc W S.
  destruct (C134_same_rows mm rows (fun _ => None) false false Hw Hc W) as (st & st' & E & E' & Q); [intro a; exact I|exact S|].
  exists st. split; [exact E|]. intros k i. rewrite (Q k i).
  destruct (selects mm (fun _ => None) false Hw Hc) as (s & Es & Hs); [intro a; exact I|].
  rewrite E' in Es. injection Es as <-. rewrite Hs. unfold selected, new_mask. cbn [ms_masks].
  change (full_cell_mask mm) with (MaskProofs.cell_masks mm (fun _ => true)). rewrite MaskProofs.selected_update_ranges.
  split; intros (mk & c & A & B & C & D); exists mk, c; (split; [exact A|]); (split; [exact B|]).
  - split; [reflexivity|exact C].
  - split; [exact D|]. intro a. exact I.
Qed.

(** The box of the example is 2 long; the slab from 7/4 to 1/4 touches both cells, that from 5/4 to 7/4 only the right one. *)
Example C134_case :
  wf_meta ex_mm /\ cells_fine ex_mm /\ in_window ex_mm (with_row (fun _ => None) AX None) /\
  (0 < 1 # 4)%Q /\ (1 # 4 < 7 # 4)%Q /\ (mm_box ex_mm AX / 2 <= 7 # 4)%Q /\ (7 # 4 < mm_box ex_mm AX)%Q /\
  masked_rows (ms_masks (fst (constrain_spatial ex_mm [Some [-1 # 4; 1 # 4]%Q; None; None] false (new_mask ex_mm)))) 1 = [2; 3; 4; 5; 0; 1] /\
  masked_rows (ms_masks (fst (constrain_spatial ex_mm [Some [-3 # 4; -1 # 4]%Q; None; None] false (new_mask ex_mm)))) 1 =
  masked_rows (ms_masks (fst (constrain_spatial ex_mm [Some [5 # 4; 7 # 4]%Q; None; None] false (new_mask ex_mm)))) 1 /\
  same_row 2 (Some [5 # 4; 7 # 4]%Q) (Some [-3 # 4; -1 # 4]%Q).
Proof.
  split; [apply ex_mm_wf|]. split.
  { intros mk c [<- | [<- | []]] [<- | [<- | []]]; ex_ext. }
  split; [intros []; exact I|]. repeat match goal with |- _ /\ _ => split end; try reflexivity; try (unfold Qle, Qlt; cbn; lia).
  apply (same_trans 2 _ (Some [(5 # 4) + inject_Z (-1) * 2; (7 # 4) + inject_Z (-1) * 2]%Q)); [apply same_moved|].
  apply same_numbers; reflexivity.
Qed.

Print Assumptions C134_same_rows.
Print Assumptions C134_wider.
Print Assumptions C134_cut.
Print Assumptions C134_slab.
Print Assumptions C134_everything.
