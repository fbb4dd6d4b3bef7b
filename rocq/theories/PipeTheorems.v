(** Theorems about pictures of datasets loaded with a mask (C104). *)
From Coq Require Import String List ZArith QArith Qreals Reals Bool Lia Lra Psatz Permutation Sorted.
From Verif Require Import Base BaseLemmas RangesModel RangesSpec RangesProofs SortModel SortProofs
  MaskModel MaskSpec MaskProofs MaskHistProofs MaskTheorems ReaderModel ReaderSpec ReaderProofs ReaderTheorems.
From Verif Require Import VisModel VisSpec VisSumProofs VisValueProofs  VisProofs VisTheorems RotModel HsmlModel FrontModel FrontSpec
  FrontTheorems SeenSpec SeenProofs SeenTheorems SeenFrontSpec SeenFrontTheorems GetModel GetSpec GetTheorems PipeModel PipeSpec.
Import ListNotations.
Open Scope R_scope.

(** * What the loaded groups hold *)

Lemma all_filled : forall (l : list (list R)), all_ok (map filled (map Some l)) = Ok l.
Proof. intro l. rewrite map_map. cbn [filled]. rewrite (all_ok_map_ok (fun x => x)), map_id. reflexivity. Qed.

Lemma load_holds : forall argsort mask k before f after name c rows,
  ~ In name (map st_name before) ->
  read_field argsort (group_mask mask k) None f = Ok (map Some rows) ->
  holds (load_group argsort mask k (before ++ mkstored name c f :: after)%list) name (Ok (OArray c rows)).
Proof.
  intros argsort mask k before f after name c rows N E.
  exists (map (fun s => (st_name s, attribute_of argsort (group_mask mask k) s)) before),
         (map (fun s => (st_name s, attribute_of argsort (group_mask mask k) s)) after). split.
  - unfold load_group. rewrite map_app. cbn [map st_name]. do 2 f_equal. unfold attribute_of. cbn [st_field st_comoving].
    rewrite E. cbn [bind]. rewrite all_filled. reflexivity.
  - rewrite map_map. cbn [fst]. exact N.
Qed.

Lemma shown_rows : forall (f : field R) idx out, shows_rows f None idx out ->
  out = map Some (map (fun i => nth (Z.to_nat i) (fd_rows f) []) idx).
Proof.
  intros f idx out H. induction H as [|i o idx out (Hi & row & e & N & -> & E) H IH]; [reflexivity|].
  cbn [entry_of] in E. subst e. cbn [map]. rewrite <- IH. f_equal. f_equal. symmetry. apply nth_error_nth. exact N.
Qed.

Lemma loaded_all : forall argsort k fs name c rows, stores fs name c rows ->
  holds (load_group argsort None k fs) name (Ok (OArray c rows)).
Proof.
  intros argsort k fs name c rows (b & f & af & -> & N & L & F & <-). apply load_holds; [exact N|].
  unfold group_mask, read_field. cbn [select_column]. reflexivity.
Qed.

Section Masked.
  Context (argsort : list Z -> list nat) (mm : mask_meta) (st : mask_state) (k : nat) (mk : mask_key).
  Context (Harg : is_argsort argsort) (Hw : wf_meta mm) (Hr : reachable mm st)
          (Hk : nth_error (mm_keys mm) k = Some mk) (Ht : cells_tile 0 (key_cells mk) (key_total mk)).

  Lemma masked_sorted : StronglySorted Z.le (masked_rows (ms_masks st) k)
    /\ forall i, In i (masked_rows (ms_masks st) k) -> (0 <= i < key_total mk)%Z.
  Proof.
    destruct (group_mask_spec mm st k mk Hw Hr Hk Ht) as ((rs & size) & Egm & Hin & Hsz & Hord & Hs & Hsel).
    assert (E : indices_of rs = masked_rows (ms_masks st) k).
    { rewrite <- (rows_to_ranges (ms_masks st) k). unfold group_mask in Egm. unfold masked_rows.
      destruct (convert_masks_to_ranges (ms_masks st)); [|discriminate]. rewrite Egm. reflexivity. }
    cbn [fst] in *. rewrite E in Hs. split; [exact Hs|].
    intros i Hi. rewrite <- E in Hi. clear - Hin Hi. unfold indices_of in Hi. apply in_flat_map in Hi.
    destruct Hi as (r & Ir & I). rewrite Forall_forall in Hin. apply Hin in Ir. unfold RangesSpec.in_bounds in Ir.
    apply In_zrange in I. lia.
  Qed.

  Lemma masked_read : forall (f : field R), fd_layout f <> Remote -> field_of (key_total mk) f ->
    read_field argsort (group_mask (Some st) k) None f
    = Ok (map Some (map (fun i => nth (Z.to_nat i) (fd_rows f) []) (masked_rows (ms_masks st) k))).
  Proof.
    intros f L F. destruct (group_mask_spec mm st k mk Hw Hr Hk Ht) as ((rs & size) & Egm & Hin & Hsz & Hord & Hs & Hsel).
    assert (E : indices_of rs = masked_rows (ms_masks st) k).
    { rewrite <- (rows_to_ranges (ms_masks st) k). unfold group_mask in Egm. unfold masked_rows.
      destruct (convert_masks_to_ranges (ms_masks st)); [|discriminate]. rewrite Egm. reflexivity. }
    cbn [fst snd] in *. pose proof F as (Hlen & _).
    destruct (read_field_masked argsort f None rs Harg) as (out & Er & Sh).
    - now rewrite Hlen.
    - exact I.
    - now rewrite Hlen.
    - exact Hord.
    - intro X. contradiction.
    - rewrite Egm, Hsz, Er, (shown_rows _ _ _ Sh), E. reflexivity.
  Qed.

  Lemma loaded_masked : forall fs name c rows, stores fs name c rows -> zlen rows = key_total mk ->
    holds (load_group argsort (Some st) k fs) name
      (Ok (OArray c (map (fun i => nth (Z.to_nat i) rows []) (masked_rows (ms_masks st) k)))).
  Proof.
    intros fs name c rows (b & f & af & -> & N & L & F & <-) Z. apply load_holds; [exact N|].
    apply masked_read; [exact L|]. rewrite <- Z. exact F.
  Qed.

  (** The particles that are loaded. *)
  Definition kept (ps : list part) : list part :=
    map (fun i => nth (Z.to_nat i) ps (mkpart 0 0 0 0 0)) (masked_rows (ms_masks st) k).

  Lemma kept_map : forall X (f : part -> X) (d : X) ps, zlen ps = key_total mk ->
    map (fun i => nth (Z.to_nat i) (map f ps) d) (masked_rows (ms_masks st) k) = map f (kept ps).
  Proof.
    intros X f d ps Z. unfold kept. rewrite map_map. apply map_ext_in. intros i Hi. apply (proj2 masked_sorted) in Hi.
    rewrite (nth_indep _ d (f (mkpart 0 0 0 0 0))) by (rewrite map_length; unfold zlen in Z; lia). apply map_nth.
  Qed.

  Lemma sorted_without : forall (P : Z -> Prop) m lo rows, StronglySorted Z.le rows -> NoDup rows ->
    (forall i, In i rows -> (lo <= i < lo + Z.of_nat m)%Z) ->
    (forall i, (lo <= i < lo + Z.of_nat m)%Z -> P i -> In i rows) ->
    without P (zrange lo (lo + Z.of_nat m)) rows.
  Proof.
    intros P m. induction m as [|m IH]; intros lo rows S N B C.
    - destruct rows as [|i rows]; [|exfalso; specialize (B i (or_introl eq_refl)); lia].
      replace (lo + Z.of_nat 0)%Z with lo by lia. rewrite zrange_nil by lia. constructor.
    - rewrite zrange_cons by lia. replace (lo + Z.of_nat (Datatypes.S m))%Z with (lo + 1 + Z.of_nat m)%Z in * by lia.
      destruct rows as [|i rows].
      + apply without_left; [intro X; apply C in X; [destruct X|lia]|]. apply IH; [constructor|constructor|intros i []|].
        intros i Hi X. apply C in X; [exact X|lia].
      + inversion S as [|? ? S' F]. inversion N as [|? ? N1 N2]. subst. rewrite Forall_forall in F.
        destruct (Z.eq_dec i lo) as [->|D].
        * constructor. apply IH; auto.
          -- intros j Hj. specialize (F j Hj). specialize (B j (or_intror Hj)). assert (j <> lo) by (intros ->; contradiction). lia.
          -- intros j Hj X. apply C in X; [|lia]. destruct X as [X|X]; [lia|exact X].
        * pose proof (B i (or_introl eq_refl)) as Bi.
          apply without_left.
          -- intro X. apply C in X; [|lia]. destruct X as [X|X]; [lia|]. apply F in X. lia.
          -- apply IH; auto.
             ++ intros j [<-|Hj]; [lia|]. specialize (F j Hj). specialize (B j (or_intror Hj)). lia.
             ++ intros j Hj X. apply C in X; [exact X|lia].
  Qed.

  Lemma nth_all : forall X (d : X) (l : list X), map (fun i => nth (Z.to_nat i) l d) (zrange 0 (zlen l)) = l.
  Proof.
    intros X d l. apply (nth_ext _ _ d d).
    - rewrite map_length, zrange_length. unfold zlen. lia.
    - intros i Hi. rewrite map_length, zrange_length in Hi. apply nth_error_nth. rewrite nth_error_map.
      rewrite nth_error_zrange by exact Hi. cbn [option_map]. rewrite Z.add_0_l, Nat2Z.id. reflexivity.
  Qed.

  Lemma kept_without : forall needed ps, zlen ps = key_total mk -> keeps st k needed ps -> without needed ps (kept ps).
  Proof.
    intros needed ps Z (N & K). unfold kept.
    rewrite <- (nth_all part (mkpart 0 0 0 0 0) ps) at 1.
    apply (without_map _ _ (fun i => needed (nth (Z.to_nat i) ps (mkpart 0 0 0 0 0)))); [auto|].
    destruct masked_sorted as (S & B). unfold zlen. rewrite <- (Z.add_0_l (Z.of_nat (List.length ps))).
    unfold zlen in Z. apply sorted_without; auto.
    - intros i Hi. apply B in Hi. lia.
    - intros i Hi X. unfold selected in K. rewrite <- (Z2Nat.id i) by lia. apply (K (Z.to_nat i) (nth (Z.to_nat i) ps (mkpart 0 0 0 0 0))); [|exact X].
      apply nth_error_nth'. lia.
  Qed.
End Masked.

(** * The fields as the pictures read them *)

Lemma field_path : forall data name r, dotless name -> holds data name (Ok r) -> projection_field data (Some name) = Ok r.
Proof.
  intros data name r D H. apply (C103_field data name [] (Ok r)); [exact D|constructor|].
  apply (path_step _ _ _ r); [exact H|constructor].
Qed.

Lemma whole_weights : forall argsort k fs project frame ps, weighs fs project frame ps ->
  projection_field (load_group argsort None k fs) project = Ok (array_of frame (map p_m ps)).
Proof.
  intros argsort k fs [name|] frame ps H.
  - destruct H as (D & H). apply (loaded_all argsort k) in H. rewrite (field_path _ _ _ D H).
    unfold array_of. rewrite map_map. reflexivity.
  - destruct H as (ids & H & F). apply (loaded_all argsort k) in H. cbn [projection_field].
    rewrite (getattr_holds _ _ _ H). cbn [bind]. unfold array_of. rewrite map_map. do 2 f_equal. clear H.
    induction F as [|p id ps ids (E & v & ->) F IH]; [reflexivity|]. cbn [map]. rewrite E, IH. reflexivity.
Qed.

Lemma whole_places : forall argsort k fs coords ps, stores fs "coordinates" (Some coords) (map (fun p => [p_x p; p_y p; p_z p]) ps) ->
  holds (load_group argsort None k fs) "coordinates" (Ok (array_of_points (Some coords) (map (fun p => (p_x p, p_y p, p_z p)) ps))).
Proof. intros argsort k fs coords ps H. apply (loaded_all argsort k) in H. unfold array_of_points. rewrite map_map. exact H. Qed.

Lemma whole_numbers : forall argsort k fs name c (f : part -> R) ps, stores fs name c (map (fun p => [f p]) ps) ->
  holds (load_group argsort None k fs) name (Ok (array_of c (map f ps))).
Proof. intros argsort k fs name c f ps H. apply (loaded_all argsort k) in H. unfold array_of. rewrite map_map. exact H. Qed.

Section Fields.
  Context (argsort : list Z -> list nat) (mm : mask_meta) (st : mask_state) (k : nat) (mk : mask_key).
  Context (Harg : is_argsort argsort) (Hw : wf_meta mm) (Hr : reachable mm st)
          (Hk : nth_error (mm_keys mm) k = Some mk) (Ht : cells_tile 0 (key_cells mk) (key_total mk)).
  Context (fs : list stored) (ps : list part) (Hps : zlen ps = key_total mk).
  Let qs := kept st k ps.

  Lemma zlen_map : forall X Y (f : X -> Y) l, zlen (map f l) = zlen l.
  Proof. intros X Y f l. unfold zlen. rewrite map_length. reflexivity. Qed.

  Lemma masked_places : forall coords, stores fs "coordinates" (Some coords) (map (fun p => [p_x p; p_y p; p_z p]) ps) ->
    holds (load_group argsort (Some st) k fs) "coordinates" (Ok (array_of_points (Some coords) (map (fun p => (p_x p, p_y p, p_z p)) qs))).
  Proof.
    intros coords H. apply (loaded_masked argsort mm st k mk Harg Hw Hr Hk Ht) in H; [|rewrite zlen_map; exact Hps].
    rewrite (kept_map mm st k mk Hw Hr Hk Ht) in H by exact Hps. unfold array_of_points. rewrite map_map. exact H.
  Qed.

  Lemma masked_numbers : forall name c (f : part -> R), stores fs name c (map (fun p => [f p]) ps) ->
    holds (load_group argsort (Some st) k fs) name (Ok (array_of c (map f qs))).
  Proof.
    intros name c f H. apply (loaded_masked argsort mm st k mk Harg Hw Hr Hk Ht) in H; [|rewrite zlen_map; exact Hps].
    rewrite (kept_map mm st k mk Hw Hr Hk Ht) in H by exact Hps. unfold array_of. rewrite map_map. exact H.
  Qed.

  Lemma masked_weights : forall project frame, weighs fs project frame ps ->
    projection_field (load_group argsort (Some st) k fs) project = Ok (array_of frame (map p_m qs)).
  Proof.
    intros [name|] frame H.
    - destruct H as (D & H). apply field_path; [exact D|]. apply masked_numbers. exact H.
    - destruct H as (ids & H & F).
      assert (Z : zlen ids = key_total mk) by (rewrite <- Hps; unfold zlen; f_equal; clear - F; induction F; cbn [List.length]; congruence).
      apply (loaded_masked argsort mm st k mk Harg Hw Hr Hk Ht) in H; [|exact Z]. cbn [projection_field].
      rewrite (getattr_holds _ _ _ H). cbn [bind]. unfold array_of, qs, kept. rewrite !map_map. do 2 f_equal.
      apply map_ext_in. intros i Hi. apply (proj2 (masked_sorted mm st k mk Hw Hr Hk Ht)) in Hi.
      assert (G : forall n, (n < List.length ps)%nat -> exists v, nth n ids [] = [v] /\ p_m (nth n ps (mkpart 0 0 0 0 0)) = 1).
      { clear - F. induction F as [|p id ps ids (E & v & ->) F IH]; intros n Hn; [cbn in Hn; lia|].
        destruct n as [|n]; [exists v; auto|]. cbn [nth]. apply IH. cbn in Hn. lia. }
      destruct (G (Z.to_nat i)) as (v & Ev & Em); [unfold zlen in Hps; lia|]. rewrite Ev, Em. reflexivity.
  Qed.

  Lemma kept_in : forall p, In p qs -> In p ps.
  Proof.
    intros p H. unfold qs, kept in H. apply in_map_iff in H. destruct H as (i & <- & Hi).
    apply (proj2 (masked_sorted mm st k mk Hw Hr Hk Ht)) in Hi. apply nth_In. unfold zlen in Hps. lia.
  Qed.
End Fields.

(** * The backends *)

Lemma local_named : forall s par name, scheduled s ->
  In name ["fast"; "renormalised"; "subsampled"; "subsampled_extreme"; "reference"; "gpu"]%string ->
  local2 gamma2 (projection_backend s par name).
Proof.
  intros s par name (Ht & Ho & Hg) I. destruct C102_backends as (F & _ & Rn & Rf & Sb & _).
  destruct (C102_parallel_backends (s_threads s) (s_order s) 16 32 Ht ltac:(lia) Ho) as (F' & Rn' & Rf' & Sb' & _).
  destruct (C102_parallel_backends (s_threads s) (s_order s) 32 64 Ht ltac:(lia) Ho) as (_ & _ & _ & Sb'' & _).
  repeat (destruct I as [<-|I]; [|]); [| | | | | |destruct I]; unfold local2; cbn [projection_backend String.eqb Ascii.eqb Bool.eqb].
  - destruct par; [exact F'|exact F].
  - destruct par; [exact Rn'|exact Rn].
  - destruct par; [exact Sb'|apply Sb; lia].
  - destruct par; [exact Sb''|apply Sb; lia].
  - destruct par; [exact Rf'|exact Rf].
  - exact (C102_gpu_backend (s_gpu s) Hg).
Qed.

(** * Pictures *)

(** A projection of the particles a mask keeps is that of all of the particles. *)
Theorem C104_project :
  forall argsort mm st k mk s junk a lx ly lz fs l r frame coords ch ps,
  is_argsort argsort -> wf_meta mm -> reachable mm st ->
  nth_error (mm_keys mm) k = Some mk -> cells_tile 0 (key_cells mk) (key_total mk) -> zlen ps = key_total mk ->
  file_of fs (l_project l) frame coords ps -> stores fs "smoothing_lengths" ch (map (fun p => [p_h p]) ps) ->
  scheduled s -> In (l_backend l) ["fast"; "renormalised"; "subsampled"; "subsampled_extreme"; "reference"; "gpu"]%string ->
  l_region l = Some r -> l_mask l = None -> (1 <= l_resolution l)%Z -> 0 < x_extent r -> 0 < y_extent r ->
  (l_periodic l = true -> l_rotation l = None /\ 0 < lx /\ 0 < ly) ->
  match r_z r with Some (z0, z1) => l_periodic l = true -> z1 - z0 <= lz | None => True end ->
  (forall p, In p ps -> 0 <= p_h p) ->
  keeps st k (fun p => looks2 (l_periodic l) (lx, ly, lz) r (l_rotation l) (gamma2 * p_h p) p) ps ->
  same_picture (drawn (project_pixel_grid s junk a (lx, ly, lz) (load_group argsort None k fs) l))
               (drawn (project_pixel_grid s junk a (lx, ly, lz) (load_group argsort (Some st) k fs) l)).
Proof.
  intros argsort mm st k mk s junk a lx ly lz fs l r frame coords ch ps Harg Hw Hr Hk Ht Hps (Hm & Hc) Hh Hs Hb El Em Hn Hx Hy Hp Hz Hpos K.
  assert (Nb : l_backend l <> "histogram"%string) by (intro E; rewrite E in Hb; repeat (destruct Hb as [X|Hb]; [discriminate|]); exact Hb).
  rewrite (C103_project s junk a (lx, ly, lz) (load_group argsort None k fs) l frame coords (map p_m ps) ps Nb); auto.
  - rewrite (C103_project s junk a (lx, ly, lz) (load_group argsort (Some st) k fs) l frame coords (map p_m (kept st k ps)) (kept st k ps) Nb); auto.
    + rewrite El, Em. apply (C102_project gamma2); auto.
      * apply local_named; assumption.
      * apply (kept_without mm st k mk Hw Hr Hk Ht); assumption.
    + apply (masked_weights argsort mm st k mk Harg Hw Hr Hk Ht); assumption.
    + apply (masked_places argsort mm st k mk Harg Hw Hr Hk Ht); assumption.
    + apply (proj1 (C103_sph _) ch). apply (masked_numbers argsort mm st k mk Harg Hw Hr Hk Ht); assumption.
  - apply whole_weights. exact Hm.
  - apply whole_places. exact Hc.
  - apply (proj1 (C103_sph _) ch). apply whole_numbers. exact Hh.
Qed.

(** For histograms the particles of the region are enough; there are no smoothing lengths, but masses. *)
Theorem C104_histogram :
  forall argsort mm st k mk s junk a lx ly lz fs l r frame coords cm masses ps,
  is_argsort argsort -> wf_meta mm -> reachable mm st ->
  nth_error (mm_keys mm) k = Some mk -> cells_tile 0 (key_cells mk) (key_total mk) -> zlen ps = key_total mk ->
  file_of fs (l_project l) frame coords ps -> stores fs "masses" cm (map (fun v => [v]) masses) -> zlen masses = key_total mk ->
  scheduled s -> l_backend l = "histogram"%string ->
  l_region l = Some r -> l_mask l = None -> (1 <= l_resolution l)%Z -> 0 < x_extent r -> 0 < y_extent r ->
  (l_periodic l = true -> l_rotation l = None /\ 0 < lx /\ 0 < ly) ->
  match r_z r with Some (z0, z1) => l_periodic l = true -> z1 - z0 <= lz | None => True end ->
  keeps st k (looks2 (l_periodic l) (lx, ly, lz) r (l_rotation l) 0) ps ->
  same_picture (drawn (project_pixel_grid s junk a (lx, ly, lz) (load_group argsort None k fs) l))
               (drawn (project_pixel_grid s junk a (lx, ly, lz) (load_group argsort (Some st) k fs) l)).
Proof.
  intros argsort mm st k mk s junk a lx ly lz fs l r frame coords cm masses ps Harg Hw Hr Hk Ht Hps (Hm & Hc) Hma Zm (Th & Ho & Hg) Hb El Em Hn Hx Hy Hp Hz (N & K).
  set (us := map bare ps).
  assert (Mu : forall X (f : part -> X), (forall p, f (bare p) = f p) -> map f us = map f ps).
  { intros X f F. unfold us. rewrite map_map. apply map_ext. exact F. }
  assert (Zu : zlen us = key_total mk) by (unfold us; rewrite zlen_map; exact Hps).
  assert (Wu : weighs fs (l_project l) frame us).
  { unfold weighs in *. destruct (l_project l) as [name|].
    - rewrite (Mu _ (fun p => [p_m p])) by reflexivity. exact Hm.
    - destruct Hm as (ids & S & F). exists ids. split; [exact S|]. unfold us. clear - F. induction F; cbn [map]; constructor; auto. }
  assert (Cu : stores fs "coordinates" (Some coords) (map (fun p => [p_x p; p_y p; p_z p]) us))
    by (rewrite (Mu _ (fun p => [p_x p; p_y p; p_z p])) by reflexivity; exact Hc).
  assert (Ma : holds (load_group argsort None k fs) "masses" (Ok (array_of cm masses))) by (apply (loaded_all argsort k) in Hma; exact Hma).
  assert (Mb : exists ms', holds (load_group argsort (Some st) k fs) "masses" (Ok (array_of cm ms')) /\ List.length ms' = List.length (kept st k us)).
  { apply (loaded_masked argsort mm st k mk Harg Hw Hr Hk Ht) in Hma; [|rewrite zlen_map; exact Zm].
    exists (map (fun i => nth (Z.to_nat i) masses 0) (masked_rows (ms_masks st) k)).
    split; [|unfold kept; rewrite !map_length; reflexivity]. unfold array_of. rewrite map_map.
    rewrite (map_ext_in _ (fun i => [nth (Z.to_nat i) masses 0])) in Hma; [exact Hma|].
    intros i Hi. apply (proj2 (masked_sorted mm st k mk Hw Hr Hk Ht)) in Hi.
    rewrite (nth_indep _ [] [0]) by (rewrite map_length; unfold zlen in Zm; lia). apply (map_nth (fun v => [v])). }
  destruct Mb as (ms' & Mb & Lb).
  rewrite (C103_histogram s junk a (lx, ly, lz) (load_group argsort None k fs) l frame coords cm masses (map p_m us) us Hb); auto.
  - rewrite (C103_histogram s junk a (lx, ly, lz) (load_group argsort (Some st) k fs) l frame coords cm ms' (map p_m (kept st k us)) (kept st k us) Hb); auto.
    + rewrite El, Em. apply (C102_project 0); auto.
      * destruct C102_backends as (_ & H & _).
        destruct (C102_parallel_backends (s_threads s) (s_order s) 16 32 Th ltac:(lia) Ho) as (_ & _ & _ & _ & H' & _).
        unfold local2. cbn [projection_backend String.eqb Ascii.eqb Bool.eqb]. destruct (l_parallel l); [exact H'|exact H].
      * intros p Hin. apply in_map_iff in Hin. destruct Hin as (q & <- & _). cbn. lra.
      * apply (kept_without mm st k mk Hw Hr Hk Ht); [exact Zu|]. split; [exact N|].
        intros i p Ei L. unfold us in Ei. rewrite nth_error_map in Ei. destruct (nth_error ps i) as [q|] eqn:Eq; [|discriminate].
        cbn [option_map] in Ei. injection Ei as <-. apply (K i q Eq). cbv beta in L. rewrite Rmult_0_l in L. exact L.
    + apply (masked_weights argsort mm st k mk Harg Hw Hr Hk Ht); assumption.
    + apply (masked_places argsort mm st k mk Harg Hw Hr Hk Ht); assumption.
  - apply whole_weights. exact Wu.
  - apply whole_places. exact Cu.
  - unfold zlen in *. lia.
Qed.

(** Slices. *)
Theorem C104_slice :
  forall argsort mm st k mk s junk a z_slice lx ly lz fs l r frame coords ch ps,
  is_argsort argsort -> wf_meta mm -> reachable mm st ->
  nth_error (mm_keys mm) k = Some mk -> cells_tile 0 (key_cells mk) (key_total mk) -> zlen ps = key_total mk ->
  file_of fs (l_project l) frame coords ps -> stores fs "smoothing_lengths" ch (map (fun p => [p_h p]) ps) ->
  scheduled s -> l_backend l = "sph"%string ->
  l_region l = Some r -> l_mask l = None -> (1 <= l_resolution l)%Z -> 0 < x_extent r -> 0 < y_extent r ->
  (l_periodic l = true -> l_rotation l = None /\ 0 < lx /\ 0 < ly /\ 0 < lz) ->
  (forall p, In p ps -> 0 < p_h p) ->
  let t := match z_slice with Some z => z | None => 0 end
           + match l_rotation l with Some (_, c) => at_z c | None => 0 end in
  keeps st k (fun p => looks_slice (l_periodic l) (lx, ly, lz) r t (l_rotation l) (gamma3 * p_h p) p) ps ->
  same_picture (drawn (slice_pixel_grid s junk a z_slice (lx, ly, lz) (load_group argsort None k fs) l))
               (drawn (slice_pixel_grid s junk a z_slice (lx, ly, lz) (load_group argsort (Some st) k fs) l)).
Proof.
  intros argsort mm st k mk s junk a z_slice lx ly lz fs l r frame coords ch ps Harg Hw Hr Hk Ht Hps (Hm & Hc) Hh (Th & Ho & Hg) Hb El Em Hn Hx Hy Hp Hpos t K.
  rewrite (C103_slice s junk a z_slice (lx, ly, lz) (load_group argsort None k fs) l frame coords (map p_m ps) ps); auto.
  - rewrite (C103_slice s junk a z_slice (lx, ly, lz) (load_group argsort (Some st) k fs) l frame coords (map p_m (kept st k ps)) (kept st k ps)); auto.
    + rewrite El, Em, Hb. apply (C102_slice_grid gamma3); auto.
      * destruct C102_backends as (_ & _ & _ & _ & _ & H & _).
        destruct (C102_parallel_backends (s_threads s) (s_order s) 16 32 Th ltac:(lia) Ho) as (_ & _ & _ & _ & _ & H' & _).
        unfold local_slice. cbn [slice_backend String.eqb Ascii.eqb Bool.eqb]. destruct (l_parallel l); [exact H'|exact H].
      * apply (kept_without mm st k mk Hw Hr Hk Ht); assumption.
    + apply (masked_weights argsort mm st k mk Harg Hw Hr Hk Ht); assumption.
    + apply (masked_places argsort mm st k mk Harg Hw Hr Hk Ht); assumption.
    + left. split; [exact Hb|]. apply (proj1 (C103_sph _) ch). apply (masked_numbers argsort mm st k mk Harg Hw Hr Hk Ht); assumption.
  - apply whole_weights. exact Hm.
  - apply whole_places. exact Hc.
  - left. split; [exact Hb|]. apply (proj1 (C103_sph _) ch). apply whole_numbers. exact Hh.
Qed.

(** Volumes. *)
Theorem C104_render :
  forall argsort mm st k mk s junk a lx ly lz fs l x0 y0 z0 M frame coords ch ps,
  is_argsort argsort -> wf_meta mm -> reachable mm st ->
  nth_error (mm_keys mm) k = Some mk -> cells_tile 0 (key_cells mk) (key_total mk) -> zlen ps = key_total mk ->
  file_of fs (l_project l) frame coords ps -> stores fs "smoothing_lengths" ch (map (fun p => [p_h p]) ps) ->
  scheduled s ->
  l_region l = Some (mkregion x0 (x0 + M) y0 (y0 + M) (Some (z0, z0 + M))) -> l_mask l = None -> (1 <= l_resolution l)%Z -> 0 < M ->
  (l_periodic l = true -> l_rotation l = None /\ 0 < lx /\ 0 < ly /\ 0 < lz) ->
  (forall p, In p ps -> 0 <= p_h p) ->
  keeps st k (fun p => looks3 (l_periodic l) (lx, ly, lz) (x0, y0, z0) M (l_rotation l) (gamma3 * p_h p) p) ps ->
  same_picture (drawn (render_voxel_grid s junk a (lx, ly, lz) (load_group argsort None k fs) l))
               (drawn (render_voxel_grid s junk a (lx, ly, lz) (load_group argsort (Some st) k fs) l)).
Proof.
  intros argsort mm st k mk s junk a lx ly lz fs l x0 y0 z0 M frame coords ch ps Harg Hw Hr Hk Ht Hps (Hm & Hc) Hh (Th & Ho & Hg) El Em Hn HM Hp Hpos K.
  rewrite (C103_render s junk a (lx, ly, lz) (load_group argsort None k fs) l frame coords (map p_m ps) ps); auto.
  - rewrite (C103_render s junk a (lx, ly, lz) (load_group argsort (Some st) k fs) l frame coords (map p_m (kept st k ps)) (kept st k ps)); auto.
    + rewrite El, Em. apply (C102_voxel_grid gamma3); auto.
      * destruct C102_backends as (_ & _ & _ & _ & _ & _ & H).
        destruct (C102_parallel_backends (s_threads s) (s_order s) 16 32 Th ltac:(lia) Ho) as (_ & _ & _ & _ & _ & _ & H').
        unfold local3, volume_backend. destruct (l_parallel l); [exact H'|exact H].
      * apply (kept_without mm st k mk Hw Hr Hk Ht); assumption.
    + apply (masked_weights argsort mm st k mk Harg Hw Hr Hk Ht); assumption.
    + apply (masked_places argsort mm st k mk Harg Hw Hr Hk Ht); assumption.
    + apply (proj1 (C103_sph _) ch). apply (masked_numbers argsort mm st k mk Harg Hw Hr Hk Ht); assumption.
  - apply whole_weights. exact Hm.
  - apply whole_places. exact Hc.
  - apply (proj1 (C103_sph _) ch). apply whole_numbers. exact Hh.
Qed.

(** * Masks of regions *)

Lemma inject_R : forall j, Q2R (inject_Z j) = IZR j.
Proof. intro j. unfold Q2R, inject_Z. cbn [Qnum Qden]. rewrite Rinv_1, Rmult_1_r. reflexivity. Qed.

Lemma reaches_inside : forall (L x : Q) lo hi w w' bounds, w' <= w -> widened lo hi w bounds ->
  reaches true (Q2R L) lo hi w' (Q2R x) -> inside_axis L bounds x.
Proof.
  intros L x lo hi w w' bounds Hw W (j & A & B). destruct bounds as [[|b [|c [|? ?]]]|]; cbn [widened inside_axis] in *; try tauto.
  destruct W as (Wb & Wc). exists j. unfold wrap_upper.
  assert (E : Q2R (x + inject_Z j * L) = Q2R x + IZR j * Q2R L) by (rewrite Q2R_plus, Q2R_mult, inject_R; reflexivity).
  assert (b < c)%Q by (apply Rlt_Qlt; lra).
  destruct (Qlt_le_dec c b) as [X|X]; [exfalso; apply (Qlt_irrefl b); apply (Qlt_trans b c b); assumption|].
  split; apply Rlt_Qlt; rewrite E; lra.
Qed.

Lemma spatial_keeps : forall mm k mk region union (needed : part -> Prop) ps,
  wf_meta mm -> Forall cells_disjoint (mm_keys mm) -> nth_error (mm_keys mm) k = Some mk ->
  well_formed_region region -> region_in_window (mm_box mm) region ->
  (forall i p, nth_error ps i = Some p -> in_its_cell (mm_box mm) mk (Z.of_nat i) p) ->
  (forall p pos, In p ps -> p_x p = Q2R (pos AX) -> p_y p = Q2R (pos AY) -> p_z p = Q2R (pos AZ) -> needed p ->
     inside_region (mm_box mm) region pos) ->
  exists st, constrain_spatial mm region union (new_mask mm) = (st, None) /\ reachable mm st /\ keeps st k needed ps.
Proof.
  intros mm k mk region union needed ps Hw Hd Hk Wr Win Cells In_.
  destruct (spatial_fresh mm region union (proj1 Hw) (conj Wr Win)) as (restrict & _ & E).
  eexists. split; [exact E|]. set (st := mk_mask_state _ _ _) in *. clearbody st.
  assert (Run : fst (mask_run mm [OpSpatial region union] (new_mask mm)) = st).
  { cbn [mask_run mask_step fst snd]. rewrite E. reflexivity. }
  split; [exists [OpSpatial region union]; split; [repeat constructor|exact Run]|]. split.
  - rewrite <- Run. apply C19_no_duplicates; auto. constructor; [exact I|constructor].
  - intros i p Ep Np. destruct (Cells i p Ep) as (c & pos & Ic & Si & Ext & Inc & Ex & Ey & Ez).
    destruct (C07_spatial_complete mm k mk c (Z.of_nat i) pos region union Hw Hk Ic Ext Si Inc Wr Win) as (st' & E' & S).
    + apply (In_ p pos); auto. apply nth_error_In in Ep. exact Ep.
    + rewrite E in E'. injection E' as <-. exact S.
Qed.

(** A mask of a region that holds that of the picture, widened by more than the largest kernel, gives the
    projection of all of the particles... *)
Theorem C104_spatial_project :
  forall argsort mm k mk s junk a fs l r w bx by_ union frame coords ch ps,
  is_argsort argsort -> wf_meta mm -> Forall cells_disjoint (mm_keys mm) ->
  nth_error (mm_keys mm) k = Some mk -> cells_tile 0 (key_cells mk) (key_total mk) -> zlen ps = key_total mk ->
  file_of fs (l_project l) frame coords ps -> stores fs "smoothing_lengths" ch (map (fun p => [p_h p]) ps) ->
  (forall i p, nth_error ps i = Some p -> in_its_cell (mm_box mm) mk (Z.of_nat i) p) ->
  scheduled s -> In (l_backend l) ["fast"; "renormalised"; "subsampled"; "subsampled_extreme"; "reference"; "gpu"]%string ->
  l_region l = Some r -> l_mask l = None -> (1 <= l_resolution l)%Z -> 0 < x_extent r -> 0 < y_extent r ->
  l_periodic l = true -> l_rotation l = None ->
  match r_z r with Some (z0, z1) => z1 - z0 <= Q2R (mm_box mm AZ) | None => True end ->
  (forall p, In p ps -> 0 <= p_h p /\ gamma2 * p_h p <= w) ->
  well_formed_region [bx; by_; None] -> region_in_window (mm_box mm) [bx; by_; None] ->
  widened (r_xmin r) (r_xmin r + extent r) w bx -> widened (r_ymin r) (r_ymin r + extent r) w by_ ->
  exists st, constrain_spatial mm [bx; by_; None] union (new_mask mm) = (st, None) /\
  same_picture (drawn (project_pixel_grid s junk a (real_box (mm_box mm)) (load_group argsort None k fs) l))
               (drawn (project_pixel_grid s junk a (real_box (mm_box mm)) (load_group argsort (Some st) k fs) l)).
Proof.
  intros argsort mm k mk s junk a fs l r w bx by_ union frame coords ch ps Harg Hw Hd Hk Ht Hps Hf Hh Cells Hs Hb El Em Hn Hx Hy Ep Er Hz Hpos Wr Win Wx Wy.
  destruct (spatial_keeps mm k mk [bx; by_; None] union
    (fun p => looks2 (l_periodic l) (real_box (mm_box mm)) r (l_rotation l) (gamma2 * p_h p) p) ps) as (st & E & Rst & K); auto.
  - intros p pos Ip Ex Ey Ez. rewrite Ep, Er. unfold looks2, real_box, at_x, at_y, FrontSpec.seen, position. cbn [fst snd]. rewrite Ex, Ey.
    intros (A & B). cbn [inside_region]. repeat split.
    + apply (reaches_inside _ _ _ _ w _ _ (proj2 (Hpos p Ip)) Wx A).
    + apply (reaches_inside _ _ _ _ w _ _ (proj2 (Hpos p Ip)) Wy B).
  - exists st. split; [exact E|]. destruct Hw as (Hbox & Hw'). unfold real_box in *.
    apply (C104_project argsort mm st k mk s junk a _ _ _ fs l r frame coords ch ps); auto.
    + split; assumption.
    + intros _. split; [exact Er|]. split; replace 0 with (Q2R 0) by apply RMicromega.Q2R_0; apply Qlt_Rlt, Hbox.
    + destruct (r_z r) as [(? & ?)|]; auto.
    + intros p Ip. apply (Hpos p Ip).
Qed.

(** ... the slice... *)
Theorem C104_spatial_slice :
  forall argsort mm k mk s junk a z_slice fs l r w bx by_ bz union frame coords ch ps,
  is_argsort argsort -> wf_meta mm -> Forall cells_disjoint (mm_keys mm) ->
  nth_error (mm_keys mm) k = Some mk -> cells_tile 0 (key_cells mk) (key_total mk) -> zlen ps = key_total mk ->
  file_of fs (l_project l) frame coords ps -> stores fs "smoothing_lengths" ch (map (fun p => [p_h p]) ps) ->
  (forall i p, nth_error ps i = Some p -> in_its_cell (mm_box mm) mk (Z.of_nat i) p) ->
  scheduled s -> l_backend l = "sph"%string ->
  l_region l = Some r -> l_mask l = None -> (1 <= l_resolution l)%Z -> 0 < x_extent r -> 0 < y_extent r ->
  l_periodic l = true -> l_rotation l = None ->
  (forall p, In p ps -> 0 < p_h p /\ gamma3 * p_h p <= w) ->
  well_formed_region [bx; by_; bz] -> region_in_window (mm_box mm) [bx; by_; bz] ->
  widened (r_xmin r) (r_xmin r + extent r) w bx -> widened (r_ymin r) (r_ymin r + extent r) w by_ ->
  (let t := match z_slice with Some z => z | None => 0 end in widened t t w bz) ->
  exists st, constrain_spatial mm [bx; by_; bz] union (new_mask mm) = (st, None) /\
  same_picture (drawn (slice_pixel_grid s junk a z_slice (real_box (mm_box mm)) (load_group argsort None k fs) l))
               (drawn (slice_pixel_grid s junk a z_slice (real_box (mm_box mm)) (load_group argsort (Some st) k fs) l)).
Proof.
  intros argsort mm k mk s junk a z_slice fs l r w bx by_ bz union frame coords ch ps Harg Hw Hd Hk Ht Hps Hf Hh Cells Hs Hb El Em Hn Hx Hy Ep Er Hpos Wr Win Wx Wy Wz.
  cbv zeta in Wz. set (t := match z_slice with Some z => z | None => 0 end) in *.
  destruct (spatial_keeps mm k mk [bx; by_; bz] union
    (fun p => looks_slice (l_periodic l) (real_box (mm_box mm)) r (t + 0) (l_rotation l) (gamma3 * p_h p) p) ps) as (st & E & Rst & K); auto.
  - intros p pos Ip Ex Ey Ez. rewrite Ep, Er, Rplus_0_r. unfold looks_slice, looks2, real_box, at_x, at_y, at_z, FrontSpec.seen, position. cbn [fst snd]. rewrite Ex, Ey, Ez.
    intros ((A & B) & C). cbn [inside_region]. repeat split.
    + apply (reaches_inside _ _ _ _ w _ _ (proj2 (Hpos p Ip)) Wx A).
    + apply (reaches_inside _ _ _ _ w _ _ (proj2 (Hpos p Ip)) Wy B).
    + apply (reaches_inside _ _ _ _ w _ _ (proj2 (Hpos p Ip)) Wz C).
  - exists st. split; [exact E|]. destruct Hw as (Hbox & Hw'). unfold real_box in *.
    apply (C104_slice argsort mm st k mk s junk a z_slice _ _ _ fs l r frame coords ch ps); auto.
    + split; assumption.
    + intros _. split; [exact Er|]. repeat split; replace 0 with (Q2R 0) by apply RMicromega.Q2R_0; apply Qlt_Rlt, Hbox.
    + intros p Ip. apply (Hpos p Ip).
    + rewrite Er in *. exact K.
Qed.

(** ... and the volume. *)
Theorem C104_spatial_render :
  forall argsort mm k mk s junk a fs l x0 y0 z0 M w bx by_ bz union frame coords ch ps,
  is_argsort argsort -> wf_meta mm -> Forall cells_disjoint (mm_keys mm) ->
  nth_error (mm_keys mm) k = Some mk -> cells_tile 0 (key_cells mk) (key_total mk) -> zlen ps = key_total mk ->
  file_of fs (l_project l) frame coords ps -> stores fs "smoothing_lengths" ch (map (fun p => [p_h p]) ps) ->
  (forall i p, nth_error ps i = Some p -> in_its_cell (mm_box mm) mk (Z.of_nat i) p) ->
  scheduled s ->
  l_region l = Some (mkregion x0 (x0 + M) y0 (y0 + M) (Some (z0, z0 + M))) -> l_mask l = None -> (1 <= l_resolution l)%Z -> 0 < M ->
  l_periodic l = true -> l_rotation l = None ->
  (forall p, In p ps -> 0 <= p_h p /\ gamma3 * p_h p <= w) ->
  well_formed_region [bx; by_; bz] -> region_in_window (mm_box mm) [bx; by_; bz] ->
  widened x0 (x0 + M) w bx -> widened y0 (y0 + M) w by_ -> widened z0 (z0 + M) w bz ->
  exists st, constrain_spatial mm [bx; by_; bz] union (new_mask mm) = (st, None) /\
  same_picture (drawn (render_voxel_grid s junk a (real_box (mm_box mm)) (load_group argsort None k fs) l))
               (drawn (render_voxel_grid s junk a (real_box (mm_box mm)) (load_group argsort (Some st) k fs) l)).
Proof.
  intros argsort mm k mk s junk a fs l x0 y0 z0 M w bx by_ bz union frame coords ch ps Harg Hw Hd Hk Ht Hps Hf Hh Cells Hs El Em Hn HM Ep Er Hpos Wr Win Wx Wy Wz.
  destruct (spatial_keeps mm k mk [bx; by_; bz] union
    (fun p => looks3 (l_periodic l) (real_box (mm_box mm)) (x0, y0, z0) M (l_rotation l) (gamma3 * p_h p) p) ps) as (st & E & Rst & K); auto.
  - intros p pos Ip Ex Ey Ez. rewrite Ep, Er. unfold looks3, real_box, at_x, at_y, at_z, FrontSpec.seen, position. cbn [fst snd]. rewrite Ex, Ey, Ez.
    intros (A & B & C). cbn [inside_region]. repeat split.
    + apply (reaches_inside _ _ _ _ w _ _ (proj2 (Hpos p Ip)) Wx A).
    + apply (reaches_inside _ _ _ _ w _ _ (proj2 (Hpos p Ip)) Wy B).
    + apply (reaches_inside _ _ _ _ w _ _ (proj2 (Hpos p Ip)) Wz C).
  - exists st. split; [exact E|]. destruct Hw as (Hbox & Hw'). unfold real_box in *.
    apply (C104_render argsort mm st k mk s junk a _ _ _ fs l x0 y0 z0 M frame coords ch ps); auto.
    + split; assumption.
    + intros _. split; [exact Er|]. repeat split; replace 0 with (Q2R 0) by apply RMicromega.Q2R_0; apply Qlt_Rlt, Hbox.
    + intros p Ip. apply (Hpos p Ip).
Qed.

(** * Cases *)

Definition pipe_mm : mask_meta := mk_mask_meta false (v3 2 2 2) [mk_mask_key [ex_left 0 1; ex_right 1 1] 2].
Definition pipe_parts : list part :=
  [mkpart (1 / 2) (1 / 2) (1 / 2) 3 (1 / 64); mkpart (3 / 2) (1 / 2) (1 / 2) 5 (1 / 64)].
Definition pipe_fields (ps : list part) : list stored :=
  [mkstored "coordinates" (Some true) (mk_field Contiguous true 3 (map (fun p => [p_x p; p_y p; p_z p]) ps));
   mkstored "masses" (Some true) (mk_field (Chunked 4) false 1 (map (fun p => [p_m p]) ps));
   mkstored "smoothing_lengths" (Some true) (mk_field Contiguous false 1 (map (fun p => [p_h p]) ps))]%string.
Definition pipe_look (r : region) : look := mklook 10 (Some "masses"%string) (Some r) None None true "fast"%string true.

Lemma pipe_wf : forall n m, wf_meta (mk_mask_meta false (v3 2 2 2) [mk_mask_key [ex_left 0 (Z.of_nat n); ex_right (Z.of_nat n) (Z.of_nat m)] (Z.of_nat n + Z.of_nat m)]).
Proof.
  intros n m. split; [intros []; reflexivity|]. split; [|discriminate]. constructor; [|constructor].
  split; [cbn [key_total]; lia|]. cbn [key_cells]. repeat constructor; cbn [cell_offset cell_count ex_left ex_right key_total]; lia.
Qed.

Lemma pipe_file : forall ps, file_of (pipe_fields ps) (Some "masses"%string) (Some true) true ps
  /\ stores (pipe_fields ps) "smoothing_lengths" (Some true) (map (fun p => [p_h p]) ps).
Proof.
  assert (W : forall (ps : list part), Forall (fun r : list R => zlen r = 3%Z) (map (fun p => [p_x p; p_y p; p_z p]) ps)).
  { induction ps; cbn [map]; constructor; auto. }
  intro ps. unfold file_of, weighs, stores, pipe_fields. split; [split; [split|]|].
  - cbn. repeat split; discriminate.
  - eexists [_], _, [_]. split; [reflexivity|]. cbn [map st_name In fd_layout fd_rows field_of]. repeat split; try discriminate.
    + intros [X|[]]; discriminate.
    + intros c [= <-]. reflexivity.
  - eexists [], _, [_; _]. split; [reflexivity|]. cbn [map st_name In fd_layout fd_rows field_of]. repeat split; try discriminate; auto.
    intros _. apply W.
  - eexists [_; _], _, []. split; [reflexivity|]. cbn [map st_name In fd_layout fd_rows field_of]. repeat split; try discriminate.
    intros [X|[X|[]]]; discriminate.
Qed.

Example C104_spatial_case : forall s argsort, scheduled s -> is_argsort argsort ->
  let r := mkregion (1 / 4) (3 / 4) (1 / 4) (3 / 4) None in
  exists st, constrain_spatial pipe_mm [Some [1 # 8; 7 # 8]; Some [1 # 8; 7 # 8]; None]%Q false (new_mask pipe_mm) = (st, None)
  /\ masked_rows (ms_masks st) 0 = [0%Z]
  /\ same_picture (drawn (project_pixel_grid s (fun _ => 0) 1 (real_box (v3 2 2 2)) (load_group argsort None 0 (pipe_fields pipe_parts)) (pipe_look r)))
                  (drawn (project_pixel_grid s (fun _ => 0) 1 (real_box (v3 2 2 2)) (load_group argsort (Some st) 0 (pipe_fields pipe_parts)) (pipe_look r))).
Proof.
  intros s argsort Hs Harg r.
  assert (Ex : extent r = 1 / 2) by (unfold extent, x_extent, y_extent, r; cbn [r_xmin r_xmax r_ymin r_ymax]; rewrite Rmax_left; lra).
  assert (W : wf_meta pipe_mm) by exact (pipe_wf 1 1).
  destruct (C104_spatial_project argsort pipe_mm 0 (mk_mask_key [ex_left 0 1; ex_right 1 1] 2) s (fun _ => 0) 1 (pipe_fields pipe_parts) (pipe_look r) r
    (1 / 16) (Some [1 # 8; 7 # 8]%Q) (Some [1 # 8; 7 # 8]%Q) false (Some true) true (Some true) pipe_parts) as (st & E & P); auto; try reflexivity.
  - repeat constructor. intros i (A & B). unfold stored_in in *. cbn in *. lia.
  - cbn. repeat split; lia.
  - apply pipe_file.
  - apply pipe_file.
  - intros [|[|i]] p Ep; cbn in Ep; [injection Ep as <-|injection Ep as <-|destruct i; discriminate].
    + exists (ex_left 0 1), (v3 (1 # 2) (1 # 2) (1 # 2)). split; [left; reflexivity|]. split; [unfold stored_in; cbn; lia|].
      split; [intros []; unfold ex_left; cbn; unfold Qle, Qlt; cbn; lia|].
      split; [intros []; exists 0%Z; unfold ex_left; cbn; unfold Qle; cbn; lia|].
      repeat split; unfold Q2R; cbn; lra.
    + exists (ex_right 1 1), (v3 (3 # 2) (1 # 2) (1 # 2)). split; [right; left; reflexivity|]. split; [unfold stored_in; cbn; lia|].
      split; [intros []; unfold ex_right; cbn; unfold Qle, Qlt; cbn; lia|].
      split; [intros []; exists 0%Z; unfold ex_right; cbn; unfold Qle; cbn; lia|].
      repeat split; unfold Q2R; cbn; lra.
  - left. reflexivity.
  - cbn. lia.
  - unfold x_extent, r. cbn. lra.
  - unfold y_extent, r. cbn. lra.
  - intros p [<-|[<-|[]]]; cbn [p_h]; unfold gamma2; lra.
  - split; [reflexivity|]. intros x [<-|[<-|[<-|[]]]]; cbn; auto.
  - cbn. repeat split; repeat constructor; unfold Qle; cbn; lia.
  - cbn [widened r r_xmin]. rewrite Ex. unfold Q2R. cbn [Qnum Qden]. lra.
  - cbn [widened r r_ymin]. rewrite Ex. unfold Q2R. cbn [Qnum Qden]. lra.
  - exists st. split; [exact E|]. split; [|exact P].
    assert (Es : st = fst (constrain_spatial pipe_mm [Some [1 # 8; 7 # 8]; Some [1 # 8; 7 # 8]; None]%Q false (new_mask pipe_mm))) by (rewrite E; reflexivity).
    rewrite Es. vm_compute. reflexivity.
Qed.

(** The mask of just the region of the picture is not enough: the particle beside it is in the cell beside it. *)
Definition edge_mm : mask_meta := mk_mask_meta false (v3 2 2 2) [mk_mask_key [ex_left 0 1; ex_right 1 0] 1].
Definition edge : part := mkpart (99 / 100) (1 / 2) 0 1 (25 / 100 / gamma2).
Definition edge_look : look :=
  mklook 10 (Some "masses"%string) (Some (mkregion 1 2 0 1 None)) None None false "fast"%string false.

Theorem C104_no_margin_refuted : forall argsort s junk, is_argsort argsort ->
  exists st, constrain_spatial edge_mm [Some [1; 2]; Some [0; 1]; None]%Q false (new_mask edge_mm) = (st, None)
  /\ ~ same_picture (drawn (project_pixel_grid s junk 1 (real_box (v3 2 2 2)) (load_group argsort None 0 (pipe_fields [edge])) edge_look))
                    (drawn (project_pixel_grid s junk 1 (real_box (v3 2 2 2)) (load_group argsort (Some st) 0 (pipe_fields [edge])) edge_look)).
Proof.
  intros argsort s junk Harg.
  destruct (constrain_spatial edge_mm [Some [1; 2]; Some [0; 1]; None]%Q false (new_mask edge_mm)) as (st & e) eqn:E.
  assert (Ee : e = None) by (transitivity (snd (constrain_spatial edge_mm [Some [1; 2]; Some [0; 1]; None]%Q false (new_mask edge_mm)));
    [rewrite E; reflexivity|vm_compute; reflexivity]). subst e.
  exists st. split; [reflexivity|].
  assert (Er : masked_rows (ms_masks st) 0 = []).
  { transitivity (masked_rows (ms_masks (fst (constrain_spatial edge_mm [Some [1; 2]; Some [0; 1]; None]%Q false (new_mask edge_mm)))) 0);
    [rewrite E; reflexivity|vm_compute; reflexivity]. }
  assert (W : wf_meta edge_mm) by exact (pipe_wf 1 0).
  assert (Rst : reachable edge_mm st).
  { exists [OpSpatial [Some [1; 2]; Some [0; 1]; None]%Q false]. split; [repeat constructor|]. cbn [mask_run mask_step fst snd]. rewrite E. reflexivity. }
  assert (Hk : nth_error (mm_keys edge_mm) 0 = Some (mk_mask_key [ex_left 0 1; ex_right 1 0] 1)) by reflexivity.
  assert (Ht : cells_tile 0 (key_cells (mk_mask_key [ex_left 0 1; ex_right 1 0] 1)) (key_total (mk_mask_key [ex_left 0 1; ex_right 1 0] 1))) by (cbn; repeat split; lia).
  assert (Hps : zlen [edge] = key_total (mk_mask_key [ex_left 0 1; ex_right 1 0] 1)) by reflexivity.
  destruct (pipe_file [edge]) as ((Hm & Hc) & Hh).
  assert (K0 : kept st 0 [edge] = []) by (unfold kept; rewrite Er; reflexivity).
  rewrite (C103_project s junk 1 (real_box (v3 2 2 2)) (load_group argsort None 0 (pipe_fields [edge])) edge_look (Some true) true (map p_m [edge]) [edge]);
    [|discriminate|apply whole_weights; exact Hm|reflexivity|apply whole_places; exact Hc|apply (proj1 (C103_sph _) (Some true)), whole_numbers; exact Hh].
  rewrite (C103_project s junk 1 (real_box (v3 2 2 2)) (load_group argsort (Some st) 0 (pipe_fields [edge])) edge_look (Some true) true (map p_m (kept st 0 [edge])) (kept st 0 [edge]));
    [|discriminate|apply (masked_weights argsort edge_mm st 0 _ Harg W Rst Hk Ht _ _ Hps); exact Hm|reflexivity
     |apply (masked_places argsort edge_mm st 0 _ Harg W Rst Hk Ht _ _ Hps); exact Hc
     |apply (proj1 (C103_sph _) (Some true)), (masked_numbers argsort edge_mm st 0 _ Harg W Rst Hk Ht _ _ Hps); exact Hh].
  rewrite K0. change (projection_backend s (l_parallel edge_look) (l_backend edge_look)) with fast.
  cbn [l_resolution l_periodic l_region l_rotation l_mask edge_look].
  assert (G : forall qs img, fast 10 0 0 (map (fun p => mkpart (p_x p - 1) (p_y p) (p_z p) (p_m p) (p_h p)) qs) = Ok img ->
    exists sh, drawn (project fast 1 true (Some true) 10 false (real_box (v3 2 2 2)) (Some (mkregion 1 2 0 1 None)) None None qs)
               = Ok (mkpicture sh (normalise 1 2 true (Some true) (1 * 1) img)) /\ sh = [10; 10]%Z).
  { intros qs img Ei. unfold project, region_info, real_box. cbn [r_z r_xmin r_xmax r_ymin r_ymax andb bind placed].
    replace (2 - 1) with 1 by ring. replace (1 - 0) with 1 by ring. rewrite Rmax_left by lra.
    cbn [depth_mask i_has_z bind pick i_box].
    rewrite (map_ext _ (fun p => mkpart (p_x p - 1) (p_y p) (p_z p) (p_m p) (p_h p))).
    2:{ intro p. unfold normed2. cbn [i_box i_xmin i_ymin i_max rem_if]. f_equal; field. }
    rewrite Ei. cbn [bind drawn fst i_xrange i_yrange i_max]. eexists. split; [reflexivity|].
    rewrite (stop_pixels 10 1 1) by (lra || lia). unfold pixels. replace (IZR 10 * (1 / 1)) with (IZR 10) by field.
    rewrite (ceil_unique 10 10) by lra. reflexivity. }
  destruct (C38_pixels 10 0 0 [beside] 1) as (img & Ei & P); try lia; try lra.
  { left. reflexivity. } { left. reflexivity. }
  { intros p [<-|[]]. unfold settled2, wrapped, fits. repeat split; auto. unfold beside, gamma2. cbn [p_h]. lra. }
  intros (sh & f & g & Ef & Eg & V).
  destruct (G [edge] img) as (sh1 & E1 & S1).
  { cbn [map]. replace (mkpart (p_x edge - 1) (p_y edge) (p_z edge) (p_m edge) (p_h edge)) with beside; [exact Ei|].
    unfold beside, edge. cbn [p_x p_y p_z p_m p_h]. f_equal. lra. }
  destruct (G [] zeros) as (sh2 & E2 & S2); [reflexivity|].
  rewrite E1 in Ef. rewrite E2 in Eg. injection Ef as -> <-. injection Eg as _ <-. subst sh.
  specialize (V [0; 5]%Z eq_refl). unfold normalise, convert in V. replace (1 * 1) with 1 in V by ring. rewrite P in V by lia.
  unfold sum_copies2, all_copies in V. destruct (Req_EM_T 0 0) as [_|X]; [|contradiction]. cbn [map] in V.
  rewrite !sumR_cons, !sumR_nil, !Rplus_0_r in V. unfold deposit2 in V. rewrite beside_width in V.
  destruct (Rlt_dec (25 / 100 * 10) 1); [lra|].
  assert (0 < W2 (dist2 (centre 10 0) (centre 10 5) (p_x beside + 0 * 0) (p_y beside + 0 * 0)) (25 / 100)).
  { rewrite <- kernel2_W2; [|lra|apply dist2_nonneg]. apply kernel2_pos; [lra|apply dist2_nonneg|].
    unfold dist2, centre, beside. cbn [p_x p_y].
    apply (Rle_lt_trans _ (sqrt (1 / 25))).
    - apply sqrt_le_1_alt. lra.
    - replace (1 / 25) with (1 / 5 * (1 / 5)) by lra. rewrite sqrt_square; lra. }
  unfold zeros in V. cbn [p_m beside] in *. lra.
Qed.

Print Assumptions C104_project.
Print Assumptions C104_histogram.
Print Assumptions C104_slice.
Print Assumptions C104_render.
Print Assumptions C104_spatial_project.
Print Assumptions C104_spatial_slice.
Print Assumptions C104_spatial_render.
Print Assumptions C104_no_margin_refuted.
