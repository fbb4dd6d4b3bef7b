(** Theorems about what pictures are made of (C103). *)
From Coq Require Import String List ZArith Reals Bool Ascii Lia Lra Psatz Permutation.
From Verif Require Import Base BaseLemmas VisModel VisSpec VisProofs VisTheorems RotModel HsmlModel FrontModel FrontSpec
  SeenProofs SeenFrontSpec GetModel GetSpec.
Import ListNotations.
Open Scope R_scope.

(** * Attributes *)

Lemma lookup_holds : forall A (before after : list (string * A)) n v, ~ In n (map fst before) ->
  lookup n (before ++ (n, v) :: after)%list = Some v.
Proof.
  intros A before after n v. induction before as [|(m & w) before IH]; intro H; cbn [app lookup].
  - rewrite String.eqb_refl. reflexivity.
  - cbn in H. destruct (String.eqb_spec m n) as [->|_]; [exfalso; apply H; left; reflexivity|]. apply IH. intro I. apply H. right. exact I.
Qed.
Lemma lookup_lacks : forall A (l : list (string * A)) n, ~ In n (map fst l) -> lookup n l = None.
Proof.
  intros A l n. induction l as [|(m & w) l IH]; intro H; [reflexivity|]. cbn in *.
  destruct (String.eqb_spec m n) as [->|_]; [exfalso; apply H; left; reflexivity|]. apply IH. intro I. apply H. right. exact I.
Qed.
Lemma getattr_holds : forall o n r, holds o n r -> getattr o n = r.
Proof. intros o n r (b & a & -> & H). cbn [getattr]. rewrite (lookup_holds _ b a n r H). reflexivity. Qed.
Lemma getattr_lacks : forall o n, lacks o n -> getattr o n = Err AttributeError.
Proof. intros [c r|l] n H; [reflexivity|]. cbn [getattr]. rewrite lookup_lacks; auto. Qed.
Lemma hasattr_holds : forall o n p, holds o n (Ok p) -> hasattr o n = Ok true.
Proof. intros o n p H. unfold hasattr. rewrite (getattr_holds o n _ H). reflexivity. Qed.
Lemma hasattr_lacks : forall o n, lacks o n -> hasattr o n = Ok false.
Proof. intros o n H. unfold hasattr. rewrite (getattr_lacks o n H). reflexivity. Qed.

Lemma split_dotted : forall first rest, dotless first -> Forall dotless rest ->
  split_dots (dotted first rest) = first :: rest.
Proof.
  intros first rest. revert first. induction rest as [|n rest IH]; intros first H Hr; cbn [dotted].
  - induction first as [|c t IHt]; [reflexivity|]. destruct H as (Hc & Ht). cbn [split_dots].
    destruct (Ascii.eqb_spec c "."%char); [contradiction|]. rewrite IHt by exact Ht. reflexivity.
  - inversion Hr as [|? ? Hn Hrest E]. clear E. induction first as [|c t IHt].
    + cbn [append split_dots]. cbn. rewrite IH by assumption. reflexivity.
    + destruct H as (Hc & Ht). change ((String c t ++ "." ++ dotted n rest)%string) with (String c (t ++ "." ++ dotted n rest)).
      cbn [split_dots]. destruct (Ascii.eqb_spec c "."%char); [contradiction|]. rewrite IHt by exact Ht. reflexivity.
Qed.

(** * The weights *)

(** A name with dots is a path of attributes. *)
Theorem C103_field : forall data first rest r, dotless first -> Forall dotless rest ->
  path data (first :: rest) r -> projection_field data (Some (dotted first rest)) = r.
Proof.
  intros data first rest r H Hr P. cbn [projection_field]. rewrite split_dotted by assumption.
  clear H Hr. induction P as [o|o n rest' L|o n rest' e L|o n rest' p r L P IH]; cbn [reduce_getattr].
  - reflexivity.
  - rewrite getattr_lacks by exact L. reflexivity.
  - rewrite (getattr_holds _ _ _ L). reflexivity.
  - rewrite (getattr_holds _ _ _ L). exact IH.
Qed.

(** Every path leads somewhere, to one thing. *)
Theorem C103_field_total : forall names data, exists r, path data names r /\ forall r', path data names r' -> r' = r.
Proof.
  induction names as [|n rest IH]; intro data.
  - exists (Ok data). split; [constructor|]. intros r' P. inversion P. reflexivity.
  - assert (C : lacks data n \/ exists r, holds data n r).
    { destruct data as [c rows|l]; [left; exact I|]. cbn [lacks].
      induction l as [|(m & w) l IHl]; [left; intros []|]. destruct (String.eqb_spec m n) as [->|D].
      - right. exists w, [], l. split; [reflexivity|intros []].
      - destruct IHl as [L|(r & b & a & E & Nb)].
        + left. cbn. intros [X|X]; [contradiction|apply L, X].
        + right. injection E as E. exists r, ((m, w) :: b), a. split; [rewrite E; reflexivity|]. cbn. intros [X|X]; auto. }
    destruct C as [L|(r & H)].
    + exists (Err AttributeError). split; [constructor; exact L|]. intros r' P.
      pose proof (getattr_lacks _ _ L) as G.
      inversion P as [|o n' re L'|o n' re e L'|o n' re p r'' L' P']; subst; try reflexivity; rewrite (getattr_holds _ _ _ L') in G; congruence.
    + pose proof (getattr_holds _ _ _ H) as G. destruct r as [p|e].
      * destruct (IH p) as (r & Pr & U). exists r. split; [apply (path_step _ _ _ p); assumption|]. intros r' P.
        inversion P as [|o n' re L'|o n' re e L'|o n' re p' r'' L' P']; subst.
        -- rewrite (getattr_lacks _ _ L') in G. discriminate.
        -- rewrite (getattr_holds _ _ _ L') in G. discriminate.
        -- rewrite (getattr_holds _ _ _ L') in G. injection G as ->. apply U. exact P'.
      * exists (Err e). split; [apply path_fails; exact H|]. intros r' P.
        inversion P as [|o n' re L'|o n' re e' L'|o n' re p' r'' L' P']; subst.
        -- rewrite (getattr_lacks _ _ L') in G. congruence.
        -- rewrite (getattr_holds _ _ _ L') in G. congruence.
        -- rewrite (getattr_holds _ _ _ L') in G. discriminate.
Qed.

(** Without a name every particle counts as one, in the frame of the ids. *)
Theorem C103_counts : forall data c ids, holds data "particle_ids" (Ok (array_of c ids)) ->
  projection_field data None = Ok (array_of c (map (fun _ => 1) ids)).
Proof.
  intros data c ids H. cbn [projection_field]. rewrite (getattr_holds _ _ _ H). cbn [bind array_of]. unfold array_of.
  rewrite !map_map. reflexivity.
Qed.

(** * Smoothing lengths *)

Lemma numbers_array : forall c l, numbers (array_of c l) = Ok l.
Proof. intros c l. unfold numbers, array_of. rewrite map_map. cbn [number]. rewrite (all_ok_map_ok (fun x => x)). rewrite map_id. reflexivity. Qed.
Lemma points_array : forall c l, points (array_of_points c l) = Ok l.
Proof.
  intros c l. unfold points, array_of_points. rewrite map_map.
  rewrite (map_ext _ (fun x => Ok x)) by (intros ((x & y) & z); reflexivity). rewrite (all_ok_map_ok (fun x => x)), map_id. reflexivity.
Qed.

Theorem C103_sph : forall data,
  (forall c hs, holds data "smoothing_lengths" (Ok (array_of c hs)) -> get_hsml_sph data = Ok hs)
  /\ (forall c hs, lacks data "smoothing_lengths" -> holds data "smoothing_length" (Ok (array_of c hs)) -> get_hsml_sph data = Ok hs)
  /\ (lacks data "smoothing_lengths" -> lacks data "smoothing_length" -> get_hsml_sph data = Err AttributeError).
Proof.
  intro data. unfold get_hsml_sph. repeat split.
  - intros c hs H. rewrite (hasattr_holds _ _ _ H), (getattr_holds _ _ _ H). cbn [bind]. apply numbers_array.
  - intros c hs L H. rewrite (hasattr_lacks _ _ L), (hasattr_holds _ _ _ H), (getattr_holds _ _ _ H). cbn [bind]. apply numbers_array.
  - intros L L'. rewrite (hasattr_lacks _ _ L), (hasattr_lacks _ _ L'). reflexivity.
Qed.

Lemma cbrt_cube : forall x, cbrt x * cbrt x * cbrt x = x.
Proof.
  assert (P : forall x, 0 < x -> Rpower x (1 / 3) * Rpower x (1 / 3) * Rpower x (1 / 3) = x).
  { intros x Hx. rewrite <- !Rpower_plus. replace (1 / 3 + 1 / 3 + 1 / 3) with 1 by field. apply Rpower_1. exact Hx. }
  intro x. unfold cbrt. destruct (Req_EM_T x 0) as [->|N]; [ring|]. destruct (Rlt_dec x 0) as [L|L].
  - transitivity (- (Rpower (- x) (1 / 3) * Rpower (- x) (1 / 3) * Rpower (- x) (1 / 3))); [ring|]. rewrite P by lra. ring.
  - apply P. lra.
Qed.

(** For nearest neighbours: the edge of a cube of the particle's volume, which is given or mass over density. *)
Theorem C103_nearest : forall data,
  (forall c vs, holds data "volumes" (Ok (array_of c vs)) ->
     exists hs, get_hsml_nearest data = Ok hs /\ Forall2 (fun v h => h * h * h = v) vs hs)
  /\ (forall c ms c' ds, lacks data "volumes" -> holds data "masses" (Ok (array_of c ms)) -> holds data "densities" (Ok (array_of c' ds)) ->
     List.length ms = List.length ds -> Forall (fun d => d <> 0) ds ->
     exists hs, get_hsml_nearest data = Ok hs /\ Forall2 (fun md h => h * h * h * snd md = fst md) (combine ms ds) hs)
  /\ (forall c ms, lacks data "volumes" -> lacks data "masses" \/ holds data "masses" (Ok (array_of c ms)) /\ lacks data "densities" ->
     get_hsml_nearest data = get_hsml_sph data).
Proof.
  intro data. unfold get_hsml_nearest. repeat split.
  - intros c vs H. rewrite (hasattr_holds _ _ _ H), (getattr_holds _ _ _ H). cbn [bind]. rewrite numbers_array. cbn [bind].
    eexists. split; [reflexivity|]. clear H. induction vs as [|v vs IH]; cbn [map]; constructor; auto. apply cbrt_cube.
  - intros c ms c' ds L Hm Hd Hl Hz. rewrite (hasattr_lacks _ _ L), (hasattr_holds _ _ _ Hm), (hasattr_holds _ _ _ Hd). cbn [bind].
    rewrite (getattr_holds _ _ _ Hm), (getattr_holds _ _ _ Hd). cbn [bind]. rewrite !numbers_array. cbn [bind].
    apply Nat.eqb_eq in Hl. rewrite Hl. apply Nat.eqb_eq in Hl. clear L Hm Hd.
    assert (E : all_ok (map (fun xy => divide (fst xy) (snd xy)) (combine ms ds)) = Ok (map (fun xy => fst xy / snd xy) (combine ms ds))).
    { revert ds Hl Hz. induction ms as [|m ms IH]; intros [|d ds] Hl Hz; try discriminate; [reflexivity|].
      inversion Hz as [|? ? Zd Zr]. subst. injection Hl as Hl. cbn [combine map all_ok fst snd]. unfold divide at 1.
      destruct (Req_EM_T d 0); [contradiction|]. rewrite (IH ds Hl Zr). reflexivity. }
    rewrite E. cbn [bind]. eexists. split; [reflexivity|]. clear E.
    revert ds Hl Hz. induction ms as [|m ms IH]; intros [|d ds] Hl Hz; try discriminate; [constructor|].
    inversion Hz as [|? ? Zd Zr]. subst. injection Hl as Hl. cbn [combine map fst snd]. constructor; [|apply IH; assumption].
    cbn [fst snd]. rewrite cbrt_cube. field. exact Zd.
  - intros c ms L [Lm|(Hm & Ld)]; rewrite (hasattr_lacks _ _ L); cbn [bind].
    + rewrite (hasattr_lacks _ _ Lm). reflexivity.
    + rewrite (hasattr_holds _ _ _ Hm), (hasattr_lacks _ _ Ld). reflexivity.
Qed.

(** * Particles *)

Lemma particles_made : forall ps, particles (map (fun p => (p_x p, p_y p, p_z p)) ps) (map p_m ps) (map p_h ps) = Ok ps.
Proof. induction ps as [|[x y z m h] ps IH]; [reflexivity|]. cbn [map particles p_x p_y p_z p_m p_h]. rewrite IH. reflexivity. Qed.

Theorem C103_particles : forall cs ms hs ps, particles cs ms hs = Ok ps <-> made_of cs ms hs ps.
Proof.
  intros cs ms hs ps. split.
  - revert ms hs ps. induction cs as [|((x & y) & z) cs IH]; intros [|m ms] [|h hs] ps H; cbn [particles] in H; try discriminate.
    + injection H as <-. repeat split.
    + destruct (particles cs ms hs) as [qs|] eqn:E; [|discriminate]. injection H as <-. destruct (IH _ _ _ E) as (A & B & C).
      unfold made_of. cbn [map p_x p_y p_z p_m p_h]. rewrite A, B, C. repeat split.
  - intros (<- & <- & <-). apply particles_made.
Qed.

(** * Backends *)

Theorem C103_projection_names : forall s name n bx by_ ps,
  scheduled s ->
  (In name ["histogram"; "fast"; "renormalised"; "subsampled"; "subsampled_extreme"; "reference"; "gpu"]%string ->
   agree (square n) (projection_backend s false name n bx by_ ps) (projection_backend s true name n bx by_ ps))
  /\ (~ In name ["histogram"; "fast"; "renormalised"; "subsampled"; "subsampled_extreme"; "reference"; "gpu"]%string ->
      forall par, projection_backend s par name n bx by_ ps = Err KeyError)
  /\ projection_backend s false "fast" n bx by_ ps = fast n bx by_ ps
  /\ projection_backend s false "histogram" n bx by_ ps = histogram n bx by_ ps
  /\ projection_backend s false "renormalised" n bx by_ ps = renormalised n bx by_ ps
  /\ projection_backend s false "subsampled" n bx by_ ps = subsampled 16 32 n bx by_ ps
  /\ projection_backend s false "subsampled_extreme" n bx by_ ps = subsampled 32 64 n bx by_ ps
  /\ projection_backend s false "reference" n bx by_ ps = reference n bx by_ ps
  /\ agree (square n) (fast n bx by_ ps) (projection_backend s false "gpu" n bx by_ ps).
Proof.
  intros s name n bx by_ ps (Ht & Ho & Hg). split; [|split; [|repeat split]].
  - intro I. repeat (destruct I as [<-|I]; [|]); [| | | | | | |destruct I]; cbn [projection_backend String.eqb Ascii.eqb Bool.eqb].
    + apply C36_histogram; assumption.
    + apply C36_fast; assumption.
    + apply C36_renormalised; assumption.
    + apply C36_subsampled; assumption.
    + apply C36_subsampled; assumption.
    + apply C36_reference; assumption.
    + apply (agree_trans _ _ (fast n bx by_ ps)); [apply agree_sym|]; apply C36_gpu, Hg.
  - intros N par. cbn [In] in N. unfold projection_backend.
    repeat (match goal with |- context [String.eqb name ?x] => destruct (String.eqb_spec name x) as [->|]; [exfalso; apply N; tauto|] end).
    reflexivity.
  - apply C36_gpu, Hg.
Qed.

Theorem C103_slice_names : forall s name xres yres zs bx by_ bz ps,
  scheduled s ->
  (name <> "sph" -> name <> "nearest_neighbours" -> forall par, slice_backend s par name xres yres zs bx by_ bz ps = Err KeyError)%string
  /\ slice_backend s false "sph" xres yres zs bx by_ bz ps = slice_scatter xres yres zs bx by_ bz ps
  /\ agree [xres; yres] (slice_backend s false "sph" xres yres zs bx by_ bz ps) (slice_backend s true "sph" xres yres zs bx by_ bz ps)
  /\ (forall par, slice_backend s par "nearest_neighbours" xres yres zs bx by_ bz ps = nearest_slice xres yres zs (bx, by_, bz) ps)
  /\ (forall n, volume_backend s false n bx by_ bz ps = volume n bx by_ bz ps
      /\ agree (cube n) (volume_backend s false n bx by_ bz ps) (volume_backend s true n bx by_ bz ps)).
Proof.
  intros s name xres yres zs bx by_ bz ps (Ht & Ho & Hg). split; [|split; [|split; [|split]]]; try reflexivity.
  - intros N N' par. unfold slice_backend. destruct (String.eqb_spec name "sph"); [contradiction|].
    destruct (String.eqb_spec name "nearest_neighbours"); [contradiction|]. reflexivity.
  - apply C36_slice; assumption.
  - intro n. split; [reflexivity|]. apply C36_volume; assumption.
Qed.

(** * Whole functions *)

Lemma read_for_ok : forall cubic box hsml data l c ms c' ps,
  projection_field data (l_project l) = Ok (array_of c ms) -> ms = map p_m ps ->
  holds data "coordinates" (Ok (array_of_points (Some c') (map (fun p => (p_x p, p_y p, p_z p)) ps))) ->
  hsml data = Ok (map p_h ps) ->
  read_for cubic box hsml data l
  = do _ <- region_info cubic (l_periodic l) box (l_region l); Ok (mkread ps c' c).
Proof.
  intros cubic box hsml data l c ms c' ps Hm -> Hc H. unfold read_for. rewrite Hm. cbn [bind].
  destruct (region_info cubic (l_periodic l) box (l_region l)); [|reflexivity]. cbn [bind]. rewrite H. cbn [bind].
  rewrite (getattr_holds _ _ _ Hc). cbn [bind]. unfold comoving_flag, flag at 1, array_of_points at 1. cbn [bind].
  rewrite points_array. cbn [bind]. rewrite numbers_array. cbn [bind]. rewrite particles_made. reflexivity.
Qed.

(** With the weights, coordinates and smoothing lengths of the particles in the group, the functions make the
    pictures of the particles. *)
Theorem C103_project : forall s junk a box data l c c' ms ps,
  l_backend l <> "histogram"%string ->
  projection_field data (l_project l) = Ok (array_of c ms) -> ms = map p_m ps ->
  holds data "coordinates" (Ok (array_of_points (Some c') (map (fun p => (p_x p, p_y p, p_z p)) ps))) ->
  get_hsml_sph data = Ok (map p_h ps) ->
  project_pixel_grid s junk a box data l
  = project (projection_backend s (l_parallel l) (l_backend l)) a c' c
      (l_resolution l) (l_periodic l) box (l_region l) (l_rotation l) (l_mask l) ps.
Proof.
  intros s junk a box data l c c' ms ps Hb Hm E Hc Hh. unfold project_pixel_grid.
  destruct (String.eqb_spec (l_backend l) "histogram"); [contradiction|].
  rewrite (read_for_ok false box (backends_get_hsml junk "sph") data l c ms c' ps Hm E Hc Hh).
  unfold project. destruct (region_info false (l_periodic l) box (l_region l)); reflexivity.
Qed.

Theorem C103_slice : forall s junk a z_slice box data l c c' ms ps,
  projection_field data (l_project l) = Ok (array_of c ms) -> ms = map p_m ps ->
  holds data "coordinates" (Ok (array_of_points (Some c') (map (fun p => (p_x p, p_y p, p_z p)) ps))) ->
  (l_backend l = "sph"%string /\ get_hsml_sph data = Ok (map p_h ps))
    \/ (l_backend l = "nearest_neighbours"%string /\ get_hsml_nearest data = Ok (map p_h ps)) ->
  slice_pixel_grid s junk a z_slice box data l
  = slice_grid (slice_backend s (l_parallel l) (l_backend l)) a c' c
      (l_resolution l) z_slice (l_periodic l) box (l_region l) (l_rotation l) (l_mask l) ps.
Proof.
  intros s junk a z_slice box data l c c' ms ps Hm E Hc Hh. unfold slice_pixel_grid.
  rewrite (read_for_ok false box (backends_get_hsml junk (l_backend l)) data l c ms c' ps Hm E Hc).
  - unfold slice_grid. destruct (region_info false (l_periodic l) box (l_region l)); reflexivity.
  - destruct Hh as [(-> & Hh)|(-> & Hh)]; exact Hh.
Qed.

Theorem C103_render : forall s junk a box data l c c' ms ps,
  projection_field data (l_project l) = Ok (array_of c ms) -> ms = map p_m ps ->
  holds data "coordinates" (Ok (array_of_points (Some c') (map (fun p => (p_x p, p_y p, p_z p)) ps))) ->
  get_hsml_sph data = Ok (map p_h ps) ->
  render_voxel_grid s junk a box data l
  = voxel_grid (volume_backend s (l_parallel l)) a c' c
      (l_resolution l) (l_periodic l) box (l_region l) (l_rotation l) (l_mask l) ps.
Proof.
  intros s junk a box data l c c' ms ps Hm E Hc Hh. unfold render_voxel_grid.
  rewrite (read_for_ok true box (backends_get_hsml junk "sph") data l c ms c' ps Hm E Hc Hh).
  unfold voxel_grid. destruct (region_info true (l_periodic l) box (l_region l)); reflexivity.
Qed.

(** Gas. *)
Theorem C103_gas : forall s junk a z_slice box dataset l,
  (forall g, holds dataset "gas" (Ok g) ->
     project_gas s junk a box dataset l = project_pixel_grid s junk a box g l
     /\ slice_gas s junk a z_slice box dataset l = slice_pixel_grid s junk a z_slice box g l
     /\ render_gas s junk a box dataset l = render_voxel_grid s junk a box g l)
  /\ (lacks dataset "gas" ->
     project_gas s junk a box dataset l = Err AttributeError
     /\ slice_gas s junk a z_slice box dataset l = Err AttributeError
     /\ render_gas s junk a box dataset l = Err AttributeError).
Proof.
  intros s junk a z_slice box dataset l. unfold project_gas, slice_gas, render_gas. split.
  - intros g H. rewrite (getattr_holds _ _ _ H). repeat split.
  - intro L. rewrite (getattr_lacks _ _ L). repeat split.
Qed.

(** * Histograms *)

Definition bare (p : part) : part := mkpart (p_x p) (p_y p) (p_z p) (p_m p) 0.

Lemma histogram_bare : forall n bx by_ ps qs, map bare ps = map bare qs -> histogram n bx by_ ps = histogram n bx by_ qs.
Proof.
  intros n bx by_ ps qs H. unfold histogram. f_equal.
  assert (E : forall us, flat_map (histogram_part n bx by_) us = flat_map (histogram_part n bx by_) (map bare us)).
  { induction us as [|u us IH]; [reflexivity|]. cbn [flat_map map]. rewrite IH. reflexivity. }
  rewrite (E ps), (E qs), H. reflexivity.
Qed.

Lemma slice_map : forall A B (f : A -> B) l r, map f (slice l r) = slice (map f l) r.
Proof. intros A B f l r. unfold slice. rewrite skipn_map, firstn_map. reflexivity. Qed.

Lemma histogram_parallel_bare : forall n bx by_ ps qs t o, map bare ps = map bare qs ->
  histogram_parallel n bx by_ ps t o = histogram_parallel n bx by_ qs t o.
Proof.
  intros n bx by_ ps qs t o H. unfold histogram_parallel, parallel. generalize zeros.
  assert (Z : zlen ps = zlen qs).
  { unfold zlen. rewrite <- (map_length bare ps), <- (map_length bare qs), H. reflexivity. }
  induction o as [|x o IH]; intro img; [reflexivity|]. cbn [reduce]. rewrite Z.
  pose proof (histogram_bare n bx by_ (slice ps (thread_range (zlen qs) t x)) (slice qs (thread_range (zlen qs) t x))) as Q.
  unfold histogram in Q. rewrite Q by (rewrite !slice_map, H; reflexivity). clear Q.
  destruct (render _ _); [|reflexivity]. cbn [bind]. destruct (iadd _ _ _ _); [|reflexivity]. cbn [bind]. apply IH.
Qed.

Lemma pick_map : forall A B (f : A -> B) bs l, pick bs (map f l) = do x <- pick bs l; Ok (map f x).
Proof.
  intros A B f [bs|] l; [|reflexivity]. unfold pick. unfold zlen. rewrite map_length.
  destruct (Z.eqb _ _); [|reflexivity]. cbn [bind]. f_equal.
  revert l. induction bs as [|b bs IH]; intros [|x l]; [reflexivity..|]. cbn [combine map filter fst snd].
  destruct b; cbn [map snd]; rewrite IH; reflexivity.
Qed.

Lemma project_bare : forall backend a coords frame n periodic box r rotation mask ps qs,
  (forall n bx by_ ps qs, map bare ps = map bare qs -> backend n bx by_ ps = backend n bx by_ qs) ->
  map bare ps = map bare qs ->
  drawn (project backend a coords frame n periodic box r rotation mask ps)
  = drawn (project backend a coords frame n periodic box r rotation mask qs).
Proof.
  intros backend a coords frame n periodic box r rotation mask ps qs Hb H. unfold project.
  destruct (region_info false periodic box r) as [i|e]; [|reflexivity]. cbn [bind].
  assert (P : exists us us' st st', placed periodic box rotation ps = Ok (us, st) /\ placed periodic box rotation qs = Ok (us', st')
              /\ map bare us = map bare us'
          \/ placed periodic box rotation ps = Err ValueError /\ placed periodic box rotation qs = Err ValueError).
  { assert (G : forall f : vec -> vec, map bare (map (fun p => moved p (f (position p))) ps) = map bare (map (fun p => moved p (f (position p))) qs)).
    { intro f. rewrite !map_map.
      assert (G' : forall us, map (fun p => bare (moved p (f (position p)))) us = map (fun p => bare (moved p (f (position p)))) (map bare us)).
      { intro us. rewrite map_map. apply map_ext. intros [x y z m h]. unfold moved, bare, position. cbn. destruct (f _) as ((? & ?) & ?). reflexivity. }
      rewrite (G' ps), (G' qs), H. reflexivity. }
    unfold placed. destruct rotation as [(mt & ct)|], periodic.
    - exists [], [], [], []. right. split; reflexivity.
    - do 4 eexists. left. split; [reflexivity|split; [reflexivity|]]. apply G.
    - do 4 eexists. left. split; [reflexivity|split; [reflexivity|]]. apply (G (rem_point box)).
    - do 4 eexists. left. split; [reflexivity|split; [reflexivity|]]. exact H. }
  destruct P as (us & us' & st & st' & [(E & E' & U)|(E & E')]); rewrite E, E'; [|reflexivity]. cbn [bind].
  assert (D : depth_mask periodic box i mask us = depth_mask periodic box i mask us').
  { unfold depth_mask. destruct box as ((lx & ly) & lz).
    assert (Zs : map (fun p => in_depth periodic lz (i_zmin i) (i_zmax i) (p_z p)) us = map (fun p => in_depth periodic lz (i_zmin i) (i_zmax i) (p_z p)) us').
    { transitivity (map (fun p => in_depth periodic lz (i_zmin i) (i_zmax i) (p_z p)) (map bare us)); [rewrite map_map; reflexivity|].
      rewrite U, map_map. reflexivity. }
    rewrite Zs. reflexivity. }
  rewrite D. destruct (depth_mask periodic box i mask us') as [bs|e]; [|reflexivity]. cbn [bind].
  pose proof (pick_map _ _ bare bs us) as P1. pose proof (pick_map _ _ bare bs us') as P2. rewrite U in P1. rewrite P1 in P2.
  destruct (pick bs us) as [vs|e], (pick bs us') as [vs'|e']; cbn [bind] in P2 |- *; try discriminate; [|congruence].
  injection P2 as V. destruct (i_box i) as ((bx & by_) & bz) eqn:Ib.
  rewrite (Hb n bx by_ (map (normed2 periodic i) vs) (map (normed2 periodic i) vs')).
  - destruct (backend _ _ _ _); reflexivity.
  - rewrite !map_map.
    assert (G : forall ws, map (fun p => bare (normed2 periodic i p)) ws = map (fun p => bare (normed2 periodic i p)) (map bare ws)).
    { intro ws. rewrite map_map. apply map_ext. intros [x y z m h]. unfold normed2, bare. rewrite Ib. reflexivity. }
    rewrite (G vs), (G vs'), V. reflexivity.
Qed.

(** A histogram has no smoothing lengths: the picture is that of the particles with any lengths, whatever numbers
    the uninitialised array holds. *)
Theorem C103_histogram : forall s junk a box data l c c' c'' ms ws ps,
  l_backend l = "histogram"%string ->
  projection_field data (l_project l) = Ok (array_of c ws) -> ws = map p_m ps ->
  holds data "coordinates" (Ok (array_of_points (Some c') (map (fun p => (p_x p, p_y p, p_z p)) ps))) ->
  holds data "masses" (Ok (array_of c'' ms)) -> List.length ms = List.length ps ->
  drawn (project_pixel_grid s junk a box data l)
  = drawn (project (projection_backend s (l_parallel l) "histogram") a c' c
             (l_resolution l) (l_periodic l) box (l_region l) (l_rotation l) (l_mask l) ps).
Proof.
  intros s junk a box data l c c' c'' ms ws ps Hb Hw -> Hc Hm Hl. unfold project_pixel_grid. rewrite Hb. cbn [String.eqb Ascii.eqb Bool.eqb].
  assert (Q : exists qs, map bare qs = map bare ps /\ map p_h qs = map junk (seq 0 (List.length ms))).
  { rewrite Hl. clear. generalize 0%nat. induction ps as [|p ps IH]; intro k.
    - exists []. split; reflexivity.
    - destruct (IH (S k)) as (qs & A & B). exists (mkpart (p_x p) (p_y p) (p_z p) (p_m p) (junk k) :: qs).
      cbn [map List.length seq]. rewrite A, B. split; reflexivity. }
  destruct Q as (qs & A & B).
  assert (M : forall X (f : part -> X), (forall p, f (bare p) = f p) -> map f ps = map f qs).
  { intros X f F. transitivity (map f (map bare ps)); [rewrite map_map; apply map_ext; intro; symmetry; apply F|].
    rewrite <- A, map_map. apply map_ext. exact F. }
  rewrite (read_for_ok false box (backends_get_hsml junk "histogram") data l c (map p_m ps) c' qs Hw).
  - transitivity (drawn (project (projection_backend s (l_parallel l) "histogram") a c' c
             (l_resolution l) (l_periodic l) box (l_region l) (l_rotation l) (l_mask l) qs)).
    + unfold project. destruct (region_info false (l_periodic l) box (l_region l)); reflexivity.
    + apply project_bare; [|exact A]. intros n bx by_ us us' U. cbn [projection_backend String.eqb Ascii.eqb Bool.eqb].
      destruct (l_parallel l); [apply histogram_parallel_bare|apply histogram_bare]; exact U.
  - apply M. reflexivity.
  - rewrite <- (M _ (fun p => (p_x p, p_y p, p_z p))) by reflexivity. exact Hc.
  - cbn [backends_get_hsml String.eqb Ascii.eqb Bool.eqb]. unfold get_hsml_histogram. rewrite (getattr_holds _ _ _ Hm). cbn [bind].
    rewrite numbers_array. cbn [bind]. rewrite B. reflexivity.
Qed.

(** But it needs masses, even where they are not what is projected; and needs none of the lengths the others need. *)
Theorem C103_histogram_masses_refuted : forall s junk a box data l m,
  l_backend l = "histogram"%string -> projection_field data (l_project l) = Ok m -> lacks data "masses" ->
  (exists i, region_info false (l_periodic l) box (l_region l) = Ok i) ->
  project_pixel_grid s junk a box data l = Err AttributeError.
Proof.
  intros s junk a box data l m Hb Hm L (i & R). unfold project_pixel_grid, read_for. rewrite Hb, Hm, R. cbn.
  unfold get_hsml_histogram. rewrite (getattr_lacks _ _ L). reflexivity.
Qed.

(** Whatever fails while the fields are read, fails the picture: a missing field of weights, missing lengths. *)
Theorem C103_missing : forall s junk a z_slice box data l,
  (forall e, projection_field data (l_project l) = Err e ->
     project_pixel_grid s junk a box data l = Err e /\ slice_pixel_grid s junk a z_slice box data l = Err e
     /\ render_voxel_grid s junk a box data l = Err e)
  /\ (forall m i i', projection_field data (l_project l) = Ok m ->
      region_info false (l_periodic l) box (l_region l) = Ok i -> region_info true (l_periodic l) box (l_region l) = Ok i' ->
      lacks data "smoothing_lengths" -> lacks data "smoothing_length" ->
      (l_backend l <> "histogram" -> project_pixel_grid s junk a box data l = Err AttributeError)%string
      /\ (l_backend l = "sph" -> slice_pixel_grid s junk a z_slice box data l = Err AttributeError)%string
      /\ render_voxel_grid s junk a box data l = Err AttributeError).
Proof.
  intros s junk a z_slice box data l. unfold project_pixel_grid, slice_pixel_grid, render_voxel_grid, read_for. split.
  - intros e H. rewrite H. repeat split.
  - intros m i i' Hm R R' L L'. destruct (C103_sph data) as (_ & _ & X). specialize (X L L').
    rewrite Hm, R, R'. cbn [bind]. repeat split.
    + intro N. destruct (String.eqb_spec (l_backend l) "histogram"); [contradiction|]. cbn. rewrite X. reflexivity.
    + intros ->. cbn. rewrite X. reflexivity.
    + cbn. rewrite X. reflexivity.
Qed.

(** * Cases *)

Definition two_parts : list part := [mkpart (1/4) (1/4) (1/2) 3 (1/8); mkpart (3/4) (3/4) (1/2) 5 (1/16)].
Definition two_group : obj :=
  OGroup [("coordinates", Ok (array_of_points (Some true) (map (fun p => (p_x p, p_y p, p_z p)) two_parts)));
          ("masses", Ok (array_of (Some true) [3; 5]));
          ("smoothing_lengths", Ok (array_of (Some true) [1/8; 1/16]));
          ("particle_ids", Ok (array_of None [7; 9]));
          ("element_mass_fractions", Ok (OGroup [("hydrogen", Ok (array_of (Some true) [2; 4]))]))]%string.
Definition two_look (project backend : string) : look := mklook 16 (Some project) None None None false backend true.

Example C103_project_case : forall s junk,
  project_pixel_grid s junk 1 (1, 1, 1) two_group (two_look "masses" "fast")
  = project fast 1 true (Some true) 16 true (1, 1, 1) None None None two_parts.
Proof.
  intros s junk. apply (C103_project s junk 1 (1, 1, 1) two_group (two_look "masses" "fast") (Some true) true [3; 5] two_parts).
  - discriminate.
  - reflexivity.
  - reflexivity.
  - exists [], (match two_group with OGroup (_ :: l) => l | _ => [] end). split; [reflexivity|intros []].
  - apply (proj1 (C103_sph two_group) (Some true)).
    exists (match two_group with OGroup [a; b; _; _; _] => [a; b] | _ => [] end), (match two_group with OGroup [_; _; _; d; e] => [d; e] | _ => [] end).
    split; [reflexivity|]. cbn. intros [X|[X|[]]]; discriminate.
Qed.
Example C103_field_case :
  projection_field two_group (Some "element_mass_fractions.hydrogen"%string) = Ok (array_of (Some true) [2; 4])
  /\ projection_field two_group (Some "element_mass_fractions.iron"%string) = Err AttributeError
  /\ projection_field two_group None = Ok (array_of None [1; 1]).
Proof. repeat split. Qed.
Example C103_nearest_case : exists hs, get_hsml_nearest (OGroup [("volumes", Ok (array_of None [8; 27]))]%string) = Ok hs
  /\ Forall2 (fun v h => h * h * h = v) [8; 27] hs.
Proof.
  apply (proj1 (C103_nearest _) None). exists [], []. split; [reflexivity|intros []].
Qed.
Example C103_gas_case : forall s junk l, project_gas s junk 1 (1, 1, 1) (OGroup [("dark_matter", Ok two_group)]%string) l = Err AttributeError.
Proof. intros s junk l. apply (proj2 (C103_gas s junk 1 None (1, 1, 1) _ l)). cbn. intros [X|[]]. discriminate. Qed.

Print Assumptions C103_field.
Print Assumptions C103_field_total.
Print Assumptions C103_counts.
Print Assumptions C103_sph.
Print Assumptions C103_nearest.
Print Assumptions C103_particles.
Print Assumptions C103_projection_names.
Print Assumptions C103_slice_names.
Print Assumptions C103_project.
Print Assumptions C103_slice.
Print Assumptions C103_render.
Print Assumptions C103_gas.
Print Assumptions C103_histogram.
Print Assumptions C103_histogram_masses_refuted.
Print Assumptions C103_missing.
