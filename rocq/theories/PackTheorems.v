(** C129: what works without the optional packages. *)
From Coq Require Import List Bool ZArith Lia.
From Verif Require Import Base PackModel.
Import ListNotations.

(** Packages as they can be installed: CUDA is a part of numba, and there is at least one thread. *)
Definition possible (p : packages) : Prop := (numba p = NumbaNone -> cuda p = NoErrorClass) /\ (0 < threads p)%nat.
(** CUDA works. *)
Definition cuda_works (p : packages) : Prop := cuda p = Asked true \/ cuda p = Driver true.
(** Objects of remote files need the library that makes them. *)
Definition exists_with (p : packages) (o : object) : Prop := o_library o = Hdfstream -> has_hdfstream p = true.

(** Every flag says whether the package is there, and the name beside it is real exactly then. *)
Theorem C129_flags : forall p,
  (TQDM_AVAILABLE (optional p) = true <-> has_tqdm p = true)
  /\ (TREE_AVAILABLE (optional p) = true <-> has_scipy p = true) /\ (n_tree (optional p) = Real <-> has_scipy p = true)
  /\ (ASTROPY_AVAILABLE (optional p) = true <-> has_astropy p = true) /\ (n_astropy (optional p) = Real <-> has_astropy p = true)
  /\ (MATPLOTLIB_AVAILABLE (optional p) = true <-> has_matplotlib p = true) /\ (n_plt (optional p) = Real <-> has_matplotlib p = true)
  /\ (HDFSTREAM_AVAILABLE (optional p) = true <-> has_hdfstream p = true) /\ (n_hdfstream (optional p) = Real <-> has_hdfstream p = true)
  /\ (n_tqdm (optional p) = Real <-> has_tqdm p = true) /\ (n_jit (optional p) = Real <-> numba p <> NumbaNone).
Proof.
  intros [t sc a m h n th c]. unfold optional. cbn [TQDM_AVAILABLE TREE_AVAILABLE n_tree ASTROPY_AVAILABLE n_astropy MATPLOTLIB_AVAILABLE n_plt
    HDFSTREAM_AVAILABLE n_hdfstream n_tqdm n_jit has_tqdm has_scipy has_astropy has_matplotlib has_hdfstream numba threads].
  repeat match goal with |- _ /\ _ => split end; try tauto; try (destruct t, sc, a, m, h; cbn; split; congruence).
  destruct n; cbn; split; congruence.
Qed.
(** The flag of CUDA, and with it the module and the compiler, are there exactly if CUDA works; then numba is as well. *)
Theorem C129_cuda : forall p, possible p ->
  (CUDA_AVAILABLE (optional p) = true <-> cuda_works p)
  /\ (n_cuda (optional p) = Real <-> cuda_works p) /\ (n_cuda_jit (optional p) = Real <-> cuda_works p)
  /\ (cuda_works p -> n_jit (optional p) = Real /\ n_error (optional p) = Real).
Proof.
  intros [t sc a m h n th c] (N & _). unfold optional, cuda_works, cuda_names. cbn [CUDA_AVAILABLE n_cuda n_cuda_jit n_jit n_error numba threads cuda] in *.
  destruct c as [| | |[]|[]]; cbn [cuda_flag fst snd] in *;
    repeat match goal with |- _ /\ _ => split end; try (split; [intuition congruence|intros [E|E]; congruence]); try (intros [E|E]; congruence);
    try (intros _; destruct n; cbn; try (split; reflexivity); specialize (N eq_refl); congruence).
Qed.
(** Without numba everything runs on one thread; with it, on its number of threads. *)
(** Without it [cuda_jit] is a substitute (a decorator) and [cuda] is [None]; the other packages likewise. *)
Theorem C129_substitutes : forall p,
  (possible p -> ~ cuda_works p -> n_cuda_jit (optional p) = Substitute /\ n_cuda (optional p) = NoneValue)
  /\ (has_tqdm p = false -> n_tqdm (optional p) = Substitute) /\ (numba p = NumbaNone -> n_jit (optional p) = Substitute)
  /\ (has_scipy p = false -> n_tree (optional p) = NoneValue) /\ (has_astropy p = false -> n_astropy (optional p) = NoneValue)
  /\ (has_matplotlib p = false -> n_plt (optional p) = NoneValue) /\ (has_hdfstream p = false -> n_hdfstream (optional p) = NoneValue).
Proof.
  intro p. split.
  - intros H W. destruct (C129_cuda p H) as (F & _). unfold optional in *. cbn [CUDA_AVAILABLE n_cuda_jit n_cuda] in *. unfold cuda_names.
    destruct (fst (cuda_flag (cuda p))); [exfalso; apply W, F; reflexivity|split; reflexivity].
  - destruct p as [t sc a m h n th c]. cbn. repeat match goal with |- _ /\ _ => split end; intros ->; reflexivity.
Qed.
Theorem C129_threads : forall p, possible p ->
  (0 < NUM_THREADS (optional p))%nat /\ (numba p = NumbaNone -> NUM_THREADS (optional p) = 1%nat)
  /\ (numba p <> NumbaNone -> NUM_THREADS (optional p) = threads p).
Proof.
  intros [t sc a m h n th c] (_ & T). unfold optional. cbn [NUM_THREADS numba threads] in *. destruct n; cbn; repeat match goal with |- _ /\ _ => split end; intros; try congruence; lia.
Qed.

(** Smoothing lengths and nearest-neighbour slices need scipy, GPU projections need CUDA, and nothing else: with it they go
    on, without it they stop with an error that says so. *)
Theorem C129_tree : forall A p (call : A), tree_checked (optional p) call = if has_scipy p then Goes call else Stops ImportErr.
Proof. intros A [t sc a m h n th c] call. unfold tree_checked. cbn. destruct sc; reflexivity. Qed.
Theorem C129_gpu : forall A p (call : A), possible p ->
  (cuda_works p -> gpu_checked (optional p) call = Goes call) /\ (~ cuda_works p -> gpu_checked (optional p) call = Stops CudaErr).
Proof.
  intros A p call H. destruct (C129_cuda p H) as (F & M & _). unfold gpu_checked. split; intro W.
  - rewrite (proj2 F W), (proj2 M W). reflexivity.
  - destruct (CUDA_AVAILABLE (optional p)); [exfalso; apply W, F; reflexivity|]. reflexivity.
Qed.
(** Whatever the names are, a GPU projection does not come to use a missing module. *)
Theorem C129_gpu_checked : forall A n (call : A), gpu_checked n call <> Stops AttributeErr
  /\ (gpu_checked n call = Goes call <-> CUDA_AVAILABLE n = true /\ n_cuda n <> NoneValue).
Proof.
  intros A n call. unfold gpu_checked. destruct (CUDA_AVAILABLE n), (n_cuda n); cbn; (split; [discriminate|split; [intro E; split; congruence|intros [E N]; congruence]]).
Qed.
(** Images of volumes need matplotlib, but the error does not say so. *)
Theorem C129_plt : forall A p (call : A), plt_used (optional p) call = if has_matplotlib p then Goes call else Stops AttributeErr.
Proof. intros A [t sc a m h n th c] call. unfold plt_used. cbn. destruct m; reflexivity. Qed.
(** Cosmologies are dictionaries without astropy. *)
Theorem C129_cosmology : forall D C p (convert : D -> C) d,
  cosmology (optional p) convert d = if has_astropy p then inr (convert d) else inl d.
Proof. intros D C [t sc a m h n th c] convert d. reflexivity. Qed.
(** Progress bars change nothing. *)
Theorem C129_progress : forall A p track (items : list A), tracked (optional p) track items = items.
Proof. intros A p [] items; unfold tracked; [|reflexivity]. destruct (n_tqdm (optional p)); reflexivity. Qed.
(** Links and datasets are recognised whatever library they are from. *)
Theorem C129_objects : forall p o, exists_with p o ->
  (is_soft_link (optional p) o = true <-> o_kind o = SoftLink) /\ (is_dataset (optional p) o = true <-> o_kind o = Dataset).
Proof.
  intros [t sc a m h n th c] [l k] E. unfold exists_with in E. cbn [o_library has_hdfstream] in E. unfold is_soft_link, is_dataset. cbn [optional HDFSTREAM_AVAILABLE has_hdfstream].
  destruct l; [|rewrite (E eq_refl)]; destruct k; try destruct h; cbn; split; split; congruence.
Qed.

(** Reading and pictures need none of the packages to be imported; power spectra need scipy and colour maps matplotlib although
    both are optional. *)
Theorem C129_import : forall p m, import_module p m = Stops ImportErr <->
  (m = PowerSpectrum /\ has_scipy p = false) \/ (m = ColourMaps /\ has_matplotlib p = false).
Proof.
  intros p m. unfold import_module. destruct m, (has_scipy p), (has_matplotlib p); split; try congruence; try tauto; intros [(A & B)|(A & B)]; congruence.
Qed.

(** Nothing installed, and everything. *)
Definition bare : packages := mkpackages false false false false false NumbaNone 4 NoErrorClass.
Definition full : packages := mkpackages true true true true true NumbaCore 4 (Asked true).
Example C129_case : possible bare /\ possible full /\ cuda_works full /\ ~ cuda_works bare
  /\ NUM_THREADS (optional bare) = 1%nat /\ NUM_THREADS (optional full) = 4%nat
  /\ gpu_checked (optional bare) 7%Z = Stops CudaErr /\ gpu_checked (optional full) 7%Z = Goes 7%Z
  /\ exists_with bare (mkobject H5py SoftLink) /\ exists_with full (mkobject Hdfstream Dataset)
  /\ is_soft_link (optional bare) (mkobject H5py SoftLink) = true /\ is_dataset (optional full) (mkobject Hdfstream Dataset) = true
  /\ is_dataset (optional bare) (mkobject Hdfstream Dataset) = false.
Proof.
  unfold possible, cuda_works, exists_with, bare, full. cbn [numba cuda threads o_library has_hdfstream].
  repeat match goal with |- _ /\ _ => split end; try reflexivity; try congruence; try lia; [auto|intros [E|E]; congruence].
Qed.

Print Assumptions C129_flags.
Print Assumptions C129_cuda.
Print Assumptions C129_substitutes.
Print Assumptions C129_threads.
Print Assumptions C129_tree.
Print Assumptions C129_gpu.
Print Assumptions C129_gpu_checked.
Print Assumptions C129_plt.
Print Assumptions C129_cosmology.
Print Assumptions C129_progress.
Print Assumptions C129_objects.
Print Assumptions C129_import.
