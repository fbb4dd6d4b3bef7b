(** Optional packages: optional_packages.py and the places that use what it defines.  Definitions only. *)
From Coq Require Import List Bool ZArith.
From Verif Require Import Base.
Import ListNotations.

(** Which packages can be imported.  [numba]'s configuration has two possible places (74-108).  Of CUDA: what happens when its
    parts are imported and asked (111-131). *)
Inductive numba_state := NumbaCore | NumbaOld | NumbaNone.
Inductive cuda_state :=
  | NoErrorClass                 (* numba.cuda.cudadrv.error cannot be imported *)
  | PartsMissing                 (* driver, cuda or cuda.jit: ImportError *)
  | PartsRefuse                  (* one of them raises CudaSupportError *)
  | Asked (answer : bool)        (* cuda.is_available() *)
  | Driver (starts : bool).      (* no is_available (AttributeError): the driver is started, or raises CudaSupportError *)
Record packages := mkpackages {
  has_tqdm : bool; has_scipy : bool; has_astropy : bool; has_matplotlib : bool; has_hdfstream : bool;
  numba : numba_state; threads : nat; cuda : cuda_state }.

(** The names optional_packages.py defines: real ones or substitutes. *)
Inductive name := Real | Substitute | NoneValue.
Record names := mknames {
  TQDM_AVAILABLE : bool; n_tqdm : name;
  TREE_AVAILABLE : bool; n_tree : name;
  ASTROPY_AVAILABLE : bool; n_astropy : name;
  MATPLOTLIB_AVAILABLE : bool; n_plt : name;
  n_jit : name; NUM_THREADS : nat;
  CUDA_AVAILABLE : bool; n_cuda_jit : name; n_cuda : name; n_error : name;
  HDFSTREAM_AVAILABLE : bool; n_hdfstream : name }.

Definition or_none (b : bool) : name := if b then Real else NoneValue.
(** 74-108. *)
Definition numba_names (s : numba_state) (n : nat) : name * nat :=
  match s with NumbaCore => (Real, n) | NumbaOld => (Real, n) | NumbaNone => (Substitute, 1%nat) end.
(** 111-150: the flag and the error class, then the substitutes if there is no CUDA (153-167). *)
Definition cuda_flag (s : cuda_state) : bool * name :=
  match s with
  | NoErrorClass => (false, Substitute)
  | PartsMissing => (false, Substitute)
  | PartsRefuse => (false, Real)
  | Asked b => (b, Real)
  | Driver true => (true, Real)
  | Driver false => (false, Real)
  end.
Definition cuda_names (s : cuda_state) : name * name := if fst (cuda_flag s) then (Real, Real) else (Substitute, NoneValue).
(** optional_packages.py as a whole. *)
Definition optional (p : packages) : names :=
  mknames (has_tqdm p) (if has_tqdm p then Real else Substitute)
          (has_scipy p) (or_none (has_scipy p)) (has_astropy p) (or_none (has_astropy p))
          (has_matplotlib p) (or_none (has_matplotlib p))
          (fst (numba_names (numba p) (threads p))) (snd (numba_names (numba p) (threads p)))
          (fst (cuda_flag (cuda p))) (fst (cuda_names (cuda p))) (snd (cuda_names (cuda p))) (snd (cuda_flag (cuda p)))
          (has_hdfstream p) (or_none (has_hdfstream p)).

(** What a call comes to if the packages decide: it goes on, or stops with an error. *)
Inductive stop := ImportErr | CudaErr | AttributeErr.
Inductive outcome {A : Type} := Goes (a : A) | Stops (s : stop).
Arguments outcome : clear implicits.

(** Modules: power_spectrum.py line 4 and tools/cmaps.py lines 6-7 import scipy and matplotlib unconditionally; the others use
    optional_packages.py only. *)
Inductive module_name := Reading | Pictures | PowerSpectrum | ColourMaps.
Definition import_module (p : packages) (m : module_name) : outcome unit :=
  match m with
  | Reading | Pictures => Goes tt
  | PowerSpectrum => if has_scipy p then Goes tt else Stops ImportErr
  | ColourMaps => if has_matplotlib p then Goes tt else Stops ImportErr
  end.
(** smoothing_length/generate.py 57-60 and slice_backends/nearest_neighbours.py 50-54. *)
Definition tree_checked {A : Type} (n : names) (call : A) : outcome A := if negb (TREE_AVAILABLE n) then Stops ImportErr else Goes call.
(** projection_backends/gpu.py 254-260: [cuda.device_array] of [None] would be an AttributeError. *)
Definition gpu_checked {A : Type} (n : names) (call : A) : outcome A :=
  if negb (CUDA_AVAILABLE n) || (match n_cuda n with NoneValue => true | _ => false end) then Stops CudaErr
  else match n_cuda n with NoneValue => Stops AttributeErr | _ => Goes call end.
(** volume_render.py 316-320: attributes of [plt] without a check. *)
Definition plt_used {A : Type} (n : names) (call : A) : outcome A :=
  match n_plt n with NoneValue => Stops AttributeErr | _ => Goes call end.
(** conversions.py 10-170: the cosmology, or the dictionary itself. *)
Definition cosmology {D C : Type} (n : names) (convert : D -> C) (d : D) : D + C :=
  if ASTROPY_AVAILABLE n then inr (convert d) else inl d.
(** power_spectrum.py 398-403: what the loop goes through; tqdm yields the items of its argument. *)
Definition tracked {A : Type} (n : names) (track : bool) (items : list A) : list A :=
  if track then match n_tqdm n with Real => items | _ => items end else items.
(** _file_utils.py 38-41 and 58-61.  [isinstance] with classes of h5py and hdfstream. *)
Inductive library := H5py | Hdfstream.
Inductive kind := SoftLink | Dataset | Group.
Record object := mkobject { o_library : library; o_kind : kind }.
Definition is_instance (l : library) (k : kind) (o : object) : bool :=
  match l, o_library o with H5py, H5py | Hdfstream, Hdfstream => true | _, _ => false end
  && match k, o_kind o with SoftLink, SoftLink | Dataset, Dataset | Group, Group => true | _, _ => false end.
Definition is_soft_link (n : names) (o : object) : bool :=
  if HDFSTREAM_AVAILABLE n then is_instance H5py SoftLink o || is_instance Hdfstream SoftLink o else is_instance H5py SoftLink o.
Definition is_dataset (n : names) (o : object) : bool :=
  if HDFSTREAM_AVAILABLE n then is_instance H5py Dataset o || is_instance Hdfstream Dataset o else is_instance H5py Dataset o.
