(** Model of how the backends add up their pixels, over any arithmetic: [image[i, j] += value], and the images of
    the threads of [scatter_parallel] (projection_backends, slice_backends/sph.py, volume_render_backends, power_spectrum.py).

    The writes are those of RoundModel.v; that they are inside the image is C111, so that the image is a function here.
    [store] is what the type of the image makes of a number: np.float32 (fast, renormalised, gpu, slices, volume
    renderings, depositions) or np.float64 (histogram, reference, subsampled, subsampled_extreme). *)
From Coq Require Import List ZArith QArith.
From Verif Require Import Base RoundModel.
From Verif Require VisModel.
Import ListNotations.
Open Scope Z_scope.

Section Sums.
Variable A : arith.
Notation F := (num A).
Variable store : F -> F.

Definition picture := list Z -> F.
(** fast.py 76: [np.zeros((res, res))] *)
Definition blank : picture := fun _ => zero A.
(** fast.py 135: [image[particle_cell_x, particle_cell_y] += ...] *)
Definition bump (img : picture) (w : rwrite A) : picture :=
  fun c => if list_eq_dec Z.eq_dec (fst w) c then store (add A (img c) (snd w)) else img c.
Definition draw (ws : list (rwrite A)) : picture := fold_left bump ws blank.

(** fast.py 257: [output += scatter(...)]. *)
Definition plus (out img : picture) : picture := fun c => store (add A (out c) (img c)).

(** fast.py 245-265: the image of one thread. *)
Definition thread_picture (f : rpart A -> list (rwrite A)) (ps : list (rpart A)) (threads t : Z) : picture :=
  draw (flat_map f (VisModel.slice ps (VisModel.thread_range (zlen ps) threads t))).

(** fast.py 243-265: numba makes [output += ...] in a [prange] loop a reduction.  Each of its workers has an image
    of its own, to which it adds those of its turns of the loop; these images are added up at the end.  [groups] is
    the distribution of the turns among the workers, which numba is free to choose. *)
Definition worker (f : rpart A -> list (rwrite A)) (ps : list (rpart A)) (threads : Z) (turns : list Z) : picture :=
  fold_left (fun out t => plus out (thread_picture f ps threads t)) turns blank.
Definition parallel (f : rpart A -> list (rwrite A)) (ps : list (rpart A)) (threads : Z) (groups : list (list Z)) : picture :=
  fold_left (fun out ts => plus out (worker f ps threads ts)) groups blank.

End Sums.
