(** Model of [apply_over_axes], swiftsimio/_array_functions.py 1979-1987, of numpy's own
    function of that name (which takes over once a result is an array without units),
    and of [np.sum] over one axis (registered at 2304).

    Simplifications.
    - An array is its shape and the number at each index; the cosmology attributes of
      an array are one value of an arbitrary type, copied as a whole by [np.sum]
      (171-202).  Units are not modelled.
    - unyt's [apply_over_axes] is the same text as that of swiftsimio, so arrays with
      units that are no cosmo arrays are treated alike.
    - [func] is any function of an array and an axis that returns an array.
    - numpy's AxisError is both a ValueError and an IndexError: [IndexError]. *)
From Coq Require Import List ZArith Bool Reals.
From Verif Require Import Base.
Import ListNotations.
Open Scope R_scope.

Inductive owner (A : Type) :=
| Cosmo (a : A)        (* a cosmo array with its attributes *)
| Unyt                 (* an array with units only *)
| Numpy.               (* numbers only *)
Arguments Cosmo {A} a.
Arguments Unyt {A}.
Arguments Numpy {A}.

Record nd (A : Type) := mknd {
  own : owner A;
  shape : list nat;
  at_ : list nat -> R
}.
Arguments mknd {A}.
Arguments own {A}.
Arguments shape {A}.
Arguments at_ {A}.

(** The argument [axes]: one integer, or a list (tuple, array) of integers. *)
Inductive axes_arg := One (i : Z) | Many (l : list Z).

Definition ndim {A} (x : nd A) : Z := zlen (shape x).

Fixpoint remove {B} (i : nat) (l : list B) : list B :=
  match l, i with
  | [], _ => []
  | _ :: t, O => t
  | h :: t, S j => h :: remove j t
  end.
Fixpoint put_at {B} (i : nat) (b : B) (l : list B) : list B :=
  match i, l with
  | O, _ => b :: l
  | S j, h :: t => h :: put_at j b t
  | S _, [] => [b]
  end.

(** [np.expand_dims(x, axis)] for [0 <= axis <= x.ndim]. *)
Definition expand {A} (i : nat) (x : nd A) : nd A :=
  mknd (own x) (put_at i 1%nat (shape x)) (fun idx => at_ x (remove i idx)).

(** numpy's function of that name (numpy/lib/_shape_base_impl.py). *)
Fixpoint numpy_loop {A} (func : nd A -> Z -> res (nd A)) (n : Z) (axes : list Z) (val : nd A)
  : res (nd A) :=
  match axes with
  | [] => Ok val
  | i :: rest =>
      let i := (if i <? 0 then n + i else i)%Z in
      do r <- func val i;
      if (ndim r =? ndim val)%Z then numpy_loop func n rest r
      else if (i <? 0)%Z || (ndim r <? i)%Z then Err IndexError
      else let r := expand (Z.to_nat i) r in
           if (ndim r =? ndim val)%Z then numpy_loop func n rest r else Err ValueError
  end.
Definition numpy_over {A} (func : nd A -> Z -> res (nd A)) (a : nd A) (axes : axes_arg) : res (nd A) :=
  numpy_loop func (ndim a) (match axes with One i => [i] | Many l => l end) a.

(** 1979-1987; the recursive call goes through numpy's dispatch again. *)
Fixpoint over_list {A} (func : nd A -> Z -> res (nd A)) (a : nd A) (axes : list Z) : res (nd A) :=
  match own a with
  | Numpy => numpy_over func a (Many axes)
  | _ =>
      match axes with
      | [] => Err IndexError
      | i :: rest =>
          do r <- func a i;
          match rest with
          | [] => Ok r
          | _ => over_list func r rest
          end
      end
  end.
Definition apply_over_axes {A} (func : nd A -> Z -> res (nd A)) (a : nd A) (axes : axes_arg) : res (nd A) :=
  match own a, axes with
  | Numpy, _ => numpy_over func a axes
  | _, One _ => Err TypeError
  | _, Many l => over_list func a l
  end.

(** [np.sum(a, axis)] of an array; numpy lets the axes 0 and -1 pass for scalars. *)
Fixpoint sum_to (n : nat) (f : nat -> R) : R :=
  match n with O => 0 | S m => sum_to m f + f m end.
Definition np_sum {A} (x : nd A) (i : Z) : res (nd A) :=
  if (ndim x =? 0)%Z && ((i =? 0)%Z || (i =? -1)%Z) then Ok x
  else
    let j := (if i <? 0 then ndim x + i else i)%Z in
    if (j <? 0)%Z || (ndim x <=? j)%Z then Err IndexError
    else let k := Z.to_nat j in
         Ok (mknd (own x) (remove k (shape x))
                  (fun idx => sum_to (nth k (shape x) O) (fun m => at_ x (put_at k m idx)))).

(** [np.cumsum(a, axis)]: the shape stays. *)
Definition np_cumsum {A} (x : nd A) (i : Z) : res (nd A) :=
  let j := (if i <? 0 then ndim x + i else i)%Z in
  if (j <? 0)%Z || (ndim x <=? j)%Z then Err IndexError
  else let k := Z.to_nat j in
       Ok (mknd (own x) (shape x)
                (fun idx => sum_to (S (nth k idx O)) (fun m => at_ x (upd k m idx)))).
