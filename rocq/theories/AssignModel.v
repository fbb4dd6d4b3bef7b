(** Model of assignments to the fields of a writer and of its generated smoothing lengths
    (snapshot_writer.py 145-180 and 352-436), on top of the model of the writer.

    Simplifications, besides those of WriterModel.v.
    - In Python the array that is made for IDs is a view of the given one.  Here it is a
      copy: a later change of the given array in place stands for two changes. *)
From Coq Require Import String List ZArith Bool Reals QArith Qreals.
From Verif Require Import Base CosmoModel WriterModel.
Import ListNotations.
Open Scope R_scope.

(** [writer.<type>.<name> = g], the properties of [generate_dataset] 510-526; other names
    become ordinary attributes that nobody looks at. *)
Definition assign (st : state) (i t : nat) (name : string) (g : given) : state * res unit :=
  match nth_error (writers st) i with
  | None => (st, Err IndexError)
  | Some w =>
      match field_dims t name with
      | None => (st, Ok tt)
      | Some d => setter st i w t name d g
      end
  end.

(** [np.diff(boxsize) == 0] for all elements, 164. *)
Fixpoint all_same (l : list R) : bool :=
  match l with
  | x :: ((y :: _) as r) => Reqb (y - x) 0 && all_same r
  | _ => true
  end.

(** [generate_smoothing_lengths], 149-180; [bx] is [writer.boxsize], with unit and label.
    The array keeps the attributes of the box; [self.coordinates] can be [None]. *)
Definition generate (st : state) (i t : nat) (bx : warr) (dimension : Z) : state * res unit :=
  match nth_error (writers st) i with
  | None => (st, Err IndexError)
  | Some w =>
      match field_dims t "smoothing_lengths" with
      | None => (st, Err RuntimeError)
      | Some _ =>
          if negb (all_same (avals (wdata bx))) then (st, Err ValueError)
          else
            match avals (wdata bx), lookup st w t "coordinates" with
            | [], _ => (st, Err IndexError)
            | _, None => (st, Err AttributeError)
            | side :: _, Some x =>
                match wshape x with
                | [] => (st, Err IndexError)
                | n :: _ =>
                    let mips := side / Rpower (IZR n) (1 / IZR dimension) in
                    let d := wdata bx in
                    let h := mkwarr [n]
                               (mkarr (map (fun one => 2 * mips * one) (repeat 1 (Z.to_nat n)))
                                      (acf d) (acm d) (avt d) (acomp d))
                               (wdims bx) (wunit bx) (wint bx) in
                    assign (mkstate (mem st ++ [h]) (writers st)) i t "smoothing_lengths"
                           (GArr (length (mem st)))
                end
            end
      end
  end.
