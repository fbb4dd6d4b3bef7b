(** [np.histogram] on cosmo arrays with the keyword [range].  Definitions only. *)
From Coq Require Import List Reals Bool.
From Verif Require Import Base CosmoModel FuncModel.
Import ListNotations.
Open Scope R_scope.

(** The keyword as given: absent, one array of two numbers, or a tuple or list of two quantities.  A tuple has no attributes
    of its own, so that it goes through [_prepare_array_func_args] (886-976) as it is.  Ranges of numbers without a unit are
    left out (unyt decides about them). *)
Inductive hrange := RNone | RArr (y : carr) | RPair (lo hi : carr).
Definition range_op (r : hrange) : operand := match r with RArr y => OArr y | _ => OPlain [] end.
Definition range_numbers (r : hrange) (o : operand) : option (list R) :=
  match r with RNone => None | RArr _ => Some (op_vals o) | RPair lo hi => Some (avals lo ++ avals hi) end.

(** numpy's bin edges with a range: given edges win; a range must have two numbers in order; equal numbers are moved apart by
    half a unit each.  The numbers of the range are in the unit of the data (unyt converts them). *)
Definition edges_in (v : list R) (b : nbins) (r : option (list R)) : res (list R) :=
  match b, r with
  | NEdges e, _ => Ok e
  | NNum n, None => Ok (edges v (NNum n))
  | NNum n, Some [lo; hi] =>
      if Rltb hi lo then Err ValueError
      else if Reqb lo hi then Ok (even (lo - / 2) (hi + / 2) n) else Ok (even lo hi n)
  | NNum _, Some _ => Err ValueError
  end.

(** _array_functions.py 1337-1364. *)
Definition np_histogram_in (a : carr) (b : bins) (r : hrange) (density : bool) (w : option operand)
  : res (operand * carr) :=
  do p <- prepare_kw true [OArr a] [bins_op b; range_op r; OPlain []; weights_op w];
  do cbins <- keep (acf a);
  do cdens <- h_reciprocal (acf a);
  match k_args p, k_kw p with
  | a' :: _, b' :: r' :: _ :: w' :: _ =>
      do e <- edges_in (op_vals a') (nbins_of b b') (range_numbers r r');
      let cnt := histv [op_vals a'] [e] (weights_of (length (avals a)) w w') density in
      do ccnt <- (match w with
                  | None => Ok (if density then cdens else None)
                  | Some _ => do cw <- keep (op_cf (weights_op w));
                              if density then h_multiply2 cw cdens else Ok cw end);
      Ok (counts_label w density cnt ccnt p, label e cbins p)
  | _, _ => Err TypeError
  end.
