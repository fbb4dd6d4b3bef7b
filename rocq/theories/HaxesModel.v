(** [np.histogram_bin_edges], [np.histogram2d] and [np.histogramdd] on cosmo arrays with the keyword [range].  Definitions
    only.  Left out: ranges of numbers without a unit; bins named by a string; [ranges] shorter than the data ([zip] stops). *)
From Coq Require Import List Reals Bool.
From Verif Require Import Base CosmoModel FuncModel HrangeModel.
Import ListNotations.
Open Scope R_scope.

(** An axis: data, bins and range. *)
Definition raxis : Type := carr * bins * hrange.
Definition ax_data (a : raxis) : carr := fst (fst a).
Definition ax_bins (a : raxis) : bins := snd (fst a).
Definition ax_range (a : raxis) : hrange := snd a.
Definition plain_axis (a : raxis) : carr * bins := fst a.

(** _array_functions.py 1303-1320; weights left out.  With edges given, [res] is never assigned. *)
Definition np_bin_edges_in (a : carr) (b : bins) (r : hrange) : res carr :=
  do p <- prepare_kw true [OArr a] [bins_op b; range_op r; OPlain []];
  match b with
  | BEdges o => do _ <- keep (op_cf o); Err UnboundLocal
  | BNum n =>
      do c <- keep (acf a);
      match k_args p, k_kw p with
      | a' :: _, _ :: r' :: _ => do e <- edges_in (op_vals a') (NNum n) (range_numbers r r'); Ok (label e c p)
      | _, _ => Err TypeError
      end
  end.

(** Each axis on its own, 1390-1391 and 1497-1500. *)
Definition prepare_axis_in (a : raxis) : res prepk :=
  prepare_kw true [OArr (ax_data a)] [bins_op (ax_bins a); range_op (ax_range a)].
Definition axis_edges_in (a : raxis) (p : prepk) : res (list R) :=
  match k_kw p with
  | b :: r :: _ => edges_in (axis_numbers p) (nbins_of (ax_bins a) b) (range_numbers (ax_range a) r)
  | _ => Err TypeError
  end.

(** Without density, 1392-1425 and 1501-1533. *)
Definition np_hist_counts_in (axes : list raxis) (w : option operand) : res (operand * list carr) :=
  do ps <- all_ok (map prepare_axis_in axes);
  do pw <- prepare_kw true [] [weights_op w];
  let vs := map axis_numbers ps in
  do es <- all_ok (map2 axis_edges_in axes ps);
  let wv := weights_of (count_points (map plain_axis axes)) w (match k_kw pw with o :: _ => o | [] => OPlain [] end) in
  let cnt := histv vs es wv false in
  Ok (match w with
      | Some (OArr y) => OArr (label cnt (acf y) pw)
      | _ => OPlain cnt end,
      map2 (fun a ep => label (fst ep) (acf (ax_data a)) (snd ep)) axes (combine es ps)).

(** [histogram2d] with density, 1426-1467: the two ranges are prepared with everything else. *)
Definition np_hist2d_density_in (ax ay : raxis) (w : option operand) : res (operand * list carr) :=
  let x := ax_data ax in let y := ax_data ay in
  do px <- prepare_axis_in ax;
  do py <- prepare_axis_in ay;
  do p <- prepare_kw true [OArr x; OArr y]
            [bins_op (ax_bins ax); bins_op (ax_bins ay); range_op (ax_range ax); range_op (ax_range ay); weights_op w];
  match k_args p, k_kw p with
  | [x'; y'], [bx'; by'; rx'; ry'; w'] =>
      do ex <- edges_in (op_vals x') (nbins_of (ax_bins ax) bx') (range_numbers (ax_range ax) rx');
      do ey <- edges_in (op_vals y') (nbins_of (ax_bins ay) by') (range_numbers (ax_range ay) ry');
      let cnt := histv [op_vals x'; op_vals y'] [ex; ey] (weights_of (length (avals x)) w w') true in
      do cxy <- h_multiply2 (acf x) (acf y);
      do inv <- h_reciprocal cxy;
      do ccnt <- (match w with
                  | None => Ok inv
                  | Some o => do cw <- keep (op_cf o); h_multiply2 cw inv end);
      Ok (OArr (label cnt ccnt p), [label ex (acf x) px; label ey (acf y) py])
  | _, _ => Err TypeError
  end.

(** [histogramdd] with density, 1534-1560: bins and ranges are lists and go through the preparation as they are. *)
Definition np_histdd_density_in (axes : list raxis) (w : option operand) : res (operand * list carr) :=
  do ps <- all_ok (map prepare_axis_in axes);
  do p <- prepare_kw true (map (fun a => OArr (ax_data a)) axes) [OPlain []; OPlain []; weights_op w];
  let vs := numbers (k_args p) in
  do es <- all_ok (map2 (fun v a => edges_in v (nbins_of (ax_bins a) (bins_op (ax_bins a)))
                                      (range_numbers (ax_range a) (range_op (ax_range a)))) vs axes);
  let wv := weights_of (count_points (map plain_axis axes)) w (nth 2 (k_kw p) (OPlain [])) in
  let cnt := histv vs es wv true in
  do cs <- h_multiply (k_cfs p);
  do inv <- h_reciprocal cs;
  do ccnt <- (match w with
              | None => Ok inv
              | Some o => do cw <- keep (op_cf o); h_multiply2 cw inv end);
  match axes with
  | [] => Err IndexError
  | a0 :: _ =>
      Ok (OArr (label cnt ccnt p), map2 (fun e q => label e (acf (ax_data a0)) q) es ps)
  end.
