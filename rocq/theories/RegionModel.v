(** Model of swiftsimio/masks.py: the constraints of [SWIFTMask] when bounds, box and cell positions are
    cosmo arrays with their frame (comoving or physical), scale factor and exponent.

    MaskModel.v has the same functions on bare numbers; here every comparison and every sum goes through the
    arithmetic of CosmoModel.v and every array through the constructors of CtorModel.v.  Units of length are
    one and the same; UnitOpModel.v has these functions with units.  [lower -= boxsize] is written as a subtraction: with [out] the result goes into
    the same object (UfuncModel.v), which is not used otherwise. *)
From Coq Require Import List ZArith QArith Bool Reals.
From Verif Require Import Base MaskModel CosmoModel CtorModel.
Import ListNotations.
Open Scope R_scope.

(** No keyword arguments. *)
Definition kw0 : kwargs unit := mkkw None None None None None true CNone false.
Definition array_of (i : input unit) : res carr :=
  do r <- new_array tt (fun _ _ => tt) i kw0; Ok (u_arr r).

(** [x[i]] of a flat array and [x[mask]]. *)
Definition item (x : carr) (i : nat) : res carr :=
  match nth_error (avals x) i with
  | Some v => Ok (mkarr [v] (acf x) (acm x) (avt x) (acomp x))
  | None => Err IndexError
  end.
Definition take_mask (mask : list bool) (x : carr) : carr :=
  mkarr (compress mask (avals x)) (acf x) (acm x) (avt x) (acomp x).

(** The truth value of a comparison of quantities. *)
Definition truth (r : res (list bool)) : res bool :=
  do l <- r; match l with [b] => Ok b | _ => Err ValueError end.

(** * The region *)

(** A row of the region as passed: nothing, a cosmo array, a list of quantities. *)
Inductive row :=
| RowNone
| RowArray (x : carr)
| RowList (l : list carr).

Definition row_len (r : row) : option nat :=
  match r with
  | RowNone => None
  | RowArray x => Some (length (avals x))
  | RowList l => Some (length l)
  end.

(** masks.py:731-738, one row. *)
Definition sane_row (r : row) (b : carr) : res carr :=
  match r with
  | RowNone => binop Bmul (OPlain [0; 1]) (OArr b)
  | RowArray x => array_of (InCosmo (mku tt x))
  | RowList l => array_of (InList (map OArr l))
  end.

(** The arrays that belong to one key: [minpositions] and [maxpositions], one flat array per axis. *)
Record lkey := mklkey { lk_min : axis -> carr; lk_max : axis -> carr }.
Record lmeta := mklmeta { lm_box : axis -> carr; lm_keys : list lkey }.

(** masks.py:699-739 [_sanitize_region]: the region as one array of six numbers. *)
Definition l_sanitize (lm : lmeta) (region : list row) : res carr :=
  match region with
  | [rx; ry; rz] =>
      if forallb (fun r => match row_len r with Some n => Nat.eqb n 2 | None => true end) region
      then
        do x <- sane_row rx (lm_box lm AX);
        do y <- sane_row ry (lm_box lm AY);
        do z <- sane_row rz (lm_box lm AZ);
        array_of (InList [OArr x; OArr y; OArr z])
      else Err ValueError
  | _ => Err ValueError
  end.

(** * Cell masks *)

(** masks.py:612-625. *)
Definition l_out (box lower upper : carr) : res bool :=
  do neg <- unop Uneg (OArr box);
  do low <- binop Bdiv (OArr neg) (OPlain [2]);
  do three <- binop Bmul (OPlain [3]) (OArr box);
  do high <- binop Bdiv (OArr three) (OPlain [2]);
  do a <- truth (cmpop Clt (OArr lower) (OArr low));
  do b <- truth (cmpop Clt (OArr upper) (OArr low));
  do c <- truth (cmpop Cgt (OArr lower) (OArr high));
  do d <- truth (cmpop Cgt (OArr upper) (OArr high));
  Ok (a || b || c || d)%bool.

(** masks.py:626-634. *)
Definition l_interval (box lower upper : carr) : res (option (carr * carr)) :=
  do diff <- binop Bsub (OArr upper) (OArr lower);
  do size <- unop Uabs (OArr diff);
  do whole <- truth (cmpop Cgt (OArr size) (OArr box));
  if whole then Ok None
  else
    do inverted <- truth (cmpop Clt (OArr upper) (OArr lower));
    if inverted then
      do half <- binop Bdiv (OArr box) (OPlain [2]);
      do a <- truth (cmpop Cgt (OArr lower) (OArr half));
      if a then do l <- binop Bsub (OArr lower) (OArr box); Ok (Some (l, upper))
      else
        do b <- truth (cmpop Clt (OArr upper) (OArr half));
        if b then do u <- binop Badd (OArr upper) (OArr box); Ok (Some (lower, u))
        else Ok (Some (lower, upper))
    else Ok (Some (lower, upper)).

(** masks.py:642-657, one periodic copy. *)
Definition l_copy (box lower upper mn mx : carr) (shift : Z) : res (list bool) :=
  do move <- binop Bmul (OPlain [IZR shift]) (OArr box);
  do top <- binop Badd (OArr mx) (OArr move);
  do above <- cmpop Cgt (OArr top) (OArr lower);
  do bottom <- binop Badd (OArr mn) (OArr move);
  do below <- cmpop Clt (OArr bottom) (OArr upper);
  Ok (map (fun ab => andb (fst ab) (snd ab)) (combine above below)).

(** masks.py:640-659, one key. *)
Definition l_this (box lower upper : carr) (a : axis) (k : lkey) (cell_mask : list bool)
  : res (list bool) :=
  let mn := take_mask cell_mask (lk_min k a) in
  let mx := take_mask cell_mask (lk_max k a) in
  do p <- l_copy box lower upper mn mx (-1);
  do q <- l_copy box lower upper mn mx 0;
  do r <- l_copy box lower upper mn mx 1;
  Ok (masked_assign cell_mask cell_mask
        (zip3 (fun x y z => (x || y || z)%bool) p q r)).

(** masks.py:608-659, the loop over the axes. *)
Fixpoint l_axes (lm : lmeta) (restrict : carr) (todo : list (axis * nat)) (cell_mask : list (list bool))
  : res (list (list bool)) :=
  match todo with
  | [] => Ok cell_mask
  | (a, i) :: rest =>
      do lower <- item restrict (2 * i);
      do upper <- item restrict (2 * i + 1);
      do out <- l_out (lm_box lm a) lower upper;
      if out then Err ValueError
      else
        do iv <- l_interval (lm_box lm a) lower upper;
        do cell_mask' <- match iv with
                         | None => Ok cell_mask
                         | Some (lo, up) =>
                             all_ok (map (fun km => l_this (lm_box lm a) lo up a (fst km) (snd km))
                                         (combine (lm_keys lm) cell_mask))
                         end;
        l_axes lm restrict rest cell_mask'
  end.

(** masks.py:558-661 [_generate_cell_mask]. *)
Definition l_generate (lm : lmeta) (restrict : carr) : res (list (list bool)) :=
  l_axes lm restrict [(AX, 0%nat); (AY, 1%nat); (AZ, 2%nat)]
         (map (fun k => repeat true (length (avals (lk_min k AX)))) (lm_keys lm)).

(** * The public calls *)

(** masks.py:741-847 [constrain_spatial].  Of [mm] only offsets, counts and totals are used. *)
Definition l_constrain_spatial (mm : mask_meta) (lm : lmeta) (region : list row) (union : bool)
           (st : mask_state) : outcome :=
  match l_sanitize lm region with
  | Err e => (st, Some e)
  | Ok restrict =>
      let finish cell_mask :=
        (mk_mask_state (Some CSpatial) cell_mask
                       (update_range_masks mm cell_mask (ms_masks st)), None) in
      match ms_constrained st, union with
      | Some CSpatial, true =>
          match l_generate lm restrict with
          | Err e => (st, Some e)
          | Ok new_mask =>
              finish (map (fun ab => map (fun xy => orb (fst xy) (snd xy))
                                         (combine (fst ab) (snd ab)))
                          (combine (ms_cell_mask st) new_mask))
          end
      | None, _ =>
          match l_generate lm restrict with
          | Err e => (st, Some e)
          | Ok new_mask => finish new_mask
          end
      | _, _ => (st, Some RuntimeError)
      end
  end.

(** masks.py:475-556 [constrain_property] of a quantity whose field has the factor [c] and is stored in the
    frame [cm] ([comoving=not physical], 543-548). *)
Definition l_constrain_property (mm : mask_meta) (key : nat) (values : option (list R)) (c : cf) (cm : bool)
           (lower upper : carr) (st : mask_state) : outcome :=
  let m := convert_masks_to_bool mm (ms_masks st) in
  let st' := mk_mask_state (ms_constrained st) (ms_cell_mask st) m in
  match m, values with
  | InBools l, Some vals =>
      match nth_error l key with
      | None => (st', Some KeyError)
      | Some (current, size) =>
          match (do data <- new_array tt (fun _ _ => tt) (InNumbers (compress current vals))
                              (mkkw (Some tt) (Some c) None None (Some cm) true CNone false);
                 do above <- cmpop Cgt (OArr (u_arr data)) (OArr lower);
                 do below <- cmpop Cle (OArr (u_arr data)) (OArr upper);
                 Ok (map (fun ab => andb (fst ab) (snd ab)) (combine above below))) with
          | Err e => (st', Some e)
          | Ok new =>
              (mk_mask_state (Some CProperty) (ms_cell_mask st)
                             (InBools (upd key (masked_assign current current new, size) l)), None)
          end
      end
  | _, _ => (st', Some KeyError)
  end.
