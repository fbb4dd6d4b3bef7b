(** Model of the numpy functions wrapped in swiftsimio/_array_functions.py 846-2321.

    A wrapper prepares its arguments ([_prepare_array_func_args]), computes the label
    of the result, calls the numpy (or unyt) function and attaches the label.  The
    function itself is a parameter acting on the numbers of its arguments, or one of
    the explicit functions below where its values matter.

    Simplifications (besides those of CosmoModel.v).
    - Arguments that are not arrays ([None], integers, strings, tuples, lists) have no
      cosmology attributes: [OPlain []].  Keyword arguments are a list in a fixed order.
    - Arrays are flat; shapes are left to the value function.
    - Where a wrapper calls the function before computing the label, the model
      computes the label first: if both raise, the exception may be another one.
    - Warnings are not modelled. *)
From Coq Require Import String List ZArith Bool Reals.
From Verif Require Import Base CosmoModel.
Import ListNotations.
Open Scope R_scope.

(** * [_prepare_array_func_args], 846-976, with keyword arguments *)

Record prepk := mkprepk {
  k_args : list operand;
  k_kw : list operand;
  k_cfs : list (option cf);
  k_kwcfs : list (option cf);
  k_cm : option bool;
  k_vt : bool;
  k_comp : comp;
  k_mixed : bool          (* the last [else] branch, 934-960, was taken *)
}.

Definition protected (o : operand) : bool :=
  match o with OArr x => negb (avt x) | OPlain _ => false end.

(** Only positional arguments are searched for protected arrays (936-941). *)
Definition prepare_kw (default_cm : bool) (args kw : list operand) : res prepk :=
  let all := args ++ kw in
  let cms := map snd (filter fst (map op_cm all)) in
  let ret_vt := forallb op_vt all in
  let ret_comp :=
    match map op_comp all with
    | [] => CNone
    | c :: cs => if forallb (comp_eqb c) cs then c else CNone
    end in
  let done := fun args' kw' cm mixed =>
    Ok (mkprepk args' kw' (map op_cf args) (map op_cf kw) cm ret_vt ret_comp mixed) in
  match cms with
  | [] => done args kw None false
  | _ =>
      if forallb is_true cms then done args kw (Some true) false
      else if forallb is_none cms then done args kw None false
      else if existsb is_none cms then Err ValueError
      else if forallb is_false cms then done args kw (Some false) false
      else if default_cm && negb (existsb protected args)
      then do args' <- all_ok (map (coerce to_comoving) args);
           do kw' <- all_ok (map (coerce to_comoving) kw);
           done args' kw' (Some true) true
      else do args' <- all_ok (map (coerce to_physical) args);
           do kw' <- all_ok (map (coerce to_physical) kw);
           done args' kw' (Some false) true
  end.

(** [_return_helper], 1018-1060, for a result with units. *)
Definition label (v : list R) (rcf : option cf) (p : prepk) : carr :=
  mkarr v rcf (k_cm p) (k_vt p) (k_comp p).

Definition numbers (l : list operand) : list (list R) := map op_vals l.

(** What numpy computes from the numbers of positional and keyword arguments. *)
Definition vfun := list (list R) -> list (list R) -> res (list R).
(** How the labels of the arguments determine that of the result. *)
Definition rule := list (option cf) -> list (option cf) -> res (option cf).

(** The common shape of [_default_unary_wrapper] 1063-1115 and
    [_default_binary_wrapper] 1118-1170 without [out], and of most single wrappers. *)
Definition call (f : vfun) (h : rule) (args kw : list operand) : res carr :=
  do p <- prepare_kw true args kw;
  do rcf <- h (k_cfs p) (k_kwcfs p);
  do v <- f (numbers (k_args p)) (numbers (k_kw p));
  Ok (label v rcf p).

(** The same if the function returns a tuple ([svd], [intersect1d] with indices):
    [_return_helper] looks at the tuple only, so its members keep unyt's type and
    get no cosmology attributes. *)
Definition call_tuple (f : list (list R) -> list (list R) -> res (list (list R))) (h : rule)
           (args kw : list operand) : res (list operand) :=
  do p <- prepare_kw true args kw;
  do _ <- h (k_cfs p) (k_kwcfs p);
  do vs <- f (numbers (k_args p)) (numbers (k_kw p));
  Ok (map OPlain vs).

(** With [out=]: the keyword takes part in the preparation, so numpy may be given a
    converted copy of it (947-949, 956-958), while the label is attached to the original
    (1055-1059).  Even [to_physical] of a physical array is a copy. *)
Definition same_object (p : prepk) (o : operand) : bool :=
  negb (k_mixed p) || match o with OArr x => is_true (acm x) | OPlain _ => true end.
Definition out_after (p : prepk) (v : list R) (rcf : option cf) (o : operand) : operand :=
  match o with
  | OPlain _ => OPlain v
  | OArr x => OArr (label (if same_object p o then v else avals x) rcf p)
  end.
Definition call_out (f : vfun) (h : rule) (args kw : list operand) (out : operand)
  : res (carr * operand) :=
  do p <- prepare_kw true args (kw ++ [out]);
  do rcf <- h (k_cfs p) (k_kwcfs p);
  do v <- f (numbers (k_args p)) (numbers (firstn (length kw) (k_kw p)));
  Ok (label v rcf p, out_after p v rcf out).

(** * Label rules *)
Definition first (h : option cf -> res (option cf)) : rule :=
  fun cfs _ => match cfs with c :: _ => h c | [] => Err IndexError end.
Definition two (h : option cf -> option cf -> res (option cf)) : rule :=
  fun cfs _ => match cfs with c :: d :: _ => h c d | _ => Err IndexError end.
Definition keep (c : option cf) : res (option cf) := h_preserve [c].
Definition kwfirst (h : option cf -> option cf -> res (option cf)) : rule :=
  fun cfs kws => match cfs, kws with c :: _, d :: _ => h c d | _, _ => Err IndexError end.

(** The functions with one result computed through the helpers.  For [logspace] the
    keyword is [base], for [trapezoid] it is [x], or [dx] if [x] is not given. *)
Inductive npfun :=
(* _default_unary_wrapper *)
| Ninv | Ntensorinv | Npinv | Nnorm | Naround
| Nfft | Nfft2 | Nfftn | Nhfft | Nrfft | Nrfft2 | Nrfftn
| Nifft | Nifft2 | Nifftn | Nihfft | Nirfft | Nirfft2 | Nirfftn
| Nfftshift | Nifftshift | Nsort_complex | Nvar | Ntrace
| Npercentile | Nquantile | Nnanpercentile | Nnanquantile
| Ndiff | Nediff1d | Nptp | Neigvals | Neigvalsh | Ntriu | Ntril | Ntake
(* _default_binary_wrapper *)
| Ndot | Nvdot | Ninner | Nouter | Nkron | Ncross | Nconvolve | Ncorrelate
| Ntensordot | Nlinalg_outer
| Nintersect1d | Nunion1d | Ngeomspace | Nsetdiff1d
(* wrappers of their own *)
| Nlinspace | Nlogspace | Npad | Ninsert | Nsolve | Ntensorsolve | Neinsum
| Nunwrap | Ninterp | Ntrapezoid_x | Ntrapezoid_dx | Nwhere | Nclip
| Nlstsq_solution | Nlstsq_residuals | Nlstsq_singular | Neig | Neigh.

Definition rule_of (n : npfun) : rule :=
  match n with
  (* 1323-1331 *)
  | Ninv | Ntensorinv | Npinv => first h_reciprocal
  (* 1575-1577, 1583 *)
  | Nnorm | Naround => first keep
  (* 1688-1727 *)
  | Nfft | Nfft2 | Nfftn | Nhfft | Nrfft | Nrfft2 | Nrfftn
  | Nifft | Nifft2 | Nifftn | Nihfft | Nirfft | Nirfft2 | Nirfftn => first h_reciprocal
  | Nfftshift | Nifftshift | Nsort_complex => first keep
  (* 1829-1840, 1851-1853, 1931-1936, 2137-2138, 2254 *)
  | Nvar | Ntrace | Npercentile | Nquantile | Nnanpercentile | Nnanquantile
  | Ndiff | Nediff1d | Nptp | Neigvals | Neigvalsh | Ntriu | Ntril | Ntake => first keep
  (* 1296-1300, 1570, 2170-2176, 2233-2235; 1571-1574, 1782-1784, 2080-2082 *)
  | Ndot | Nvdot | Ninner | Nouter | Nkron | Ncross | Nconvolve | Ncorrelate
  | Ntensordot | Nlinalg_outer => two h_multiply2
  | Nintersect1d | Nunion1d | Ngeomspace | Nsetdiff1d => two h_preserve2
  (* 1734-1780, 1857-1864 *)
  | Nlinspace => two h_preserve2
  | Nlogspace => fun _ kws => match kws with c :: _ => keep c | [] => Err KeyError end
  | Npad => first keep
  (* 1876-1928 *)
  | Ninsert => fun cfs _ => match cfs with c :: _ :: d :: _ => h_preserve2 c d | _ => Err IndexError end
  | Nsolve | Ntensorsolve | Nlstsq_solution => two (fun c d => h_divide d c)
  | Nlstsq_residuals => two (fun _ d => h_square d)
  | Nlstsq_singular | Neig | Neigh => first keep
  (* 2141-2167 *)
  | Neinsum => fun cfs _ => h_preserve cfs
  (* 2179-2196 *)
  | Nunwrap => fun cfs kws => match cfs, kws with
                              | c :: _, d :: e :: _ => h_preserve [c; d; e]
                              | _, _ => Err IndexError end
  (* 2199-2206 *)
  | Ninterp => fun cfs _ => match cfs with _ :: _ :: d :: _ => keep d | _ => Err IndexError end
  (* 2238-2250 *)
  | Ntrapezoid_x | Ntrapezoid_dx => kwfirst h_multiply2
  (* 2123-2134 *)
  | Nwhere => fun cfs _ => match cfs with _ :: c :: d :: _ => h_preserve2 c d | _ => Err IndexError end
  (* 2092-2120 *)
  | Nclip => fun cfs kws => match cfs, kws with
                            | c :: _, d :: e :: _ => h_preserve [c; d; e]
                            | _, _ => Err IndexError end
  end.

Definition npcall (n : npfun) (f : vfun) (args kw : list operand) : res carr :=
  call f (rule_of n) args kw.

(** [np.where], 2123-2134: after the case of a single argument the code goes on to
    read the labels of [x] and [y]. *)
Definition np_where (f : vfun) (cond : operand) (args : list operand) : res carr :=
  match args with
  | [] => do _ <- prepare_kw true [cond] []; Err IndexError
  | [x] => do _ <- prepare_kw true [cond; x] []; Err ValueError
  | _ => npcall Nwhere f (cond :: args) []
  end.

(** [np.clip], 2092-2120: the keywords [min] and [max] are accepted and not used. *)
Definition np_clip (f : vfun) (a a_min a_max : operand) (min max : option operand) : res carr :=
  npcall Nclip f [a] [a_min; a_max].

(** [np.prod], 1803-1826, over the whole array or the entries of a [where] mask:
    the label is raised to [a.size // res.size]. *)
Definition masked (m : list bool) (v : list R) : list R :=
  map snd (filter fst (combine m v)).
Definition np_prod (m : list bool) (x : carr) : res carr :=
  call (fun vs _ => match vs with v :: _ => Ok [prodR (masked m v)] | [] => Err TypeError end)
       (first (fun c => h_power c None (INR (length (avals x))))) [OArr x]
       [OPlain []; OPlain []; OPlain []; OPlain []; OPlain []; OPlain []].

(** [np.linalg.det], 1843-1848: the label is raised to [a.shape[0]]. *)
Definition np_det (f : vfun) (shape0 : nat) (x : carr) : res carr :=
  call f (first (fun c => h_power c None (INR shape0))) [OArr x] [].

(** * Lists of arrays *)

(** [_default_oplist_wrapper], 1224-1274 ([concatenate], [vstack], [hstack],
    [dstack], [column_stack], [stack]).  The label is [cfs[0]] (1266). *)
Definition oplist (f : vfun) (ops rest kw : list operand) : res carr :=
  do p0 <- prepare_kw true (OPlain [] :: rest) kw;
  do p <- prepare_kw true ops [];
  match k_cfs p with
  | [] => Err IndexError
  | c :: _ =>
      do v <- f (numbers (k_args p)) (numbers (skipn 1 (k_args p0) ++ k_kw p0));
      Ok (label v c p)
  end.

(** [np.select], 2067-2077: the choices are coerced, the attributes are those of the
    call with lists as arguments. *)
Fixpoint pick_first (conds : list (list bool)) (choices : list (list R)) (i : nat) (d : R) : R :=
  match conds, choices with
  | c :: cs, v :: vs => if nth i c false then nth i v 0 else pick_first cs vs i d
  | _, _ => d
  end.
Definition selectv (n : nat) (conds : list (list bool)) (choices : list (list R)) (d : R) : list R :=
  map (fun i => pick_first conds choices i d) (seq 0 n).
Definition np_select (n : nat) (conds : list (list bool)) (choices : list operand)
           (default : operand) : res carr :=
  do p <- prepare_kw true [OPlain []; OPlain []] [default];
  do pc <- prepare_kw true choices [];
  do rcf <- h_preserve (k_cfs pc);
  match numbers (k_kw p) with
  | [[d]] => Ok (label (selectv n conds (numbers (k_args pc)) d) rcf p)
  | _ => Err ValueError
  end.

(** [np.choose], 1867-1873: the choices are passed on as they are. *)
Definition choosev (idx : list nat) (choices : list (list R)) : list R :=
  map (fun ij => nth (fst ij) (nth (snd ij) choices []) 0) (combine (seq 0 (length idx)) idx).
Definition np_choose (idx : list nat) (choices : list operand) : res carr :=
  do p <- prepare_kw true [OPlain []; OPlain []] [OPlain []; OPlain []];
  do pc <- prepare_kw true choices [];
  do rcf <- h_preserve (k_cfs pc);
  Ok (label (choosev idx (numbers choices)) rcf p).

(** [np.block], 1586-1685.  The "label" is the list of labels of the first block
    ([cfs = [hr["cfs"] for hr in helper_results]], 1638, 1663). *)
Record blocked := mkblocked {
  b_vals : list R; b_label : list (option cf); b_cm : option bool; b_vt : bool; b_comp : comp }.
Definition ocf_ne (c d : option cf) : res bool :=
  match c, d with
  | None, None => Ok false
  | Some c, Some d => Ok (negb (cf_eq c d))
  | _, _ => Err ValueError
  end.
Definition block_labels (cfs : list (option cf)) : res (list (option cf)) :=
  match cfs with
  | [] => Err IndexError
  | c :: cs =>
      do ne <- all_ok (map (fun d => ocf_ne d c) cs);
      if existsb (fun b => b) ne then Err ValueError else Ok [c]
  end.
(** The blocks in the order of the nested lists. *)
Definition np_block (f : list (list R) -> res (list R)) (leaves : list operand) : res blocked :=
  do ps <- all_ok (map (fun o => prepare_kw true [o] []) leaves);
  let cms := map k_cm ps in
  let vt := forallb k_vt ps in
  let cp := match map k_comp ps with
            | [] => CNone
            | c :: cs => if forallb (comp_eqb c) cs then c else CNone end in
  do mode <- (if forallb is_true cms then Ok (Some true, false)
              else if forallb is_none cms then Ok (None, false)
              else if existsb is_none cms then Err ValueError
              else if forallb is_false cms then Ok (Some false, false)
              else Ok (Some true, true));
  do lab <- block_labels (map op_cf leaves);
  do leaves' <- (if (snd mode : bool)
                 then all_ok (map (fun o => match o with
                                            | OArr x => do y <- to_comoving x; Ok (OArr y)
                                            | OPlain _ => Err AttributeError end) leaves)
                 else Ok leaves);
  do v <- f (numbers leaves');
  Ok (mkblocked v lab (fst mode) vt cp).
(** Converting the result: [self.cosmo_factor.a_factor] of a list. *)
Definition block_to_physical (b : blocked) : res blocked :=
  match b_cm b with
  | None => Err InvalidConversion | Some false => Ok b | Some true => Err AttributeError end.
Definition block_to_comoving (b : blocked) : res blocked :=
  match b_cm b with
  | Some true => Ok b
  | None => Err InvalidConversion
  | Some false => if b_vt b then Err AttributeError else Err InvalidConversion end.

(** * Writing into an array, 1787-1800, 1990-2059 *)
Definition put_vals (o : operand) (v : list R) : operand :=
  match o with
  | OPlain _ => OPlain v
  | OArr x => OArr (mkarr v (acf x) (acm x) (avt x) (acomp x))
  end.
(** The source is converted in place to the coordinates of the destination. *)
Definition match_frame (dst src : operand) : res operand :=
  match src with
  | OPlain _ => Ok src
  | OArr y =>
      match snd (op_cm dst) with
      | Some true => do z <- convert_to_comoving y; Ok (OArr z)
      | Some false => do z <- convert_to_physical y; Ok (OArr z)
      | None => Ok src
      end
  end.
(** [place], [put], [put_along_axis], [putmask]: destination and source afterwards. *)
Definition np_put (write : list R -> list R -> list R) (dst src : operand) : res (operand * operand) :=
  do _ <- prepare_kw true [dst; OPlain []; src] [OPlain []];
  do _ <- h_preserve2 (op_cf dst) (op_cf src);
  do src' <- match_frame dst src;
  Ok (put_vals dst (write (op_vals dst) (op_vals src')), src').
(** [copyto]: the labels are compared only if both are cosmology arrays. *)
Definition np_copyto (write : list R -> list R -> list R) (dst src : operand) : res (operand * operand) :=
  do _ <- prepare_kw true [dst; src] [OPlain []; OPlain []];
  do _ <- (match dst, src with
           | OArr x, OArr y => h_preserve2 (acf x) (acf y) | _, _ => Ok None end);
  do src' <- match_frame dst src;
  Ok (put_vals dst (write (op_vals dst) (op_vals src')), src').
(** [fill_diagonal]: the value is converted without looking at its type. *)
Definition np_fill_diagonal (write : list R -> list R -> list R) (dst src : operand)
  : res (operand * operand) :=
  do _ <- prepare_kw true [dst; src] [OPlain []];
  do _ <- h_preserve2 (op_cf dst) (op_cf src);
  do src' <- (match src, snd (op_cm dst) with
              | OPlain _, Some _ => Err AttributeError
              | _, _ => match_frame dst src end);
  Ok (put_vals dst (write (op_vals dst) (op_vals src')), src').

(** * Functions copying the attributes of their first argument, 131-202, 2292-2321 *)
Definition with_vals (x : carr) (v : list R) : carr := mkarr v (acf x) (acm x) (avt x) (acomp x).
(** [max], [min], [mean], [median], [sort], [sum], [partition]. *)
Definition propagate (f : list R -> res (list R)) (x : carr) : res carr :=
  do v <- f (avals x); Ok (with_vals x v).
(** The reductions with a keyword [initial]: numpy's implementation ends in a ufunc
    reduction, which prepares its arguments, keywords included (objects.py 2194). *)
Definition propagate_initial (f : vfun) (x : carr) (init : operand) : res carr :=
  do p <- prepare_kw true [OArr x] [init];
  do v <- f (numbers (k_args p)) (numbers (k_kw p));
  Ok (with_vals x v).
(** [np.meshgrid], 2310-2321. *)
Definition np_meshgrid (grids : list (list R -> list R)) (xs : list carr) : list carr :=
  map2 (fun g x => with_vals x (g (avals x))) grids xs.

(** [np.average], 2259-2289, with weights, for numpy >= 2.4.1: numpy's implementation
    is given the arguments as they are; it multiplies, sums and divides them, which
    are the operations of cosmo_array. *)
Definition np_average (x : carr) (w : operand) : res (carr * operand) :=
  do p <- prepare_kw true [OArr x] [OPlain []; w; OPlain []; OPlain []];
  do scl <- (match w with
             | OPlain v => Ok (OPlain [sumR v])
             | OArr _ => do r <- sumop w; Ok (OArr r) end);
  do num <- binop Bmul (OArr x) w;
  do tot <- sumop (OArr num);
  do avg <- binop Bdiv (OArr tot) scl;
  do c <- keep (acf x);
  do cw <- keep (op_cf w);
  Ok (label (avals avg) c p,
      match scl with OPlain v => OPlain v | OArr r => OArr (label (avals r) cw p) end).

(** * Comparison functions, 1173-1221, 1728-1731, 2003: [isclose], [allclose], [array_equal],
    [array_equiv], [isin]; also [searchsorted] (2062), which gives indices *)
Definition np_compare {A} (f : list (list R) -> res A) (x y : operand) (kw : list operand) : res A :=
  do p <- prepare_kw true [x; y] kw;
  do _ <- two h_compare (k_cfs p) (k_kwcfs p);
  f (numbers (k_args p)).

(** * Histograms *)

(** Bins as given: a number of bins, or edges. *)
Inductive bins := BNum (n : nat) | BEdges (o : operand).
Definition bins_op (b : bins) : operand := match b with BNum _ => OPlain [] | BEdges o => o end.
Inductive nbins := NNum (n : nat) | NEdges (e : list R).
Definition nbins_of (b : bins) (o : operand) : nbins :=
  match b with BNum n => NNum n | BEdges _ => NEdges (op_vals o) end.

(** numpy's bin edges: given, or [n] equal bins from the least to the greatest value
    (from 0 to 1 without data; half a unit to either side of equal values). *)
Definition minl (l : list R) : R := match l with [] => 0 | x :: t => fold_left Rmin t x end.
Definition maxl (l : list R) : R := match l with [] => 1 | x :: t => fold_left Rmax t x end.
Definition even (lo hi : R) (n : nat) : list R :=
  map (fun i => lo + (hi - lo) * INR i / INR n) (seq 0 (S n)).
Definition edges (v : list R) (b : nbins) : list R :=
  match b with
  | NEdges e => e
  | NNum n =>
      let lo := minl v in let hi := maxl v in
      if Reqb lo hi then even (lo - / 2) (hi + / 2) n else even lo hi n
  end.
Fixpoint cells (e : list R) : list (R * R * bool) :=
  match e with
  | a :: (b :: t) as e' => (a, b, match t with [] => true | _ => false end) :: cells e'
  | _ => []
  end.
Definition in_cell (c : R * R * bool) (x : R) : bool :=
  let '(a, b, last) := c in Rleb a x && (if last then Rleb x b else Rltb x b).
Definition width (c : R * R * bool) : R := let '(a, b, _) := c in b - a.

(** The cells of a grid, one per combination of bins, and the total weight of the
    points in each; a density is divided by the cell volume and the grand total. *)
Fixpoint grid (es : list (list R)) : list (list (R * R * bool)) :=
  match es with
  | [] => [[]]
  | e :: t => flat_map (fun c => map (cons c) (grid t)) (cells e)
  end.
Fixpoint inside (cs : list (R * R * bool)) (vs : list (list R)) (i : nat) : bool :=
  match cs, vs with
  | c :: cs', v :: vs' => in_cell c (nth i v 0) && inside cs' vs' i
  | _, _ => true
  end.
Definition counted (vs : list (list R)) (w : list R) (cs : list (R * R * bool)) : R :=
  sumR (map (fun i => if inside cs vs i then nth i w 0 else 0) (seq 0 (length w))).
Definition volume (cs : list (R * R * bool)) : R := prodR (map width cs).
Definition histv (vs : list (list R)) (es : list (list R)) (w : list R) (density : bool) : list R :=
  let g := grid es in
  let cnt := map (counted vs w) g in
  if density then map2 (fun n cs => n / volume cs / sumR cnt) cnt g else cnt.

(** The weights: none, numbers, or an array. *)
Definition weights_op (w : option operand) : operand := match w with None => OPlain [] | Some o => o end.
Definition weights_of (n : nat) (w : option operand) (o : operand) : list R :=
  match w with None => repeat 1 n | Some _ => op_vals o end.

(** A result without units is a plain array. *)
Definition counts_label (w : option operand) (density : bool) (v : list R) (rcf : option cf)
           (p : prepk) : operand :=
  if density || (match w with Some (OArr _) => true | _ => false end)
  then OArr (label v rcf p) else OPlain v.

(** [np.histogram], 1337-1364, without [range]. *)
Definition np_histogram (a : carr) (b : bins) (density : bool) (w : option operand)
  : res (operand * carr) :=
  do p <- prepare_kw true [OArr a] [bins_op b; OPlain []; OPlain []; weights_op w];
  do cbins <- keep (acf a);
  do cdens <- h_reciprocal (acf a);
  match k_args p, k_kw p with
  | a' :: _, b' :: _ :: _ :: w' :: _ =>
      let e := edges (op_vals a') (nbins_of b b') in
      let cnt := histv [op_vals a'] [e] (weights_of (length (avals a)) w w') density in
      do ccnt <- (match w with
                  | None => Ok (if density then cdens else None)
                  | Some _ => do cw <- keep (op_cf (weights_op w));
                              if density then h_multiply2 cw cdens else Ok cw end);
      Ok (counts_label w density cnt ccnt p, label e cbins p)
  | _, _ => Err TypeError
  end.

(** [np.histogram_bin_edges], 1303-1320: with edges given, [res] is never assigned. *)
Definition np_bin_edges (a : carr) (b : bins) : res carr :=
  do p <- prepare_kw true [OArr a] [bins_op b; OPlain []; OPlain []];
  match b with
  | BEdges o => do _ <- keep (op_cf o); Err UnboundLocal
  | BNum n =>
      do c <- keep (acf a);
      Ok (label (edges (op_vals (OArr a)) (NNum n)) c p)
  end.

(** [np.histogram2d] 1367-1472 and [np.histogramdd] 1475-1566, without ranges.  Without
    density each axis and the weights are prepared on their own. *)
Definition prepare_axis (sb : carr * bins) : res prepk :=
  prepare_kw true [OArr (fst sb)] [bins_op (snd sb); OPlain []].
Definition axis_numbers (p : prepk) : list R := match k_args p with o :: _ => op_vals o | [] => [] end.
Definition axis_edges (b : bins) (p : prepk) : list R :=
  edges (axis_numbers p) (nbins_of b (match k_kw p with o :: _ => o | [] => OPlain [] end)).
Definition count_points (axes : list (carr * bins)) : nat :=
  match axes with [] => O | (x, _) :: _ => length (avals x) end.

Definition np_hist_counts (axes : list (carr * bins)) (w : option operand)
  : res (operand * list carr) :=
  do ps <- all_ok (map prepare_axis axes);
  do pw <- prepare_kw true [] [weights_op w];
  let vs := map axis_numbers ps in
  let es := map2 (fun sb p => axis_edges (snd sb) p) axes ps in
  let wv := weights_of (count_points axes) w (match k_kw pw with o :: _ => o | [] => OPlain [] end) in
  let cnt := histv vs es wv false in
  Ok (match w with
      | Some (OArr y) => OArr (label cnt (acf y) pw)
      | _ => OPlain cnt end,
      map2 (fun sb ep => label (fst ep) (acf (fst sb)) (snd ep)) axes (combine es ps)).

(** With density everything is prepared together, but the edges are returned with the
    attributes of the separate preparations; [histogramdd] gives all of them the label
    of the first axis (1536), and its bins, being a list, are not prepared. *)
Definition np_hist2d_density (x y : carr) (bx by_ : bins) (w : option operand)
  : res (operand * list carr) :=
  do px <- prepare_axis (x, bx);
  do py <- prepare_axis (y, by_);
  do p <- prepare_kw true [OArr x; OArr y]
            [bins_op bx; bins_op by_; OPlain []; OPlain []; weights_op w];
  match k_args p, k_kw p with
  | [x'; y'], [bx'; by'; _; _; w'] =>
      let ex := edges (op_vals x') (nbins_of bx bx') in
      let ey := edges (op_vals y') (nbins_of by_ by') in
      let cnt := histv [op_vals x'; op_vals y'] [ex; ey] (weights_of (length (avals x)) w w') true in
      do cxy <- h_multiply2 (acf x) (acf y);
      do inv <- h_reciprocal cxy;
      do ccnt <- (match w with
                  | None => Ok inv
                  | Some o => do cw <- keep (op_cf o); h_multiply2 cw inv end);
      Ok (OArr (label cnt ccnt p), [label ex (acf x) px; label ey (acf y) py])
  | _, _ => Err TypeError
  end.
Definition np_histdd_density (axes : list (carr * bins)) (w : option operand)
  : res (operand * list carr) :=
  do ps <- all_ok (map prepare_axis axes);
  do p <- prepare_kw true (map (fun sb => OArr (fst sb)) axes) [OPlain []; OPlain []; weights_op w];
  let vs := numbers (k_args p) in
  let es := map2 (fun v sb => edges v (nbins_of (snd sb) (bins_op (snd sb)))) vs axes in
  let wv := weights_of (count_points axes) w (nth 2 (k_kw p) (OPlain [])) in
  let cnt := histv vs es wv true in
  do cs <- h_multiply (k_cfs p);
  do inv <- h_reciprocal cs;
  do ccnt <- (match w with
              | None => Ok inv
              | Some o => do cw <- keep (op_cf o); h_multiply2 cw inv end);
  match axes with
  | [] => Err IndexError
  | (x0, _) :: _ =>
      Ok (OArr (label cnt ccnt p), map2 (fun e q => label e (acf x0) q) es ps)
  end.
