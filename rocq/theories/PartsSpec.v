(** Specification vocabulary for functions with several results. *)
From Coq Require Import List ZArith Bool Reals.
From Verif Require Import Base CosmoModel CosmoSpec FuncModel FuncSpec PartsModel.
Import ListNotations.
Open Scope R_scope.

(** Each part scales with its own exponent. *)
Definition pscale (t : R) (es : list R) (r : res (list (list R))) : res (list (list R)) :=
  match r with Ok vs => Ok (wscale t es vs) | Err e => Err e end.
Definition parts_scale (f : pfun) (aks kks es : list R) : Prop :=
  (forall t avs kvs, 0 < t -> length avs = length aks -> length kvs = length kks ->
     f (wscale t aks avs) (wscale t kks kvs) = pscale t es (f avs kvs))
  /\ forall avs kvs vs, f avs kvs = Ok vs -> length vs = length es.

(** A result stands for [v] and scales with exponent [e]. *)
Definition denotes (s e : R) (o : operand) (v : list R) : Prop := sized s o e /\ op_phys o = v.

(** The results [r] stand for the values [v], part by part. *)
Inductive all_denote (s : R) : list R -> list operand -> list (list R) -> Prop :=
| ad_nil : all_denote s [] [] []
| ad_cons : forall e o v es os vs, denotes s e o v -> all_denote s es os vs ->
    all_denote s (e :: es) (o :: os) (v :: vs).
Definition parts_stand (s : R) (es : list R) (r : res (list operand)) (v : res (list (list R))) : Prop :=
  match r, v with
  | Ok os, Ok vs => all_denote s es os vs
  | Err a, Err b => a = b
  | _, _ => False
  end.

(** The exponents of the parts for a matrix and a vector with exponents [j] and [k]. *)
Inductive exponents (j k : R) : several -> list R -> Prop :=
| ex_lstsq : exponents j k Plstsq [k - j; 2 * k; 0; j]
| ex_linspace : j = k -> exponents j k Plinspace_step [k; k].

(** Least squares with one unknown: solution, residual, rank, singular value. *)
Definition v_lstsq1 (vs _ : list (list R)) : res (list (list R)) :=
  match vs with
  | [a; b] =>
      let aa := sum_of (map2 Rmult a a) in
      let ab := sum_of (map2 Rmult a b) in
      let bb := sum_of (map2 Rmult b b) in
      if negb (Nat.eqb (length a) (length b)) then Err ValueError
      else if Req_EM_T aa 0 then Ok [[0]; []; [0]; [0]]
      else Ok [[ab / aa]; [bb - ab * ab / aa]; [1]; [sqrt aa]]
  | _ => Err TypeError
  end.
(** Eigenvalues and eigenvectors of a diagonal matrix of two rows. *)
Definition v_eig2 (vs _ : list (list R)) : res (list (list R)) :=
  match vs with
  | [[a; b; c; d]] => if Req_EM_T b 0 then if Req_EM_T c 0 then Ok [[a; d]; [1; 0; 0; 1]] else Err ValueError else Err ValueError
  | _ => Err TypeError
  end.
(** [n] points between two numbers, and their distance. *)
Definition v_linspace_step (n : nat) (vs _ : list (list R)) : res (list (list R)) :=
  match vs with
  | [[a]; [b]] => Ok [map (fun i => a + INR i * ((b - a) / INR (n - 1))) (seq 0 n); [(b - a) / INR (n - 1)]]
  | _ => Err TypeError
  end.
