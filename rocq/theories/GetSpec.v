(** Vocabulary for what pictures are made of. *)
From Coq Require Import String List ZArith Reals Bool Ascii Permutation.
From Verif Require Import Base VisModel GetModel.
Import ListNotations.
Open Scope R_scope.

(** The attribute of an object, the first one of the name. *)
Definition holds (o : obj) (name : string) (r : res obj) : Prop :=
  exists before after, o = OGroup (before ++ (name, r) :: after)%list /\ ~ In name (map fst before).
Definition lacks (o : obj) (name : string) : Prop :=
  match o with OArray _ _ => True | OGroup l => ~ In name (map fst l) end.

(** What a path of attributes leads to. *)
Inductive path : obj -> list string -> res obj -> Prop :=
| path_end o : path o [] (Ok o)
| path_none o n rest : lacks o n -> path o (n :: rest) (Err AttributeError)
| path_fails o n rest e : holds o n (Err e) -> path o (n :: rest) (Err e)
| path_step o n rest p r : holds o n (Ok p) -> path p rest r -> path o (n :: rest) r.

(** A name without dots, and names joined by dots. *)
Fixpoint dotless (s : string) : Prop :=
  match s with EmptyString => True | String c t => c <> "."%char /\ dotless t end.
Fixpoint dotted (first : string) (rest : list string) : string :=
  match rest with
  | [] => first
  | n :: rest => (first ++ "." ++ dotted n rest)%string
  end.

(** An array of numbers, an array of points. *)
Definition array_of (comoving : option bool) (l : list R) : obj := OArray comoving (map (fun v => [v]) l).
Definition array_of_points (comoving : option bool) (l : list (R * R * R)) : obj :=
  OArray comoving (map (fun c => let '(x, y, z) := c in [x; y; z]) l).

(** The particles with these positions, weights and smoothing lengths. *)
Definition made_of (cs : list (R * R * R)) (ms hs : list R) (ps : list part) : Prop :=
  map (fun p => (p_x p, p_y p, p_z p)) ps = cs /\ map p_m ps = ms /\ map p_h ps = hs.

(** Threads: at least one, all finish, the GPU runs all of its own. *)
Definition scheduled (s : schedule) : Prop :=
  (1 <= s_threads s)%Z /\ Permutation (s_order s) (zrange 0 (s_threads s))
  /\ forall bx by_ ps, Permutation (s_gpu s bx by_ ps) (gpu_threads bx by_ ps).
