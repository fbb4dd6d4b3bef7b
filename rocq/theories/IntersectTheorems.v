(** C139: the deprecated argument [intersect] of constrain_spatial. *)
From Coq Require Import List ZArith QArith Bool Lia.
From Verif Require Import Base BaseLemmas MaskModel MaskSpec MaskTheorems IntersectModel.
Import ListNotations.

(** The call that the warning asks for: [union] with the same value. *)
Definition modern (c : spatial_call) : mask_op :=
  OpSpatial (c_region c) (match c_intersect c with Some v => v | None => c_union c end).

(** Without a strict filter, calls with the old argument do what the calls with [union] of the same value do, raise what
    they raise, and warn exactly if the old argument was given; a value of [union] in the same call has no effect. *)
Theorem C139_same : forall mm cs st,
  let '(st', es) := spatial_calls false mm cs st in
  mask_run mm (map modern cs) st = (st', map (fun we => match snd we with Some (Exception e) => Some e | _ => None end) es) /\
  map fst es = map (fun c => match c_intersect c with Some _ => true | None => false end) cs /\
  (forall w, In (w, Some Deprecation) es -> False).
Proof.
  intros mm cs. induction cs as [|c cs IH]; intro st.
  - cbn. split; [reflexivity|]. split; [reflexivity|]. intros w [].
  - cbn [spatial_calls map mask_run].
    assert (E : spatial_with false mm c st = let '(st', e) := mask_step mm (modern c) st in
              (st', match c_intersect c with Some _ => true | None => false end, option_map Exception e)).
    { unfold spatial_with, modern, mask_step. destruct (c_intersect c); reflexivity. }
    rewrite E. destruct (mask_step mm (modern c) st) as [st1 e]. specialize (IH st1).
    destruct (spatial_calls false mm cs st1) as [st2 es]. destruct IH as (I1 & I2 & I3). rewrite I1. cbn [map fst snd].
    split; [destruct e; reflexivity|]. split; [f_equal; exact I2|].
    intros w [H|H]; [destruct e; discriminate H|exact (I3 w H)].
Qed.

(** With a strict filter the old argument raises before anything else, also before a region is found to be malformed. *)
Theorem C139_strict : forall mm c st v, c_intersect c = Some v -> spatial_with true mm c st = (st, true, Some Deprecation).
Proof. intros mm c st v H. unfold spatial_with. rewrite H. reflexivity. Qed.

(** [intersect=True] is the union of regions: ... *)
Theorem C139_union : forall mm regions unions, wf_meta mm -> regions <> [] -> Forall (ok_region mm) regions -> length unions = length regions ->
  exists st, spatial_calls false mm (map (fun ru => mk_call (fst ru) (snd ru) (Some true)) (combine regions unions)) (new_mask mm)
      = (st, map (fun _ => (true, None)) regions) /\
    forall k i, selected st k i <-> exists r, In r regions /\ selected (fst (constrain_spatial mm r false (new_mask mm))) k i.
Proof.
  intros mm regions unions Hw Hn Hok L. destruct (C11_union mm regions Hw Hn Hok) as (st & E & S). exists st. split; [|exact S]. clear S Hn.
  set (cs := map (fun ru : list (option (list Q)) * bool => mk_call (fst ru) (snd ru) (Some true)) (combine regions unions)).
  pose proof (C139_same mm cs (new_mask mm)) as K. destruct (spatial_calls false mm cs (new_mask mm)) as [st' es]. destruct K as (K1 & K2 & K3).
  assert (M : map modern cs = map (fun r => OpSpatial r true) regions).
  { subst cs. rewrite map_map. clear -L. revert unions L. induction regions as [|r rs IH]; intros [|u us] L; try discriminate L; [reflexivity|].
    cbn [combine map]. f_equal. apply IH. injection L as L. exact L. }
  rewrite M, E in K1. injection K1 as <- K1. f_equal.
  assert (F : map fst es = map (fun _ => true) regions).
  { rewrite K2. subst cs. rewrite map_map. clear -L. revert unions L. induction regions as [|r rs IH]; intros [|u us] L; try discriminate L; [reflexivity|].
    cbn [combine map c_intersect]. f_equal. apply IH. injection L as L. exact L. }
  clear -K1 K3 F. revert es K1 K3 F. induction regions as [|r rs IH]; intros [|[w e] es] K1 K3 F; try discriminate F; [reflexivity|].
  cbn [map fst snd] in *. injection F as -> F. injection K1 as K0 K1.
  destruct e as [[e|]|]; [discriminate K0|exfalso; apply (K3 true); left; reflexivity|]. f_equal. apply IH; [exact K1| |exact F].
  intros w H. apply (K3 w). right. exact H.
Qed.
(** ... not their intersection, as the name says: rows of one of the regions are selected that are not in the other. *)
Theorem C139_intersection_refuted : exists mm r1 r2 st i,
  wf_meta mm /\ Forall (ok_region mm) [r1; r2] /\
  spatial_calls false mm [mk_call r1 false (Some true); mk_call r2 false (Some true)] (new_mask mm) = (st, [(true, None); (true, None)]) /\
  selected st 0 i /\ ~ selected (fst (constrain_spatial mm r2 false (new_mask mm))) 0 i.
Proof.
  exists ex_mm, ex_r1, ex_r2. eexists. exists 0%Z. split; [apply ex_mm_wf|]. split; [apply C11_example|]. split; [reflexivity|]. split.
  - unfold selected. vm_compute. auto.
  - unfold selected. vm_compute. intuition discriminate.
Qed.

(** The old argument wins over [union], either way. *)
Example C139_case :
  snd (spatial_calls false ex_mm [mk_call ex_r1 false None; mk_call ex_r2 true (Some false); mk_call ex_r2 false (Some true)] (new_mask ex_mm))
    = [(false, None); (true, Some (Exception RuntimeError)); (true, None)] /\
  Forall (ok_region ex_mm) [ex_r1; ex_r2] /\
  c_intersect (mk_call [] true (Some true)) = Some true /\
  spatial_with true ex_mm (mk_call [] true (Some true)) (new_mask ex_mm) = (new_mask ex_mm, true, Some Deprecation) /\
  snd (spatial_with false ex_mm (mk_call [] true (Some true)) (new_mask ex_mm)) = Some (Exception ValueError).
Proof. split; [reflexivity|]. split; [apply C11_example|]. repeat match goal with |- _ /\ _ => split end; reflexivity. Qed.

Print Assumptions C139_same.
Print Assumptions C139_strict.
Print Assumptions C139_union.
Print Assumptions C139_intersection_refuted.
