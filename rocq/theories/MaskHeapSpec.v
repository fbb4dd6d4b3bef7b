(** Vocabulary for masks in memory. *)
From Coq Require Import List ZArith Bool.
From Verif Require Import Base RangesModel MaskModel MaskHeapModel.
Import ListNotations.
Open Scope Z_scope.

(** There are arrays of ranges, or of booleans, at the addresses. *)
Definition is_ranges (h : memory) (r : nat) : Prop := exists l, nth_error h r = Some (ARanges l).
Definition is_bools (h : memory) (r : nat) : Prop := exists l, nth_error h r = Some (ABools l).

(** A mask whose attributes hold different arrays of the right kind, one for every key. *)
Definition sound_mask (mm : mask_meta) (h : memory) (m : hmask) : Prop :=
  NoDup (map fst (hm_slots m))
  /\ (forall r, In r (map fst (hm_slots m)) -> if hm_range m then is_ranges h r else is_bools h r)
  /\ length (hm_slots m) = length (mm_keys mm)
  /\ length (hm_cells m) = length (mm_keys mm).

(** The arrays that datasets have are arrays of ranges. *)
Definition sound (mm : mask_meta) (w : world) : Prop :=
  sound_mask mm (w_mem w) (w_mask w)
  /\ (forall d r, In d (w_datasets w) -> In r (map fst d) -> is_ranges (w_mem w) r).

(** The mask as a value. *)
Inductive stands (h : memory) (m : hmask) : mask_state -> Prop :=
| stands_ranges : forall l, hm_range m = true ->
    Forall2 (fun s x => nth_error h (fst s) = Some (ARanges (fst x)) /\ snd s = snd x) (hm_slots m) l ->
    stands h m (mk_mask_state (hm_constrained m) (hm_cells m) (InRanges l))
| stands_bools : forall l, hm_range m = false ->
    Forall2 (fun s x => nth_error h (fst s) = Some (ABools (fst x)) /\ snd s = snd x) (hm_slots m) l ->
    stands h m (mk_mask_state (hm_constrained m) (hm_cells m) (InBools l)).

(** What a program does to the mask as a value (first the state before, last the state after), and the states
    of the mask at the loads that succeed. *)
Inductive course (mm : mask_meta) : mask_state -> list use -> mask_state -> list mask_state -> Prop :=
| course_end : forall st, course mm st [] st []
| course_call : forall st st' st'' op e us sts,
    mask_step mm op st = (st', e) -> course mm st' us st'' sts -> course mm st (UMask op :: us) st'' sts
| course_load : forall st st' st'' us sts,
    mask_step mm OpToRanges st = (st', None) -> course mm st' us st'' sts -> course mm st (ULoad true :: us) st'' (st :: sts)
| course_refused : forall st st' st'' us sts,
    mask_step mm OpToRanges st = (st', None) -> course mm st' us st'' sts -> course mm st (ULoad false :: us) st'' sts
| course_take : forall st st' key us sts,
    course mm st us st' sts -> course mm st (UTake key :: us) st' sts.
