(** Histories of conversions and arithmetic over arrays that may share memory. *)
From Coq Require Import String List ZArith Bool Reals Lra Lia.
From Verif Require Import Base CosmoModel CosmoSpec CosmoProofs CosmoExprProofs.
Import ListNotations.
Open Scope R_scope.

Lemma hupd_len : forall A (l : list A) i x, length (upd i x l) = length l.
Proof. induction l; destruct i; cbn; intros; congruence. Qed.
Lemma hupd_same : forall A (l : list A) i x y, nth_error l i = Some y -> nth_error (upd i x l) i = Some x.
Proof. induction l; destruct i; cbn; intros; try discriminate; eauto. Qed.
Lemma hupd_other : forall A (l : list A) i j x, i <> j -> nth_error (upd i x l) j = nth_error l j.
Proof. induction l; destruct i, j; cbn; intros; try reflexivity; try congruence. apply IHl; congruence. Qed.
Lemma hupd_nth_same : forall A (l : list A) i x d, (i < length l)%nat -> nth i (upd i x l) d = x.
Proof. induction l; destruct i; cbn; intros; try lia; try reflexivity. apply IHl; lia. Qed.
Lemma hupd_nth_other : forall A (l : list A) i j x d, i <> j -> nth j (upd i x l) d = nth j l d.
Proof. induction l; destruct i, j; cbn; intros; try reflexivity; try congruence. apply IHl; congruence. Qed.
Lemma hupd_id : forall A (l : list A) i d, upd i (nth i l d) l = l.
Proof. induction l; destruct i; cbn; intros; congruence. Qed.
Lemma hupd_id_err : forall A (l : list A) i x, nth_error l i = Some x -> upd i x l = l.
Proof. induction l; destruct i; cbn; intros; try discriminate; try congruence. f_equal; auto. Qed.

(** * Attributes of results *)
Definition law (x : carr) : Prop := verify (acm x) (avt x) = Ok tt.

Lemma law_cases : forall cm vt, verify cm vt = Ok tt ->
  (cm = None /\ vt = false) \/ (cm = Some false /\ vt = false) \/ (exists b, cm = Some b /\ vt = true).
Proof.
  intros [[|]|] [|]; cbn; intro H; try discriminate; eauto 6.
Qed.

Lemma prepare2_attrs : forall x y p, prepare true [OArr x; OArr y] = Ok p -> law x -> law y ->
  p_vt p = avt x && avt y /\ verify (p_cm p) (p_vt p) = Ok tt.
Proof.
  intros x y p H Lx Ly. unfold law in *.
  apply law_cases in Lx. apply law_cases in Ly. unfold prepare in H.
  cbn [map op_cm op_cf op_vt filter fst snd forallb existsb] in H.
  destruct Lx as [[Cx Vx]|[[Cx Vx]|(bx & Cx & Vx)]];
    destruct Ly as [[Cy Vy]|[[Cy Vy]|(by_ & Cy & Vy)]]; rewrite Cx, Cy, Vx, Vy in H;
    try destruct bx; try destruct by_;
    cbn [is_true is_false is_none andb orb negb forallb existsb] in H;
    try discriminate H;
    try (injection H as <-; rewrite Vx, Vy; cbn; split; reflexivity);
    match type of H with bind ?e _ = _ => destruct e as [a|er] end; cbn [bind] in H;
    try discriminate H; injection H as <-; rewrite Vx, Vy; cbn; split; reflexivity.
Qed.

Lemma prepare1_attrs : forall x p, prepare true [OArr x] = Ok p -> law x ->
  p_vt p = avt x /\ verify (p_cm p) (p_vt p) = Ok tt.
Proof.
  intros x p H Lx. unfold law in *. apply law_cases in Lx. unfold prepare in H.
  cbn [map op_cm op_cf op_vt filter fst snd forallb existsb] in H.
  destruct Lx as [[Cx Vx]|[[Cx Vx]|(bx & Cx & Vx)]]; rewrite Cx, Vx in H; try destruct bx;
    cbn [is_true is_false is_none andb orb negb forallb existsb] in H;
    injection H as <-; rewrite Vx; cbn; split; reflexivity.
Qed.

Lemma prepare_l_attrs : forall x v p, prepare true [OArr x; OPlain v] = Ok p -> law x ->
  p_vt p = avt x /\ verify (p_cm p) (p_vt p) = Ok tt.
Proof.
  intros x v p H Lx. unfold law in *. apply law_cases in Lx. unfold prepare in H.
  cbn [map op_cm op_cf op_vt filter fst snd forallb existsb] in H.
  destruct Lx as [[Cx Vx]|[[Cx Vx]|(bx & Cx & Vx)]]; rewrite Cx, Vx in H; try destruct bx;
    cbn [is_true is_false is_none andb orb negb forallb existsb] in H;
    injection H as <-; rewrite Vx; cbn; split; reflexivity.
Qed.

Lemma bind_ok : forall A B (x : res A) (f : A -> res B) b, bind x f = Ok b ->
  exists a, x = Ok a /\ f a = Ok b.
Proof. intros A B [a|e] f b H; cbn in H; [ eauto | discriminate ]. Qed.

Lemma binop_attrs : forall o x y r, binop o (OArr x) (OArr y) = Ok r -> law x -> law y ->
  avt r = avt x && avt y /\ law r.
Proof.
  intros o x y r H Lx Ly. unfold binop, ufunc2 in H.
  apply bind_ok in H. destruct H as (p & P & H). apply bind_ok in H. destruct H as (c & _ & H).
  destruct (prepare2_attrs x y p P Lx Ly) as [Hv Hl].
  destruct (p_args p) as [|x' [|y' [|]]]; try discriminate.
  apply bind_ok in H. destruct H as (v & _ & H). injection H as <-. unfold law; cbn. auto.
Qed.
Lemma unop_attrs : forall o x r, unop o (OArr x) = Ok r -> law x -> avt r = avt x /\ law r.
Proof.
  intros o x r H Lx. unfold unop, ufunc1 in H.
  apply bind_ok in H. destruct H as (p & P & H). apply bind_ok in H. destruct H as (c & _ & H).
  destruct (prepare1_attrs x p P Lx) as [Hv Hl].
  destruct (p_args p) as [|x' [|]]; try discriminate. injection H as <-. unfold law; cbn. auto.
Qed.
Lemma powop_attrs : forall x q r, powop (OArr x) (OPlain [q]) = Ok r -> law x -> avt r = avt x /\ law r.
Proof.
  intros x q r H Lx. unfold powop, ufunc2 in H. cbn [op_vals] in H.
  apply bind_ok in H. destruct H as (p & P & H). apply bind_ok in H. destruct H as (c & _ & H).
  destruct (prepare_l_attrs x [q] p P Lx) as [Hv Hl].
  destruct (p_args p) as [|x' [|y' [|]]]; try discriminate.
  apply bind_ok in H. destruct H as (v & _ & H). injection H as <-. unfold law; cbn. auto.
Qed.

Lemma conv_c_attrs : forall x r, convert_to_comoving x = Ok r -> law x ->
  avt r = avt x /\ law r /\ avt x = true.
Proof.
  intros x r H Lx. unfold law in *. apply law_cases in Lx. unfold convert_to_comoving in H.
  destruct Lx as [[Cx Vx]|[[Cx Vx]|(bx & Cx & Vx)]]; rewrite Cx, ?Vx in H; cbn in H; try discriminate.
  destruct bx; cbn in H.
  - injection H as <-. rewrite Cx, Vx; cbn; auto.
  - apply bind_ok in H. destruct H as (f & _ & H). injection H as <-. cbn. rewrite Vx. auto.
Qed.
Lemma conv_p_attrs : forall x r, convert_to_physical x = Ok r -> law x ->
  avt r = avt x /\ law r /\ (avt x = false -> r = x).
Proof.
  intros x r H Lx. unfold law in *. apply law_cases in Lx. unfold convert_to_physical in H.
  destruct Lx as [[Cx Vx]|[[Cx Vx]|(bx & Cx & Vx)]]; rewrite Cx in H; cbn in H; try discriminate.
  - injection H as <-. rewrite Cx, Vx; cbn; auto.
  - destruct bx; cbn in H.
    + apply bind_ok in H. destruct H as (f & _ & H). injection H as <-. cbn. rewrite Vx.
      split; [ reflexivity | split; [ reflexivity | discriminate ] ].
    + injection H as <-. rewrite Cx, Vx; cbn; auto.
Qed.
Lemma to_c_attrs : forall x r, to_comoving x = Ok r -> law x -> avt r = avt x /\ law r.
Proof.
  intros x r H Lx. unfold to_comoving in H.
  destruct (negb (avt x) && _); [ discriminate | ].
  destruct (conv_c_attrs x r H Lx) as (A & B & _); auto.
Qed.
Lemma to_p_attrs : forall x r, to_physical x = Ok r -> law x -> avt r = avt x /\ law r.
Proof.
  intros x r H Lx. unfold to_physical in H.
  destruct (negb (avt x) && _); [ discriminate | ].
  destruct (conv_p_attrs x r H Lx) as (A & B & _); auto.
Qed.
Lemma to_cm_attrs : forall cm x r, to_cm cm x = Ok r -> law x -> avt r = avt x /\ law r.
Proof.
  intros [b|] x r H Lx; cbn [to_cm] in H; [ | injection H as <-; auto ].
  destruct (negb (avt x) && _); [ discriminate | ]. destruct b.
  - destruct (conv_c_attrs x r H Lx) as (A & B & _); auto.
  - destruct (conv_p_attrs x r H Lx) as (A & B & _); auto.
Qed.

(** * Heaps *)
Lemma get_ok : forall h i o, get h i = Ok o <-> nth_error (objs h) i = Some o.
Proof. intros; unfold get; destruct (nth_error (objs h) i); split; congruence. Qed.

Lemma nth_app_cases : forall A (l : list A) x i y, nth_error (l ++ [x]) i = Some y ->
  nth_error l i = Some y \/ (i = length l /\ y = x).
Proof.
  intros A l x i y H. destruct (Nat.lt_ge_cases i (length l)) as [L|L].
  - rewrite nth_error_app1 in H by assumption; auto.
  - rewrite nth_error_app2 in H by assumption. destruct (i - length l)%nat eqn:E; cbn in H.
    + right; split; [ lia | congruence ].
    + destruct n; discriminate.
Qed.
Lemma nth_app_old : forall A (l : list A) x i y, nth_error l i = Some y -> nth_error (l ++ [x]) i = Some y.
Proof. intros. rewrite nth_error_app1; [ assumption | ]. apply nth_error_Some; congruence. Qed.
Lemma nth_lt : forall A (l : list A) i y, nth_error l i = Some y -> (i < length l)%nat.
Proof. intros; apply nth_error_Some; congruence. Qed.

(** Adding an object. *)
Lemma add_ok : forall h b o,
  heap_ok h -> (length (bufs h) <= length b)%nat -> lawful o -> (o_buf o < length b)%nat ->
  (forall j, In j (o_from o) -> (j < length (objs h))%nat) ->
  (forall j p, nth_error (objs h) j = Some p -> o_buf p = o_buf o -> o_vt p = o_vt o) ->
  (forall j p, In j (o_from o) -> nth_error (objs h) j = Some p -> o_vt p = false -> o_vt o = false) ->
  heap_ok (mkheap b (objs h ++ [o])).
Proof.
  intros h b o [H1 H2 H3 H4 H5] Lb L B F S T. constructor; cbn [objs bufs].
  - intros i p E. apply nth_app_cases in E. destruct E as [E|[_ ->]]; eauto.
  - intros i p E. apply nth_app_cases in E. destruct E as [E|[_ ->]]; [ | assumption ].
    specialize (H2 _ _ E); lia.
  - intros i p j E I. apply nth_app_cases in E. destruct E as [E|[-> ->]]; eauto.
  - intros i j p q Ei Ej Eb. apply nth_app_cases in Ei. apply nth_app_cases in Ej.
    destruct Ei as [Ei|[-> ->]]; destruct Ej as [Ej|[-> ->]]; eauto.
    symmetry; eauto.
  - intros i p j q Ei I Ej V. apply nth_app_cases in Ei. apply nth_app_cases in Ej.
    destruct Ei as [Ei|[-> ->]]; destruct Ej as [Ej|[-> ->]]; eauto.
    specialize (H3 _ _ _ Ei I). pose proof (nth_lt _ _ _ _ Ei). lia.
Qed.

Lemma alloc_ok : forall h x from,
  heap_ok h -> law x -> (forall j, In j from -> (j < length (objs h))%nat) ->
  (forall j p, In j from -> nth_error (objs h) j = Some p -> o_vt p = false -> avt x = false) ->
  heap_ok (alloc h x from).
Proof.
  intros h x from H L F T. unfold alloc. apply add_ok; cbn; try assumption.
  - rewrite app_length; cbn; lia.
  - rewrite app_length; cbn; lia.
  - intros j p E Eb. pose proof (ho_buf h H _ _ E). lia.
Qed.

Lemma inplace_heap_ok : forall h i o x b,
  heap_ok h -> nth_error (objs h) i = Some o -> verify (acm x) (o_vt o) = Ok tt ->
  length b = length (bufs h) ->
  heap_ok (mkheap b (upd i (mkobj (o_buf o) (acf x) (acm x) (o_vt o) (acomp x) (o_from o)) (objs h))).
Proof.
  intros h i o x b [H1 H2 H3 H4 H5] E L Lb.
  assert (K : forall j p, nth_error (upd i (mkobj (o_buf o) (acf x) (acm x) (o_vt o) (acomp x) (o_from o)) (objs h)) j = Some p ->
     exists q, nth_error (objs h) j = Some q /\ o_buf p = o_buf q /\ o_vt p = o_vt q /\ o_from p = o_from q
       /\ (lawful q -> lawful p)).
  { intros j p Ep. destruct (Nat.eq_dec i j) as [<-|N].
    - rewrite (hupd_same _ _ _ _ _ E) in Ep. injection Ep as <-. exists o; cbn; auto.
    - rewrite hupd_other in Ep by assumption. exists p; auto. }
  constructor; cbn [objs bufs].
  - intros j p Ep. destruct (K _ _ Ep) as (q & Eq & _ & _ & _ & Lq). eauto.
  - intros j p Ep. destruct (K _ _ Ep) as (q & Eq & Eb & _). rewrite Eb, Lb. eauto.
  - intros j p k Ep I. destruct (K _ _ Ep) as (q & Eq & _ & _ & Ef & _). rewrite Ef in I. eauto.
  - intros j k p q Ep Eq Eb. destruct (K _ _ Ep) as (p' & Ep' & B1 & V1 & _).
    destruct (K _ _ Eq) as (q' & Eq' & B2 & V2 & _). rewrite V1, V2.
    apply (H4 j k p' q' Ep' Eq'). congruence.
  - intros j p k q Ep I Eq V. destruct (K _ _ Ep) as (p' & Ep' & B1 & V1 & F1 & _).
    destruct (K _ _ Eq) as (q' & Eq' & B2 & V2 & _). rewrite V1. rewrite F1 in I. rewrite V2 in V.
    eauto.
Qed.

(** What a step keeps of the objects that must not be converted. *)
Definition frame (h h' : heap) : Prop :=
  (forall i o, nth_error (objs h) i = Some o -> o_vt o = false ->
     nth_error (objs h') i = Some o /\ buf_of h' o = buf_of h o)
  /\ (forall i o, nth_error (objs h) i = Some o ->
     exists o', nth_error (objs h') i = Some o' /\ o_from o' = o_from o /\ o_vt o' = o_vt o
       /\ o_buf o' = o_buf o).

Lemma frame_refl : forall h, frame h h.
Proof. intros h; split; eauto 6. Qed.
Lemma frame_trans : forall a b c, frame a b -> frame b c -> frame a c.
Proof.
  intros a b c [A1 A2] [B1 B2]; split.
  - intros i o E V. destruct (A1 _ _ E V) as [E' F']. destruct (B1 _ _ E' V) as [E'' F'']. 
    split; congruence.
  - intros i o E. destruct (A2 _ _ E) as (o' & E' & F' & V' & G').
    destruct (B2 _ _ E') as (o'' & E'' & F'' & V'' & G''). exists o''. repeat split; congruence.
Qed.

Lemma frame_add : forall h b o, heap_ok h ->
  (forall i, (i < length (bufs h))%nat -> nth i b [] = nth i (bufs h) []) ->
  frame h (mkheap b (objs h ++ [o])).
Proof.
  intros h b o H B; split; cbn [objs].
  - intros i p E V. split; [ apply nth_app_old; assumption | ].
    unfold buf_of; cbn. apply B. eapply ho_buf; eassumption.
  - intros i p E. exists p. split; [ apply nth_app_old; assumption | auto ].
Qed.

Lemma frame_alloc : forall h x from, heap_ok h -> frame h (alloc h x from).
Proof.
  intros h x from H. apply frame_add; [ assumption | ].
  intros i L. rewrite app_nth1 by assumption. reflexivity.
Qed.

Lemma law_arr : forall h i o, heap_ok h -> nth_error (objs h) i = Some o -> law (arr_of h o).
Proof. intros h i o H E. exact (ho_lawful h H i o E). Qed.

Lemma store_ok : forall h r from,
  heap_ok h ->
  (forall x, r = Ok x -> law x /\ (forall j, In j from -> (j < length (objs h))%nat)
     /\ (forall j p, In j from -> nth_error (objs h) j = Some p -> o_vt p = false -> avt x = false)) ->
  heap_ok (fst (store h r from)) /\ frame h (fst (store h r from)).
Proof.
  intros h [x|e] from H K; cbn [store fst]; [ | split; [ assumption | apply frame_refl ] ].
  destruct (K x eq_refl) as (L & F & T). split; [ apply alloc_ok; assumption | apply frame_alloc; assumption ].
Qed.

(** Overwriting a buffer of a convertible array leaves the others' alone. *)
Lemma frame_write : forall h i o v os, heap_ok h -> nth_error (objs h) i = Some o -> o_vt o = true ->
  forall p j, nth_error (objs h) j = Some p -> o_vt p = false ->
  buf_of (mkheap (upd (o_buf o) v (bufs h)) os) p = buf_of h p.
Proof.
  intros h i o v os H E V p j Ep Vp. unfold buf_of; cbn.
  destruct (Nat.eq_dec (o_buf o) (o_buf p)) as [Eb|N].
  - exfalso. pose proof (ho_share h H _ _ _ _ E Ep Eb). congruence.
  - apply hupd_nth_other; assumption.
Qed.

Lemma mkobj_eta : forall o, mkobj (o_buf o) (o_cf o) (o_cm o) (o_vt o) (o_comp o) (o_from o) = o.
Proof. destruct o; reflexivity. Qed.
Lemma mkheap_eta : forall h, mkheap (bufs h) (objs h) = h.
Proof. destruct h; reflexivity. Qed.

Lemma inplace_self : forall h i o, nth_error (objs h) i = Some o ->
  inplace h i o (arr_of h o) = h.
Proof.
  intros h i o E. unfold inplace, arr_of, buf_of; cbn.
  rewrite hupd_id, mkobj_eta, (hupd_id_err _ _ _ _ E). apply mkheap_eta.
Qed.

Lemma inplace_step : forall h i o x, heap_ok h -> nth_error (objs h) i = Some o ->
  avt x = o_vt o -> law x -> (o_vt o = false -> x = arr_of h o) ->
  heap_ok (inplace h i o x) /\ frame h (inplace h i o x).
Proof.
  intros h i o x H E V L K.
  destruct (o_vt o) eqn:Vo.
  - split.
    + unfold inplace. rewrite V, <- Vo. apply inplace_heap_ok; try assumption.
      * unfold law in L. rewrite Vo, <- V. exact L.
      * apply hupd_len.
    + split.
      * intros j p Ep Vp. unfold inplace; cbn [objs].
        split.
        -- destruct (Nat.eq_dec i j) as [<-|N]; [ congruence | ].
           rewrite hupd_other by assumption; assumption.
        -- eapply frame_write; eassumption.
      * intros j p Ep. unfold inplace; cbn [objs]. destruct (Nat.eq_dec i j) as [<-|N].
        -- rewrite (hupd_same _ _ _ _ _ E). eexists; split; [ reflexivity | ].
           assert (p = o) by congruence. subst p. cbn. rewrite V, Vo. auto.
        -- rewrite hupd_other by assumption. exists p; auto.
  - rewrite (K eq_refl), inplace_self by assumption. split; [ assumption | apply frame_refl ].
Qed.

Lemma convert_ok : forall h i conv, heap_ok h ->
  (forall x r, conv x = Ok r -> law x -> avt r = avt x /\ law r /\ (avt x = false -> r = x)) ->
  heap_ok (fst (convert h i conv)) /\ frame h (fst (convert h i conv)).
Proof.
  intros h i conv H K. unfold convert.
  destruct (get h i) as [o|e] eqn:G; cbn [fst]; [ | split; [ assumption | apply frame_refl ] ].
  apply get_ok in G.
  destruct (conv (arr_of h o)) as [x|e] eqn:C; cbn [fst]; [ | split; [ assumption | apply frame_refl ] ].
  destruct (K _ _ C (law_arr h i o H G)) as (V & L & F).
  apply inplace_step; assumption.
Qed.

Lemma wrap_ok : forall h i cm vt, heap_ok h ->
  (forall o, nth_error (objs h) i = Some o -> vt = o_vt o) ->
  heap_ok (fst (wrap h i cm vt)) /\ frame h (fst (wrap h i cm vt)).
Proof.
  intros h i cm vt H W. unfold wrap.
  destruct (get h i) as [o|e] eqn:G; cbn [fst]; [ | split; [ assumption | apply frame_refl ] ].
  apply get_ok in G. pose proof (law_arr h i o H G) as Lo.
  assert (R : forall y,
    match cm with
    | None => Ok (arr_of h o)
    | Some true => convert_to_comoving (arr_of h o)
    | Some false => convert_to_physical (arr_of h o)
    end = Ok y -> avt y = o_vt o /\ law y /\ (o_vt o = false -> y = arr_of h o)).
  { intros y. destruct cm as [[|]|]; intro C.
    - destruct (conv_c_attrs _ _ C Lo) as (A & B & D). cbn in D.
      split; [ assumption | split; [ assumption | congruence ] ].
    - exact (conv_p_attrs _ _ C Lo).
    - injection C as <-. auto. }
  destruct (match cm with
    | None => Ok (arr_of h o)
    | Some true => convert_to_comoving (arr_of h o)
    | Some false => convert_to_physical (arr_of h o)
    end) as [y|e] eqn:C; cbn [fst]; [ | split; [ assumption | apply frame_refl ] ].
  destruct (R y eq_refl) as (V & L & F).
  rewrite (W o G). unfold law in L. rewrite V in L. rewrite L. cbn [fst bufs objs].
  split.
  - apply add_ok; cbn; try assumption.
    + rewrite hupd_len; lia.
    + rewrite hupd_len. eapply ho_buf; eassumption.
    + intros j [<-|[]]. eapply nth_lt; eassumption.
    + intros j p Ep Eb. exact (ho_share h H _ _ _ _ Ep G Eb).
    + intros j p [<-|[]] Ep Vp. congruence.
  - split; cbn [objs].
    + intros j p Ep Vp. split; [ apply nth_app_old; assumption | ].
      destruct (o_vt o) eqn:Vo.
      * eapply frame_write; eassumption.
      * rewrite (F eq_refl). unfold buf_of, arr_of; cbn. unfold buf_of. rewrite hupd_id. reflexivity.
    + intros j p Ep. exists p. split; [ apply nth_app_old; assumption | auto ].
Qed.

Lemma step_ok : forall h s, heap_ok h -> no_rewrap h s ->
  heap_ok (fst (step h s)) /\ frame h (fst (step h s)).
Proof.
  intros h s H W. destruct s; cbn [step].
  - destruct (get h i) as [o|e] eqn:G; cbn [fst]; [ | split; [ assumption | apply frame_refl ] ].
    apply get_ok in G. split.
    + apply add_ok; cbn; try assumption; try lia.
      * exact (ho_lawful h H _ _ G).
      * eapply ho_buf; eassumption.
      * intros j [<-|[]]. eapply nth_lt; eassumption.
      * intros j p Ep Eb. exact (ho_share h H _ _ _ _ Ep G Eb).
      * intros j p [<-|[]] Ep Vp. congruence.
    + apply frame_add; auto.
  - apply store_ok; [ assumption | ]. intros x E. apply bind_ok in E. destruct E as (o & G & E).
    apply get_ok in G. injection E as <-. split; [ apply (law_arr h i); assumption | ]. split.
    + intros j [<-|[]]. eapply nth_lt; eassumption.
    + intros j p [<-|[]] Ep Vp. cbn. congruence.
  - apply convert_ok; [ assumption | ]. intros x r C L.
    destruct (conv_c_attrs x r C L) as (A & B & D). split; [ assumption | split; [ assumption | congruence ] ].
  - apply convert_ok; [ assumption | ]. intros x r C L. exact (conv_p_attrs x r C L).
  - apply store_ok; [ assumption | ]. intros x E. apply bind_ok in E. destruct E as (o & G & E).
    apply get_ok in G. destruct (to_c_attrs _ _ E (law_arr h i o H G)) as [A B].
    split; [ assumption | ]. split.
    + intros j [<-|[]]. eapply nth_lt; eassumption.
    + intros j p [<-|[]] Ep Vp. rewrite A. cbn. congruence.
  - apply store_ok; [ assumption | ]. intros x E. apply bind_ok in E. destruct E as (o & G & E).
    apply get_ok in G. destruct (to_p_attrs _ _ E (law_arr h i o H G)) as [A B].
    split; [ assumption | ]. split.
    + intros j [<-|[]]. eapply nth_lt; eassumption.
    + intros j p [<-|[]] Ep Vp. rewrite A. cbn. congruence.
  - apply store_ok; [ assumption | ]. intros x E. apply bind_ok in E. destruct E as (o & G & E).
    apply get_ok in G. destruct (to_cm_attrs _ _ _ E (law_arr h i o H G)) as [A B].
    split; [ assumption | ]. split.
    + intros j [<-|[]]. eapply nth_lt; eassumption.
    + intros j p [<-|[]] Ep Vp. rewrite A. cbn. congruence.
  - apply wrap_ok; assumption.
  - apply store_ok; [ assumption | ]. intros x E. apply bind_ok in E. destruct E as (p & G & E).
    apply bind_ok in E. destruct E as (q & G' & E). apply get_ok in G. apply get_ok in G'.
    destruct (binop_attrs _ _ _ _ E (law_arr h i p H G) (law_arr h j q H G')) as [A B].
    split; [ assumption | ]. split.
    + intros k [<-|[<-|[]]]; eapply nth_lt; eassumption.
    + intros k r [<-|[<-|[]]] Er Vr; rewrite A; cbn.
      * assert (r = p) by congruence. subst. rewrite Vr. reflexivity.
      * assert (r = q) by congruence. subst. rewrite Vr. apply andb_false_r.
  - apply store_ok; [ assumption | ]. intros x E. apply bind_ok in E. destruct E as (p & G & E).
    apply get_ok in G. destruct (unop_attrs _ _ _ E (law_arr h i p H G)) as [A B].
    split; [ assumption | ]. split.
    + intros j [<-|[]]. eapply nth_lt; eassumption.
    + intros j q [<-|[]] Ep Vp. rewrite A. cbn. congruence.
  - apply store_ok; [ assumption | ]. intros x E. apply bind_ok in E. destruct E as (q & G & E).
    apply get_ok in G. destruct (powop_attrs _ _ _ E (law_arr h i q H G)) as [A B].
    split; [ assumption | ]. split.
    + intros j [<-|[]]. eapply nth_lt; eassumption.
    + intros j r [<-|[]] Ep Vp. rewrite A. cbn. congruence.
Qed.

Lemma run_ok : forall l h, heap_ok h -> all_steps no_rewrap h l ->
  heap_ok (run h l) /\ frame h (run h l).
Proof.
  induction l as [|s l IH]; intros h H W; cbn [run all_steps] in *.
  - split; [ assumption | apply frame_refl ].
  - destruct W as [W1 W2]. destruct (step_ok h s H W1) as [H' F].
    destruct (IH _ H' W2) as [H'' F']. split; [ assumption | eapply frame_trans; eassumption ].
Qed.

Lemma derived_vt : forall h, heap_ok h -> forall k i, derived h k i ->
  forall o p, nth_error (objs h) i = Some o -> o_vt o = false -> nth_error (objs h) k = Some p ->
  o_vt p = false /\ o_cm p <> Some true.
Proof.
  intros h H k i D. induction D as [i|k q j i Eq I D IH]; intros o p Eo Vo Ep.
  - assert (p = o) by congruence. subst p. split; [ assumption | ].
    pose proof (ho_lawful h H _ _ Eo) as L. unfold lawful in L. rewrite Vo in L.
    intro C; rewrite C in L; discriminate.
  - assert (q = p) by congruence. subst q.
    pose proof (ho_from h H _ _ _ Eq I) as Lt.
    destruct (nth_error (objs h) j) as [r|] eqn:Er.
    2:{ apply nth_error_None in Er. apply nth_lt in Eq. lia. }
    destruct (IH _ _ Eo Vo eq_refl) as [Vr _].
    pose proof (ho_taint h H _ _ _ _ Eq I Er Vr) as Vp. split; [ assumption | ].
    pose proof (ho_lawful h H _ _ Eq) as L. unfold lawful in L. rewrite Vp in L.
    intro C; rewrite C in L; discriminate.
Qed.
