(** Proofs that the results of ufuncs stand for the right values. *)
From Coq Require Import String List ZArith Bool Reals Lra Lia.
From Verif Require Import Base BaseLemmas CosmoModel CosmoSpec CosmoExactSpec CosmoProofs CosmoTheorems CosmoExactTheorems FuncModel FuncSpec FuncProofs UfuncModel UfuncSpec UfuncProofs.
Import ListNotations.
Open Scope R_scope.
Local Open Scope string_scope.

(** * Values *)
Definition with_out (kw : list operand) (out : option (list operand)) : list operand :=
  (kw ++ match out with Some _ => [OPlain []] | None => [] end)%list.

Lemma numbers_firstn : forall n l, numbers (firstn n l) = firstn n (numbers l).
Proof. intros n l. unfold numbers. symmetry. apply firstn_map. Qed.

Lemma right_ok : forall s e b cp v,
  right s e (OArr (mkarr v (lcf s e) (Some b) true cp)) (if b : bool then scale (Rpower s e) v else v).
Proof.
  intros s e b cp v. cbn [right]. split.
  - constructor; cbn; (reflexivity || discriminate).
  - unfold phys, lcf; cbn. destruct b; reflexivity.
Qed.

Lemma F2_map_r : forall A B C (P : A -> C -> Prop) (g : B -> A) (h : B -> C) l,
  (forall x, P (g x) (h x)) -> Forall2 P (map g l) (map h l).
Proof. intros A B C P g h l H. induction l; cbn; constructor; auto. Qed.

(** The state after a successful call whose label is right. *)
Lemma ufunc_state : forall s f u m inputs kw out aks kks e w,
  0 < s ->
  Forall2 (sized s) (map uop_of inputs) aks -> Forall2 (sized s) kw kks ->
  (exists x, In (UArr x) inputs) ->
  label_for u m (map label_in inputs) inputs = Ok (lcf s e, w) ->
  drops u = false ->
  scales f aks kks e ->
  exists b cp,
  match f (map op_phys (map uop_of inputs)) (map op_phys kw) with
  | Err a => array_ufunc f u m inputs kw out = (out, Err a)
  | Ok ws => exists vs,
      ws = map (fun v => if b : bool then scale (Rpower s e) v else v) vs /\
      array_ufunc f u m inputs kw out
      = (match out with None => None | Some os => Some (map2 (fun o v => match o with OArr _ => OArr (mkarr v (lcf s e) (Some b) true cp) | OPlain _ => OPlain v end) os vs) end,
         Ok (mkures (map (fun v => OArr (mkarr v (lcf s e) (Some b) true cp)) vs) w))
  end.
Proof.
  intros s f u m inputs kw out aks kks e w Hs Ha Hk (x0 & I0) Hl Hd Hf.
  set (args := map uop_of inputs) in *.
  assert (Ho : Forall2 (sized s) (with_out kw out) (kks ++ match out with Some _ => [0] | None => [] end)).
  { unfold with_out. apply Forall2_app; [exact Hk|]. destruct out; constructor; [constructor|constructor]. }
  assert (C : Forall conv (arrs (args ++ with_out kw out))).
  { rewrite arrs_app. apply Forall_app. split; eapply sized_conv; eassumption. }
  destruct (prepare_conv args (with_out kw out) C) as (args' & kw' & P & Na & Nk & _).
  assert (Fr : frame (args ++ with_out kw out) <> None).
  { intro F. apply frame_none in F. rewrite Forall_forall in F.
    assert (E : None = op_cf (OArr x0)).
    { apply F. apply in_map. apply in_or_app. left. unfold args.
      change (OArr x0) with (uop_of (UArr x0)). apply in_map. exact I0. }
    assert (S0 : exists k, sized s (OArr x0) k).
    { assert (I1 : In (OArr x0) args) by (unfold args; change (OArr x0) with (uop_of (UArr x0)); apply in_map; exact I0).
      clear - Ha I1. induction Ha as [|o k l ks S _ IH]; [destruct I1|].
      destruct I1 as [->|I1]; [exists k; exact S|apply IH, I1]. }
    destruct S0 as (k & S0). inversion S0 as [x k' G|]; subst.
    pose proof (g_cf _ _ _ G) as Q. cbn in E. rewrite Q in E. discriminate. }
  unfold array_ufunc. cbv zeta. fold args. fold (with_out kw out). rewrite P. cbn [bind k_cfs k_args k_kw].
  assert (EL : map op_cf args = map label_in inputs) by (unfold args; apply uop_labels).
  rewrite EL, Hl. cbn [bind fst snd]. rewrite Hd.
  rewrite numbers_firstn, Na, Nk.
  assert (FK : forall fr, firstn (length kw) (map (in_frame fr) (with_out kw out)) = map (in_frame fr) kw).
  { intro fr. unfold with_out. rewrite map_app.
    rewrite <- (map_length (in_frame fr) kw) at 1. rewrite firstn_app, Nat.sub_diag.
    rewrite firstn_all. rewrite app_nil_r. reflexivity. }
  rewrite FK. unfold out_marked, marked, label. cbn [k_cm k_vt k_comp].
  destruct (frame (args ++ with_out kw out)) as [b|] eqn:EF; [|congruence].
  exists b, (comp_of (args ++ with_out kw out)).
  assert (E : f (map op_phys args) (map op_phys kw)
              = match f (map (in_frame (Some b)) args) (map (in_frame (Some b)) kw) with
                | Ok vs => Ok (map (fun v => if b : bool then scale (Rpower s e) v else v) vs)
                | Err a => Err a end).
  { destruct b.
    - change (map (in_frame (Some true)) args) with (map op_comov args).
      change (map (in_frame (Some true)) kw) with (map op_comov kw).
      rewrite (wscale_comov s args aks Ha), (wscale_comov s kw kks Hk).
      rewrite Hf; [|exact Hs|rewrite map_length; eapply F2_length; eassumption|rewrite map_length; eapply F2_length; eassumption].
      destruct (f (map op_comov args) (map op_comov kw)); reflexivity.
    - change (map (in_frame (Some false)) args) with (map op_phys args).
      change (map (in_frame (Some false)) kw) with (map op_phys kw).
      destruct (f (map op_phys args) (map op_phys kw)) as [vs|a]; [|reflexivity]. rewrite map_id. reflexivity. }
  rewrite E. destruct (f (map (in_frame (Some b)) args) (map (in_frame (Some b)) kw)) as [vs|a]; cbn [bind].
  - exists vs. split; [reflexivity|]. destruct out; reflexivity.
  - reflexivity.
Qed.

Lemma ufunc_right : forall s f u m inputs kw out aks kks e w,
  0 < s ->
  Forall2 (sized s) (map uop_of inputs) aks -> Forall2 (sized s) kw kks ->
  (exists x, In (UArr x) inputs) ->
  label_for u m (map label_in inputs) inputs = Ok (lcf s e, w) ->
  drops u = false ->
  scales f aks kks e ->
  all_right s e (snd (array_ufunc f u m inputs kw out)) (f (map op_phys (map uop_of inputs)) (map op_phys kw)).
Proof.
  intros s f u m inputs kw out aks kks e w Hs Ha Hk Ix Hl Hd Hf.
  destruct (ufunc_state s f u m inputs kw out aks kks e w Hs Ha Hk Ix Hl Hd Hf) as (b & cp & H).
  destruct (f (map op_phys (map uop_of inputs)) (map op_phys kw)) as [ws|a].
  - destruct H as (vs & -> & ->). cbn [snd all_right r_values].
    apply F2_map_r. intro v. apply right_ok.
  - rewrite H. reflexivity.
Qed.

Lemma map2_nth' : forall A B C (g : A -> B -> C) l m i a b,
  nth_error l i = Some a -> nth_error m i = Some b -> nth_error (map2 g l m) i = Some (g a b).
Proof.
  intros A B C g l. induction l as [|x l IH]; intros [|y m] [|i] a b Ha Hb; cbn in *; try discriminate.
  - congruence.
  - apply IH; assumption.
Qed.

(** Arrays given as [out] stand for the same values. *)
Lemma ufunc_out_right : forall s f u m inputs kw os aks kks e w ws i x v,
  0 < s ->
  Forall2 (sized s) (map uop_of inputs) aks -> Forall2 (sized s) kw kks ->
  (exists x, In (UArr x) inputs) ->
  label_for u m (map label_in inputs) inputs = Ok (lcf s e, w) ->
  drops u = false ->
  scales f aks kks e ->
  f (map op_phys (map uop_of inputs)) (map op_phys kw) = Ok ws ->
  nth_error os i = Some (OArr x) -> nth_error ws i = Some v ->
  exists os' o, fst (array_ufunc f u m inputs kw (Some os)) = Some os' /\ nth_error os' i = Some o /\ right s e o v.
Proof.
  intros s f u m inputs kw os aks kks e w ws i x v Hs Ha Hk Ix Hl Hd Hf E Ho Hv.
  destruct (ufunc_state s f u m inputs kw (Some os) aks kks e w Hs Ha Hk Ix Hl Hd Hf) as (b & cp & H).
  rewrite E in H. destruct H as (vs & -> & ->). cbn [fst].
  rewrite nth_error_map in Hv. destruct (nth_error vs i) as [v'|] eqn:V; [|discriminate]. injection Hv as <-.
  eexists. exists (OArr (mkarr v' (lcf s e) (Some b) true cp)). split; [reflexivity|]. split; [|apply right_ok].
  rewrite (map2_nth' _ _ _ _ os vs i (OArr x) v' Ho V). reflexivity.
Qed.

(** * Labels of convertible arrays *)
Lemma entry_same : forall u, In u ["add"; "subtract"; "remainder"; "fmod"; "hypot"; "fmax"; "fmin";
      "nextafter"; "heaviside"; "_ones_like"; "negative"; "absolute"; "fabs"; "conjugate"; "positive";
      "maximum"; "minimum"; "copysign"; "modf"; "divmod"; "floor"; "ceil"; "trunc"; "spacing"; "clip"] ->
  (entry u = Ok HPreserve \/ entry u = Ok HPassthrough)
  /\ existsb (String.eqb u) ["multiply"; "divide"] = false
  /\ existsb (String.eqb u) ["logical_and"; "logical_or"; "logical_xor"; "logical_not"] = false.
Proof.
  intros u H. cbn [In] in H.
  repeat (destruct H as [<-|H]; [split; [first [left; reflexivity|right; reflexivity]|split; reflexivity]|]). contradiction.
Qed.
Lemma same2_same : forall u, In u ["add"; "subtract"; "remainder"; "fmod"; "hypot"; "fmax"; "fmin";
      "nextafter"; "heaviside"; "maximum"; "minimum"; "copysign"; "divmod"] ->
  In u ["add"; "subtract"; "remainder"; "fmod"; "hypot"; "fmax"; "fmin";
      "nextafter"; "heaviside"; "_ones_like"; "negative"; "absolute"; "fabs"; "conjugate"; "positive";
      "maximum"; "minimum"; "copysign"; "modf"; "divmod"; "floor"; "ceil"; "trunc"; "spacing"; "clip"].
Proof. intros u H. cbn [In] in *. tauto. Qed.

Lemma lawful_drops : forall u m aks e, lawful_call u m aks e -> drops u = false.
Proof.
  intros u m aks e H. unfold drops. destruct H as [u m k I|u k I|u j k I|u j k I| | | | | | |]; try reflexivity.
  - destruct (entry_same u I) as ([-> | ->] & _); reflexivity.
  - destruct (entry_same u (same2_same u I)) as ([-> | ->] & _); reflexivity.
  - cbn [In] in I. repeat (destruct I as [<-|I]; [reflexivity|]). contradiction.
  - cbn [In] in I. repeat (destruct I as [<-|I]; [reflexivity|]). contradiction.
Qed.

Lemma lcf_w : forall s j k (w : list cf), j = k -> Ok (lcf s j, w) = Ok (lcf s k, w).
Proof. intros; subst; reflexivity. Qed.

(** Arrays only. *)
Lemma lawful_label : forall u m aks e s inputs, lawful_call u m aks e ->
  map label_in inputs = map (lcf s) aks -> label_for u m (map label_in inputs) inputs = Ok (lcf s e, []).
Proof.
  intros u m aks e s inputs H E. rewrite E.
  destruct H as [u m k I|u k I|u j k I|u j k I|k|k|k|k|k|shape ax n k C|shape ax n k C]; cbn [map].
  - destruct (entry_same u I) as (En & B1 & B2). unfold label_for. cbv zeta. rewrite B1, B2.
    destruct En as [-> | ->]; destruct m; reflexivity.
  - destruct (entry_same u (same2_same u I)) as (En & _). unfold label_for. cbv zeta.
    destruct En as [-> | ->]; cbn [bind run_handler w_preserve w_preserve_from w_preserve2 fst snd lcf h_passthrough2];
      rewrite cf_eq_same; reflexivity.
  - assert (En : entry u = Ok HMultiply) by (apply entry_sound; exact I).
    unfold label_for. cbv zeta. rewrite En. cbn [bind run_handler]. unfold h_multiply, reduce. cbn [reduce_from].
    rewrite h_mul_ok. reflexivity.
  - assert (En : entry u = Ok HDivide) by (apply entry_sound; exact I).
    unfold label_for. cbv zeta. rewrite En. cbn [bind run_handler]. rewrite h_div_ok. reflexivity.
  - unfold label_for. cbv zeta. change (entry "sqrt") with (Ok HSqrt). cbn [bind run_handler]. unfold h_sqrt. rewrite h_power_ok. reflexivity.
  - unfold label_for. cbv zeta. change (entry "square") with (Ok HSquare). cbn [bind run_handler]. unfold h_square. rewrite h_power_ok. cbn [quiet bind]. apply lcf_w. ring.
  - unfold label_for. cbv zeta. change (entry "cbrt") with (Ok HCbrt). cbn [bind run_handler]. unfold h_cbrt. rewrite h_power_ok. reflexivity.
  - unfold label_for. cbv zeta. change (entry "reciprocal") with (Ok HReciprocal). cbn [bind run_handler]. unfold h_reciprocal. rewrite h_power_ok. cbn [quiet bind]. apply lcf_w. ring.
  - unfold label_for. cbv zeta. change (entry "arctan2") with (Ok HArctan2). cbn [bind run_handler lcf w_arctan2]. rewrite cf_eq_same. reflexivity.
  - unfold label_for. cbv zeta. change (existsb (String.eqb "multiply") ["multiply"; "divide"]) with true. cbv iota.
    rewrite (counted_sound _ _ _ C). cbn [bind]. rewrite h_power_ok. reflexivity.
  - unfold label_for. cbv zeta. change (existsb (String.eqb "divide") ["multiply"; "divide"]) with true. cbv iota.
    rewrite (counted_sound _ _ _ C). cbn [bind]. rewrite h_power_ok. reflexivity.
Qed.

Lemma arrays_labels : forall s xs aks, Forall2 (fun x k => good s k x) xs aks ->
  map label_in (map UArr xs) = map (lcf s) aks.
Proof.
  intros s xs aks H. induction H as [|x k xs aks G _ IH]; cbn [map]; [reflexivity|].
  rewrite IH. cbn [label_in]. rewrite (g_cf _ _ _ G). reflexivity.
Qed.
Lemma arrays_sized : forall s xs aks, Forall2 (fun x k => good s k x) xs aks ->
  Forall2 (sized s) (map uop_of (map UArr xs)) aks.
Proof.
  intros s xs aks H. induction H as [|x k xs aks G _ IH]; cbn [map]; constructor; [|exact IH].
  apply sz_arr. exact G.
Qed.

(** Products and quotients with plain numbers. *)
Definition plain_in (a : uarg) : Prop := forall x, a <> UArr x.
Lemma plain_label : forall a, plain_in a -> label_in a = None.
Proof. intros [x|v| |v] H; [exfalso; exact (H x eq_refl)|reflexivity|reflexivity|reflexivity]. Qed.
Lemma plain_sized : forall s a, plain_in a -> sized s (uop_of a) 0.
Proof. intros s [x|v| |v] H; [exfalso; exact (H x eq_refl)|constructor|constructor|constructor]. Qed.
Lemma product_numbers : forall u s k x a, In u ["multiply"; "matmul"; "vecdot"] -> good s k x -> plain_in a ->
  label_for u MCall (map label_in [UArr x; a]) [UArr x; a] = Ok (lcf s k, [])
  /\ label_for u MCall (map label_in [a; UArr x]) [a; UArr x] = Ok (lcf s k, []).
Proof.
  intros u s k x a I G P. assert (En : entry u = Ok HMultiply) by (apply entry_sound; exact I).
  unfold label_for. cbv zeta. rewrite En. cbn [map bind run_handler label_in]. rewrite (plain_label a P), (g_cf _ _ _ G).
  split; reflexivity.
Qed.
Lemma quotient_numbers : forall u s k x a, In u ["divide"; "floor_divide"] -> good s k x -> plain_in a ->
  label_for u MCall (map label_in [UArr x; a]) [UArr x; a] = Ok (lcf s k, [])
  /\ label_for u MCall (map label_in [a; UArr x]) [a; UArr x] = Ok (lcf s (- k), []).
Proof.
  intros u s k x a I G P. assert (En : entry u = Ok HDivide) by (apply entry_sound; exact I).
  unfold label_for. cbv zeta. rewrite En. cbn [map bind run_handler label_in]. rewrite (plain_label a P), (g_cf _ _ _ G).
  split; [reflexivity|]. unfold h_divide, h_reciprocal. fold (lcf s k). rewrite h_power_ok. cbn [bind h_multiply2 lcf quiet].
  apply (lcf_w s (k * - 1) (- k) []). ring.
Qed.
