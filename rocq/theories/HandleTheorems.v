(** C35: file handles are used while open, and closed only by whoever opened them.

    A handle of the user is never closed by the library and every access is made through
    an open handle, whatever the history and wherever the accesses fail.  The functions
    of the package close what they open; constructors called directly do so only if they
    do not raise, and calling [get_metadata()] and its like again leaves a file open (or
    raises, for what [load] returned). *)
From Coq Require Import List Bool Arith Lia.
From Verif Require Import Base HandleModel HandleProofs HandleLentProofs.
Import ListNotations.

(** ** Specification *)

(** The user's handle [h] is open in [w]. *)
Definition lent (w : world) (h : nat) : Prop :=
  nth_error (w_user w) h = Some true /\ nth_error (w_open w) h = Some true.
(** The library's handle [h] is open in [w]. *)
Definition held (w : world) (h : nat) : Prop :=
  nth_error (w_user w) h = Some false /\ nth_error (w_open w) h = Some true.

Definition direct (op : hop) : Prop :=
  match op with HUnits _ | HMetadata _ _ _ | HSwiftMask _ _ | HDataset _ _ _ => True | _ => False end.
Definition again (op : hop) : Prop := match op with HHandle _ _ => True | _ => False end.

(** ** Proofs *)

Definition wf (w : world) : Prop := all_open w /\ length (w_user w) = length (w_open w).

Lemma as_nat_inv : forall m w w' r, as_nat m w = (w', r) ->
  exists r0, m w = (w', r0) /\ (is_err r <-> is_err r0).
Proof.
  intros m w w' r H. unfold as_nat, mbind in H. destruct (m w) as [w1 [u|e]].
  - cbn in H. inversion H; subst. exists (Ok u). split; auto. split; intros (e & E); discriminate.
  - inversion H; subst. exists (Err e). split; auto. split; intros _; eexists; reflexivity.
Qed.

Lemma step_effect : forall op w w' r, all_open w -> hstep op w = (w', r) ->
  op <> HOpen -> (forall h, op <> HClose h) ->
  exists new, w_open w' = w_open w ++ new /\ w_user w' = w_user w ++ map (fun _ => false) new
    /\ w_fail w' = w_fail w /\ all_open w'
    /\ (In true new -> (direct op /\ is_err r) \/ again op).
Proof.
  intros op w w' r Ha H N1 N2.
  assert (E0 : (exists new, effect w w' new /\ ~ In true new) -> exists new,
      w_open w' = w_open w ++ new /\ w_user w' = w_user w ++ map (fun _ => false) new
      /\ w_fail w' = w_fail w /\ all_open w' /\ (In true new -> (direct op /\ is_err r) \/ again op)).
  { intros (new & [A1 A2 A3 A4 A5] & D). exists new. repeat split; auto. intro X. contradiction. }
  assert (E1 : (exists new, effect w w' new /\ (new = [] \/ new = [false])) -> exists new,
      w_open w' = w_open w ++ new /\ w_user w' = w_user w ++ map (fun _ => false) new
      /\ w_fail w' = w_fail w /\ all_open w' /\ (In true new -> (direct op /\ is_err r) \/ again op)).
  { intros (new & F & D). apply E0. exists new. split; auto.
    destruct D as [-> | ->]; cbn; intuition discriminate. }
  assert (E2 : direct op -> forall h body, ok_body body -> ctor h body w = (w', r) -> exists new,
      w_open w' = w_open w ++ new /\ w_user w' = w_user w ++ map (fun _ => false) new
      /\ w_fail w' = w_fail w /\ all_open w' /\ (In true new -> (direct op /\ is_err r) \/ again op)).
  { intros Hd h body Hb Hc. destruct (ctor_effect _ _ _ _ _ Hb Ha Hc) as (new & [A1 A2 A3 A4 A5] & D).
    exists new. repeat split; auto. intro X. left. split; auto.
    destruct D as [-> | [-> | (_ & D & _)]]; auto; cbn in X; intuition discriminate. }
  destruct op; cbn [hstep] in H; try congruence.
  - apply E1. eapply with_src_effect; [|exact Ha|exact H].
    intro h. apply frozen_bind; [apply frozen_access|intros _; apply frozen_dataset].
  - apply E1. eapply with_src_effect; [|exact Ha|exact H].
    intro h. apply frozen_bind; [apply frozen_access|intros _].
    apply frozen_bind; [apply frozen_units|intros _].
    apply frozen_bind; [apply frozen_discriminator|intros _]. apply frozen_mask.
  - apply as_nat_inv in H. destruct H as (r0 & H & _). apply E1.
    eapply with_src_effect; [|exact Ha|exact H]. intro h. apply frozen_access.
  - rewrite c_units_ctor in H. eapply E2; eauto. cbn; auto. apply units_body.
  - rewrite c_metadata_ctor in H. eapply E2; eauto. cbn; auto. apply metadata_body_ok.
  - rewrite c_mask_ctor in H. eapply E2; eauto. cbn; auto. apply mask_body_ok.
  - rewrite c_dataset_ctor in H. eapply E2; eauto. cbn; auto. apply dataset_body_ok.
  - apply as_nat_inv in H. destruct H as (r0 & H & _). apply E1.
    eapply with_open_file_effect; [|exact Ha|exact H]. intro h. apply frozen_accesses.
  - apply as_nat_inv in H. destruct H as (r0 & H & _). apply E0. eapply subset_effect; eauto.
  - apply as_nat_inv in H. destruct H as (r0 & H & _).
    destruct (again_effect _ _ _ _ _ Ha H) as (new & A1 & A2 & A3 & A4 & _).
    exists new. repeat split; auto. intros _. right. exact I.
Qed.

Lemma length_upd : forall A (l : list A) n x, length (upd n x l) = length l.
Proof. induction l as [|a t IH]; intros [|n] x; cbn; auto. Qed.

Lemma step_wf : forall op w, wf w -> wf (fst (hstep op w)).
Proof.
  intros op w (Ha & Hl). destruct (hstep op w) as [w' r] eqn:H. cbn [fst].
  assert (C : op = HOpen \/ (exists h, op = HClose h) \/ (op <> HOpen /\ forall h, op <> HClose h)).
  { destruct op; eauto; right; right; split; intros; discriminate. }
  destruct C as [-> | [(h & ->) | (N1 & N2)]].
  - cbn [hstep] in H. unfold h5open in H. destruct (fault w); inversion H; subst; split; cbn; auto.
    rewrite !app_length. cbn. lia.
  - cbn [hstep] in H. apply as_nat_inv in H. destruct H as (r0 & H & _). unfold user_close, h5close in H.
    destruct (nth h (w_user w) false); inversion H; subst; split; cbn [w_open w_user]; auto.
    rewrite length_upd. auto.
  - destruct (step_effect _ _ _ _ Ha H N1 N2) as (new & A1 & A2 & _ & A4 & _). split; auto.
    rewrite A1, A2, !app_length, map_length. lia.
Qed.

Lemma run_wf : forall l w, wf w -> wf (hrun w l).
Proof. induction l as [|op t IH]; intros w H; cbn [hrun]; auto. apply IH, step_wf, H. Qed.

Lemma start_wf : forall fail, wf (start fail).
Proof. intro fail. split; [constructor|reflexivity]. Qed.

Lemma run_app : forall l l' w, hrun w (l ++ l') = hrun (hrun w l) l'.
Proof. induction l as [|op t IH]; intros l' w; cbn [app hrun]; auto. Qed.

Lemma step_lent : forall op w h, wf w -> op <> HClose h -> lent w h -> lent (fst (hstep op w)) h.
Proof.
  intros op w h (Ha & Hl) Hn (U & O). destruct (hstep op w) as [w' r] eqn:H. cbn [fst].
  assert (C : op = HOpen \/ (exists h, op = HClose h) \/ (op <> HOpen /\ forall h, op <> HClose h)).
  { destruct op; eauto; right; right; split; intros; discriminate. }
  destruct C as [-> | [(h' & ->) | (N1 & N2)]].
  - cbn [hstep] in H. unfold h5open in H. destruct (fault w); inversion H; subst; split; cbn; auto;
      (rewrite nth_error_app1; [auto|apply nth_error_Some; congruence]).
  - cbn [hstep] in H. apply as_nat_inv in H. destruct H as (r0 & H & _). unfold user_close, h5close in H.
    destruct (nth h' (w_user w) false); inversion H; subst; split; cbn [w_open w_user]; auto.
    rewrite upd_other; [auto|congruence].
  - destruct (step_effect _ _ _ _ Ha H N1 N2) as (new & A1 & A2 & _). split.
    + rewrite A2, nth_error_app1; [auto|apply nth_error_Some; congruence].
    + rewrite A1, nth_error_app1; [auto|apply nth_error_Some; congruence].
Qed.

Lemma step_held : forall op w h, wf w -> held (fst (hstep op w)) h -> ~ held w h ->
  (direct op /\ is_err (snd (hstep op w))) \/ again op.
Proof.
  intros op w h (Ha & Hl) (U & O) Hn. destruct (hstep op w) as [w' r] eqn:H. cbn [fst snd] in *.
  assert (C : op = HOpen \/ (exists h, op = HClose h) \/ (op <> HOpen /\ forall h, op <> HClose h)).
  { destruct op; eauto; right; right; split; intros; discriminate. }
  destruct C as [-> | [(h' & ->) | (N1 & N2)]].
  - exfalso. cbn [hstep] in H. unfold h5open in H. destruct (fault w); inversion H; subst; cbn in U, O.
    + apply Hn. split; auto.
    + destruct (Nat.lt_ge_cases h (length (w_open w))) as [L|L].
      * rewrite nth_error_app1 in U, O by lia. apply Hn. split; auto.
      * rewrite nth_error_app2 in U by lia. rewrite Hl in U.
        destruct (h - length (w_open w)) as [|k]; cbn in U; [discriminate|destruct k; discriminate].
  - exfalso. cbn [hstep] in H. apply as_nat_inv in H. destruct H as (r0 & H & _). unfold user_close, h5close in H.
    destruct (nth h' (w_user w) false) eqn:E; inversion H; subst; cbn [w_open w_user] in U, O;
      apply Hn; split; auto.
    rewrite upd_other in O; auto. intro X. subst. rewrite (nth_error_nth _ _ _ U) in E. discriminate.
  - destruct (step_effect _ _ _ _ Ha H N1 N2) as (new & A1 & A2 & _ & _ & A5). apply A5.
    destruct (Nat.lt_ge_cases h (length (w_open w))) as [L|L].
    + exfalso. apply Hn. rewrite A1 in O. rewrite A2 in U.
      rewrite nth_error_app1 in U, O by lia. split; auto.
    + rewrite A1, nth_error_app2 in O by lia. eapply nth_error_In. exact O.
Qed.

(** ** Theorems *)

(** Whatever is done and wherever it fails, no operation but the user's own [close]
    closes a handle of the user. *)
Theorem C35_user_handles_stay_open : forall fail before op h,
  op <> HClose h -> lent (hrun (start fail) before) h -> lent (hrun (start fail) (before ++ [op])) h.
Proof.
  intros fail before op h Hn Hl. rewrite run_app. cbn [hrun]. apply step_lent; auto.
  apply run_wf, start_wf.
Qed.

(** A handle opened by the user is open until the user closes it. *)
Theorem C35_open_until_closed : forall fail before after h,
  lent (hrun (start fail) before) h -> ~ In (HClose h) after ->
  lent (hrun (start fail) (before ++ after)) h.
Proof.
  intros fail before after h Hl Hn. rewrite run_app.
  assert (W : wf (hrun (start fail) before)) by apply run_wf, start_wf.
  revert Hl W. generalize (hrun (start fail) before). induction after as [|op t IH]; intros w Hl W; cbn [hrun]; auto.
  cbn [In] in Hn. apply IH; [tauto| |apply step_wf, W]. apply step_lent; auto.
Qed.

(** Every access to a file is through an open handle. *)
Theorem C35_used_while_open : forall fail l, Forall (fun b => b = true) (w_uses (hrun (start fail) l)).
Proof. intros fail l. apply (run_wf l), start_wf. Qed.

(** A file the library opens is closed by the end of the call, also if the call raises;
    except if a constructor is called directly and raises, or a method of a finished
    object asks for the handle again. *)
Theorem C35_library_handles_closed : forall fail before op h,
  held (hrun (start fail) (before ++ [op])) h -> ~ held (hrun (start fail) before) h ->
  (direct op /\ is_err (snd (hstep op (hrun (start fail) before)))) \/ again op.
Proof.
  intros fail before op h Hh Hn. rewrite run_app in Hh. cbn [hrun] in Hh.
  eapply step_held; eauto. apply run_wf, start_wf.
Qed.

(** So the functions of the package never leave a file open. *)
Theorem C35_functions_leave_nothing_open : forall fail l,
  Forall (fun op => ~ direct op /\ ~ again op) l -> forall h, ~ held (hrun (start fail) l) h.
Proof.
  intros fail l. induction l as [|op t IH] using rev_ind; intros F h Hh.
  - destruct Hh as (U & _). destruct h; discriminate.
  - apply Forall_app in F. destruct F as (F1 & F2). inversion F2; subst.
    destruct (C35_library_handles_closed fail t op h Hh (IH F1 h)) as [(D & _)|D]; tauto.
Qed.

(** ** What the finished objects can still do *)

Definition all_well : nat -> option pyerr := fun _ => None.
Definition small : plan := mkplan [false; true] [[false; true]; [true]] [0; 2] (Ok tt) [false; false].

(** A field of an object whose handle was closed is read by opening the file again: if
    no access fails, the read succeeds and the file is closed afterwards. *)
Theorem C35_closed_object_readable : forall w o p n,
  nth_error (w_objs w) o = Some p -> truthy w (p_handle p) = false ->
  (forall t, w_time w <= t -> w_fail w t = None) ->
  exists w', hstep (HRead n o) w = (w', Ok 0) /\ w_open w' = w_open w ++ [false].
Proof.
  intros w o p n Ho Ht Hf. cbn [hstep]. unfold as_nat, mbind, read_field, with_open_file.
  rewrite Ho, Ht. unfold with_temp, h5open, fault. rewrite (Hf (w_time w)) by lia.
  set (w1 := mkworld _ _ _ _ _ _).
  assert (G : forall n w2, is_open w2 (length (w_open w)) = true ->
     (forall t, w_time w2 <= t -> w_fail w2 t = None) ->
     exists w3, repeatM (repeat (access (length (w_open w))) n) w2 = (w3, Ok tt) /\ w_open w3 = w_open w2).
  { clear. induction n as [|n IH]; intros w2 Ho Hf; cbn [repeat repeatM].
    - exists w2. split; reflexivity.
    - unfold mbind, access at 1, fault. rewrite Ho. cbn [negb]. rewrite (Hf (w_time w2)) by lia.
      match goal with |- exists w3, repeatM _ ?x = _ /\ _ => destruct (IH x) as (w3 & E1 & E2) end.
      + exact Ho.
      + intros t Ht. cbn [w_time w_fail] in *. apply Hf. lia.
      + exists w3. rewrite E1. split; auto. }
  destruct (G n w1) as (w2 & E1 & E2).
  - unfold w1, is_open. cbn [w_open]. rewrite app_nth2, Nat.sub_diag by lia. reflexivity.
  - intros t Hlt. unfold w1 in *. cbn [w_time w_fail] in *. apply Hf. lia.
  - destruct (p_handle p); rewrite E1; cbn; eexists; (split; [reflexivity|]); cbn [w_open];
      rewrite E2; unfold w1; cbn [w_open]; apply upd_last.
Qed.

(** [get_metadata()] and its like cannot be called again on an object made with a handle
    that is closed by now. *)
Theorem C35_lent_object_finished : forall w o h n,
  nth_error (w_objs w) o = Some (mkprov (Some h) false) -> is_open w h = false ->
  hstep (HHandle (S n) o) w = (w, Err RuntimeError).
Proof.
  intros w o h n Ho Hc. cbn [hstep repeat uses]. unfold as_nat, mbind, use_key, use, mbind, get_handle.
  rewrite Ho. cbn [p_handle p_manager truthy]. rewrite Hc. reflexivity.
Qed.

(** ** Calls with a handle *)

(** Calls that are given a handle: their check, whether a missing key is reported, how often the file is read
    and how many objects are made. *)
Inductive lent_call (h : nat) : hop -> res unit -> bool -> nat -> nat -> Prop :=
| lent_load : forall pl masked, lent_call h (HLoad pl (AHandle h) masked) (Ok tt) true (S (data_reads pl masked)) (S (data_objects pl masked))
| lent_mask : forall pl, lent_call h (HMask pl (AHandle h)) (pl_check pl) true (3 + (meta_reads pl true + length (pl_cells pl))) (3 + meta_objects pl true)
| lent_validate : lent_call h (HValidate (AHandle h)) (Ok tt) true 1 1
| lent_units : lent_call h (HUnits (Some h)) (Ok tt) true 1 1
| lent_metadata : forall pl units, lent_call h (HMetadata pl units (Some h)) (Ok tt) (meta_free pl units) (meta_reads pl units) (meta_objects pl units)
| lent_swift_mask : forall pl, lent_call h (HSwiftMask pl (Some h)) (pl_check pl) (existsb negb (pl_cells pl)) (length (pl_cells pl)) 1
| lent_dataset : forall pl masked, lent_call h (HDataset pl masked (Some h)) (Ok tt) true (data_reads pl masked) (data_objects pl masked).

(** The same calls with a path. *)
Inductive path_call : hop -> res unit -> nat -> nat -> Prop :=
| path_load : forall pl masked, path_call (HLoad pl APath masked) (Ok tt) (S (data_reads pl masked)) (data_objects pl masked)
| path_mask : forall pl, path_call (HMask pl APath) (pl_check pl) (3 + (meta_reads pl true + length (pl_cells pl))) (2 + meta_objects pl true)
| path_validate : path_call (HValidate APath) (Ok tt) 1 0.

Lemma as_nat_does : forall h chk u n k m, does h chk u n k (fun _ => True) m (fun _ _ => True) ->
  does h chk u n k (fun _ => True) (as_nat m) (fun _ _ => True).
Proof.
  intros h chk u n k m H w O W. destruct (H w O W) as (E & _). unfold as_nat, mbind. destruct (m w) as [w1 [a|e]]; split; try exact E; auto.
Qed.

Lemma lent_does : forall h op chk u n k, lent_call h op chk u n k -> does h chk u n k (fun _ => True) (hstep op) (fun _ _ => True).
Proof.
  intros h op chk u n k H. destruct H; cbn [hstep].
  - apply (lent_call_does _ _ _ _ _ _ (loading pl masked)). apply does_load.
  - apply (lent_call_does _ _ _ _ _ _ (masking pl)). apply does_make_mask.
  - apply as_nat_does. apply (lent_call_does _ _ _ _ _ _ (fun h => access h)). apply does_access.
  - apply (does_conseq _ _ _ _ _ _ _ _ _ _ _ (does_units h)); auto.
  - apply (does_conseq _ _ _ _ _ _ _ _ _ _ _ (does_metadata h pl units)); auto.
  - apply (does_conseq _ _ _ _ _ _ _ _ _ _ _ (does_mask h pl)); auto.
  - apply (does_conseq _ _ _ _ _ _ _ _ _ _ _ (does_dataset h pl masked)); auto.
Qed.

(** A call that is given an open handle opens and closes no file; its objects use that handle and none
    manages it, also if the call raises. *)
Theorem C35_lent_handle_used : forall w h op chk u n k, lent_call h op chk u n k -> is_open w h = true ->
  w_open (fst (hstep op w)) = w_open w
  /\ (exists j, w_objs (fst (hstep op w)) = w_objs w ++ repeat (mkprov (Some h) false) j)
  /\ (forall a, snd (hstep op w) = Ok a -> w_time (fst (hstep op w)) = w_time w + n
        /\ w_objs (fst (hstep op w)) = w_objs w ++ repeat (mkprov (Some h) false) k).
Proof.
  intros w h op chk u n k L O. destruct (lent_does _ _ _ _ _ _ L w O Logic.I) as ((E1 & _ & _ & j & J & R) & _).
  split; [exact E1|]. split; [exists j; exact J|]. intros a A. rewrite A in R. destruct R as (T & <-). split; [exact T|exact J].
Qed.

(** Its errors are those of the file, or of its check; a missing key that is looked for in a [try] is none. *)
Theorem C35_errors_passed_on : forall w h op chk u n k e, lent_call h op chk u n k -> is_open w h = true ->
  snd (hstep op w) = Err e ->
  (exists t, w_time w <= t < w_time (fst (hstep op w)) /\ w_fail w t = Some e /\ (e = KeyError -> u = true)) \/ chk = Err e.
Proof.
  intros w h op chk u n k e L O E. destruct (lent_does _ _ _ _ _ _ L w O Logic.I) as ((_ & _ & _ & j & _ & R) & _). rewrite E in R. exact R.
Qed.

(** With a path, one file is opened and closed again; if it cannot be opened, that error is raised. *)
Theorem C35_path_opened_once : forall w op chk n k, path_call op chk n k ->
  (exists e, w_fail w (w_time w) = Some e /\ snd (hstep op w) = Err e /\ w_open (fst (hstep op w)) = w_open w)
  \/ (w_fail w (w_time w) = None /\ w_open (fst (hstep op w)) = w_open w ++ [false]
      /\ match snd (hstep op w) with
         | Ok _ => w_time (fst (hstep op w)) = S (w_time w + n)
             /\ w_objs (fst (hstep op w)) = w_objs w ++ mkprov None true :: repeat (mkprov (Some (length (w_open w))) false) k
         | Err e => (exists t, w_time w < t < w_time (fst (hstep op w)) /\ w_fail w t = Some e) \/ chk = Err e
         end).
Proof.
  assert (G : forall A chk u n k (body : nat -> M A) w, (forall h, does h chk u n k (fun _ => True) (body h) (fun _ _ => True)) ->
    let r := with_path_or_handle APath body w in
    (exists e, w_fail w (w_time w) = Some e /\ snd r = Err e /\ w_open (fst r) = w_open w)
    \/ (w_fail w (w_time w) = None /\ w_open (fst r) = w_open w ++ [false]
       /\ match snd r with
          | Ok _ => w_time (fst r) = S (w_time w + n) /\ w_objs (fst r) = w_objs w ++ mkprov None true :: repeat (mkprov (Some (length (w_open w))) false) k
          | Err e => (exists t, w_time w < t < w_time (fst r) /\ w_fail w t = Some e) \/ chk = Err e
          end)).
  { intros A chk u n k body w H. destruct (path_call_does A chk u n k body H w) as [(e & F & S & O & _)|(F & O & j & J & R)].
    - left. exists e. auto.
    - right. split; [exact F|]. split; [exact O|]. destruct (snd (with_path_or_handle APath body w)) as [a|e].
      + destruct R as (T & ->). split; [exact T|exact J].
      + destruct R as [(t & T & X & _)|R]; [left; exists t; auto|right; exact R]. }
  intros w op chk n k P. destruct P; cbn [hstep].
  - apply (G _ _ true _ _ (loading pl masked)). intro h. apply does_load.
  - apply (G _ _ true _ _ (masking pl)). intro h. apply does_make_mask.
  - pose proof (G _ (Ok tt) true 1 0 (fun h => access h) w (fun h => does_access h)) as X. cbv zeta in X. unfold as_nat, validate, mbind.
    destruct (with_path_or_handle APath (fun h => access h) w) as [w1 [a|e]]; cbn [fst snd ret] in *;
      (destruct X as [(e' & F & S & O)|X]; [|right; exact X]); [discriminate S|]. left. exists e'. injection S as <-. auto.
Qed.

(** If nothing fails, the calls succeed; metadata is complete without the keys that are looked for in a [try]. *)
Theorem C35_succeeds : forall w h op chk u n k, lent_call h op chk u n k -> is_open w h = true -> chk = Ok tt ->
  (forall t e, w_time w <= t -> w_fail w t = Some e -> e = KeyError /\ u = false) -> exists a, snd (hstep op w) = Ok a.
Proof.
  intros w h op chk u n k L O C F. destruct (snd (hstep op w)) as [a|e] eqn:E; [exists a; reflexivity|exfalso].
  destruct (C35_errors_passed_on _ _ _ _ _ _ _ _ L O E) as [(t & T & X & Y)|X]; [|congruence].
  destruct (F t e) as (-> & ->); [lia|exact X|]. discriminate (Y eq_refl).
Qed.

Example C35_lent_example :
  let w := fst (hstep HOpen (start (fun t => if 0 <? t then Some KeyError else None))) in
  let pl := mkplan [true; true] [[true]] [1; 0] (Ok tt) [] in
  is_open w 0 = true /\ lent_call 0 (HMetadata pl true (Some 0)) (Ok tt) false 3 2
  /\ (exists a, snd (hstep (HMetadata pl true (Some 0)) w) = Ok a)
  /\ snd (hstep (HUnits (Some 0)) w) = Err KeyError
  /\ path_call (HLoad pl APath false) (Ok tt) 11 7
  /\ (let r := hstep (HLoad pl APath false) (start all_well) in w_time (fst r) = 12 /\ w_open (fst r) = [false] /\ length (w_objs (fst r)) = 8).
Proof.
  split; [reflexivity|]. split; [apply (lent_metadata 0 (mkplan [true; true] [[true]] [1; 0] (Ok tt) []) true)|]. split; [eexists; reflexivity|]. split; [reflexivity|].
  split; [apply (path_load (mkplan [true; true] [[true]] [1; 0] (Ok tt) []) false)|]. repeat split.
Qed.

(** ** Examples *)

(** The user opens a file, loads it, makes a mask, loads again with it, reads, builds a
    dataset from a path and writes a subset; their handle is open at the end and all the
    rest is closed. *)
Definition mixed : list hop :=
  [HOpen; HLoad small (AHandle 0) false; HMask small APath; HLoad small APath true;
   HRead 3 0; HDataset small false None; HSubset 2 2].

Example C35_example : w_open (hrun (start all_well) mixed) = [true; false; false; false; false]
  /\ w_user (hrun (start all_well) mixed) = [true; false; false; false; false]
  /\ lent (hrun (start all_well) mixed) 0
  /\ length (w_uses (hrun (start all_well) mixed)) > 20.
Proof. vm_compute. repeat split. lia. Qed.

Example C35_closing_example :
  lent (hrun (start all_well) mixed) 0
  /\ ~ lent (hrun (start all_well) (mixed ++ [HClose 0])) 0
  /\ ~ In (HClose 0) mixed.
Proof.
  split; [split; reflexivity|]. split; [intros (_ & X); vm_compute in X; discriminate|].
  cbn. intuition discriminate.
Qed.

(** What [load(path)] returns can be read but not asked for its metadata again. *)
Theorem C35_loaded_metadata_again_refuted :
  exists w o, hstep (HLoad small APath false) (start all_well) = (w, Ok o)
    /\ hstep (HHandle 1 o) w = (w, Err RuntimeError)
    /\ (exists w', hstep (HRead 1 o) w = (w', Ok 0)).
Proof. eexists. eexists. split; [vm_compute; reflexivity|]. split; [vm_compute; reflexivity|]. eexists. vm_compute. reflexivity. Qed.

(** A constructor that raises leaves its file open. *)
Theorem C35_raising_constructor_refuted :
  exists fail w e, hstep (HUnits None) (start fail) = (w, Err e) /\ held w 0.
Proof.
  exists (fun t => if Nat.eqb t 1 then Some KeyError else None). eexists. eexists.
  split; [vm_compute; reflexivity|]. split; reflexivity.
Qed.

(** Asking an object made from a path for its metadata again leaves the file open. *)
Theorem C35_asked_again_refuted :
  exists w o w', hstep (HMetadata small false None) (start all_well) = (w, Ok o)
    /\ (forall h, ~ held w h)
    /\ hstep (HHandle 1 o) w = (w', Ok 0) /\ held w' 1.
Proof.
  eexists. eexists. eexists. split; [vm_compute; reflexivity|]. split.
  - intros [|[|h]] (_ & X); vm_compute in X; discriminate.
  - split; [vm_compute; reflexivity|]. split; reflexivity.
Qed.

(** [SWIFTDataset(path, mask)] of a file without groups closes a handle it never opened. *)
Theorem C35_masked_without_groups_refuted :
  snd (hstep (HDataset (mkplan [] [] [] (Ok tt) []) true None) (start all_well)) = Err AttributeError.
Proof. reflexivity. Qed.

(** ** What is refused *)

(** A closed handle is refused by the functions; nothing happens. *)
Theorem C35_closed_handle_refused : forall w h, is_open w h = false ->
  (forall pl masked, hstep (HLoad pl (AHandle h) masked) w = (w, Err ValueError))
  /\ (forall pl, hstep (HMask pl (AHandle h)) w = (w, Err ValueError))
  /\ hstep (HValidate (AHandle h)) w = (w, Err ValueError).
Proof.
  intros w h C. cbn [hstep]. unfold load, make_mask, validate, as_nat, mbind, with_path_or_handle. rewrite C.
  repeat split.
Qed.

(** The constructors take a closed handle for none: the object manages a file of its
    own, and if that cannot be opened the error is passed on. *)
Theorem C35_constructors_open : forall w h e, truthy w h = false -> w_fail w (w_time w) = Some e ->
  snd (hstep (HUnits h) w) = Err e
  /\ (forall pl, snd (hstep (HMetadata pl false h) w) = Err e)
  /\ (forall pl c l, pl_meta pl = c :: l -> (c = true -> e <> KeyError) -> snd (hstep (HMetadata pl true h) w) = Err e)
  /\ (forall pl c l, pl_check pl = Ok tt -> pl_cells pl = c :: l -> (c = true -> e <> KeyError) ->
        snd (hstep (HSwiftMask pl h) w) = Err e)
  /\ (forall pl, snd (hstep (HDataset pl false h) w) = Err e).
Proof.
  intros w h e T F.
  assert (N : nth_error (w_objs w ++ [mkprov h true]) (length (w_objs w)) = Some (mkprov h true)).
  { rewrite nth_error_app2, Nat.sub_diag by lia. reflexivity. }
  assert (G : get_handle (length (w_objs w))
     (mkworld (w_open w) (w_user w) (w_objs w ++ [mkprov h true]) (w_uses w) (w_time w) (w_fail w))
     = (tick (mkworld (w_open w) (w_user w) (w_objs w ++ [mkprov h true]) (w_uses w) (w_time w) (w_fail w)), Err e)).
  { unfold get_handle. cbn [w_objs]. rewrite N. cbn [p_handle p_manager negb].
    replace (truthy (mkworld (w_open w) (w_user w) (w_objs w ++ [mkprov h true]) (w_uses w) (w_time w) (w_fail w)) h) with false
      by (symmetry; exact T).
    unfold h5open, fault. cbn [w_fail w_time]. rewrite F. reflexivity. }
  assert (C : forall c, (c = true -> e <> KeyError) ->
     snd (use_key c (length (w_objs w)) (mkworld (w_open w) (w_user w) (w_objs w ++ [mkprov h true]) (w_uses w) (w_time w) (w_fail w))) = Err e).
  { intros c K. destruct c; unfold use_key, catch_key, use, mbind; rewrite G; [|reflexivity]. specialize (K eq_refl).
    destruct e; try reflexivity; congruence. }
  cbn [hstep]. unfold c_units, c_metadata, c_mask, c_dataset, mbind, new_prov. rewrite T. cbn [negb].
  split; [|split; [|split; [|split]]].
  - cbn [uses]. unfold mbind. pose proof (C false (fun X => False_ind _ (diff_false_true X))) as C1.
    destruct (use_key false _ _) as [w1 [a|e1]]; [discriminate C1|cbn in C1 |- *; congruence].
  - intros pl. rewrite G. reflexivity.
  - intros pl c l E K. rewrite E. cbn [uses ret]. unfold mbind. pose proof (C c K) as C1.
    destruct (use_key c _ _) as [w1 [a|e1]]; [discriminate C1|cbn in C1 |- *; congruence].
  - intros pl c l P E K. rewrite P, E. cbn [uses]. unfold mbind. pose proof (C c K) as C1.
    destruct (use_key c _ _) as [w1 [a|e1]]; [discriminate C1|cbn in C1 |- *; congruence].
  - intros pl. rewrite G. reflexivity.
Qed.

(** There is nothing to read from an object that was not made, nor to close that the
    user did not open. *)
Theorem C35_nothing_there : forall w o h, nth_error (w_objs w) o = None -> nth h (w_user w) false = false ->
  (forall n, hstep (HRead n o) w = (w, Err AttributeError))
  /\ (forall n, hstep (HSubset n o) w = (w, Err AttributeError))
  /\ (forall n, hstep (HHandle (S n) o) w = (w, Err AttributeError))
  /\ hstep (HClose h) w = (w, Err KeyError).
Proof.
  intros w o h N U. cbn [hstep]. unfold as_nat, mbind, read_field, write_subset, with_open_file, user_close.
  rewrite N, U. repeat split. intros n. cbn [repeat uses]. unfold mbind, use_key, use, mbind, get_handle. rewrite N. reflexivity.
Qed.

Example C35_refused_example :
  let w := fst (hstep (HClose 0) (fst (hstep HOpen (start (fun t => if 0 <? t then Some OSErr else None))))) in
  is_open w 0 = false /\ truthy w (Some 0) = false /\ w_fail w (w_time w) = Some OSErr /\ nth_error (w_objs w) 0 = None.
Proof. vm_compute. repeat split. Qed.

Print Assumptions C35_user_handles_stay_open.
Print Assumptions C35_open_until_closed.
Print Assumptions C35_used_while_open.
Print Assumptions C35_library_handles_closed.
Print Assumptions C35_functions_leave_nothing_open.
Print Assumptions C35_closed_object_readable.
Print Assumptions C35_lent_object_finished.
Print Assumptions C35_loaded_metadata_again_refuted.
Print Assumptions C35_raising_constructor_refuted.
Print Assumptions C35_asked_again_refuted.
Print Assumptions C35_masked_without_groups_refuted.
Print Assumptions C35_lent_handle_used.
Print Assumptions C35_errors_passed_on.
Print Assumptions C35_path_opened_once.
Print Assumptions C35_succeeds.
Print Assumptions C35_closed_handle_refused.
Print Assumptions C35_constructors_open.
Print Assumptions C35_nothing_there.
